(** * Model of /repo/sm3/sm3.go *)
From Verif Require Import Base SM3Spec.
(** only the vocabulary of calls and results [sm3_op]/[sm3_out] is used from SM3Spec *)

(** sm3.go:10,13 *)
Definition sm3_Size : Z := 32.
Definition sm3_BlockSize : Z := 64.
Definition chunk : nat := 64.

(** uint32 arithmetic of Go *)
Definition u32 (x : Z) : Z := x mod 2 ^ 32.
Definition add32 (x y : Z) : Z := u32 (x + y).
(** math/bits.RotateLeft32: s := uint(k) & 31; x<<s | x>>(32-s) *)
Definition RotateLeft32 (x k : Z) : Z :=
  let s := Z.land k 31 in
  Z.lor (u32 (Z.shiftl x s)) (Z.shiftr x (32 - s)).
(** ^x on uint32 *)
Definition not32 (x : Z) : Z := Z.lxor x (2 ^ 32 - 1).

(** sm3.go:27-32; [h] is the chaining array, [x] the 64-byte buffer, [nx] bytes of it in use,
    [len] a uint64 *)
Record regs := mkRegs { rA : Z; rB : Z; rC : Z; rD : Z; rE : Z; rF : Z; rG : Z; rH : Z }.
Record digest := mkDigest { d_h : regs; d_x : bytes; d_nx : nat; d_len : Z }.

(** sm3.go:17-24 *)
Definition init_regs : regs :=
  mkRegs 0x7380166F 0x4914B2B9 0x172442D7 0xDA8A0600 0xA96F30BC 0x163138AA 0xE38DEE4D 0xB0FB0E4E.

(** sm3.go:34-45: Reset leaves the buffer bytes as they are *)
Definition sm3_Reset (d : digest) : digest := mkDigest init_regs (d_x d) 0 0.
(** sm3.go:47-51: new(digest) is zeroed, then Reset *)
Definition zero_digest : digest := mkDigest (mkRegs 0 0 0 0 0 0 0 0) (repeat 0 64) 0 0.
Definition sm3_New : digest := sm3_Reset zero_digest.

(** sm3.go:120 *)
Definition p1 (x : Z) : Z := Z.lxor (Z.lxor x (RotateLeft32 x 15)) (RotateLeft32 x 23).

(** sm3.go:132-135: w[i] = p[j]<<24 | ... for i in 0..15 *)
Definition load_word (p : bytes) (i : nat) : Z :=
  let j := (i * 4)%nat in
  Z.lor (Z.lor (Z.lor (Z.shiftl (nth j p 0) 24) (Z.shiftl (nth (j + 1) p 0) 16))
               (Z.shiftl (nth (j + 2) p 0) 8)) (nth (j + 3) p 0).
Definition fill1 (p : bytes) (w : list Z) : list Z :=
  fold_left (fun w i => upd w i (load_word p i)) (seq 0 16) w.
(** sm3.go:138-140 *)
Definition expand_word (w : list Z) (i : nat) : Z :=
  let g k := nth (i - k) w 0 in
  Z.lxor (Z.lxor (p1 (Z.lxor (Z.lxor (g 16%nat) (g 9%nat)) (RotateLeft32 (g 3%nat) 15)))
                 (RotateLeft32 (g 13%nat) 7)) (g 6%nat).
Definition fill2 (w : list Z) : list Z :=
  fold_left (fun w i => upd w i (expand_word w i)) (seq 16 52) w.

(** sm3.go:146-160 *)
Definition round1 (w : list Z) (r : regs) (i : nat) : regs :=
  let '(mkRegs a b c d e f g h) := r in
  let ss1 := RotateLeft32 (add32 (add32 (RotateLeft32 a 12) e) (RotateLeft32 0x79CC4519 (Z.of_nat i))) 7 in
  let ss2 := Z.lxor ss1 (RotateLeft32 a 12) in
  let wi := Z.lxor (nth i w 0) (nth (i + 4) w 0) in
  let tt1 := add32 (add32 (add32 (Z.lxor (Z.lxor a b) c) d) ss2) wi in
  let tt2 := add32 (add32 (add32 (Z.lxor (Z.lxor e f) g) h) ss1) (nth i w 0) in
  mkRegs tt1 a (RotateLeft32 b 9) c
         (Z.lxor (Z.lxor tt2 (RotateLeft32 tt2 9)) (RotateLeft32 tt2 17)) e (RotateLeft32 f 19) g.
(** sm3.go:162-176 *)
Definition round2 (w : list Z) (r : regs) (i : nat) : regs :=
  let '(mkRegs a b c d e f g h) := r in
  let ss1 := RotateLeft32 (add32 (add32 (RotateLeft32 a 12) e) (RotateLeft32 0x7a879d8a (Z.of_nat i))) 7 in
  let ss2 := Z.lxor ss1 (RotateLeft32 a 12) in
  let wi := Z.lxor (nth i w 0) (nth (i + 4) w 0) in
  let tt1 := add32 (add32 (add32 (Z.lor (Z.lor (Z.land a b) (Z.land a c)) (Z.land b c)) d) ss2) wi in
  let tt2 := add32 (add32 (add32 (Z.lor (Z.land e f) (Z.land (not32 e) g)) h) ss1) (nth i w 0) in
  mkRegs tt1 a (RotateLeft32 b 9) c
         (Z.lxor (Z.lxor tt2 (RotateLeft32 tt2 9)) (RotateLeft32 tt2 17)) e (RotateLeft32 f 19) g.

(** sm3.go:178-185 *)
Definition xor_regs (R r : regs) : regs :=
  mkRegs (Z.lxor (rA R) (rA r)) (Z.lxor (rB R) (rB r)) (Z.lxor (rC R) (rC r)) (Z.lxor (rD R) (rD r))
         (Z.lxor (rE R) (rE r)) (Z.lxor (rF R) (rF r)) (Z.lxor (rG R) (rG r)) (Z.lxor (rH R) (rH r)).

(** sm3.go:130-185: one iteration: the new word array and the new A..H *)
Definition block_one (w : list Z) (R : regs) (p : bytes) : list Z * regs :=
  let w := fill2 (fill1 p w) in
  let r := fold_left (round2 w) (seq 16 48) (fold_left (round1 w) (seq 0 16) R) in
  (w, xor_regs R r).

(** sm3.go:129-188: the loop over the input; the word array [w] is reused between
    iterations.  [fuel] bounds the iterations (one more than the length suffices). *)
Fixpoint block_loop (fuel : nat) (w : list Z) (R : regs) (p : bytes) : regs :=
  match fuel with
  | O => R
  | S fuel' =>
      if (chunk <=? List.length p)%nat then
        let '(w, R) := block_one w R p in
        block_loop fuel' w R (skipn chunk p)
      else R
  end.
(** sm3.go:122-191 *)
Definition block (d : digest) (p : bytes) : digest :=
  mkDigest (block_loop (S (List.length p / chunk)) (repeat 0 68) (d_h d) p) (d_x d) (d_nx d) (d_len d).

(** Go copy(dst[off:], src): number of bytes copied and new dst *)
Definition go_copy (dst : bytes) (off : nat) (src : bytes) : nat * bytes :=
  let n := Nat.min (List.length dst - off) (List.length src) in
  (n, firstn off dst ++ firstn n src ++ skipn (off + n) dst).

(** sm3.go:69-76: the part of Write after the buffer has been dealt with *)
Definition write_tail (d : digest) (p : bytes) : digest :=
  let '(d, p) :=
    if (chunk <=? List.length p)%nat then
      let n := (List.length p / chunk * chunk)%nat in
      (block d (firstn n p), skipn n p)
    else (d, p) in
  if (0 <? List.length p)%nat then
    let '(n, x) := go_copy (d_x d) 0 p in mkDigest (d_h d) x n (d_len d)
  else d.

(** sm3.go:57-78; returns the new state and the reported count.  d.x[d.nx:] panics if
    nx > 64. *)
Definition sm3_Write (d : digest) (p : bytes) : outcome (digest * Z) :=
  let nn := zlen p in
  let d := mkDigest (d_h d) (d_x d) (d_nx d) ((d_len d + nn) mod 2 ^ 64) in
  do (d, p) <-
    (if (0 <? d_nx d)%nat then
       if (d_nx d <=? chunk)%nat then
         let '(n, x) := go_copy (d_x d) (d_nx d) p in
         let d := mkDigest (d_h d) x (d_nx d + n) (d_len d) in
         let d := if (d_nx d =? chunk)%nat
                  then let d := block d (d_x d) in mkDigest (d_h d) (d_x d) 0 (d_len d)
                  else d in
         Ret (d, skipn n p)
       else Panic
     else Ret (d, p));
  Ret (write_tail d p, nn).

(** binary.BigEndian.PutUint32 / PutUint64 *)
Definition PutUint32 (x : Z) : bytes := [Z.shiftr x 24 mod 256; Z.shiftr x 16 mod 256; Z.shiftr x 8 mod 256; x mod 256].
Definition PutUint64 (x : Z) : bytes := Z_to_be 8 x.

(** sm3.go:87-118; tmp[0:k] with k <= 64 always holds (k = 56-len%64 or 120-len%64) and is
    checked by the [k <=? 64] test (slice bounds panic) *)
Definition sm3_checkSum (d : digest) : outcome bytes :=
  let len := d_len d in
  let tmp := 0x80 :: repeat 0 63 in
  let k := if len mod 64 <? 56 then 56 - len mod 64 else 64 + 56 - len mod 64 in
  if negb ((0 <=? k) && (k <=? 64)) then Panic else
  do (d, _) <- sm3_Write d (firstn (Z.to_nat k) tmp);
  let len := Z.shiftl len 3 mod 2 ^ 64 in
  do (d, _) <- sm3_Write d (PutUint64 len);
  if negb (d_nx d =? 0)%nat then Panic else
  let h := d_h d in
  Ret (PutUint32 (rA h) ++ PutUint32 (rB h) ++ PutUint32 (rC h) ++ PutUint32 (rD h) ++
       PutUint32 (rE h) ++ PutUint32 (rF h) ++ PutUint32 (rG h) ++ PutUint32 (rH h)).

(** sm3.go:80-85: works on a copy of the digest, hence the state is unchanged *)
Definition sm3_Sum_method (d : digest) (inp : bytes) : outcome bytes :=
  do hash <- sm3_checkSum d; Ret (inp ++ hash).

(** sm3.go:193-198: a zeroed digest value, Reset, Write, checkSum *)
Definition sm3_Sum (data : bytes) : outcome bytes :=
  do (d, _) <- sm3_Write (sm3_Reset zero_digest) data; sm3_checkSum d.

(** ** Histories of calls on one hash object (the API of hash.Hash) *)
(** one call: new state and observable result *)
Definition sm3_step (d : digest) (op : sm3_op) : digest * sm3_out :=
  match op with
  | OpWrite p => match sm3_Write d p with Ret (d', n) => (d', OutCount n) | _ => (d, OutPanic) end
  | OpSum i => match sm3_Sum_method d i with Ret b => (d, OutBytes b) | _ => (d, OutPanic) end
  | OpReset => (sm3_Reset d, OutUnit)
  end.
Fixpoint sm3_run (d : digest) (ops : list sm3_op) : list sm3_out :=
  match ops with
  | [] => []
  | op :: ops' => let '(d', o) := sm3_step d op in o :: sm3_run d' ops'
  end.
