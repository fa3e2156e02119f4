(** * Model of pkcs12/pbkdf.go *)
From Verif Require Import Base.

(** bytes.Repeat (standard library) *)
Definition bytes_Repeat (p : bytes) (n : nat) : bytes := List.concat (repeat p n).
(** pbkdf.go:25-31; v > 0 (every caller passes 64) *)
Definition fillWithRepeats (pattern : bytes) (v : Z) : bytes :=
  match pattern with
  | [] => []
  | _ =>
      let outputLen := v * ((zlen pattern + v - 1) / v) in
      firstn (Z.to_nat outputLen) (bytes_Repeat pattern (Z.to_nat ((outputLen + zlen pattern - 1) / zlen pattern)))
  end.
(** pbkdf.go:111-113: for j := 1; j < r; j++ { Ai = hash(Ai) } *)
Fixpoint hash_loop (hash : bytes -> bytes) (n : nat) (Ai : bytes) : bytes :=
  match n with O => Ai | S n' => hash_loop hash n' (hash Ai) end.
(** pbkdf.go:119-123: for len(B) < v { B = append(B, Ai...) }; B = B[:v].  [fuel] = v passes suffice
    because every pass adds at least one byte (the hash output is not empty) *)
Fixpoint repeat_to (fuel : nat) (v : nat) (Ai B : bytes) : bytes :=
  match fuel with
  | O => B
  | S f => if (List.length B <? v)%nat then repeat_to f v Ai (B ++ Ai) else B
  end.
(** pbkdf.go:133-153: the new contents of one block *)
Definition add_block (v : nat) (Ij B : bytes) : bytes :=
  let Ijb := big_bytes (be_to_Z Ij + be_to_Z B + 1) in
  let Ijb := if (v <? List.length Ijb)%nat then skipn (List.length Ijb - v) Ijb else Ijb in
  if (List.length Ijb <? v)%nat then repeat 0 (v - List.length Ijb) ++ Ijb else Ijb.
(** pbkdf.go:132-155: for j < len(I)/v: copy(I[j*v:(j+1)*v], ...) *)
Fixpoint blocks_loop (n : nat) (j v : nat) (B I : bytes) : bytes :=
  match n with
  | O => I
  | S n' =>
      let Ij := firstn v (skipn (j * v) I) in
      blocks_loop n' (j + 1) v B (firstn (j * v) I ++ add_block v Ij B ++ skipn ((j + 1) * v) I)
  end.
(** copy(A[off:], src) *)
Definition copy_at (A : bytes) (off : nat) (src : bytes) : bytes :=
  let n := Nat.min (List.length A - off) (List.length src) in
  firstn off A ++ firstn n src ++ skipn (off + n) A.
(** pbkdf.go:107-158; [n] passes remain, i is the loop variable *)
Fixpoint pbkdf_loop (hash : bytes -> bytes) (n i c : nat) (v : nat) (r : Z) (D I A : bytes) : bytes :=
  match n with
  | O => A
  | S n' =>
      let Ai := hash_loop hash (Z.to_nat (r - 1)) (hash (D ++ I)) in
      let A := copy_at A (i * 20) Ai in
      let I := if (i <? c - 1)%nat
               then blocks_loop (List.length I / v) 0 v (firstn v (repeat_to v v Ai [])) I
               else I in
      pbkdf_loop hash n' (i + 1) c v r D I A
  end.
(** pbkdf.go:33-163; u = 20 and v = 64 in every call; A[:size] panics for size < 0 *)
Definition pbkdf (hash : bytes -> bytes) (u v : Z) (salt password : bytes) (r : Z) (ID : Z) (size : Z) : outcome bytes :=
  let D := repeat ID (Z.to_nat v) in
  let I := fillWithRepeats salt v ++ fillWithRepeats password v in
  let c := Z.to_nat (Z.quot (size + u - 1) u) in
  let A := pbkdf_loop hash c 0 c (Z.to_nat v) r D I (repeat 0 (c * 20)) in
  if (size <? 0) || (zlen A <? size) then Panic else Ret (firstn (Z.to_nat size) A).
