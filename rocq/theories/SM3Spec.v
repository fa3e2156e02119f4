(** * Specification of SM3, transcribed from GB/T 32905-2016 (not from the Go code) *)
From Verif Require Import Base.

(** 32-bit words are integers in [0, 2^32). *)
Definition W32 : Z := 2 ^ 32.

(** 2: "<<< k": rotation to the left by [k mod 32] bits, as arithmetic *)
Definition spec_rotl (x k : Z) : Z :=
  (x * 2 ^ (k mod 32)) mod W32 + x / 2 ^ (32 - k mod 32).
(** "¬": bitwise complement of a word *)
Definition spec_not (x : Z) : Z := W32 - 1 - x.

(** 4.1 initial value *)
Definition spec_IV : list Z :=
  [0x7380166f; 0x4914b2b9; 0x172442d7; 0xda8a0600; 0xa96f30bc; 0x163138aa; 0xe38dee4d; 0xb0fb0e4e].
(** 4.2 constants *)
Definition spec_T (j : nat) : Z := if (j <=? 15)%nat then 0x79cc4519 else 0x7a879d8a.
(** 4.3 boolean functions *)
Definition spec_FF (j : nat) (x y z : Z) : Z :=
  if (j <=? 15)%nat then Z.lxor (Z.lxor x y) z
  else Z.lor (Z.lor (Z.land x y) (Z.land x z)) (Z.land y z).
Definition spec_GG (j : nat) (x y z : Z) : Z :=
  if (j <=? 15)%nat then Z.lxor (Z.lxor x y) z
  else Z.lor (Z.land x y) (Z.land (spec_not x) z).
(** 4.4 permutations *)
Definition spec_P0 (x : Z) : Z := Z.lxor (Z.lxor x (spec_rotl x 9)) (spec_rotl x 17).
Definition spec_P1 (x : Z) : Z := Z.lxor (Z.lxor x (spec_rotl x 15)) (spec_rotl x 23).

(** 5.2 padding, at byte granularity: m, the bit 1, the least number of zero bits making the
    bit length 448 mod 512, and the 64-bit length in bits.  [zeros] is the number of zero bytes
    after the 0x80 byte: the least k >= 0 with len + 1 + k = 56 (mod 64). *)
Definition spec_zeros (len : Z) : Z := (55 - len) mod 64.
Definition spec_pad (m : bytes) : bytes :=
  m ++ [0x80] ++ repeat 0 (Z.to_nat (spec_zeros (zlen m))) ++ Z_to_be 8 (8 * zlen m).

(** consecutive 64-byte blocks of a string (a short rest is not a block) *)
Definition blocks64 (l : bytes) : list bytes :=
  map (fun i => firstn 64 (skipn (64 * i) l)) (seq 0 (List.length l / 64)).

(** 5.3.2 message expansion: W_0 .. W_(15+n) *)
Definition spec_word (B : bytes) (j : nat) : Z := be_to_Z (firstn 4 (skipn (4 * j) B)).
Fixpoint spec_W (B : bytes) (n : nat) : list Z :=
  match n with
  | O => map (spec_word B) (seq 0 16)
  | S n' =>
      let W := spec_W B n' in
      let j := (16 + n')%nat in
      W ++ [Z.lxor (Z.lxor (spec_P1 (Z.lxor (Z.lxor (nth (j - 16) W 0) (nth (j - 9) W 0))
                                            (spec_rotl (nth (j - 3) W 0) 15)))
                           (spec_rotl (nth (j - 13) W 0) 7))
                   (nth (j - 6) W 0)]
  end.
(** 68 words W_j; W'_j = W_j xor W_(j+4) *)
Definition spec_W68 (B : bytes) : list Z := spec_W B 52.
Definition spec_W' (W : list Z) (j : nat) : Z := Z.lxor (nth j W 0) (nth (j + 4) W 0).

(** 5.3.3 compression function: one round on the registers A..H *)
Definition spec_round (W : list Z) (V : list Z) (j : nat) : list Z :=
  match V with
  | [A; B; C; D; E; F; G; H] =>
      let SS1 := spec_rotl ((spec_rotl A 12 + E + spec_rotl (spec_T j) (Z.of_nat j)) mod W32) 7 in
      let SS2 := Z.lxor SS1 (spec_rotl A 12) in
      let TT1 := (spec_FF j A B C + D + SS2 + spec_W' W j) mod W32 in
      let TT2 := (spec_GG j E F G + H + SS1 + nth j W 0) mod W32 in
      [TT1; A; spec_rotl B 9; C; spec_P0 TT2; E; spec_rotl F 19; G]
  | _ => V
  end.
Definition xor_words (a b : list Z) : list Z := map (fun p => Z.lxor (fst p) (snd p)) (combine a b).
Definition spec_CF (V : list Z) (B : bytes) : list Z :=
  xor_words (fold_left (spec_round (spec_W68 B)) (seq 0 64) V) V.

(** 5.3.1 iteration and 5.4 output *)
Definition spec_iter (V : list Z) (bs : list bytes) : list Z := fold_left spec_CF bs V.
Definition SM3 (m : bytes) : bytes :=
  flat_map (Z_to_be 4) (spec_iter spec_IV (blocks64 (spec_pad m))).

(** ** A hash object as seen through hash.Hash: calls and observable results *)
Inductive sm3_op := OpWrite (p : bytes) | OpSum (inp : bytes) | OpReset.
Inductive sm3_out := OutCount (n : Z) | OutBytes (b : bytes) | OutUnit | OutPanic.
(** what a history of calls must return: the specification of the hash object *)
Fixpoint sm3_history_spec (written : bytes) (ops : list sm3_op) : list sm3_out :=
  match ops with
  | [] => []
  | OpWrite p :: ops' => OutCount (zlen p) :: sm3_history_spec (written ++ p) ops'
  | OpSum i :: ops' => OutBytes (i ++ SM3 written) :: sm3_history_spec written ops'
  | OpReset :: ops' => OutUnit :: sm3_history_spec [] ops'
  end.
Definition op_ok (op : sm3_op) : Prop :=
  match op with OpWrite p => bytes_ok p | _ => True end.

