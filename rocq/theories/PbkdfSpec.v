(** * RFC 7292 appendix B.2 (key derivation), all lengths in bytes *)
From Verif Require Import Base.

Section Spec.
Variable H : bytes -> bytes.   (* hash function *)
Variable u : nat.              (* its output length *)
Variable v : nat.              (* its block length *)

Definition ceil_div (a b : nat) : nat := (a + b - 1) / b.
(** copies of s concatenated to length v * ceiling(|s| / v), the last copy truncated *)
Definition fill (s : bytes) : bytes :=
  map (fun i => nth (i mod List.length s) s 0) (seq 0 (v * ceil_div (List.length s) v)).
Fixpoint H_iter (r : nat) (x : bytes) : bytes := match r with O => x | S r' => H (H_iter r' x) end.
(** copies of A_i concatenated to v bytes *)
Definition B_of (A : bytes) : bytes := map (fun i => nth (i mod List.length A) A 0) (seq 0 v).
Definition block (I : bytes) (j : nat) : bytes := firstn v (skipn (j * v) I).
(** I_j := (I_j + B + 1) mod 2^(8v), every v-byte block read as a big-endian number *)
Definition next_I (I B : bytes) : bytes :=
  flat_map (fun j => Z_to_be v ((be_to_Z (block I j) + be_to_Z B + 1) mod 2 ^ (8 * Z.of_nat v)))
    (seq 0 (List.length I / v)).
Section Run.
Variables (salt password : bytes) (r : nat) (ID : Z).
Definition D : bytes := repeat ID v.
Fixpoint I_at (i : nat) : bytes :=
  match i with
  | O => fill salt ++ fill password
  | S i' => next_I (I_at i') (B_of (H_iter r (D ++ I_at i')))
  end.
Definition A_at (i : nat) : bytes := H_iter r (D ++ I_at i).
Definition kdf (n : nat) : bytes := firstn n (flat_map A_at (seq 0 (ceil_div n u))).
End Run.
End Spec.
