(** * What the PKCS#12 properties say, independently of the code *)
From Verif Require Import Base RC2Spec PbkdfSpec.
Open Scope Z_scope.

(** CBC with 8-byte blocks: [cbc E iv p c] - [c] is the encryption of [p] *)
Definition xor8 (a b : bytes) : bytes := map (fun p => Z.lxor (fst p) (snd p)) (combine a b).
Inductive cbc (E : bytes -> bytes) : bytes -> bytes -> bytes -> Prop :=
| cbc_nil iv : cbc E iv [] []
| cbc_cons iv p ps cs : List.length p = 8%nat -> cbc E (E (xor8 p iv)) ps cs -> cbc E iv (p ++ ps) (E (xor8 p iv) ++ cs).

(** PKCS#12 password-based encryption (RFC 7292 appendix B and C): key material 1, IV material 2, MAC key 3.
    An iteration count below one counts as one. *)
Section Pbe.
Variable sha1 : bytes -> bytes.
Definition p12_kdf (salt pwd : bytes) (iterations ID : Z) (n : nat) : bytes :=
  kdf sha1 20 64 salt pwd (Z.to_nat (Z.max iterations 1)) ID n.
Inductive pbe_scheme := TripleDES3 | RC2_40.
(** [E] is the block encryption to use *)
Definition pbe_block (tdes : bytes -> bytes -> bytes) (s : pbe_scheme) (salt : bytes) (iterations : Z) (pwd : bytes) (E : bytes -> bytes) : Prop :=
  match s with
  | TripleDES3 => E = tdes (p12_kdf salt pwd iterations 1 24)
  | RC2_40 => exists K, key_schedule (p12_kdf salt pwd iterations 1 5) 40 K /\ E = rc2_block K
  end.
Definition pbe_iv (salt : bytes) (iterations : Z) (pwd : bytes) : bytes := p12_kdf salt pwd iterations 2 8.
End Pbe.

(** what a list of bags contributes, in order *)
Inductive item (K C : Type) := ICert (c : C) | IKey (k : K) | IOther.
Arguments ICert {K C}. Arguments IKey {K C}. Arguments IOther {K C}.
Definition certs_in {K C} (l : list (item K C)) : list C := flat_map (fun i => match i with ICert c => [c] | _ => [] end) l.
Definition keys_in {K C} (l : list (item K C)) : list K := flat_map (fun i => match i with IKey k => [k] | _ => [] end) l.
(** a certificate that is not the first one and that no key follows *)
Definition late_cert {K C} (l : list (item K C)) : Prop :=
  exists a c b, l = a ++ ICert c :: b /\ certs_in a <> [] /\ keys_in b = [].
