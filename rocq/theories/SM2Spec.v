(** * Specification of SM2 (GB/T 32918.2 signatures, 32918.4 encryption), independent of the
    model of sm2.go.  Uses only the elliptic-curve group (ECSpec), the SM3 function (SM3Spec) and
    the domain parameters. *)
From Verif Require Import Base SM3Spec ECSpec ECModel.

Definition G : pt := PA sm2_Gx sm2_Gy.
Definition on_sm2 (A : pt) : Prop := on_curve sm2_P sm2_A sm2_B A.
Infix "⊕" := (padd sm2_P sm2_A) (at level 50, left associativity).
Notation "k ⊗ A" := (pmul sm2_P sm2_A k A) (at level 40).
Definition xcoord (A : pt) : Z := match A with PA x _ => x | PO => 0 end.
Definition ycoord (A : pt) : Z := match A with PA _ y => y | PO => 0 end.

(** 32-byte big-endian string of a field element *)
Definition b32 (x : Z) : bytes := Z_to_be 32 x.

(** GB/T 32918.2 5.5: Z_A = SM3(ENTL || ID || a || b || xG || yG || xA || yA) with the two-byte
    ENTL given explicitly *)
Definition ZA_with (entl : Z) (id : bytes) (x y : Z) : bytes :=
  SM3 (Z_to_be 2 entl ++ id ++ b32 sm2_A ++ b32 sm2_B ++ b32 sm2_Gx ++ b32 sm2_Gy ++ b32 x ++ b32 y).
Definition ZA (id : bytes) (x y : Z) : bytes := ZA_with (8 * zlen id) id x y.
(** 6.1 steps A1, A2: the digest of message M *)
Definition sm2_digest (id : bytes) (x y : Z) (M : bytes) : bytes := SM3 (ZA id x y ++ M).

(** the nonce GB/T 32918 asks for, as drawn from one 40-byte read *)
Definition nonce_of (blk : bytes) : Z := be_to_Z blk mod (sm2_N - 1) + 1.
(** the 40-byte reads of a stream, in order *)
Fixpoint blocks40 (fuel : nat) (rand : bytes) : list bytes :=
  match fuel with
  | O => []
  | S f => if (40 <=? List.length rand)%nat then firstn 40 rand :: blocks40 f (skipn 40 rand) else []
  end.
Definition reads (rand : bytes) : list bytes := blocks40 (List.length rand) rand.

(** 6.1: (r,s) is the signature of digest value e under private key D with nonce k *)
Definition usable (e k : Z) : Prop :=
  let r := (e + xcoord (k ⊗ G)) mod sm2_N in r <> 0 /\ r + k <> sm2_N.
Definition is_signature (D e k r s : Z) : Prop :=
  1 <= k < sm2_N /\
  r = (e + xcoord (k ⊗ G)) mod sm2_N /\ r <> 0 /\ r + k <> sm2_N /\
  0 < s < sm2_N /\ ((1 + D) * s) mod sm2_N = (k - r * D) mod sm2_N.

(** 7.1: verification of (r,s) on digest value e under public point Q *)
Definition accepts (Q : pt) (e r s : Z) : Prop :=
  1 <= r < sm2_N /\ 1 <= s < sm2_N /\
  let t := (r + s) mod sm2_N in
  t <> 0 /\
  let R := (s ⊗ G) ⊕ (t ⊗ Q) in
  R <> PO /\ (e + xcoord R) mod sm2_N = r.

(** GB/T 32918.4 5.4.3: key derivation function *)
Definition kdf_spec (klen : nat) (Z0 : bytes) : bytes :=
  firstn klen (flat_map (fun i => SM3 (Z0 ++ Z_to_be 4 (Z.of_nat i))) (seq 1 ((klen + 31) / 32))).
