(** * Properties C05-C22, C81 (package sm2: signature encoding, digests, signing, verification, keys) *)
From Verif Require Import Base SM3Spec ECSpec ECModel CryptoByte SM2Spec SM2Model SM2SigProofs SM3Proofs ECProofs BaseOrder.
Open Scope Z_scope.

(** a private key whose public part is d*G *)
Definition keypair (priv : PrivateKey) : Prop :=
  pk_X (sk_Pub priv) = xcoord (sk_D priv ⊗ G) /\ pk_Y (sk_Pub priv) = ycoord (sk_D priv ⊗ G).

(** ** C05-C07 DER signatures *)
(** the size condition: the two INTEGER elements together take at most 2^32-7 bytes *)
Theorem C05_roundtrip : forall r s, sig_fits r s ->
  exists sig, MarshalSign r s = Ret sig /\ UnmarshalSign sig = Ret (r, s).
Proof. exact sign_roundtrip. Qed.
Print Assumptions C05_roundtrip.
(** every pair of integers of at most k <= 2^30 bytes (two's complement) satisfies it *)
Theorem C05_size : forall k r s, 1 <= k <= 2 ^ 30 ->
  Z.abs r < 2 ^ (8 * k - 1) -> Z.abs s < 2 ^ (8 * k - 1) -> sig_fits r s.
Proof.
  intros k r s Hk Hr Hs. unfold sig_fits, sig_content, max_content. rewrite zlen_app.
  pose proof (bigint_content_zlen r k ltac:(lia)) as A. pose proof (bigint_content_zlen s k ltac:(lia)) as B.
  specialize (A ltac:(lia)). specialize (B ltac:(lia)). rewrite Z.max_r in A, B by lia.
  pose proof (tlv_zlen T_INTEGER (bigint_content r) ltac:(lia)). pose proof (tlv_zlen T_INTEGER (bigint_content s) ltac:(lia)). lia.
Qed.
Print Assumptions C05_size.
Example C05_negative : MarshalSign (-129) 200 = Ret [48; 8; 2; 2; 255; 127; 2; 2; 0; 200].
Proof. reflexivity. Qed.

Theorem C06_canonical : forall sig r s, bytes_ok sig -> UnmarshalSign sig = Ret (r, s) -> MarshalSign r s = Ret sig.
Proof. intros sig r s H E. exact (proj2 (sign_canonical sig r s H E)). Qed.
Print Assumptions C06_canonical.
(** what the canonical encoding is: SEQUENCE of two INTEGERs, each the minimal two's complement
    content of its value, with minimal definite lengths *)
Theorem C06_format : forall r s sig, MarshalSign r s = Ret sig ->
  exists cr cs, sig = tlv T_SEQUENCE (tlv T_INTEGER cr ++ tlv T_INTEGER cs) /\
    twos cr = r /\ twos cs = s /\
    (forall c, bytes_ok c -> c <> [] -> twos c = r -> (List.length cr <= List.length c)%nat) /\
    (forall c, bytes_ok c -> c <> [] -> twos c = s -> (List.length cs <= List.length c)%nat).
Proof.
  intros r s sig E. apply MarshalSign_inv in E. exists (bigint_content r), (bigint_content s).
  assert (M : forall n c, bytes_ok c -> c <> [] -> twos c = n -> (List.length (bigint_content n) <= List.length c)%nat).
  { intros n c Hc Hne Et. destruct (bigint_content_spec n) as (A & B & C).
    destruct (Nat.le_gt_cases (List.length (bigint_content n)) (List.length c)) as [|Hgt]; auto. exfalso.
    assert (List.length c <> 0%nat) by (destruct c; [congruence|cbn; lia]).
    pose proof (twos_minimal _ A B ltac:(lia)) as M. rewrite C in M.
    pose proof (twos_bounds c Hc Hne) as Bd. rewrite Et in Bd.
    assert (256 ^ zlen c <= 256 ^ (zlen (bigint_content n) - 1)) by (apply Z.pow_le_mono_r; unfold zlen; lia). lia. }
  split; [exact E|]. destruct (bigint_content_spec r) as (_ & _ & ->). destruct (bigint_content_spec s) as (_ & _ & ->).
  repeat split; auto.
Qed.
Print Assumptions C06_format.
(** rejected: trailing byte, non-minimal length, redundant padding, third integer *)
Example C06_rejects :
  UnmarshalSign [48; 6; 2; 1; 1; 2; 1; 1; 0] = Err "not sm2 sign" /\
  UnmarshalSign [48; 129; 6; 2; 1; 1; 2; 1; 1] = Err "not sm2 sign" /\
  UnmarshalSign [48; 7; 2; 2; 0; 1; 2; 1; 1] = Err "not sm2 sign" /\
  UnmarshalSign [48; 9; 2; 1; 1; 2; 1; 1; 2; 1; 1] = Err "not sm2 sign" /\
  UnmarshalSign [48; 6; 2; 1; 1; 2; 1; 1] = Ret (1, 1).
Proof. repeat split; reflexivity. Qed.

Theorem C07_injective : forall r s r' s' sig, sig_fits r s -> sig_fits r' s' ->
  MarshalSign r s = Ret sig -> MarshalSign r' s' = Ret sig -> r = r' /\ s = s'.
Proof. exact MarshalSign_inj. Qed.
Print Assumptions C07_injective.
Theorem C07_decoding_injective : forall sig sig' r s, bytes_ok sig -> bytes_ok sig' ->
  UnmarshalSign sig = Ret (r, s) -> UnmarshalSign sig' = Ret (r, s) -> sig = sig'.
Proof.
  intros sig sig' r s H H' E E'. apply sign_canonical in E; auto. apply sign_canonical in E'; auto.
  destruct E as [_ E], E' as [_ E']. congruence.
Qed.
Print Assumptions C07_decoding_injective.

(** ** C08-C10 message digest *)
Theorem C08_digest : forall pub msg uid,
  0 <= pk_X pub < 2 ^ 256 -> 0 <= pk_Y pub < 2 ^ 256 -> bytes_ok msg -> bytes_ok uid ->
  uid <> [] -> zlen uid < 8192 ->
  SM3Digest pub msg uid = Ret (sm2_digest uid (pk_X pub) (pk_Y pub) msg).
Proof. exact SM3Digest_correct. Qed.
Print Assumptions C08_digest.
(** an instance: key G, uid "ABC", message "hi" *)
Example C08_nonvacuous : let pub := mkPub 0 sm2_Gx sm2_Gy in
  SM3Digest pub [104; 105] [65; 66; 67] = Ret (sm2_digest [65; 66; 67] sm2_Gx sm2_Gy [104; 105]).
Proof. apply C08_digest; try (apply bytes_okb_spec; reflexivity); try discriminate; now compute. Qed.

(** C09: empty user id is the default one (ASCII "1234567812345678") in every operation *)
Theorem C09_default_uid : forall pub priv msg rand r s sig,
  let def := [49; 50; 51; 52; 53; 54; 55; 56; 49; 50; 51; 52; 53; 54; 55; 56] in
  SM3Digest pub msg [] = SM3Digest pub msg def /\
  SignRS rand priv msg [] = SignRS rand priv msg def /\
  Sign rand priv msg [] = Sign rand priv msg def /\
  VerifyRS pub msg [] r s = VerifyRS pub msg def r s /\
  Verify pub msg [] sig = Verify pub msg def sig /\
  PublicKey_Verify pub msg [] sig = PublicKey_Verify pub msg def sig.
Proof.
  intros pub priv msg rand r s sig def.
  assert (D : forall p, SM3Digest p msg [] = SM3Digest p msg def) by (intros; apply SM3Digest_default).
  assert (V : forall r s, VerifyRS pub msg [] r s = VerifyRS pub msg def r s).
  { intros. unfold VerifyRS. rewrite (D pub). reflexivity. }
  split; [apply D|]. unfold Sign, SignRS. rewrite (D (sk_Pub priv)). split; [reflexivity|]. split; [reflexivity|].
  split; [apply V|]. unfold Verify, PublicKey_Verify. destruct (UnmarshalSign sig) as [[r' s']| |]; rewrite ?V; auto.
Qed.
Print Assumptions C09_default_uid.

(** C10: the ENTL actually hashed is the bit length modulo 2^16, for every id; it is the bit length
    exactly for ids below 8192 bytes.  Even so the string hashed into Z determines id and key. *)
Theorem C10_entl : forall pub msg uid,
  0 <= pk_X pub < 2 ^ 256 -> 0 <= pk_Y pub < 2 ^ 256 -> bytes_ok msg -> bytes_ok uid -> uid <> [] ->
  SM3Digest pub msg uid = Ret (SM3 (ZA_with ((8 * zlen uid) mod 65536) uid (pk_X pub) (pk_Y pub) ++ msg)).
Proof.
  intros pub msg uid Hx Hy Hm Hu Hne. rewrite SM3Digest_general by auto.
  assert (default_id uid = uid) as -> by (destruct uid; [congruence|reflexivity]).
  rewrite !append32 by auto. reflexivity.
Qed.
Print Assumptions C10_entl.
Theorem C10_entl_exact_iff : forall uid : bytes, (8 * zlen uid) mod 65536 = 8 * zlen uid <-> zlen uid < 8192.
Proof.
  intros uid. pose proof (zlen_nonneg uid). split; intros H1.
  - pose proof (Z.mod_pos_bound (8 * zlen uid) 65536 ltac:(lia)). lia.
  - apply Z.mod_small. lia.
Qed.
Print Assumptions C10_entl_exact_iff.
Theorem C10_refuted : exists uid : bytes, bytes_ok uid /\ uid <> [] /\ (8 * zlen uid) mod 65536 <> 8 * zlen uid.
Proof.
  exists (repeat 65 8192). split; [apply bytes_ok_repeat; now compute|]. split; [discriminate|].
  rewrite C10_entl_exact_iff. unfold zlen. rewrite repeat_length. now compute.
Qed.
Print Assumptions C10_refuted.
Theorem C10_hash_input_injective : forall id x y id' x' y',
  0 <= x < 2 ^ 256 -> 0 <= y < 2 ^ 256 -> 0 <= x' < 2 ^ 256 -> 0 <= y' < 2 ^ 256 ->
  z_input id x y = z_input id' x' y' -> id = id' /\ x = x' /\ y = y'.
Proof. exact z_input_inj. Qed.
Print Assumptions C10_hash_input_injective.

(** ** C11 nonces *)
Theorem C11_nonce : forall rand,
  (forall k rest, nextk rand = Ret (k, rest) -> 1 <= k <= sm2_N - 1 /\
     exists b, rand = b ++ rest /\ List.length b = 40%nat) /\
  ((List.length rand < 40)%nat <-> exists e, nextk rand = Err e) /\ nextk rand <> Panic.
Proof.
  intros rand. destruct (nextk_cases rand) as [(b & rest & E & Hb & Ek)|(Hs & Ek)].
  - rewrite Ek. pose proof (nonce_range b). repeat split; try discriminate.
    + injection H0 as <- <-. lia. + injection H0 as <- <-. lia.
    + injection H0 as <- <-. exists b; auto.
    + intros Hl. exfalso. rewrite E, app_length in Hl. lia.
    + intros [e Ee]. discriminate.
  - destruct Ek as [Ek|Ek]; rewrite Ek; repeat split; try discriminate; try (intros; eauto).
Qed.
Print Assumptions C11_nonce.
(** every value of [1, n-1] is reached *)
Theorem C11_onto : forall k, 1 <= k <= sm2_N - 1 -> exists b, List.length b = 40%nat /\ bytes_ok b /\ nextk b = Ret (k, []).
Proof.
  intros k Hk. exists (Z_to_be 40 (k - 1)). split; [apply Z_to_be_length|]. split; [apply Z_to_be_ok|].
  pose proof (nextk_full (Z_to_be 40 (k - 1)) [] (Z_to_be_length _ _)) as E. rewrite app_nil_r in E. rewrite E.
  unfold nonce_of. rewrite be_to_Z_to_be_small.
  - rewrite Z.mod_small by lia. repeat f_equal. lia.
  - assert (sm2_N < 256 ^ Z.of_nat 40) by (now compute). lia.
Qed.
Print Assumptions C11_onto.

(** ** C12-C15 signing *)
(** C12: the signature made from nonce k verifies, except exactly when x(kG) = 0.  The nonce is the
    one read from the last 40 bytes consumed. *)
Theorem C12_sign_verify : forall rand priv dg r s rest,
  keypair priv -> 1 <= sk_D priv <= sm2_N - 2 ->
  SignDigestRS rand priv dg = Ret (r, s, rest) ->
  exists pre b, rand = pre ++ b ++ rest /\ List.length b = 40%nat /\
    VerifyDigestRS (sk_Pub priv) dg r s = Ret (negb (xcoord (nonce_of b ⊗ G) =? 0)).
Proof.
  intros rand priv dg r s rest [Kx Ky] Hd E. apply sign_digest_ret in E. destruct E as (pre & b & E & Hb & _ & HS).
  exists pre, b. split; auto. split; auto.
  pose proof (signature_verifies (sk_D priv) dg (nonce_of b) r s (pk_Curve (sk_Pub priv)) ltac:(lia) HS) as V.
  rewrite <- Kx, <- Ky in V. destruct priv as [[cv x y] D]. exact V.
Qed.
Print Assumptions C12_sign_verify.
(** what a caller can observe: whenever r differs from e mod n, the signature verifies *)
Theorem C12_observable : forall rand priv dg r s rest,
  keypair priv -> 1 <= sk_D priv <= sm2_N - 2 ->
  SignDigestRS rand priv dg = Ret (r, s, rest) -> r <> be_to_Z dg mod sm2_N ->
  VerifyDigestRS (sk_Pub priv) dg r s = Ret true.
Proof.
  intros rand priv dg r s rest HK Hd E Hr. pose proof E as E0. apply sign_digest_ret in E0.
  destruct E0 as (pre & b & Er & Hb & _ & HS). destruct HK as [Kx Ky].
  pose proof (signature_verifies (sk_D priv) dg (nonce_of b) r s (pk_Curve (sk_Pub priv)) ltac:(lia) HS) as V.
  rewrite <- Kx, <- Ky in V. destruct HS as (_ & Hr2 & _).
  destruct (Z.eqb_spec (xcoord (nonce_of b ⊗ G)) 0) as [Hx|Hx].
  - exfalso. apply Hr. rewrite Hr2, Hx, Z.add_0_r. reflexivity.
  - destruct priv as [[cv x y] D]. exact V.
Qed.
Print Assumptions C12_observable.
(** every returned pair is an SM2 signature in the sense of GB/T 32918.2, 6.1 *)
Theorem C12_is_signature : forall rand priv dg r s rest,
  SignDigestRS rand priv dg = Ret (r, s, rest) ->
  exists pre b, rand = pre ++ b ++ rest /\ List.length b = 40%nat /\ (40 | Z.of_nat (List.length pre)) /\
    is_signature (sk_D priv) (be_to_Z dg) (nonce_of b) r s.
Proof. exact sign_digest_ret. Qed.
Print Assumptions C12_is_signature.
(** a concrete key pair, random stream and digest that meet the hypotheses *)
Definition key1 : PrivateKey := mkPriv (mkPub 0 sm2_Gx sm2_Gy) 1.
Example C12_nonvacuous : keypair key1 /\ 1 <= sk_D key1 <= sm2_N - 2 /\
  exists r s, SignDigestRS (repeat 0 40) key1 [7] = Ret (r, s, []).
Proof.
  split; [|split; [now compute|]].
  - unfold keypair, key1. cbn [sk_Pub sk_D pk_X pk_Y]. pose proof (sm2_pmul_1 G) as E. unfold sm2_pmul in E. rewrite E. split; reflexivity.
  - eexists _, _. vm_compute. reflexivity.
Qed.

(** C13: the same at message level and for DER signatures, through functions and methods *)
Theorem C13_message : forall rand priv inp uid sig rest, bytes_ok inp -> bytes_ok uid ->
  keypair priv -> 1 <= sk_D priv <= sm2_N - 2 ->
  Sign rand priv inp uid = Ret (sig, rest) ->
  exists pre b, rand = pre ++ b ++ rest /\ List.length b = 40%nat /\
    Verify (sk_Pub priv) inp uid sig = Ret (negb (xcoord (nonce_of b ⊗ G) =? 0)) /\
    PublicKey_Verify (sk_Pub priv) inp uid sig = Ret (negb (xcoord (nonce_of b ⊗ G) =? 0)).
Proof.
  intros rand priv inp uid sig rest Hi Hu HK Hd E.
  destruct (SM3Digest_returns (sk_Pub priv) inp uid Hi Hu) as (h & Eh & _).
  rewrite (proj1 (Sign_digest rand priv inp uid h Eh)) in E. unfold SignDigest in E.
  destruct (SignDigestRS rand priv h) as [[[r s] rest']| |] eqn:ES; cbn [bind] in E; try discriminate E.
  destruct (MarshalSign r s) as [sg| |] eqn:EM; cbn [bind] in E; try discriminate E. injection E as <- <-.
  pose proof (sign_digest_ret _ _ _ _ _ _ ES) as (pr0 & bk0 & _ & _ & _ & HS).
  destruct (C12_sign_verify rand priv h r s rest' HK Hd ES) as (pre & b & Er & Hb & V).
  exists pre, b. split; auto. split; auto.
  pose proof (signature_range _ _ _ _ _ HS) as [R1 R2].
  destruct (sign_roundtrip r s (fits_range r s ltac:(lia) ltac:(lia))) as (sg' & EM' & EU).
  rewrite EM in EM'. injection EM' as <-.
  unfold Verify, PublicKey_Verify. rewrite EU. rewrite (VerifyRS_digest _ _ _ _ _ _ Eh). auto.
Qed.
Print Assumptions C13_message.
Theorem C13_message_rs : forall rand priv inp uid r s rest, bytes_ok inp -> bytes_ok uid ->
  keypair priv -> 1 <= sk_D priv <= sm2_N - 2 ->
  SignRS rand priv inp uid = Ret (r, s, rest) ->
  exists pre b, rand = pre ++ b ++ rest /\ List.length b = 40%nat /\
    VerifyRS (sk_Pub priv) inp uid r s = Ret (negb (xcoord (nonce_of b ⊗ G) =? 0)).
Proof.
  intros rand priv inp uid r s rest Hi Hu HK Hd E.
  destruct (SM3Digest_returns (sk_Pub priv) inp uid Hi Hu) as (h & Eh & _).
  rewrite (proj2 (Sign_digest rand priv inp uid h Eh)) in E.
  destruct (C12_sign_verify rand priv h r s rest HK Hd E) as (pre & b & Er & Hb & V).
  exists pre, b. rewrite (VerifyRS_digest _ _ _ _ _ _ Eh). auto.
Qed.
Print Assumptions C13_message_rs.
Theorem C13_digest_der : forall rand priv dg sig rest,
  keypair priv -> 1 <= sk_D priv <= sm2_N - 2 ->
  SignDigest rand priv dg = Ret (sig, rest) ->
  exists pre b, rand = pre ++ b ++ rest /\ List.length b = 40%nat /\
    VerifyDigest (sk_Pub priv) dg sig = Ret (negb (xcoord (nonce_of b ⊗ G) =? 0)) /\
    PublicKey_VerifyDigest (sk_Pub priv) dg sig = Ret (negb (xcoord (nonce_of b ⊗ G) =? 0)).
Proof.
  intros rand priv h sig rest HK Hd E. unfold SignDigest in E.
  destruct (SignDigestRS rand priv h) as [[[r s] rest']| |] eqn:ES; cbn [bind] in E; try discriminate E.
  destruct (MarshalSign r s) as [sg| |] eqn:EM; cbn [bind] in E; try discriminate E. injection E as <- <-.
  pose proof (sign_digest_ret _ _ _ _ _ _ ES) as (pr0 & bk0 & _ & _ & _ & HS).
  destruct (C12_sign_verify rand priv h r s rest' HK Hd ES) as (pre & b & Er & Hb & V).
  exists pre, b. split; auto. split; auto.
  pose proof (signature_range _ _ _ _ _ HS) as [R1 R2].
  destruct (sign_roundtrip r s (fits_range r s ltac:(lia) ltac:(lia))) as (sg' & EM' & EU).
  rewrite EM in EM'. injection EM' as <-.
  unfold VerifyDigest, PublicKey_VerifyDigest. rewrite EU. auto.
Qed.
Print Assumptions C13_digest_der.
Example C13_nonvacuous : exists sig, SignDigest (repeat 0 40) key1 [7] = Ret (sig, []) /\ VerifyDigest (sk_Pub key1) [7] sig = Ret true.
Proof.
  destruct C12_nonvacuous as (HK & Hd & _).
  assert (E : exists sig, SignDigest (repeat 0 40) key1 [7] = Ret (sig, [])) by (eexists; vm_compute; reflexivity).
  destruct E as [sig E]. exists sig. split; auto.
  destruct (C13_digest_der _ _ _ _ _ HK Hd E) as (pre & b & Er & Hb & V & _). rewrite V.
  assert (b = repeat 0 40) as ->.
  { rewrite app_nil_r in Er. assert (List.length (pre ++ b) = 40%nat) by (rewrite <- Er; apply repeat_length).
    rewrite app_length in H. destruct pre; [exact (eq_sym Er)|cbn in H; lia]. }
  change (nonce_of (repeat 0 40)) with 1. pose proof (sm2_pmul_1 G) as E1. unfold sm2_pmul in E1. rewrite E1. reflexivity.
Qed.

Theorem C14_range : forall rand priv dg r s rest, SignDigestRS rand priv dg = Ret (r, s, rest) ->
  1 <= r <= sm2_N - 1 /\ 1 <= s <= sm2_N - 1 /\ (r + s) mod sm2_N <> 0.
Proof.
  intros rand priv dg r s rest E. apply sign_digest_ret in E. destruct E as (pr0 & bk0 & _ & _ & _ & HS).
  pose proof (signature_range _ _ _ _ _ HS). pose proof (signature_t_nonzero _ _ _ _ _ HS). lia.
Qed.
Print Assumptions C14_range.

(** C15: outcomes of signing.  (a) any d with d+1 not divisible by n: never a panic, errors only from
    the reader; (b) a stream with a usable nonce and non-zero s ... (c) d = n-1: a panic as soon as a
    usable nonce is drawn, and never a signature *)
Theorem C15_outcomes : forall rand priv dg, (sk_D priv + 1) mod sm2_N <> 0 ->
  SignDigestRS rand priv dg <> Panic /\
  (forall e, SignDigestRS rand priv dg = Err e -> e = "EOF"%string \/ e = "unexpected EOF"%string).
Proof.
  intros rand priv dg H. pose proof (sign_digest_spec rand priv dg H) as S.
  destruct (SignDigestRS rand priv dg) as [[[r s] rest]|e|]; [split; discriminate| |destruct S].
  split; [discriminate|]. intros e' [= <-]. exact S.
Qed.
Print Assumptions C15_outcomes.
Theorem C15_small_keys : forall D, 0 <= D <= sm2_N - 2 -> (D + 1) mod sm2_N <> 0.
Proof. intros D H. rewrite Z.mod_small; lia. Qed.
Theorem C15_last_key_panics : forall rand priv dg, sk_D priv = sm2_N - 1 ->
  (SignDigestRS rand priv dg = Panic <-> exists b, In b (reads rand) /\ usable (be_to_Z dg) (nonce_of b)) /\
  (SignDigestRS rand priv dg = Panic \/ exists e, SignDigestRS rand priv dg = Err e).
Proof.
  intros rand priv dg HD.
  assert (H0 : (sk_D priv + 1) mod sm2_N = 0) by (rewrite HD; reflexivity).
  pose proof (sign_outer_bad (S (List.length rand)) (sk_D priv) (be_to_Z dg) rand ltac:(lia) H0) as B.
  unfold SignDigestRS. change (sm2_N =? 0) with false. cbv iota zeta.
  destruct B as [(b & Hb & Hu & B)|(HF & e & B)]; rewrite B.
  - split; [|left; reflexivity]. split; [intros _; exists b; auto|reflexivity].
  - split; [|right; eauto]. split; [discriminate|]. intros (b & Hb & Hu). exfalso.
    rewrite Forall_forall in HF. exact (HF b Hb Hu).
Qed.
Print Assumptions C15_last_key_panics.
Example C15_nonvacuous : SignDigestRS (repeat 0 40) (mkPriv (mkPub 0 0 0) (sm2_N - 1)) [7] = Panic.
Proof. vm_compute. reflexivity. Qed.

(** ** C16-C19 verification *)
Theorem C16_rejects_range : forall pub dg r s,
  ~ (1 <= r <= sm2_N - 1) \/ ~ (1 <= s <= sm2_N - 1) \/ (r + s) mod sm2_N = 0 ->
  VerifyDigestRS pub dg r s = Ret false.
Proof. intros pub dg r s H. apply verify_rejects_range. lia. Qed.
Print Assumptions C16_rejects_range.
Theorem C16_rejects_range_message : forall pub inp uid r s, bytes_ok inp -> bytes_ok uid ->
  ~ (1 <= r <= sm2_N - 1) \/ ~ (1 <= s <= sm2_N - 1) \/ (r + s) mod sm2_N = 0 ->
  VerifyRS pub inp uid r s = Ret false.
Proof.
  intros pub inp uid r s Hi Hu H. destruct (SM3Digest_returns pub inp uid Hi Hu) as (h & Eh & _).
  rewrite (VerifyRS_digest _ _ _ _ _ _ Eh). apply verify_rejects_range. lia.
Qed.
Print Assumptions C16_rejects_range_message.
Example C16_boundaries : VerifyDigestRS (mkPub 0 sm2_Gx sm2_Gy) [1] sm2_N 1 = Ret false /\
  VerifyDigestRS (mkPub 0 sm2_Gx sm2_Gy) [1] 1 0 = Ret false.
Proof. split; apply C16_rejects_range; [left|right; left]; lia. Qed.
(** verification of any input (any integers, any key coordinates) returns a Boolean *)
Theorem C16_total : forall pub dg r s, exists b, VerifyDigestRS pub dg r s = Ret b.
Proof. exact verify_total. Qed.
Print Assumptions C16_total.

Theorem C17_exact : forall pub dg r s, let Q := PA (pk_X pub) (pk_Y pub) in on_sm2 Q ->
  VerifyDigestRS pub dg r s = Ret true <->
  (1 <= r <= sm2_N - 1 /\ 1 <= s <= sm2_N - 1 /\
   let t := (r + s) mod sm2_N in t <> 0 /\
   exists x y, (s ⊗ G) ⊕ (t ⊗ Q) = PA x y /\ x <> 0 /\ y <> 0 /\ (be_to_Z dg + x) mod sm2_N = r).
Proof.
  intros pub dg r s Q HQ. pose proof (verify_exact pub dg r s HQ) as V. rewrite V. clear V.
  unfold accepts, verify_point, pub_point. fold Q. cbv zeta.
  set (R := (s ⊗ G) ⊕ (((r + s) mod sm2_N) ⊗ Q)). clearbody R. split.
  - intros ((H1 & H2 & H3 & H4 & H5) & H6 & H7). split; [lia|]. split; [lia|]. split; auto.
    destruct R as [|x y]; [congruence|]. exists x, y. auto.
  - intros (H1 & H2 & H3 & x & y & -> & H4 & H5 & H6). cbn [xcoord ycoord]. repeat split; auto; try lia. discriminate.
Qed.
Print Assumptions C17_exact.
Example C17_nonvacuous : on_sm2 (PA sm2_Gx sm2_Gy). Proof. exact G_on. Qed.

Theorem C18_message_is_digest : forall pub inp uid, bytes_ok inp -> bytes_ok uid ->
  exists h, SM3Digest pub inp uid = Ret h /\ List.length h = 32%nat /\
  (forall r s, VerifyRS pub inp uid r s = VerifyDigestRS pub h r s) /\
  (forall sig, Verify pub inp uid sig = VerifyDigest pub h sig) /\
  (forall sig, PublicKey_Verify pub inp uid sig = PublicKey_VerifyDigest pub h sig) /\
  (forall rand priv, sk_Pub priv = pub -> Sign rand priv inp uid = SignDigest rand priv h /\
                     SignRS rand priv inp uid = SignDigestRS rand priv h).
Proof.
  intros pub inp uid Hi Hu. destruct (SM3Digest_returns pub inp uid Hi Hu) as (h & Eh & Hl & _).
  exists h. split; auto. split; auto. split; [intros; apply VerifyRS_digest; auto|].
  split; [intros; apply Verify_digest; auto|]. split; [intros; exact (Verify_digest pub inp uid sig h Eh)|].
  intros rand priv <-. apply Sign_digest; auto.
Qed.
Print Assumptions C18_message_is_digest.

(** C18 for the methods (sm2.go:110-127, 153-165): signing a message is signing its digest, with the same randomness, and
    every form of verification decides the same.  (VerifyRS, the one method that swaps its arguments, is C19.) *)
Theorem C18_methods : forall priv rand inp uid, bytes_ok inp -> bytes_ok uid ->
  exists h, SM3Digest (Public priv) inp uid = Ret h /\ List.length h = 32%nat /\
  PrivateKey_Sign priv rand inp uid = SignDigest rand priv h /\ PrivateKey_SignDigest priv rand h = Sign rand priv inp uid /\
  PrivateKey_SignRS priv rand inp uid = SignDigestRS rand priv h /\ PrivateKey_SignDigestRS priv rand h = SignRS rand priv inp uid /\
  (forall r s, PublicKey_VerifyDigestRS (Public priv) h r s = VerifyRS (Public priv) inp uid r s) /\
  (forall sig, PublicKey_VerifyDigest (Public priv) h sig = Verify (Public priv) inp uid sig).
Proof.
  intros priv rand inp uid Hi Hu. destruct (C18_message_is_digest (Public priv) inp uid Hi Hu) as (h & Eh & Hl & V1 & V2 & V3 & S0).
  destruct (S0 rand priv eq_refl) as [S1 S2]. exists h. split; [exact Eh|]. split; [exact Hl|].
  unfold PrivateKey_Sign, PrivateKey_SignDigest, PrivateKey_SignRS, PrivateKey_SignDigestRS, PublicKey_VerifyDigestRS.
  split; [exact S1|]. split; [symmetry; exact S1|]. split; [exact S2|]. split; [symmetry; exact S2|].
  split; [intros r s; symmetry; apply V1|]. intros sig. rewrite <- (V3 sig). reflexivity.
Qed.
Print Assumptions C18_methods.

(** C81: under one key, a pair (r,s) verifies for only one digest value modulo n *)
Theorem C81_one_digest : forall pub dg dg' r s, on_sm2 (PA (pk_X pub) (pk_Y pub)) ->
  VerifyDigestRS pub dg r s = Ret true ->
  (VerifyDigestRS pub dg' r s = Ret true <-> be_to_Z dg' mod sm2_N = be_to_Z dg mod sm2_N).
Proof.
  intros pub dg dg' r s HQ H. rewrite (C17_exact pub dg' r s HQ). apply (C17_exact pub dg r s HQ) in H.
  destruct H as (H1 & H2 & H3 & x & y & E & Hx & Hy & Hr). cbv zeta. split.
  - intros (_ & _ & _ & x' & y' & E' & _ & _ & Hr'). rewrite E in E'. injection E' as <- <-.
    rewrite <- Hr in Hr'. apply cong_of_mod in Hr'. destruct Hr' as [q Hq].
    apply (mod_of_cong _ _ _ q). lia.
  - intros Hm. repeat split; auto; try lia. exists x, y. repeat split; auto. rewrite <- Hr.
    rewrite Zplus_mod, Hm, <- Zplus_mod. reflexivity.
Qed.
Print Assumptions C81_one_digest.

(** C19: the method PublicKey.VerifyRS verifies message [uid] under user id [inp]: on a signature
    accepted by the function it returns true only if the swapped digest is the same modulo n *)
Theorem C19_method_swaps : forall pub inp uid r s, PublicKey_VerifyRS pub inp uid r s = VerifyRS pub uid inp r s.
Proof. reflexivity. Qed.
Print Assumptions C19_method_swaps.
Theorem C19_method_on_genuine : forall pub inp uid r s h h', bytes_ok inp -> bytes_ok uid ->
  on_sm2 (PA (pk_X pub) (pk_Y pub)) ->
  SM3Digest pub inp uid = Ret h -> SM3Digest pub uid inp = Ret h' ->
  VerifyRS pub inp uid r s = Ret true ->
  (PublicKey_VerifyRS pub inp uid r s = Ret true <-> be_to_Z h' mod sm2_N = be_to_Z h mod sm2_N).
Proof.
  intros pub inp uid r s h h' Hi Hu HQ E E' V. rewrite C19_method_swaps.
  rewrite (VerifyRS_digest _ _ _ _ _ _ E'). rewrite (VerifyRS_digest _ _ _ _ _ _ E) in V.
  apply C81_one_digest; auto.
Qed.
Print Assumptions C19_method_on_genuine.
Lemma last_block (pre b : bytes) : repeat 0 40 = pre ++ b ++ [] -> List.length b = 40%nat -> b = repeat 0 40.
Proof.
  intros Er Hb. rewrite app_nil_r in Er. assert (HL : List.length (pre ++ b) = 40%nat) by (rewrite <- Er; apply repeat_length).
  rewrite app_length in HL. destruct pre as [|x pre]; [exact (eq_sym Er)|]. exfalso. cbn [List.length] in HL. lia.
Qed.
Definition digests_differ (pub : PublicKey) (a b : bytes) : bool :=
  match SM3Digest pub a b, SM3Digest pub b a with
  | Ret h, Ret h' => negb (be_to_Z h mod sm2_N =? be_to_Z h' mod sm2_N)
  | _, _ => false
  end.
Lemma C19_digests_differ : digests_differ (sk_Pub key1) [97] [98] = true.
Proof. vm_compute. reflexivity. Qed.
Lemma C19_signs : exists r s, SignRS (repeat 0 40) key1 [97] [98] = Ret (r, s, []).
Proof. eexists _, _. vm_compute. reflexivity. Qed.
(** concretely: a genuine signature over message "a" with user id "b" that the method rejects *)
Lemma C19_method_rejects pub inp uid r s : bytes_ok inp -> bytes_ok uid -> on_sm2 (PA (pk_X pub) (pk_Y pub)) ->
  digests_differ pub inp uid = true -> VerifyRS pub inp uid r s = Ret true -> PublicKey_VerifyRS pub inp uid r s = Ret false.
Proof.
  intros Hi Hu HQ D V.
  destruct (SM3Digest_returns pub inp uid Hi Hu) as (h & Eh & _).
  destruct (SM3Digest_returns pub uid inp Hu Hi) as (h' & Eh' & _).
  unfold digests_differ in D. rewrite Eh, Eh' in D. apply negb_true_iff, Z.eqb_neq in D.
  pose proof (C19_method_on_genuine pub inp uid r s h h' Hi Hu HQ Eh Eh' V) as M.
  rewrite C19_method_swaps in M. rewrite C19_method_swaps. rewrite (VerifyRS_digest _ _ _ _ _ _ Eh') in M. rewrite (VerifyRS_digest _ _ _ _ _ _ Eh').
  destruct (verify_total pub h' r s) as [bb Ebb]. rewrite Ebb in M. rewrite Ebb. destruct bb; [|reflexivity].
  exfalso. apply D. symmetry. apply M. reflexivity.
Qed.
Lemma C19_accepts r s : SignRS (repeat 0 40) key1 [97] [98] = Ret (r, s, []) -> bytes_ok [97] -> bytes_ok [98] ->
  VerifyRS (sk_Pub key1) [97] [98] r s = Ret true.
Proof.
  intros E Hi Hu. destruct C12_nonvacuous as (HK & Hd & _).
  destruct (C13_message_rs _ _ _ _ _ _ _ Hi Hu HK Hd E) as (pre & b & Er & Hb & V).
  rewrite V. pose proof (last_block pre b Er Hb) as Eb. rewrite Eb. change (nonce_of (repeat 0 40)) with 1.
  pose proof (sm2_pmul_1 G) as E1. unfold sm2_pmul in E1. rewrite E1. reflexivity.
Qed.
Theorem C19_refuted : exists pub inp uid r s, bytes_ok inp /\ bytes_ok uid /\
  VerifyRS pub inp uid r s = Ret true /\ PublicKey_VerifyRS pub inp uid r s = Ret false.
Proof.
  assert (Hi : bytes_ok [97]) by (apply bytes_okb_spec; reflexivity).
  assert (Hu : bytes_ok [98]) by (apply bytes_okb_spec; reflexivity).
  destruct C19_signs as (r & s & E). pose proof (C19_accepts r s E Hi Hu) as V.
  exists (sk_Pub key1), [97], [98], r, s. split; [exact Hi|]. split; [exact Hu|]. split; [exact V|].
  apply C19_method_rejects; [exact Hi|exact Hu|exact G_on|exact C19_digests_differ|exact V].
Qed.
Print Assumptions C19_refuted.

(** ** C20-C22 keys *)
Theorem C20_generate : forall rand priv rest, bytes_ok rand -> GenerateKey rand = Ret (priv, rest) ->
  0 <= sk_D priv < sm2_N /\ keypair priv /\
  (sk_D priv <> 0 -> on_sm2 (PA (pk_X (sk_Pub priv)) (pk_Y (sk_Pub priv)))) /\
  exists rejected b, rand = List.concat rejected ++ b ++ rest /\ List.length b = 32%nat /\
    sk_D priv = key_candidate b /\
    Forall (fun c => List.length c = 32%nat /\ sm2_N <= key_candidate c) rejected.
Proof.
  intros rand priv rest Hok E. pose proof (GenerateKey_spec rand Hok) as S. rewrite E in S.
  destruct S as (pre & b & Er & Hb & HF & HD & HR & HP). split; [auto|].
  assert (K : keypair priv) by (unfold keypair; rewrite HP; split; reflexivity).
  split; [exact K|]. split.
  - intros Hnz. destruct K as [-> ->]. pose proof (sm2_pmul_closed (sk_D priv) G G_on) as C. unfold sm2_pmul in C.
    pose proof (sm2_pmul_zero_iff (sk_D priv) ltac:(lia)) as Z0. unfold sm2_pmul in Z0. change sm2_G with G in Z0.
    destruct (sk_D priv ⊗ G) as [|x y].
    + exfalso. apply Hnz. pose proof (proj1 Z0 eq_refl) as Z1. rewrite Z.mod_small in Z1; lia.
    + exact C.
  - exists pre, b. auto.
Qed.
Print Assumptions C20_generate.
Theorem C20_outcomes : forall rand, bytes_ok rand -> GenerateKey rand <> Panic /\
  (forall e, GenerateKey rand = Err e -> e = "EOF"%string \/ e = "unexpected EOF"%string).
Proof.
  intros rand Hok. pose proof (GenerateKey_spec rand Hok) as S. destruct (GenerateKey rand) as [[p r]|e|].
  - split; discriminate.
  - split; [discriminate|]. intros e' [= <-]. exact S.
  - destruct S.
Qed.
Print Assumptions C20_outcomes.
Example C20_nonvacuous : bytes_ok (0 :: 0x42 :: repeat 0 29 ++ [3]) /\
  exists priv, GenerateKey (0 :: 0x42 :: repeat 0 29 ++ [3]) = Ret (priv, []) /\ sk_D priv = 3.
Proof. split; [apply bytes_okb_spec; reflexivity|]. eexists. split; [vm_compute; reflexivity|reflexivity]. Qed.

(** C21: the zero key is returned exactly when the accepted 32-byte block is 00 42 00 ... 00 *)
Theorem C21_zero_key_exactly : forall rand priv rest, bytes_ok rand -> GenerateKey rand = Ret (priv, rest) ->
  (sk_D priv = 0 <-> exists pre, rand = pre ++ (0 :: 0x42 :: repeat 0 30) ++ rest).
Proof.
  intros rand priv rest Hok E. pose proof (GenerateKey_spec rand Hok) as S. rewrite E in S.
  destruct S as (pre & b & Er & Hb & HF & HD & HR & HP). rewrite HD.
  assert (Hbok : bytes_ok b) by (rewrite Er in Hok; apply bytes_ok_app in Hok; destruct Hok as [_ Hok]; apply bytes_ok_app in Hok; tauto).
  rewrite key_candidate_zero by auto. split.
  - intros ->. exists (List.concat pre). auto.
  - intros (pre' & Er'). rewrite Er in Er'. rewrite !app_assoc in Er'.
    assert (L : forall (a a' c : bytes), a ++ c = a' ++ c -> a = a') by (intros a a' c; apply app_inv_tail).
    apply L in Er'. 
    assert (HL : List.length (List.concat pre) = List.length pre').
    { apply (f_equal (@List.length Z)) in Er'. rewrite !app_length, Hb in Er'. cbn [List.length] in Er'. rewrite repeat_length in Er'. lia. }
    apply app_inj_len in Er'; auto. tauto.
Qed.
Print Assumptions C21_zero_key_exactly.
Theorem C21_refuted : exists rand priv, bytes_ok rand /\ GenerateKey rand = Ret (priv, []) /\
  sk_D priv = 0 /\ sk_Pub priv = mkPub SM2P256V1_id 0 0.
Proof.
  exists (0 :: 0x42 :: repeat 0 30). eexists. split; [apply bytes_okb_spec; reflexivity|].
  split; [vm_compute; reflexivity|]. split; reflexivity.
Qed.
Print Assumptions C21_refuted.

Theorem C22_public_equal : forall a b c : PublicKey,
  (PublicKey_Equal a (Some b) = true <-> a = b) /\
  PublicKey_Equal a None = false /\
  PublicKey_Equal a (Some a) = true /\
  PublicKey_Equal a (Some b) = PublicKey_Equal b (Some a) /\
  (PublicKey_Equal a (Some b) = true -> PublicKey_Equal b (Some c) = true -> PublicKey_Equal a (Some c) = true).
Proof.
  assert (I : forall a b, PublicKey_Equal a (Some b) = true <-> a = b).
  { intros [c1 x1 y1] [c2 x2 y2]. unfold PublicKey_Equal. cbn. rewrite !andb_true_iff, !Z.eqb_eq.
    split; [intros [[-> ->] ->]; reflexivity|intros [= -> -> ->]; auto]. }
  intros a b c. split; [apply I|]. split; [reflexivity|]. split; [apply I; reflexivity|]. split.
  - unfold PublicKey_Equal. rewrite (Z.eqb_sym (pk_X a)), (Z.eqb_sym (pk_Y a)), (Z.eqb_sym (pk_Curve a)). reflexivity.
  - rewrite !I. congruence.
Qed.
Print Assumptions C22_public_equal.
Theorem C22_private_equal : forall a b c : PrivateKey,
  (PrivateKey_Equal a (Some b) = true <->
     pk_Curve (sk_Pub a) = pk_Curve (sk_Pub b) /\ pk_X (sk_Pub a) = pk_X (sk_Pub b) /\
     pk_Y (sk_Pub a) = pk_Y (sk_Pub b) /\ sk_D a = sk_D b) /\
  PrivateKey_Equal a None = false /\
  PrivateKey_Equal a (Some a) = true /\
  PrivateKey_Equal a (Some b) = PrivateKey_Equal b (Some a) /\
  (PrivateKey_Equal a (Some b) = true -> PrivateKey_Equal b (Some c) = true -> PrivateKey_Equal a (Some c) = true) /\
  (PrivateKey_Equal a (Some b) = true -> PublicKey_Equal (Public a) (Some (Public b)) = true).
Proof.
  intros a b c.
  assert (I : forall a b, PrivateKey_Equal a (Some b) = true <-> a = b).
  { intros [p1 d1] [p2 d2]. unfold PrivateKey_Equal. cbn [sk_Pub sk_D]. rewrite andb_true_iff, Z.eqb_eq.
    rewrite (proj1 (C22_public_equal p1 p2 p2)). split; [intros [-> ->]; reflexivity|intros [= -> ->]; auto]. }
  split. { rewrite I. split; [intros ->; auto|]. destruct a as [[c1 x1 y1] d1], b as [[c2 x2 y2] d2]. cbn. intuition congruence. }
  split; [reflexivity|]. split; [apply I; reflexivity|]. split.
  - destruct (PrivateKey_Equal a (Some b)) eqn:E1, (PrivateKey_Equal b (Some a)) eqn:E2; auto.
    + apply I in E1. symmetry in E1. apply I in E1. congruence.
    + apply I in E2. symmetry in E2. apply I in E2. congruence.
  - split; [rewrite !I; congruence|]. rewrite I. intros ->. apply C22_public_equal; exact (Public b).
Qed.
Print Assumptions C22_private_equal.
Example C22_distinguishes : PrivateKey_Equal (mkPriv (mkPub 0 1 2) 3) (Some (mkPriv (mkPub 0 1 2) 4)) = false.
Proof. reflexivity. Qed.
