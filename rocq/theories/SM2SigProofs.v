(** * Proofs about signatures, digests and keys (sm2.go) *)
From Coq Require Import Znumtheory.
From Verif Require Import Base SM3Spec SM3Model SM3Proofs ECSpec ECModel NumTheory Primes ECProofs BaseOrder CryptoByte SM2Spec SM2Model.
From Coq Require Import ZifyBool ZifyNat.
Open Scope Z_scope.

(** ** DER signatures *)
Definition sig_content (r s : Z) : bytes :=
  tlv T_INTEGER (bigint_content r) ++ tlv T_INTEGER (bigint_content s).
(** sizes the encoder and decoder both support: the two INTEGER elements take less than 2^32-6 bytes *)
Definition sig_fits (r s : Z) : Prop := zlen (sig_content r s) <= max_content.

Lemma tag_INTEGER : tag_ok T_INTEGER. Proof. now compute. Qed.
Lemma tag_SEQUENCE : tag_ok T_SEQUENCE. Proof. now compute. Qed.
Lemma tlv_zlen_ge tag c : zlen c <= zlen (tlv tag c).
Proof. unfold tlv. rewrite zlen_cons, zlen_app. pose proof (zlen_nonneg match der_len (zlen c) with Some l => l | None => [] end). lia. Qed.
Lemma sig_fits_parts r s : sig_fits r s -> zlen (bigint_content r) <= max_content /\ zlen (bigint_content s) <= max_content.
Proof.
  unfold sig_fits, sig_content. rewrite zlen_app. intros H.
  pose proof (tlv_zlen_ge T_INTEGER (bigint_content r)). pose proof (tlv_zlen_ge T_INTEGER (bigint_content s)).
  pose proof (zlen_nonneg (tlv T_INTEGER (bigint_content r))). pose proof (zlen_nonneg (tlv T_INTEGER (bigint_content s))). lia.
Qed.
Lemma MarshalSign_eq r s : sig_fits r s -> MarshalSign r s = Ret (tlv T_SEQUENCE (sig_content r s)).
Proof.
  intros H. pose proof (sig_fits_parts _ _ H) as [Hr Hs]. unfold max_content in *.
  unfold MarshalSign, addBigInt. rewrite !addASN1_tlv; try apply tag_INTEGER; try lia. cbn [bind].
  apply addASN1_tlv; [apply tag_SEQUENCE|]. unfold sig_fits, max_content in H. fold (sig_content r s). lia.
Qed.
Lemma MarshalSign_inv r s sig : MarshalSign r s = Ret sig -> sig = tlv T_SEQUENCE (sig_content r s).
Proof.
  unfold MarshalSign, addBigInt. destruct (addASN1 T_INTEGER (bigint_content r)) eqn:E1; cbn [bind]; try discriminate.
  destruct (addASN1 T_INTEGER (bigint_content s)) eqn:E2; cbn [bind]; try discriminate.
  intros E3. apply addASN1_inv in E1, E2, E3. destruct E1 as [-> _], E2 as [-> _]. apply E3.
Qed.
Theorem sign_roundtrip r s : sig_fits r s ->
  exists sig, MarshalSign r s = Ret sig /\ UnmarshalSign sig = Ret (r, s).
Proof.
  intros H. exists (tlv T_SEQUENCE (sig_content r s)). split; [apply MarshalSign_eq; auto|].
  unfold UnmarshalSign. pose proof (readASN1_tlv T_SEQUENCE (sig_content r s) [] tag_SEQUENCE H) as R.
  rewrite app_nil_r in R. rewrite R. pose proof (sig_fits_parts _ _ H) as [Hr Hs].
  unfold sig_content. rewrite readBigInt_tlv by auto.
  rewrite <- (app_nil_r (tlv T_INTEGER (bigint_content s))). rewrite readBigInt_tlv by auto. reflexivity.
Qed.
Lemma tlv_content_ok tag c rest : bytes_ok (tlv tag c ++ rest) -> bytes_ok c /\ bytes_ok rest.
Proof.
  intros H. apply bytes_ok_app in H. destruct H as [H1 H2]. split; auto.
  unfold tlv in H1. apply bytes_ok_cons in H1. destruct H1 as [_ H1]. apply bytes_ok_app in H1. tauto.
Qed.
Theorem sign_canonical sig r s : bytes_ok sig -> UnmarshalSign sig = Ret (r, s) ->
  sig_fits r s /\ MarshalSign r s = Ret sig.
Proof.
  intros Hok. unfold UnmarshalSign. destruct (readASN1 T_SEQUENCE sig) as [[inner [|]]|] eqn:E1; try discriminate.
  apply readASN1_inv in E1; auto. destruct E1 as (E1 & _ & Hl). rewrite E1 in Hok.
  pose proof (tlv_content_ok _ _ _ Hok) as [Hin _].
  destruct (readBigInt inner) as [[rx inner2]|] eqn:E2; try discriminate.
  apply readBigInt_inv in E2; auto. destruct E2 as (E2 & _). rewrite E2 in Hin.
  pose proof (tlv_content_ok _ _ _ Hin) as [_ Hin2].
  destruct (readBigInt inner2) as [[sx [|]]|] eqn:E3; try discriminate.
  apply readBigInt_inv in E3; auto. destruct E3 as (E3 & _). intros [= -> ->].
  rewrite app_nil_r in E1, E3. subst inner2. subst inner.
  assert (F : sig_fits r s) by exact Hl. split; auto. rewrite MarshalSign_eq by auto. rewrite E1. reflexivity.
Qed.
Lemma UnmarshalSign_no_panic sig : UnmarshalSign sig <> Panic.
Proof.
  unfold UnmarshalSign. destruct (readASN1 T_SEQUENCE sig) as [[inner [|]]|]; try discriminate.
  destruct (readBigInt inner) as [[? i2]|]; try discriminate.
  destruct (readBigInt i2) as [[? [|]]|]; discriminate.
Qed.
Theorem MarshalSign_inj r s r' s' sig : sig_fits r s -> sig_fits r' s' ->
  MarshalSign r s = Ret sig -> MarshalSign r' s' = Ret sig -> r = r' /\ s = s'.
Proof.
  intros F F' E E'. destruct (sign_roundtrip r s F) as (x & X1 & X2). destruct (sign_roundtrip r' s' F') as (x' & X1' & X2').
  rewrite E in X1. rewrite E' in X1'. injection X1 as <-. injection X1' as <-. rewrite X2 in X2'. injection X2'. auto.
Qed.
Lemma fits_range r s : 0 <= r < sm2_N -> 0 <= s < sm2_N -> sig_fits r s.
Proof.
  intros Hr Hs. unfold sig_fits, sig_content, max_content. rewrite zlen_app.
  assert (HN : sm2_N < 2 ^ (8 * 33 - 1)) by reflexivity.
  pose proof (bigint_content_zlen r 33 ltac:(lia) ltac:(lia)). pose proof (bigint_content_zlen s 33 ltac:(lia) ltac:(lia)).
  rewrite !tlv_zlen_small by lia. lia.
Qed.

(** ** SM3Digest *)
Lemma dWrite_rep d m p : Rep d m -> bytes_ok p -> exists d', dWrite d p = Ret d' /\ Rep d' (m ++ p).
Proof.
  intros H Hp. destruct (write_rep d m p H Hp) as (d' & E & R). exists d'. unfold dWrite. rewrite E. auto.
Qed.
Lemma Sum_method_rep d m : Rep d m -> sm3_Sum_method d [] = Ret (SM3 m).
Proof. intros H. unfold sm3_Sum_method. rewrite (checkSum_spec d m H). reflexivity. Qed.
Lemma append32 x : 0 <= x < 2 ^ 256 -> appendBigIntTo32Bytes x = b32 x.
Proof.
  intros H. unfold appendBigIntTo32Bytes, b32. rewrite big_bytes_length, Z.abs_eq by lia.
  assert (Hn : (nbytes x <= 32)%nat) by (apply nbytes_le; change (256 ^ Z.of_nat 32) with (2 ^ 256); lia).
  unfold big_bytes. rewrite Z.abs_eq by lia.
  destruct (Nat.ltb_spec (nbytes x) 32).
  - rewrite <- (Z_to_be_pad (nbytes x) (32 - nbytes x) x). { f_equal. lia. }
    split; [lia|]. apply nbytes_upper; lia.
  - f_equal. lia.
Qed.
Lemma append32_ok x : bytes_ok (appendBigIntTo32Bytes x).
Proof.
  unfold appendBigIntTo32Bytes. destruct (_ <? _)%nat; [|apply big_bytes_ok].
  apply bytes_ok_app; split; [apply bytes_ok_repeat; unfold byte_ok; lia|apply big_bytes_ok].
Qed.
Lemma entl_bytes n : 0 <= n < 2 ^ 16 -> [Z.land (Z.shiftr n 8) 255] ++ [Z.land n 255] = Z_to_be 2 n.
Proof.
  intros H. change 255 with (Z.ones 8). rewrite !Z.land_ones, Z.shiftr_div_pow2 by lia. reflexivity.
Qed.
(** what SM3Digest computes, for every key and user id *)
Definition default_id (uid : bytes) : bytes := match uid with [] => sm2SignDefaultUserId | _ => uid end.
Lemma SM3Digest_general pub msg uid : bytes_ok msg -> bytes_ok uid ->
  SM3Digest pub msg uid =
  Ret (SM3 (SM3 (Z_to_be 2 ((8 * zlen (default_id uid)) mod 2 ^ 16) ++ default_id uid ++
     b32 sm2_A ++ b32 sm2_B ++ b32 sm2_Gx ++ b32 sm2_Gy ++
     appendBigIntTo32Bytes (pk_X pub) ++ appendBigIntTo32Bytes (pk_Y pub)) ++ msg)).
Proof.
  intros Hm Hu. unfold SM3Digest. fold (default_id uid).
  assert (Hid : bytes_ok (default_id uid)).
  { unfold default_id. destruct uid; auto. apply bytes_okb_spec. reflexivity. }
  set (id := default_id uid) in *. clearbody id. unfold z.
  set (L := (zlen id * 8) mod 2 ^ 16).
  assert (HL : 0 <= L < 2 ^ 16) by (apply Z.mod_pos_bound; lia).
  pose proof (entl_bytes L HL) as HE.
  pose proof (rep_reset _ _ new_rep) as R0.
  assert (Hb : forall x, bytes_ok [Z.land x 255]).
  { intros x. apply bytes_ok_cons; split; auto. change 255 with (Z.ones 8). rewrite Z.land_ones by lia.
    unfold byte_ok. apply Z.mod_pos_bound. lia. }
  destruct (dWrite_rep _ _ _ R0 (Hb (Z.shiftr L 8))) as (d1 & E1 & R1). rewrite E1. cbn [bind]. clear E1.
  destruct (dWrite_rep _ _ _ R1 (Hb L)) as (d2 & E2 & R2). rewrite E2. cbn [bind]. clear E2.
  destruct (dWrite_rep _ _ _ R2 Hid) as (d3 & E3 & R3). rewrite E3. cbn [bind]. clear E3.
  destruct (dWrite_rep _ _ _ R3 (big_bytes_ok sm2_A)) as (d4 & E4 & R4). rewrite E4. cbn [bind]. clear E4.
  destruct (dWrite_rep _ _ _ R4 (big_bytes_ok sm2_B)) as (d5 & E5 & R5). rewrite E5. cbn [bind]. clear E5.
  destruct (dWrite_rep _ _ _ R5 (big_bytes_ok sm2_Gx)) as (d6 & E6 & R6). rewrite E6. cbn [bind]. clear E6.
  destruct (dWrite_rep _ _ _ R6 (big_bytes_ok sm2_Gy)) as (d7 & E7 & R7). rewrite E7. cbn [bind]. clear E7.
  destruct (dWrite_rep _ _ _ R7 (append32_ok (pk_X pub))) as (d8 & E8 & R8). rewrite E8. cbn [bind]. clear E8.
  destruct (dWrite_rep _ _ _ R8 (append32_ok (pk_Y pub))) as (d9 & E9 & R9). rewrite E9. cbn [bind]. clear E9.
  rewrite (Sum_method_rep _ _ R9). cbn [bind].
  pose proof (rep_reset _ _ R9) as R10.
  match type of R9 with Rep _ ?m => set (M := m) in * end.
  destruct (dWrite_rep _ _ _ R10 (SM3_ok M)) as (d11 & E11 & R11). rewrite E11. cbn [bind]. clear E11.
  destruct (dWrite_rep _ _ _ R11 Hm) as (d12 & E12 & R12). rewrite E12. cbn [bind]. clear E12.
  rewrite (Sum_method_rep _ _ R12). cbn [app].
  replace (8 * zlen id) with (zlen id * 8) by lia. fold L. rewrite <- HE.
  change (b32 sm2_A) with (big_bytes sm2_A). change (b32 sm2_B) with (big_bytes sm2_B).
  change (b32 sm2_Gx) with (big_bytes sm2_Gx). change (b32 sm2_Gy) with (big_bytes sm2_Gy).
  unfold M. rewrite <- !app_assoc. reflexivity.
Qed.
Lemma SM3Digest_returns pub msg uid : bytes_ok msg -> bytes_ok uid ->
  exists h, SM3Digest pub msg uid = Ret h /\ List.length h = 32%nat /\ bytes_ok h.
Proof.
  intros Hm Hu. rewrite SM3Digest_general by auto. eexists. split; [reflexivity|]. split; [apply SM3_length|apply SM3_ok].
Qed.
Theorem SM3Digest_correct pub msg uid :
  0 <= pk_X pub < 2 ^ 256 -> 0 <= pk_Y pub < 2 ^ 256 -> bytes_ok msg -> bytes_ok uid -> uid <> [] ->
  zlen uid < 8192 ->
  SM3Digest pub msg uid = Ret (sm2_digest uid (pk_X pub) (pk_Y pub) msg).
Proof.
  intros Hx Hy Hm Hu Hne Hl. rewrite SM3Digest_general by auto.
  assert (default_id uid = uid) as -> by (destruct uid; [congruence|reflexivity]).
  rewrite !append32 by auto. pose proof (zlen_nonneg uid).
  rewrite Z.mod_small by lia. reflexivity.
Qed.
Lemma SM3Digest_default pub msg : SM3Digest pub msg [] = SM3Digest pub msg sm2SignDefaultUserId.
Proof.
  unfold SM3Digest.
  change (match sm2SignDefaultUserId with [] => sm2SignDefaultUserId | _ :: _ => sm2SignDefaultUserId end) with sm2SignDefaultUserId.
  cbv iota. reflexivity.
Qed.

(** ** nonces *)
Lemma sm2_N_gt : 2 ^ 255 < sm2_N. Proof. reflexivity. Qed.
Lemma nonce_range b : 1 <= nonce_of b < sm2_N.
Proof. unfold nonce_of. pose proof (Z.mod_pos_bound (be_to_Z b) (sm2_N - 1) ltac:(now compute)). lia. Qed.
Lemma nextk_full b rest : List.length b = 40%nat -> nextk (b ++ rest) = Ret (nonce_of b, rest).
Proof.
  intros H. unfold nextk, ReadFull. change (Z.to_nat (sm2_BitSize / 8 + 8)) with 40%nat.
  rewrite app_length. rewrite (proj2 (Nat.leb_le _ _)) by lia. cbn [bind].
  rewrite firstn_app_exact, skipn_app_exact by auto. reflexivity.
Qed.
Lemma nextk_short rand : (List.length rand < 40)%nat -> nextk rand = Err "EOF" \/ nextk rand = Err "unexpected EOF".
Proof.
  intros H. unfold nextk, ReadFull. change (Z.to_nat (sm2_BitSize / 8 + 8)) with 40%nat.
  rewrite (proj2 (Nat.leb_gt _ _)) by lia. destruct rand; auto.
Qed.
Lemma nextk_cases rand : 
  (exists b rest, rand = b ++ rest /\ List.length b = 40%nat /\ nextk rand = Ret (nonce_of b, rest)) \/
  ((List.length rand < 40)%nat /\ (nextk rand = Err "EOF" \/ nextk rand = Err "unexpected EOF")).
Proof.
  destruct (Nat.le_gt_cases 40 (List.length rand)) as [H|H].
  - left. exists (firstn 40 rand), (skipn 40 rand). rewrite firstn_skipn.
    assert (List.length (firstn 40 rand) = 40%nat) by (rewrite firstn_length; lia).
    split; [auto|]. split; [auto|]. rewrite <- (firstn_skipn 40 rand) at 1. apply nextk_full; auto.
  - right. split; auto. apply nextk_short; auto.
Qed.
Lemma reads_cons b rest : List.length b = 40%nat -> reads (b ++ rest) = b :: reads rest.
Proof.
  intros H. 
  assert (F : forall f1 f2 l, (List.length l <= f1)%nat -> (List.length l <= f2)%nat -> blocks40 f1 l = blocks40 f2 l).
  { induction f1; intros f2 l H1 H2.
    - destruct l; cbn in H1; [|lia]. destruct f2; reflexivity.
    - destruct f2; [destruct l; cbn in H2; [reflexivity|lia]|].
      cbn [blocks40]. destruct (Nat.leb_spec 40 (List.length l)); [|reflexivity].
      f_equal. apply IHf1; rewrite skipn_length; lia. }
  unfold reads. rewrite (F _ (S (List.length (b ++ rest))) (b ++ rest)) by lia.
  set (n := List.length (b ++ rest)). cbn [blocks40]. unfold n. rewrite app_length, H.
  rewrite (proj2 (Nat.leb_le _ _)) by lia. rewrite firstn_app_exact, skipn_app_exact by auto.
  f_equal. apply F; lia.
Qed.
Lemma reads_short l : (List.length l < 40)%nat -> reads l = [].
Proof.
  intros H. unfold reads. destruct (List.length l) as [|n] eqn:E; [reflexivity|]. cbn [blocks40]. rewrite E.
  rewrite (proj2 (Nat.leb_gt _ _)) by lia. reflexivity.
Qed.

(** ** signing *)
Lemma fst_enc A : fst (enc A) = xcoord A. Proof. destruct A; reflexivity. Qed.
Lemma snd_enc A : snd (enc A) = ycoord A. Proof. destruct A; reflexivity. Qed.
Lemma base_mult_big k : 0 <= k -> sm2_ScalarBaseMult (big_bytes k) = Ret (enc (k ⊗ G)).
Proof.
  intros H. pose proof (sm2_ScalarBaseMult_correct (big_bytes k) (big_bytes_ok k)) as E.
  rewrite be_to_Z_big_bytes, Z.abs_eq in E by auto. exact E.
Qed.

(** the sequential reading of a stream: [consumes rand n rest] = after n reads of 40 bytes *)
Definition is_usable (e k : Z) : bool :=
  negb ((e + xcoord (k ⊗ G)) mod sm2_N =? 0) && negb ((e + xcoord (k ⊗ G)) mod sm2_N + k =? sm2_N).
Lemma is_usable_spec e k : is_usable e k = true <-> usable e k.
Proof.
  unfold is_usable, usable. rewrite andb_true_iff, !negb_true_iff, !Z.eqb_neq. tauto.
Qed.

Lemma sign_inner_spec fuel e rand : (List.length rand < fuel)%nat ->
  match sign_inner fuel e rand with
  | Ret (k, r, rest) => exists pre b, rand = pre ++ b ++ rest /\ List.length b = 40%nat /\ k = nonce_of b /\
       r = (e + xcoord (k ⊗ G)) mod sm2_N /\ is_usable e k = true /\
       reads rand = reads pre ++ b :: reads rest /\
       (40 | Z.of_nat (List.length pre)) /\
       Forall (fun b => is_usable e (nonce_of b) = false) (reads pre)
  | Err s => (s = "EOF" \/ s = "unexpected EOF")%string /\
       Forall (fun b => is_usable e (nonce_of b) = false) (reads rand)
  | Panic => False
  end.
Proof.
  revert rand. induction fuel as [|fuel IH]; intros rand Hf; [lia|]. cbn [sign_inner].
  destruct (nextk_cases rand) as [(b & rest & -> & Hb & E)|(Hs & E)].
  2:{ rewrite (reads_short _ Hs). destruct E as [-> | ->]; cbn [bind]; auto. }
  rewrite E. cbn [bind]. set (k := nonce_of b) in *. pose proof (nonce_range b) as Hk. fold k in Hk.
  rewrite base_mult_big by lia. cbn [bind]. rewrite fst_enc.
  fold (is_usable e k). destruct (is_usable e k) eqn:U.
  - exists [], b. cbn [app]. split; [reflexivity|]. repeat split; auto.
    + rewrite reads_cons by auto. reflexivity.
    + exists 0. reflexivity.
    + rewrite reads_short by (cbn; lia). constructor.
  - rewrite app_length in Hf.
    specialize (IH rest ltac:(lia)). destruct (sign_inner fuel e rest) as [[[k' r'] rest']|s|]; [| |exact IH].
    + destruct IH as (pre & b' & -> & Hb' & Hk' & Hr & HU & HR & HD & HF).
      exists (b ++ pre), b'. rewrite <- app_assoc. split; [reflexivity|]. repeat split; auto.
      * rewrite (reads_cons b (pre ++ _)), (reads_cons b pre) by auto. rewrite HR. reflexivity.
      * rewrite app_length, Hb, Nat2Z.inj_add. apply Z.divide_add_r; auto. exists 1. reflexivity.
      * rewrite reads_cons by auto. constructor; auto.
    + destruct IH as [IH1 IH2]. split; auto. rewrite reads_cons by auto. constructor; auto.
Qed.

Lemma sign_outer_spec fuel D e rand : (List.length rand < fuel)%nat -> (D + 1) mod sm2_N <> 0 ->
  match sign_outer fuel D e rand with
  | Ret (r, s, rest) => exists pre b, rand = pre ++ b ++ rest /\ List.length b = 40%nat /\
       (40 | Z.of_nat (List.length pre)) /\ is_signature D e (nonce_of b) r s
  | Err s => (s = "EOF" \/ s = "unexpected EOF")%string
  | Panic => False
  end.
Proof.
  intros Hf HD. revert rand Hf. induction fuel as [|fuel IH]; intros rand Hf; [lia|]. cbn [sign_outer].
  pose proof (sign_inner_spec (S (List.length rand)) e rand ltac:(lia)) as HI.
  destruct (sign_inner (S (List.length rand)) e rand) as [[[k r] rest]|s|]; cbn [bind]; [| exact (proj1 HI) |exact HI].
  destruct HI as (pre & b & -> & Hb & Hk & Hr & HU & _ & Hdiv & _).
  destruct (ModInverse_prime (D + 1) sm2_N sm2_N_prime HD) as (i & Ei & Hi1 & Hi2). rewrite Ei.
  set (s := ((k - r * D) * i) mod sm2_N).
  assert (Hs : 0 <= s < sm2_N) by (apply Z.mod_pos_bound; now compute).
  apply is_usable_spec in HU. unfold usable in HU. rewrite <- Hr in HU.
  destruct (Z.eqb_spec s 0) as [Es|Es]; cbn [negb].
  - rewrite !app_length in Hf. specialize (IH rest ltac:(lia)).
    destruct (sign_outer fuel D e rest) as [[[r' s'] rest']|s'|]; [| exact IH | exact IH].
    destruct IH as (pre' & b' & -> & Hb' & Hdiv' & HS).
    exists (pre ++ b ++ pre'), b'. rewrite <- !app_assoc. split; [reflexivity|]. repeat split; auto.
    + rewrite !app_length, !Nat2Z.inj_add. rewrite Hb. apply Z.divide_add_r; auto. apply Z.divide_add_r; auto. exists 1; reflexivity.
    + apply HS. + apply HS. + apply HS. + apply HS. + apply HS. + apply HS. + apply HS. + apply HS.
  - exists pre, b. split; [reflexivity|]. split; [auto|]. split; [auto|].
    split; [apply nonce_range|]. rewrite <- Hk. split; [exact Hr|]. destruct HU as [HU1 HU2].
    split; [auto|]. split; [auto|]. split; [lia|].
    unfold s. rewrite Z.mul_mod_idemp_r by (now compute).
    replace ((1 + D) * ((k - r * D) * i)) with ((k - r * D) * (i * (D + 1))) by ring.
    rewrite (Zmult_mod _ (i * (D + 1))), Hi2, Z.mul_1_r, Zmod_mod. reflexivity.
Qed.

Lemma sign_outer_bad fuel D e rand : (0 < fuel)%nat -> (D + 1) mod sm2_N = 0 ->
  (exists b, In b (reads rand) /\ usable e (nonce_of b) /\ sign_outer fuel D e rand = Panic) \/
  (Forall (fun b => ~ usable e (nonce_of b)) (reads rand) /\ exists s, sign_outer fuel D e rand = Err s).
Proof.
  intros Hf HD. destruct fuel as [|fuel]; [lia|]. cbn [sign_outer].
  pose proof (sign_inner_spec (S (List.length rand)) e rand ltac:(lia)) as HI.
  destruct (sign_inner (S (List.length rand)) e rand) as [[[k r] rest]|s|]; cbn [bind].
  - destruct HI as (pre & b & _ & _ & -> & _ & HU & HR & _). left. exists b. apply is_usable_spec in HU.
    split; [|split; [auto|]].
    + rewrite HR. apply in_or_app. right. left. reflexivity.
    + rewrite ModInverse_zero; auto. now compute.
  - right. destruct HI as [_ HI]. split; [|eauto]. eapply Forall_impl; [|exact HI]. cbn. intros b Hb U.
    apply is_usable_spec in U. congruence.
  - destruct HI.
Qed.

Theorem sign_digest_spec rand priv dg : (sk_D priv + 1) mod sm2_N <> 0 ->
  match SignDigestRS rand priv dg with
  | Ret (r, s, rest) => exists pre b, rand = pre ++ b ++ rest /\ List.length b = 40%nat /\
       (40 | Z.of_nat (List.length pre)) /\ is_signature (sk_D priv) (be_to_Z dg) (nonce_of b) r s
  | Err s => (s = "EOF" \/ s = "unexpected EOF")%string
  | Panic => False
  end.
Proof. intros H. apply sign_outer_spec; auto. Qed.

(** a returned signature is a signature, whatever the key *)
Lemma sign_digest_ret rand priv dg r s rest : SignDigestRS rand priv dg = Ret (r, s, rest) ->
  exists pre b, rand = pre ++ b ++ rest /\ List.length b = 40%nat /\
       (40 | Z.of_nat (List.length pre)) /\ is_signature (sk_D priv) (be_to_Z dg) (nonce_of b) r s.
Proof.
  intros E. destruct (Z.eq_dec ((sk_D priv + 1) mod sm2_N) 0) as [H0|H0].
  - exfalso. pose proof (sign_outer_bad (S (List.length rand)) (sk_D priv) (be_to_Z dg) rand ltac:(lia) H0) as B.
    unfold SignDigestRS in E. change (sm2_N =? 0) with false in E. cbv iota zeta in E.
    destruct B as [(b & _ & _ & B)|(_ & s' & B)]; rewrite B in E; discriminate.
  - pose proof (sign_digest_spec rand priv dg H0) as S. rewrite E in S. exact S.
Qed.

(** ** the algebra of SM2 signatures *)
Lemma Npos : 0 < sm2_N. Proof. now compute. Qed.
Lemma prime_mul_zero a b : (a * b) mod sm2_N = 0 -> a mod sm2_N = 0 \/ b mod sm2_N = 0.
Proof.
  intros H. pose proof Npos. apply Zmod_divide in H; [|lia].
  apply prime_mult in H; [|exact sm2_N_prime]. destruct H as [H|H]; [left|right]; apply Zdivide_mod; auto.
Qed.
Lemma cong_of_mod n a b : a mod n = b mod n -> exists q, a = b + q * n.
Proof. 
  intros H. destruct (Z.eq_dec n 0) as [->|Hn]. { rewrite !Zmod_0_r in H. exists 0. lia. }
  exists (a / n - b / n). pose proof (Z.div_mod a n Hn). pose proof (Z.div_mod b n Hn). nia.
Qed.
Lemma mod_of_cong n a b q : a = b + q * n -> a mod n = b mod n.
Proof. intros ->. apply Z_mod_plus_full. Qed.

Lemma signature_t_nonzero D e k r s : is_signature D e k r s -> (r + s) mod sm2_N <> 0.
Proof.
  intros (Hk & Hr & Hr0 & Hrk & Hs & E) H.
  assert (Hrb : 0 <= r < sm2_N) by (rewrite Hr; apply Z.mod_pos_bound; apply Npos).
  apply cong_of_mod in E. destruct E as [q E].
  apply Zmod_divide in H; [|pose proof Npos; lia]. destruct H as [q' H].
  assert (K : k + r = ((1 + D) * q' - q) * sm2_N).
  { replace (k + r) with ((1 + D) * (r + s) - q * sm2_N) by lia. rewrite H. ring. }
  pose proof Npos. assert ((1 + D) * q' - q = 1) by nia. nia.
Qed.
Lemma signature_range D e k r s : is_signature D e k r s -> 1 <= r < sm2_N /\ 1 <= s < sm2_N.
Proof.
  intros (Hk & Hr & Hr0 & Hrk & Hs & E).
  assert (Hrb : 0 <= r < sm2_N) by (rewrite Hr; apply Z.mod_pos_bound; apply Npos). lia.
Qed.
Lemma G_on : on_sm2 G. Proof. exact sm2_G_on. Qed.
(** s G + t (d G) for a signature is k G *)
Lemma signature_point d e k r s : 0 <= d -> is_signature d e k r s ->
  (s ⊗ G) ⊕ (((r + s) mod sm2_N) ⊗ (d ⊗ G)) = k ⊗ G.
Proof.
  intros Hd HS. pose proof (signature_range _ _ _ _ _ HS) as [Rr Rs]. destruct HS as (Hk & _ & _ & _ & _ & E).
  pose proof Npos. set (t := (r + s) mod sm2_N).
  assert (Ht : 0 <= t < sm2_N) by (apply Z.mod_pos_bound; lia).
  pose proof (sm2_pmul_mul t d G G_on ltac:(lia) ltac:(lia)) as E1. unfold sm2_pmul in E1. rewrite <- E1.
  pose proof (sm2_pmul_add s (t * d) G G_on ltac:(lia) ltac:(nia)) as E2. unfold sm2_pmul, sm2_padd in E2. rewrite <- E2.
  pose proof (proj2 (sm2_pmul_cong (s + t * d) k ltac:(nia) ltac:(lia))) as E3. apply E3.
  apply cong_of_mod in E. destruct E as [q E].
  assert (E4 : t mod sm2_N = (r + s) mod sm2_N) by (unfold t; apply Zmod_mod). apply cong_of_mod in E4. destruct E4 as [q' E4].
  apply (mod_of_cong _ _ _ (q + q' * d)). rewrite E4. nia.
Qed.
(** a multiple kG with k not 0 mod n is finite and has a non-zero y coordinate *)
Lemma kG_y_nonzero k : 0 <= k -> k mod sm2_N <> 0 -> ycoord (k ⊗ G) <> 0.
Proof.
  intros Hk Hk0 Hy. pose proof (sm2_pmul_closed k G G_on) as Hc.
  pose proof (sm2_pmul_zero_iff k Hk) as Z1. unfold sm2_pmul in *. fold G in *.
  pose proof (sm2_pmul_add k k G G_on Hk Hk) as E2. unfold sm2_pmul, sm2_padd in E2.
  pose proof (sm2_pmul_zero_iff (k + k) ltac:(lia)) as Z2. unfold sm2_pmul in Z2. change sm2_G with G in *.
  destruct (k ⊗ G) as [|x y] eqn:EG.
  - apply Hk0, Z1. reflexivity.
  - cbn [ycoord] in Hy. subst y.
    assert (E3 : PA x 0 ⊕ PA x 0 = PO).
    { pose proof (sm2_padd_neg (PA x 0) Hc) as E. unfold sm2_padd, pneg in E. exact E. }
    rewrite E3 in E2. apply Z2 in E2.
    replace (k + k) with (2 * k) in E2 by lia. apply prime_mul_zero in E2.
    destruct E2 as [E2|E2]; [|auto]. vm_compute in E2. discriminate.
Qed.

(** ** verification *)
Lemma verify_total pub dg r s : exists b, VerifyDigestRS pub dg r s = Ret b.
Proof.
  unfold VerifyDigestRS. destruct ((r <? 1) || (sm2_N <=? r)); [eauto|].
  destruct ((s <? 1) || (sm2_N <=? s)); [eauto|]. destruct ((r + s) mod sm2_N =? 0); [eauto|].
  unfold sm2_ScalarBaseMult.
  destruct (sm2_ScalarMult_returns sm2_Gx sm2_Gy (big_bytes s)) as (A & EA & _). rewrite EA. cbn [bind].
  destruct (sm2_ScalarMult_returns (pk_X pub) (pk_Y pub) (big_bytes ((r + s) mod sm2_N))) as (B & EB & _). rewrite EB. cbn [bind].
  destruct (sm2_Add_returns (fst (enc A)) (snd (enc A)) (fst (enc B)) (snd (enc B))) as (C & EC & _). rewrite EC. cbn [bind].
  destruct ((fst (enc C) =? 0) || (snd (enc C) =? 0)); eauto.
Qed.
Theorem verify_rejects_range pub dg r s :
  ~ (1 <= r < sm2_N) \/ ~ (1 <= s < sm2_N) \/ (r + s) mod sm2_N = 0 -> VerifyDigestRS pub dg r s = Ret false.
Proof.
  intros H. unfold VerifyDigestRS.
  destruct (Z.ltb_spec r 1); [reflexivity|]. destruct (Z.leb_spec sm2_N r); [reflexivity|].
  destruct (Z.ltb_spec s 1); [reflexivity|]. destruct (Z.leb_spec sm2_N s); [reflexivity|]. cbn [orb].
  destruct (Z.eqb_spec ((r + s) mod sm2_N) 0); [reflexivity|]. exfalso. lia.
Qed.
Definition pub_point (pub : PublicKey) : pt := PA (pk_X pub) (pk_Y pub).
Definition verify_point (Q : pt) (r s : Z) : pt := (s ⊗ G) ⊕ (((r + s) mod sm2_N) ⊗ Q).
Theorem verify_exact pub dg r s : on_sm2 (pub_point pub) ->
  VerifyDigestRS pub dg r s = Ret true <->
  (accepts (pub_point pub) (be_to_Z dg) r s /\
   xcoord (verify_point (pub_point pub) r s) <> 0 /\ ycoord (verify_point (pub_point pub) r s) <> 0).
Proof.
  intros HQ. unfold accepts. fold (verify_point (pub_point pub) r s). unfold VerifyDigestRS.
  destruct (Z.ltb_spec r 1); [split; [discriminate|intros; lia]|].
  destruct (Z.leb_spec sm2_N r); [split; [discriminate|intros; lia]|].
  destruct (Z.ltb_spec s 1); [split; [discriminate|intros; lia]|].
  destruct (Z.leb_spec sm2_N s); [split; [discriminate|intros; lia]|]. cbn [orb].
  destruct (Z.eqb_spec ((r + s) mod sm2_N) 0) as [Ht|Ht].
  { split; [discriminate|]. intros ((_ & _ & Ht' & _) & _). cbv zeta in Ht'. congruence. }
  rewrite base_mult_big by lia. cbn [bind].
  pose proof (Z.mod_pos_bound (r + s) sm2_N Npos) as Htb. set (t := (r + s) mod sm2_N) in *.
  pose proof (sm2_ScalarMult_correct (pk_X pub) (pk_Y pub) (big_bytes t) HQ (big_bytes_ok t)) as E2.
  rewrite be_to_Z_big_bytes, Z.abs_eq in E2 by lia. rewrite E2. cbn [bind].
  fold (pub_point pub).
  pose proof (sm2_pmul_closed s G G_on) as C1. pose proof (sm2_pmul_closed t _ HQ) as C2.
  pose proof (sm2_Add_correct _ _ C1 C2) as E3. unfold sm2_pmul, sm2_padd in E3. fold G in E3.
  change (PA (pk_X pub) (pk_Y pub)) with (pub_point pub) in E3. unfold sm2_pmul. rewrite E3. cbn [bind]. clear E2 E3 C1 C2.
  unfold verify_point. fold t. set (R := (s ⊗ G) ⊕ (t ⊗ pub_point pub)). rewrite fst_enc, snd_enc. clearbody R.
  destruct (Z.eqb_spec (xcoord R) 0) as [Hx|Hx]; [split; [discriminate|intros; tauto]|].
  destruct (Z.eqb_spec (ycoord R) 0) as [Hy|Hy]; [split; [discriminate|intros; tauto]|]. cbn [orb].
  rewrite (Z.add_comm (xcoord R)).
  split.
  - intros [= E]. apply Z.eqb_eq in E. repeat split; auto; try lia. intros ->. apply Hx. reflexivity.
  - intros ((_ & _ & _ & _ & E) & _). rewrite E, Z.eqb_refl. reflexivity.
Qed.

(** a signature verifies, except when the nonce point has x coordinate 0 *)
Theorem signature_verifies d dg k r s cv : 1 <= d < sm2_N ->
  is_signature d (be_to_Z dg) k r s ->
  VerifyDigestRS (mkPub cv (xcoord (d ⊗ G)) (ycoord (d ⊗ G))) dg r s = Ret (negb (xcoord (k ⊗ G) =? 0)).
Proof.
  intros Hd HS. pose proof (sm2_pmul_closed d G G_on) as HQ.
  pose proof (sm2_pmul_zero_iff d ltac:(lia)) as HZ. unfold sm2_pmul in HQ, HZ. change sm2_G with G in HZ.
  assert (EQ : pub_point (mkPub cv (xcoord (d ⊗ G)) (ycoord (d ⊗ G))) = d ⊗ G).
  { unfold pub_point. cbn [pk_X pk_Y]. destruct (d ⊗ G) eqn:E; [|reflexivity].
    exfalso. pose proof (proj1 HZ eq_refl) as E'. rewrite Z.mod_small in E'; lia. }
  set (pub := mkPub cv (xcoord (d ⊗ G)) (ycoord (d ⊗ G))) in *.
  assert (HQ' : on_sm2 (pub_point pub)) by (rewrite EQ; exact HQ).
  pose proof (verify_exact pub dg r s HQ') as V. rewrite EQ in V.
  pose proof (signature_point d (be_to_Z dg) k r s ltac:(lia) HS) as HP.
  unfold accepts, verify_point in V. cbv zeta in V. rewrite HP in V.
  pose proof (signature_range _ _ _ _ _ HS) as [Rr Rs]. pose proof (signature_t_nonzero _ _ _ _ _ HS) as Ht.
  destruct HS as (Hk & Hr & _).
  assert (Hy : ycoord (k ⊗ G) <> 0) by (apply kG_y_nonzero; [lia|rewrite Z.mod_small; lia]).
  destruct (verify_total pub dg r s) as [bb Eb]. rewrite Eb in V. rewrite Eb. clear Eb.
  destruct (Z.eqb_spec (xcoord (k ⊗ G)) 0) as [Hx|Hx]; cbn [negb].
  - destruct bb; [|reflexivity]. exfalso. apply (proj1 (proj2 (proj1 V eq_refl))). exact Hx.
  - assert (Ret bb = Ret true) as E.
    { apply V. repeat split; auto; try lia. intros E. apply Hx. rewrite E. reflexivity. }
    exact E.
Qed.

(** ** message level *)
Theorem VerifyRS_digest pub inp uid r s h : SM3Digest pub inp uid = Ret h ->
  VerifyRS pub inp uid r s = VerifyDigestRS pub h r s.
Proof. intros E. unfold VerifyRS, VerifyDigestRS. rewrite E. reflexivity. Qed.
Lemma Verify_digest pub inp uid sig h : SM3Digest pub inp uid = Ret h -> Verify pub inp uid sig = VerifyDigest pub h sig.
Proof.
  intros E. unfold Verify, VerifyDigest. destruct (UnmarshalSign sig) as [[r s]| |]; auto. apply VerifyRS_digest; auto.
Qed.
Lemma Sign_digest rand priv inp uid h : SM3Digest (sk_Pub priv) inp uid = Ret h ->
  Sign rand priv inp uid = SignDigest rand priv h /\ SignRS rand priv inp uid = SignDigestRS rand priv h.
Proof. intros E. unfold Sign, SignRS, SignDigest. rewrite E. split; reflexivity. Qed.


(** ** the hash input of Z determines the user id and the key *)
Definition z_input (id : bytes) (x y : Z) : bytes :=
  Z_to_be 2 ((8 * zlen id) mod 2 ^ 16) ++ id ++ b32 sm2_A ++ b32 sm2_B ++ b32 sm2_Gx ++ b32 sm2_Gy ++ b32 x ++ b32 y.
Lemma app_inj_len {A} (a b c d : list A) : List.length a = List.length c -> a ++ b = c ++ d -> a = c /\ b = d.
Proof.
  revert c. induction a as [|x a IH]; intros [|y c] H E; cbn in *; try lia; auto.
  injection E as -> E. destruct (IH c ltac:(lia) E). subst; auto.
Qed.
Lemma b32_len x : List.length (b32 x) = 32%nat. Proof. apply Z_to_be_length. Qed.
Lemma z_input_inj id x y id' x' y' : 
  0 <= x < 2 ^ 256 -> 0 <= y < 2 ^ 256 -> 0 <= x' < 2 ^ 256 -> 0 <= y' < 2 ^ 256 ->
  z_input id x y = z_input id' x' y' -> id = id' /\ x = x' /\ y = y'.
Proof.
  intros Hx Hy Hx' Hy' E. unfold z_input in E.
  assert (Hl : List.length id = List.length id').
  { apply (f_equal (@List.length Z)) in E. rewrite !app_length, !b32_len, !Z_to_be_length in E. lia. }
  apply app_inj_len in E; [|now rewrite !Z_to_be_length]. destruct E as [_ E].
  apply app_inj_len in E; auto. destruct E as [-> E].
  do 4 (apply app_inj_len in E; [|now rewrite !b32_len]; destruct E as [_ E]).
  apply app_inj_len in E; [|now rewrite !b32_len]. destruct E as [E1 E2].
  apply (Z_to_be_inj 32) in E1; auto. apply (Z_to_be_inj 32) in E2; auto.
Qed.

(** ** key generation *)
(** the candidate made from a 32-byte read: byte 1 is flipped with 0x42 *)
Definition key_candidate (b : bytes) : Z :=
  be_to_Z (firstn 1 b ++ [Z.lxor (nth 1 b 0) 0x42] ++ skipn 2 b).
Lemma land_ff b : byte_ok b -> Z.land b 255 = b.
Proof. intros [? ?]. change 255 with (Z.ones 8). rewrite Z.land_ones by lia. apply Z.mod_small. lia. Qed.
Lemma lxor_byte a b : byte_ok a -> byte_ok b -> byte_ok (Z.lxor a b).
Proof.
  intros Ha Hb. pose proof (Words.word_lxor 8 a b ltac:(lia)) as W. unfold Words.word in W. apply W; auto.
Qed.
Lemma gen_step b : bytes_ok b -> List.length b = 32%nat ->
  let p := upd b 0 (Z.land (nth 0 b 0) 255) in
  let p := upd p 1 (Z.lxor (nth 1 p 0) 66) in
  bytes_ok p /\ be_to_Z p = key_candidate b.
Proof.
  intros Hb Hl. destruct b as [|b0 [|b1 b]]; cbn in Hl; try lia.
  apply bytes_ok_cons in Hb. destruct Hb as [H0 Hb]. apply bytes_ok_cons in Hb. destruct Hb as [H1 Hb].
  cbv zeta. cbn [upd nth]. rewrite land_ff by auto. split; [|reflexivity].
  apply bytes_ok_cons; split; auto. apply bytes_ok_cons; split; auto. apply lxor_byte; auto. split; reflexivity || lia.
Qed.
Lemma generate_spec fuel rand : bytes_ok rand -> (List.length rand < fuel)%nat ->
  match elliptic_GenerateKey fuel rand with
  | Ret (d, xy, rest) => exists pre b, rand = List.concat pre ++ b ++ rest /\ List.length b = 32%nat /\
       Forall (fun c => List.length c = 32%nat /\ sm2_N <= key_candidate c) pre /\
       be_to_Z d = key_candidate b /\ 0 <= key_candidate b < sm2_N /\ xy = enc (key_candidate b ⊗ G)
  | Err s => (s = "EOF" \/ s = "unexpected EOF")%string
  | Panic => False
  end.
Proof.
  revert rand. induction fuel as [|fuel IH]; intros rand Hok Hf; [lia|]. cbn [elliptic_GenerateKey]. unfold ReadFull.
  destruct (Nat.leb_spec 32 (List.length rand)) as [H|H].
  2:{ destruct rand; cbn [bind]; auto. }
  cbn [bind]. set (b := firstn 32 rand). set (rest := skipn 32 rand).
  assert (Hb : List.length b = 32%nat) by (unfold b; rewrite firstn_length; lia).
  assert (Hbok : bytes_ok b) by (apply bytes_ok_firstn; auto).
  assert (E : rand = b ++ rest) by (symmetry; apply firstn_skipn).
  destruct (gen_step b Hbok Hb) as [Pok Pv]. 
  set (p0 := upd b 0 (Z.land (nth 0 b 0) 255)) in *. set (p := upd p0 1 (Z.lxor (nth 1 p0 0) 66)) in *.
  pose proof (be_to_Z_nonneg p Pok) as Hnn.
  destruct (Z.leb_spec sm2_N (be_to_Z p)) as [Hge|Hlt].
  - assert (Hrok : bytes_ok rest) by (apply bytes_ok_skipn; auto).
    specialize (IH rest Hrok ltac:(unfold rest; rewrite skipn_length; lia)).
    destruct (elliptic_GenerateKey fuel rest) as [[[d xy] rest']|s|]; [|exact IH|exact IH].
    destruct IH as (pre & b' & E' & Hb' & HF & HS).
    exists (b :: pre), b'. cbn [List.concat]. rewrite <- app_assoc, <- E'. split; [exact E|]. split; [exact Hb'|].
    split; [|exact HS]. constructor; auto. split; auto. rewrite <- Pv. auto.
  - pose proof (sm2_ScalarBaseMult_correct p Pok) as EP. rewrite EP. cbn [bind].
    exists [], b. cbn [List.concat app]. split; [exact E|]. split; [exact Hb|]. split; [constructor|].
    split; [exact Pv|]. split; [lia|]. rewrite Pv. reflexivity.
Qed.
Theorem GenerateKey_spec rand : bytes_ok rand ->
  match GenerateKey rand with
  | Ret (priv, rest) => exists pre b, rand = List.concat pre ++ b ++ rest /\ List.length b = 32%nat /\
       Forall (fun c => List.length c = 32%nat /\ sm2_N <= key_candidate c) pre /\
       sk_D priv = key_candidate b /\ 0 <= sk_D priv < sm2_N /\
       sk_Pub priv = mkPub SM2P256V1_id (xcoord (sk_D priv ⊗ G)) (ycoord (sk_D priv ⊗ G))
  | Err s => (s = "EOF" \/ s = "unexpected EOF")%string
  | Panic => False
  end.
Proof.
  intros Hok. unfold GenerateKey. pose proof (generate_spec (S (List.length rand)) rand Hok ltac:(lia)) as S.
  destruct (elliptic_GenerateKey _ rand) as [[[d xy] rest]|s|]; cbn [bind]; [|exact S|exact S].
  destruct S as (pre & b & E & Hb & HF & Hd & Hr & Exy). exists pre, b. cbn [sk_D sk_Pub].
  rewrite Hd, Exy, fst_enc, snd_enc.
  split; [exact E|]. split; [exact Hb|]. split; [exact HF|]. split; [reflexivity|]. split; [exact Hr|reflexivity].
Qed.
Lemma be_to_Z_zero l : bytes_ok l -> be_to_Z l = 0 -> l = repeat 0 (List.length l).
Proof.
  intros H E. rewrite <- (Z_to_be_be_to_Z l H) at 1. rewrite E. clear. generalize (List.length l). intros n.
  induction n; [reflexivity|]. cbn [Z_to_be repeat]. rewrite Z.div_0_l by lia. rewrite IHn. change (0 mod 256) with 0.
  clear. induction n; [reflexivity|]. cbn [repeat app]. f_equal. exact IHn.
Qed.
Lemma key_candidate_zero b : bytes_ok b -> List.length b = 32%nat ->
  (key_candidate b = 0 <-> b = 0 :: 0x42 :: repeat 0 30).
Proof.
  intros Hb Hl. split; [|intros ->; reflexivity].
  destruct b as [|b0 [|b1 b]]; cbn in Hl; try lia.
  pose proof Hb as Hb'. apply bytes_ok_cons in Hb'. destruct Hb' as [H0 Hb']. apply bytes_ok_cons in Hb'. destruct Hb' as [H1 H2].
  unfold key_candidate. cbn [firstn app nth skipn]. intros E. apply be_to_Z_zero in E.
  - cbn [List.length repeat] in E. injection E as E0 E1 E2. subst b0.
    assert (b1 = 66). { apply Z.lxor_eq in E1. exact E1. }
    subst b1. rewrite E2. repeat f_equal. lia.
  - apply bytes_ok_cons; split; auto. apply bytes_ok_cons; split; auto. apply lxor_byte; auto. split; reflexivity || lia.
Qed.
