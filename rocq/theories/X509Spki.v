(** * Subject public keys: what marshalPublicKey writes, parsePublicKey reads *)
From Coq Require Import String ZifyBool.
From Verif Require Import Base Words ECModel SM2Model CryptoByte Asn1 Asn1Proofs KeysModel KeysProofs X509Model X509Sig PropertiesX509Sig X509CertProofs.
Open Scope Z_scope.

(** public keys that mean something: a positive modulus and exponent, a point of the curve, 32 bytes *)
Definition good_pub (pub : pubKey) : Prop :=
  match pub with
  | PKrsa n e => 0 < n /\ 0 < e < 2 ^ 63
  | PKecdsa id x y => id <> SM2P256V1_id /\ exists c, curve_of id = Some c /\ IsOnCurve (cv_P c) (cv_B c) x y = true
  | PKsm2 k => pk_Curve k = SM2P256V1_id /\ IsOnCurve (cv_P curve_sm2) (cv_B curve_sm2) (pk_X k) (pk_Y k) = true
  | PKed25519 k => List.length k = 32%nat
  | PKdsa _ _ _ _ | PKother => False
  end.
Definition spki_reads (pub : pubKey) (b : bytes) (ai ai' : AI) : Prop :=
  field_rt cAI noP ai ai' /\ ai_alg ai' = ai_alg ai /\ getPublicKeyAlgorithmFromOID (ai_alg ai) = key_family pub /\
  (zlen b < 2 ^ 31 -> forall raw, parsePublicKey (key_family pub) (mkPKI raw ai' (mkBits (Some b) (8 * zlen b))) = Ret pub).
Lemma spki_ec id c x y b ai : curve_of id = Some c -> IsOnCurve (cv_P c) (cv_B c) x y = true -> marshal_ec_pub id x y = Ret (b, ai) ->
  exists ai', field_rt cAI noP ai ai' /\ ai_alg ai' = ai_alg ai /\ getPublicKeyAlgorithmFromOID (ai_alg ai) = ECDSA /\
    (forall raw, parsePublicKey ECDSA (mkPKI raw ai' (mkBits (Some b) (8 * zlen b))) = Ret (if id =? SM2P256V1_id then PKsm2 (mkPub id x y) else PKecdsa id x y)).
Proof.
  intros Hc Hon E. unfold marshal_ec_pub in E. destruct (oidFromNamedCurve id) as [o|] eqn:Ho; [|discriminate].
  destruct (named_curve_cases id o Ho) as (Ook & Hn & _ & ob & f & Eob & Lob & Ef & Lf & Uf & (t & i & El) & Rf & Nf).
  destruct (elliptic_roundtrip id c x y Hc Hon) as (pub & Em & Eu & Lp & _). rewrite Hc, Em in E. cbn [bind] in E. rewrite Ef in E. cbn [bind] in E.
  set (raw := mkRaw 0 0 false None (Some f)) in E. assert (b = pub /\ ai = mkAI oidPublicKeyECDSA raw) as [-> ->] by (split; congruence). clear E.
  assert (Hw : raw_whole raw = Ret f) by (unfold raw_whole, raw; cbn [rv_full sl]; destruct f; [congruence|reflexivity]).
  assert (Hzr : c_iszero cRaw raw = false) by reflexivity. clearbody raw.
  exists (mkAI oidPublicKeyECDSA (rawOf t i f)). split; [apply cAI_rt; [repeat constructor; vm_compute; discriminate|apply frt_params; auto]|]. split; [reflexivity|]. split; [reflexivity|].
  intros raw0. unfold parsePublicKey. cbn [pki_PublicKey pki_Algo ai_params rawOf rv_full sl]. rewrite RightAlign_full, Rf, Hn, Hc, Eu. destruct (id =? SM2P256V1_id); reflexivity.
Qed.
Lemma spki_rsa n e b : 0 < n -> 0 < e < 2 ^ 63 -> Marshal cP1Pub (mkP1Pub (Some n) e) = Ret b -> zlen b < 2 ^ 31 ->
  forall raw, parsePublicKey RSA (mkPKI raw (mkAI oidPublicKeyRSA nullParsed) (mkBits (Some b) (8 * zlen b))) = Ret (PKrsa n e).
Proof.
  intros Hn He Eb Hz raw. unfold parsePublicKey. cbn [pki_PublicKey pki_Algo ai_params]. rewrite RightAlign_full.
  change (negb (bytes_eqb (sl (rv_full nullParsed)) NullBytes)) with false. cbn iota.
  assert (S : exists body, b = tlv T_SEQUENCE body /\ body = tlv T_INTEGER (bigint_content n) ++ tlv T_INTEGER (bigint_content e) ++ [] /\ zlen body <= zlen b /\ zlen (bigint_content n) <= zlen b /\ zlen (bigint_content e) <= zlen b).
  { unfold Marshal in Eb. rewrite present_make in Eb by (try split; reflexivity). cbn [p_set p_tag noP andb] in Eb. cbv zeta in Eb.
    destruct (c_body cP1Pub _ _) as [body| |] eqn:Ebb; cbn [bind] in Eb; try discriminate Eb. assert (b = hdr ClassUniversal (c_tag cP1Pub) (c_comp cP1Pub) (zlen body) ++ body) by congruence. clear Eb.
    exists body. pose proof (zlen_nonneg body). assert (Lb : zlen body <= zlen b) by (subst b; rewrite zlen_app; pose proof (zlen_nonneg (hdr ClassUniversal (c_tag cP1Pub) (c_comp cP1Pub) (zlen body))); lia).
    rewrite hdr_tlv in H by (cbn; unfold TagSequence; lia). split; [exact H|].
    cbn [c_body cP1Pub cStruct f_enc fcons fst snd fnil p1p_N p1p_E] in Ebb.
    destruct (makeField cBig noP (Some n)) as [b1| |] eqn:E1; cbn [bind] in Ebb; try discriminate Ebb. destruct (makeField cInt noP e) as [b2| |] eqn:E2; cbn [bind] in Ebb; try discriminate Ebb.
    assert (Y : body = b1 ++ b2 ++ []) by congruence.
    assert (Z1 : zlen (bigint_content n) <= zlen b1).
    { destruct (make_contains cBig (Some n) (bigint_content n) b1 eq_refl eq_refl E1) as [h ->]. rewrite zlen_app. pose proof (zlen_nonneg h). lia. }
    assert (Z2 : zlen (bigint_content e) <= zlen b2).
    { destruct (make_contains cInt e (bigint_content e) b2 eq_refl eq_refl E2) as [h ->]. rewrite zlen_app. pose proof (zlen_nonneg h). lia. }
    assert (Lbb : zlen b1 + zlen b2 = zlen body) by (subst body; rewrite !zlen_app; change (zlen (@nil Z)) with 0; lia). pose proof (zlen_nonneg b1). pose proof (zlen_nonneg b2).
    apply (make_tlv cBig (Some n) (bigint_content n)) in E1; [|reflexivity|cbn; unfold TagInteger; lia|reflexivity|lia].
    apply (make_tlv cInt e (bigint_content e)) in E2; [|reflexivity|cbn; unfold TagInteger; lia|reflexivity|lia].
    split; [rewrite Y, E1, E2; reflexivity|]. lia. }
  clear Eb. destruct S as (body & -> & -> & L1 & L2 & L3).
  pose proof tag_ok_seq as T1. pose proof tag_ok_int as T2.
  assert (L4 : zlen (tlv T_INTEGER (bigint_content n) ++ tlv T_INTEGER (bigint_content e) ++ []) <= max_content) by (unfold max_content; lia).
  pose proof (readASN1_tlv T_SEQUENCE _ [] T1 L4) as R1. rewrite app_nil_r in R1. rewrite R1.
  rewrite readBigInt_tlv by (unfold max_content; lia). unfold readInt64. rewrite readASN1_tlv by (auto; unfold max_content; lia).
  destruct (bigint_content_roundtrip e) as [-> ->].
  assert (zlen (bigint_content e) <= 8) by (pose proof (bigint_content_zlen e 8 ltac:(lia) ltac:(lia)); lia).
  replace (zlen (bigint_content e) <=? 8) with true by lia. cbn [andb]. replace (n <=? 0) with false by lia. replace (e <=? 0) with false by lia. reflexivity.
Qed.
Lemma spki_read pub b ai : good_pub pub -> marshalPublicKey pub = Ret (b, ai) -> exists ai', spki_reads pub b ai ai'.
Proof.
  unfold spki_reads. destruct pub as [n e|id x y|k|k|y p q g|]; cbn [good_pub marshalPublicKey key_family]; intros G E; try contradiction.
  - apply bind_inv in E as (b' & Eb & E). assert (b' = b /\ ai = mkAI oidPublicKeyRSA NullRawValue) as [-> ->] by (split; congruence). exists (mkAI oidPublicKeyRSA nullParsed).
    split; [exact (cAI_rt _ _ _ oid_ok_rsa frt_null)|]. split; [reflexivity|]. split; [reflexivity|]. intros Hz. destruct G as [G1 G2]. now apply spki_rsa.
  - destruct G as (Hne & c & Hc & Hon). destruct (spki_ec id c x y b ai Hc Hon E) as (ai' & H1 & H2 & H3 & H4). exists ai'. repeat (split; [assumption|]). intros _ raw. rewrite H4. replace (id =? SM2P256V1_id) with false by lia. reflexivity.
  - destruct G as (Hk & Hon). destruct k as [id x y]. cbn [pk_Curve pk_X pk_Y] in *. subst id. destruct (spki_ec SM2P256V1_id curve_sm2 x y b ai curve_of_sm2 Hon E) as (ai' & H1 & H2 & H3 & H4).
    exists ai'. repeat (split; [assumption|]). intros _ raw. rewrite H4. reflexivity.
  - assert (b = k /\ ai = mkAI oidPublicKeyEd25519 rawZero) as [-> ->] by (split; congruence). exists (mkAI oidPublicKeyEd25519 rawZero). split; [exact (cAI_rt _ _ _ oid_ok_ed frt_params_zero)|]. split; [reflexivity|]. split; [reflexivity|].
    intros _ raw. unfold parsePublicKey. cbn [pki_PublicKey pki_Algo ai_params]. rewrite RightAlign_full. cbn [rv_full rawZero sl]. replace (zlen k =? 32) with true by (unfold zlen; lia). reflexivity.
Qed.
