(** * The certificate parser: what it accepts, as a description of the bytes *)
From Coq Require Import String ZifyBool ZifyNat.
From Verif Require Import Base Words Utf8 BMPModel ECModel SM2Model CryptoByte Asn1 Asn1Proofs KeysModel KeysProofs P12Enc X509Model X509Sig X509Build X509Proofs X509ExtProofs.
Open Scope Z_scope.

Lemma bind_inv {A B} (m : outcome A) (f : A -> outcome B) b : bind m f = Ret b -> exists a, m = Ret a /\ f a = Ret b.
Proof. destruct m; cbn [bind]; try discriminate. eauto. Qed.
Lemma need_inv {A} (o : option A) e a : need o e = Ret a -> o = Some a.
Proof. destruct o; cbn [need]; congruence. Qed.
Lemma readASN1Element_inv T s e r : bytes_ok s -> readASN1Element T s = Some (e, r) -> exists c, e = tlv T c /\ s = tlv T c ++ r /\ tag_ok T /\ zlen c <= max_content.
Proof.
  intros Hs. unfold readASN1Element. destruct (readAnyElt s) as [[[[t e'] c] r']|] eqn:E; [|discriminate]. apply readAny_inv in E as (E1 & E2 & E3 & E4); auto.
  destruct (Z.eqb_spec t T); [|discriminate]. intros [= <- <-]. subst. exists c. auto.
Qed.
Lemma readASN1Element_tlv T c r : tag_ok T -> zlen c <= max_content -> readASN1Element T (tlv T c ++ r) = Some (tlv T c, r).
Proof. intros. unfold readASN1Element. rewrite readAny_tlv by auto. now rewrite Z.eqb_refl. Qed.
Lemma tlv_bytes T c r : bytes_ok (tlv T c ++ r) -> bytes_ok c /\ bytes_ok r.
Proof. intros H. apply bytes_ok_app in H as [H Hr]. unfold tlv in H. apply bytes_ok_cons in H as [_ H]. apply bytes_ok_app in H. tauto. Qed.
(** the optional version *)
Definition version_field (ver : bytes) (v : Z) : Prop := (ver = [] /\ v = 0) \/ (ver = tlv (ctxc 0) (tlv T_INTEGER (bigint_content v)) /\ int64 v).
Lemma twos_int64 c : bytes_ok c -> checkASN1Integer c = true -> zlen c <= 8 -> int64 (bigint_of_content c).
Proof.
  intros H K L. rewrite bigint_of_content_twos by auto. pose proof (twos_bounds c H ltac:(destruct c; [discriminate K|discriminate])) as B.
  assert (256 ^ zlen c <= 256 ^ 8) by (apply Z.pow_le_mono_r; lia). change (256 ^ 8) with (2 * 2 ^ 63) in *. unfold int64. lia.
Qed.
Lemma readInt64_inv s n r : bytes_ok s -> readInt64 s = Some (n, r) -> s = tlv T_INTEGER (bigint_content n) ++ r /\ int64 n.
Proof.
  intros Hs. unfold readInt64. destruct (readASN1 T_INTEGER s) as [[c r']|] eqn:E; [|discriminate]. apply readASN1_inv in E as (E & _ & Hz); auto.
  destruct (checkASN1Integer c) eqn:K; cbn [andb]; [|discriminate]. destruct (Z.leb_spec (zlen c) 8); [|discriminate]. intros [= <- <-].
  assert (Hc : bytes_ok c) by (subst s; apply tlv_bytes in Hs; tauto). rewrite <- (bigint_content_canonical c Hc K). split; [exact E|]. apply twos_int64; auto.
Qed.
Lemma readOptionalInt_inv s v r : bytes_ok s -> readOptionalInt (ctxc 0) s = Some (v, r) -> exists ver, version_field ver v /\ s = ver ++ r.
Proof.
  intros Hs. unfold readOptionalInt, readOptional. destruct (peekTag (ctxc 0) s) eqn:P.
  - destruct (readASN1 (ctxc 0) s) as [[c r']|] eqn:E; [|discriminate]. apply readASN1_inv in E as (E & _ & Hz); auto. destruct (readInt64 c) as [[n [|x y]]|] eqn:E2; try discriminate.
    intros [= <- <-]. apply readInt64_inv in E2 as [E2 E3]; [|subst s; apply tlv_bytes in Hs; tauto]. rewrite app_nil_r in E2. subst c. exists (tlv (ctxc 0) (tlv T_INTEGER (bigint_content n))). split; [right; auto|exact E].
  - intros [= <- <-]. exists []. split; [left; auto|reflexivity].
Qed.
Lemma tag_ctxc0 : tag_ok (ctxc 0). Proof. tagok. Qed.
Lemma tag_int : tag_ok T_INTEGER. Proof. tagok. Qed.
Lemma int64_content n : int64 n -> zlen (bigint_content n) <= 8 /\ zlen (tlv T_INTEGER (bigint_content n)) <= max_content.
Proof. intros H. pose proof (int64_len n H). split; [auto|]. pose proof (tlv_zlen T_INTEGER (bigint_content n)). unfold max_content. lia. Qed.
Lemma readInt64_tlv n r : int64 n -> readInt64 (tlv T_INTEGER (bigint_content n) ++ r) = Some (n, r).
Proof.
  intros H. destruct (int64_content n H) as [L _]. unfold readInt64. rewrite readASN1_tlv; [|apply tag_int|unfold max_content; lia].
  destruct (bigint_content_roundtrip n) as [-> ->]. replace (zlen (bigint_content n) <=? 8) with true by lia. reflexivity.
Qed.
Lemma readOptionalInt_ok ver v n rest : version_field ver v -> readOptionalInt (ctxc 0) (ver ++ tlv T_INTEGER (bigint_content n) ++ rest) = Some (v, tlv T_INTEGER (bigint_content n) ++ rest).
Proof.
  intros [[-> ->]|[-> H]]; unfold readOptionalInt, readOptional.
  - cbn [app]. unfold tlv at 1. cbn [app peekTag]. change (T_INTEGER =? ctxc 0) with false. cbv iota. reflexivity.
  - remember (tlv T_INTEGER (bigint_content n) ++ rest) as r eqn:Er. destruct (int64_content v H) as [L1 L2].
    replace (peekTag (ctxc 0) (tlv (ctxc 0) (tlv T_INTEGER (bigint_content v)) ++ r)) with true by (unfold tlv at 1; cbn [app peekTag]; now rewrite Z.eqb_refl).
    rewrite readASN1_tlv; [|apply tag_ctxc0|exact L2]. rewrite <- (app_nil_r (tlv T_INTEGER (bigint_content v))). rewrite readInt64_tlv by auto. reflexivity.
Qed.

(** the bytes of a certificate and what is read from them *)
Record layout (net : netlib) (c : Certificate) (ver : bytes) (v : Z) (ai : bytes) (issuer validity subject pkAlg pkKey tail sigField : bytes) : Prop := {
  lo_raw : c_Raw c = tlv T_SEQUENCE (c_RawTBSCertificate c ++ tlv T_SEQUENCE ai ++ sigField);
  lo_tbs : c_RawTBSCertificate c =
    tlv T_SEQUENCE (ver ++ tlv T_INTEGER (bigint_content (c_SerialNumber c)) ++ tlv T_SEQUENCE ai ++ c_RawIssuer c ++ tlv T_SEQUENCE validity ++ c_RawSubject c ++ c_RawSubjectPublicKeyInfo c ++ tail);
  lo_ver : version_field ver v;
  lo_version : 0 <= v /\ c_Version c = wrap64 (v + 1) /\ c_Version c <= 3;
  lo_issuer : c_RawIssuer c = tlv T_SEQUENCE issuer /\ parseName (c_RawIssuer c) = Ret (c_Issuer c);
  lo_subject : c_RawSubject c = tlv T_SEQUENCE subject /\ parseName (c_RawSubject c) = Ret (c_Subject c);
  lo_alg : exists a, parseAI ai = Ret a /\ c_SignatureAlgorithm c = getSignatureAlgorithmFromAI a;
  lo_validity : parseValidity validity = Ret (c_NotBefore c, c_NotAfter c);
  lo_spki : c_RawSubjectPublicKeyInfo c = tlv T_SEQUENCE (tlv T_SEQUENCE pkAlg ++ pkKey);
  lo_key : exists a k r, parseAI pkAlg = Ret a /\ readBitString pkKey = Some (k, r) /\ c_PublicKeyAlgorithm c = getPublicKeyAlgorithmFromOID (ai_alg a) /\
             parsePublicKey (c_PublicKeyAlgorithm c) (mkPKI None a k) = Ret (c_PublicKey c);
  lo_tail : parseTail net (c_Version c) tail = Ret (c_Extensions c, c_Info c);
  lo_sig : exists b r, readBitString sigField = Some (b, r) /\ c_Signature c = RightAlign b }.
(** sizes within the reader's limit *)
Definition small (l : list bytes) : Prop := Forall (fun c => zlen c <= max_content) l.

Ltac bs E v H := apply bind_inv in E; destruct E as (v & H & E); try apply need_inv in H.
Theorem parse_inv net der c : bytes_ok der -> parseCertificate net der = Ret c ->
  exists rest ver v ai issuer validity subject pkAlg pkKey tail sigField,
    der = c_Raw c ++ rest /\ layout net c ver v ai issuer validity subject pkAlg pkKey tail sigField /\
    small [c_RawTBSCertificate c ++ tlv T_SEQUENCE ai ++ sigField;
           ver ++ tlv T_INTEGER (bigint_content (c_SerialNumber c)) ++ tlv T_SEQUENCE ai ++ c_RawIssuer c ++ tlv T_SEQUENCE validity ++ c_RawSubject c ++ c_RawSubjectPublicKeyInfo c ++ tail].
Proof.
  intros Hd E. unfold parseCertificate in E.
  bs E p H1. destruct p as [raw rest]. apply readASN1Element_inv in H1 as (c0 & -> & E0 & _ & Z0); [|exact Hd]. rewrite E0 in Hd. apply tlv_bytes in Hd as [B0 _].
  bs E p H2. destruct p as [input r2]. rewrite <- (app_nil_r (tlv T_SEQUENCE c0)) in H2. rewrite readASN1_tlv in H2 by (auto using tseq). injection H2 as <- <-.
  bs E p H3. destruct p as [rawTBS inp]. apply readASN1Element_inv in H3 as (tbs & -> & E3 & _ & Z3); [|exact B0]. assert (B0' := B0). rewrite E3 in B0'. apply tlv_bytes in B0' as [B3 B3'].
  bs E p H4. destruct p as [tbs' r4]. rewrite <- (app_nil_r (tlv T_SEQUENCE tbs)) in H4. rewrite readASN1_tlv in H4 by (auto using tseq). injection H4 as <- <-.
  bs E p H5. destruct p as [v t5]. apply readOptionalInt_inv in H5 as (ver & Hv & E5); [|exact B3]. assert (B5 : bytes_ok t5) by (rewrite E5 in B3; apply bytes_ok_app in B3; tauto).
  destruct (Z.ltb_spec v 0) as [|V0]; [discriminate E|]. cbv zeta in E. destruct (Z.ltb_spec 3 (wrap64 (v + 1))) as [|V3]; [discriminate E|].
  bs E p H6. destruct p as [serial t6]. apply readBigInt_inv in H6 as [E6 Z6]; [|exact B5]. assert (B6 : bytes_ok t6) by (rewrite E6 in B5; apply tlv_bytes in B5; tauto).
  bs E p H7. destruct p as [ai t7]. apply readASN1_inv in H7 as (E7 & _ & Z7); [|exact B6]. assert (B7 : bytes_ok t7) by (rewrite E7 in B6; apply tlv_bytes in B6; tauto).
  bs E p H8. destruct p as [ai' sigField]. apply readASN1_inv in H8 as (E8 & _ & Z8); [|exact B3'].
  destruct (bytes_eqb ai' ai) eqn:EA; cbn [negb] in E; [|discriminate E]. apply bytes_eqb_spec in EA. subst ai'.
  bs E sigAI H9. bs E p H10. destruct p as [issuer t10]. apply readASN1Element_inv in H10 as (ic & Ei & E10 & _ & Z10); [|exact B7]. assert (B10 : bytes_ok t10) by (rewrite E10 in B7; apply tlv_bytes in B7; tauto).
  bs E issuerN H11. bs E p H12. destruct p as [validity t12]. apply readASN1_inv in H12 as (E12 & _ & Z12); [|exact B10]. assert (B12 : bytes_ok t12) by (rewrite E12 in B10; apply tlv_bytes in B10; tauto).
  bs E p H13. destruct p as [nb na]. bs E p H14. destruct p as [subject t14]. apply readASN1Element_inv in H14 as (sc & Es & E14 & _ & Z14); [|exact B12]. assert (B14 : bytes_ok t14) by (rewrite E14 in B12; apply tlv_bytes in B12; tauto).
  bs E subjectN H15. bs E p H16. destruct p as [rawSPKI t16]. apply readASN1Element_inv in H16 as (kc & Ek & E16 & _ & Z16); [|exact B14]. assert (B16 : bytes_ok kc) by (rewrite E16 in B14; apply tlv_bytes in B14; tauto).
  bs E p H17. destruct p as [spki r17]. rewrite Ek in H17. rewrite <- (app_nil_r (tlv T_SEQUENCE kc)) in H17. rewrite readASN1_tlv in H17 by (auto using tseq). injection H17 as <- <-.
  bs E p H18. destruct p as [pkAlg pkKey]. apply readASN1_inv in H18 as (E18 & _ & Z18); [|exact B16].
  bs E pkAI H19. cbv zeta in E. bs E p H20. destruct p as [spk r20]. bs E pub H21. bs E p H22. destruct p as [exts info]. bs E p H23. destruct p as [signature r23]. injection E as <-.
  exists rest, ver, v, ai, ic, validity, sc, pkAlg, pkKey, t16, sigField. cbn [c_Raw c_RawTBSCertificate c_SerialNumber c_RawIssuer c_RawSubject c_RawSubjectPublicKeyInfo].
  split; [exact E0|]. split.
  - constructor; cbn [c_Raw c_RawTBSCertificate c_SerialNumber c_RawIssuer c_RawSubject c_RawSubjectPublicKeyInfo c_Version c_Issuer c_Subject c_SignatureAlgorithm c_NotBefore c_NotAfter c_PublicKeyAlgorithm c_PublicKey c_Extensions c_Info c_Signature].
    + rewrite E3, E8. reflexivity.
    + rewrite E5, E6, E7, E10, E12, E14, E16, Ei, Es, Ek. reflexivity.
    + exact Hv.
    + auto.
    + auto.
    + auto.
    + eauto.
    + exact H13.
    + rewrite Ek, E18. reflexivity.
    + exists pkAI, spk, r20. auto.
    + exact H22.
    + eauto.
  - constructor; [rewrite <- E8, <- E3; exact Z0|]. constructor; [|constructor]. rewrite Ei, Es, Ek, <- E16, <- E14, <- E12, <- E10, <- E7, <- E6, <- E5. exact Z3.
Qed.
Lemma zlen_tlv_app_le T c r n : zlen (tlv T c ++ r) <= n -> zlen c <= n /\ zlen r <= n.
Proof.
  rewrite zlen_app. pose proof (zlen_nonneg r) as A. pose proof (zlen_nonneg (tlv T c)) as B. intros H. split; [|lia].
  unfold tlv in *. rewrite zlen_cons, zlen_app in *. pose proof (zlen_nonneg (match der_len (zlen c) with Some l => l | None => [] end)). lia.
Qed.
Lemma zlen_app_le {A} (a b : list A) n : zlen (a ++ b) <= n -> zlen a <= n /\ zlen b <= n.
Proof. rewrite zlen_app. pose proof (zlen_nonneg a). pose proof (zlen_nonneg b). lia. Qed.
Ltac rd := match goal with |- bind ?m _ = _ => unfold need at 1 end; cbn [bind].
Theorem parse_ok net c rest ver v ai issuer validity subject pkAlg pkKey tail sigField :
  layout net c ver v ai issuer validity subject pkAlg pkKey tail sigField ->
  small [c_RawTBSCertificate c ++ tlv T_SEQUENCE ai ++ sigField;
         ver ++ tlv T_INTEGER (bigint_content (c_SerialNumber c)) ++ tlv T_SEQUENCE ai ++ c_RawIssuer c ++ tlv T_SEQUENCE validity ++ c_RawSubject c ++ c_RawSubjectPublicKeyInfo c ++ tail] ->
  parseCertificate net (c_Raw c ++ rest) = Ret c.
Proof.
  intros L S. destruct L as [Lraw Ltbs Lver (V0 & V1 & V3) [Li Ni] [Ls Ns] (a & Pa & Ea) Lval Lspki (ka & k & kr & Pk & Rk & Ek & Epk) Ltail (b & br & Rb & Eb)].
  apply Forall_cons_iff in S as [S1 S']. apply Forall_cons_iff in S' as [S2 _].
  remember (ver ++ tlv T_INTEGER (bigint_content (c_SerialNumber c)) ++ tlv T_SEQUENCE ai ++ c_RawIssuer c ++ tlv T_SEQUENCE validity ++ c_RawSubject c ++ c_RawSubjectPublicKeyInfo c ++ tail) as tbs eqn:Etbs in *.
  assert (ZZ := S2). rewrite Etbs, Li, Ls, Lspki in ZZ. apply zlen_app_le in ZZ as [_ ZZ]. apply zlen_tlv_app_le in ZZ as [Z1 ZZ]. apply zlen_tlv_app_le in ZZ as [Z2 ZZ]. apply zlen_tlv_app_le in ZZ as [Z3 ZZ].
  apply zlen_tlv_app_le in ZZ as [Z4 ZZ]. apply zlen_tlv_app_le in ZZ as [Z5 ZZ]. apply zlen_tlv_app_le in ZZ as [Z6 _]. assert (Z7 := Z6). apply zlen_tlv_app_le in Z7 as [Z7 _].
  unfold parseCertificate. rewrite Lraw. rewrite readASN1Element_tlv by (auto using tseq). rd.
  rewrite <- (app_nil_r (tlv T_SEQUENCE (c_RawTBSCertificate c ++ _))). rewrite readASN1_tlv by (auto using tseq). rd. rewrite app_nil_r.
  rewrite Ltbs. rewrite readASN1Element_tlv by (auto using tseq). rd.
  rewrite <- (app_nil_r (tlv T_SEQUENCE tbs)) at 1. rewrite readASN1_tlv by (auto using tseq). rd.
  rewrite Etbs at 1. rewrite (readOptionalInt_ok ver v) by exact Lver. rd.
  replace (v <? 0) with false by lia. cbv zeta. rewrite <- V1. replace (3 <? c_Version c) with false by lia.
  rewrite readBigInt_tlv by exact Z1. rd. rewrite readASN1_tlv by (auto using tseq). rd.
  rewrite readASN1_tlv by (auto using tseq). rd. rewrite bytes_eqb_refl. cbn [negb]. rewrite Pa. cbn [bind].
  rewrite Li. rewrite readASN1Element_tlv by (auto using tseq). rd. rewrite <- Li. rewrite Ni. cbn [bind].
  rewrite readASN1_tlv by (auto using tseq). rd. rewrite Lval. cbn [bind].
  rewrite Ls. rewrite readASN1Element_tlv by (auto using tseq). rd. rewrite <- Ls. rewrite Ns. cbn [bind].
  rewrite Lspki. rewrite readASN1Element_tlv by (auto using tseq). rd.
  rewrite <- (app_nil_r (tlv T_SEQUENCE (tlv T_SEQUENCE pkAlg ++ pkKey))) at 1. rewrite readASN1_tlv by (auto using tseq). rd.
  rewrite readASN1_tlv by (auto using tseq). rd. rewrite Pk. cbn [bind]. rewrite Rk. rd. rewrite <- Ek, Epk. cbn [bind].
  rewrite Ltail. cbn [bind]. rewrite Rb. rd. rewrite <- Ea, <- Eb. destruct c. cbn in *. subst. reflexivity.
Qed.
