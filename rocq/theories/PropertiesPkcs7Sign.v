(** * C75, C76: signed PKCS#7 messages made by this package, and messages made from them *)
From Coq Require Import String Permutation Sorted.
From Verif Require Import Base Words SM3Spec SM3Model SM3Proofs ECSpec ECModel SM2Spec SM2Model ECProofs BaseOrder SM2SigProofs PropertiesSM2Sig CryptoByte Asn1 Asn1Proofs Asn1Safe KeysModel KeysProofs P12Enc P12Round X509Model X509Sig X509Build PropertiesX509Sig X509CertProofs X509ExtProofs PropertiesX509Cert.
From Verif Require Import Pkcs7Model Pkcs7Proofs Pkcs7Round PropertiesPkcs7.
Open Scope Z_scope.

(** ** The issuer of a parsed certificate *)
Lemma tlv_lb t c : zlen c <= zlen (tlv t c).
Proof. unfold tlv. rewrite zlen_cons, zlen_app. match goal with |- context[zlen (match ?x with Some l => l | None => [] end)] => pose proof (zlen_nonneg (match x with Some l => l | None => [] end)) end. lia. Qed.
Lemma issuer_el net der cert : bytes_ok der -> ParseCertificate net der = Ret cert -> exists issuer, c_RawIssuer cert = el 0 16 true issuer.
Proof.
  intros Hd E. apply Parse_inv in E as [E _]. apply parse_inv in E as (rest & ver & v & ai & issuer & va & su & pa & pk & tl & sf & _ & L & Sm); [|exact Hd].
  exists issuer. rewrite (proj1 (lo_issuer _ _ _ _ _ _ _ _ _ _ _ _ L)). symmetry. apply (el_tlv 0 16 true issuer); [lia|].
  apply Forall_cons_iff in Sm as [_ Sm]. apply Forall_cons_iff in Sm as [Sm _]. rewrite (proj1 (lo_issuer _ _ _ _ _ _ _ _ _ _ _ _ L)) in Sm. rewrite !zlen_app in Sm. unfold max_content in Sm.
  pose proof (tlv_lb T_SEQUENCE issuer). pose proof (zlen_nonneg ver). pose proof (zlen_nonneg (tlv T_INTEGER (bigint_content (c_SerialNumber cert)))). pose proof (zlen_nonneg (tlv T_SEQUENCE ai)).
  pose proof (zlen_nonneg (tlv T_SEQUENCE va)). pose proof (zlen_nonneg (c_RawSubject cert)). pose proof (zlen_nonneg (c_RawSubjectPublicKeyInfo cert)). pose proof (zlen_nonneg tl). lia.
Qed.

(** ** What the package emits *)
Definition callback_sign (callback : bytes -> outcome bytes) (attrs : list attribute) : outcome bytes := signAttributesCallback attrs callback.
(** the three attributes: contentType data, messageDigest SM3(data) and the signing time *)
Definition attributes_of (t data : bytes) : list (oid * bytes) :=
  [([1; 2; 840; 113549; 1; 9; 3], [6; 10; 42; 129; 28; 207; 85; 6; 1; 4; 2; 1]); ([1; 2; 840; 113549; 1; 9; 4], [4; 32] ++ SM3 data); ([1; 2; 840; 113549; 1; 9; 5], t)].
Lemma digest_octets data : el 0 4 false (SM3 data) = [4; 32] ++ SM3 data.
Proof. unfold el, zlen. rewrite SM3_length. reflexivity. Qed.
Lemma signedAttrs_eq t data : signedAttrs (Ret t) (SM3 data) [] = map (fun tv => (fst tv, Ret (snd tv))) (attributes_of t data).
Proof. unfold attributes_of. rewrite <- digest_octets. reflexivity. Qed.
Lemma attributes_oids t data : Forall (fun tv => oid_ok (fst tv)) (attributes_of t data).
Proof. repeat constructor; cbn [fst]; oidok. Qed.
Lemma map_pair_inj (l l' : list (oid * bytes)) : map (fun tv => (fst tv, Ret (snd tv))) l = map (fun tv => (fst tv, Ret (snd tv))) l' -> l = l'.
Proof.
  revert l'. induction l as [|[a b] l IH]; intros [|[c d] l'] E.
  - reflexivity.
  - discriminate E.
  - discriminate E.
  - cbn [map fst snd] in E. f_equal; [congruence|]. apply IH. congruence.
Qed.
Lemma signer_info_inv cert callback t data si : bytes_ok data -> getSignerInfo cert (fun attrs => signAttributesCallback attrs callback) (Ret t) data [] = Ret si ->
  exists tvs es m sig, Permutation (attributes_of t data) tvs /\ Forall2 attr_der (map attr_new tvs) es /\ der_set es m /\ zlen m < 2 ^ 31 /\ callback m = Ret sig /\
    si = mkSI 1 (cert2issuerAndSerial cert) sm3_ai (Some (map attr_new tvs)) sm2_ai (Some sig) None.
Proof.
  intros Hd E. unfold getSignerInfo in E. rewrite (sm3Digest_spec data Hd) in E. apply bind_inv in E as (d & Ed & E). assert (d = SM3 data) by congruence. subst d. clear Ed.
  apply bind_inv in E as (fa & Ef & E). rewrite signedAttrs_eq in Ef. apply C77_sorted in Ef as (tvs0 & es0 & Et & Pm & _). apply map_pair_inj in Et. subst tvs0. symmetry in Pm.
  apply Permutation_map_inv in Pm as (tvs & -> & Pm). apply bind_inv in E as (sig & Es & E). unfold signAttributesCallback in Es. apply bind_inv in Es as (m & Em & Es). apply marshalAttributes_iff in Em as (es & F & Ds & Hz).
  exists tvs, es, m, sig. split; [exact Pm|]. split; [exact F|]. split; [exact Ds|]. split; [exact Hz|]. split; [exact Es|]. unfold sm3_ai, sm2_ai. congruence.
Qed.
Section Made.
Variable CRL : Type.
Variable cCRL : codec CRL.
Variable net : netlib.
Variable P : sigPrims.
Lemma build_message cert data issuer tvs sig : c_RawIssuer cert = el 0 16 true issuer ->
  buildSignedData cCRL cert data (Ret (mkSI 1 (cert2issuerAndSerial cert) sm3_ai (Some (map attr_new tvs)) sm2_ai (Some sig) None)) =
  message CRL cCRL data (c_Raw cert) (si_of issuer (c_SerialNumber cert) (Some tvs) sig).
Proof.
  intros Hi. unfold buildSignedData, message. change (Marshal cBytes (Some data)) with (Ret (el 0 4 false data)). cbn [bind]. cbv zeta. rewrite marshalCertificates_eq. cbn [map List.concat]. rewrite app_nil_r.
  unfold si_of, cert2issuerAndSerial. rewrite Hi. reflexivity.
Qed.
Lemma signed_by_perm t data tvs es m : bytes_ok data -> bytes_ok t -> Permutation (attributes_of t data) tvs -> Forall2 attr_der (map attr_new tvs) es -> der_set es m -> zlen m < 2 ^ 31 ->
  signed_message data (map attr_read tvs) m /\ bytes_ok m.
Proof.
  intros Hd Ht Pm F Ds Hz. unfold attributes_of in Pm. rewrite <- digest_octets in Pm. split.
  - assert (A : exists a, first_attr oidAttributeMessageDigest (map attr_read tvs) a).
    { destruct (find (fun a => oid_eqb (at_Type a) oidAttributeMessageDigest) (map attr_read tvs)) as [a|] eqn:Ef; [exists a; now apply find_first|]. exfalso.
      assert (I : In (attr_read (oidAttributeMessageDigest, el 0 4 false (SM3 data))) (map attr_read tvs)) by (apply in_map; eapply Permutation_in; [exact Pm|right; left; reflexivity]).
      pose proof (find_none _ _ Ef _ I) as K. cbv beta in K. cbn [attr_read fst at_Type] in K. rewrite (proj2 (oid_eqb_spec oidAttributeMessageDigest oidAttributeMessageDigest) eq_refl) in K. discriminate K. }
    destruct A as (a & A). assert (V : sl (rv_bytes (at_Value a)) = el 0 4 false (SM3 data) ++ []).
    { destruct A as (pre & post & E & _ & Ta). assert (I : In a (map attr_read tvs)) by (rewrite E; apply in_or_app; right; left; reflexivity). apply in_map_iff in I as (tv & <- & I). symmetry in Pm. apply (Permutation_in _ Pm) in I.
      rewrite app_nil_r. cbn [attr_read at_Type at_Value rv_bytes sl] in *. destruct I as [<-|[<-|[<-|[]]]]; cbn [fst] in Ta; [exfalso; revert Ta; clear; discriminate|reflexivity|exfalso; revert Ta; clear; discriminate]. }
    eapply signs_attributes; [exact A|exact V| |exact Ds|exact Hz]. clear - F. remember (map attr_new tvs) as l eqn:El. revert tvs El. induction F as [|a e l es H _ IH]; intros [|tv tvs] El; cbn [map] in *; try discriminate El; constructor.
    + apply attr_read_der. assert (a = attr_new tv) by congruence. now subst.
    + apply IH. congruence.
  - apply (der_set_ok (map attr_new tvs) es m); auto. apply Forall_map. eapply Permutation_Forall; [exact Pm|].
    assert (W : forall tv, bytes_ok (snd tv) -> attr_wf (attr_new tv)). { intros tv H. split; [split; [exact H|constructor]|]. intros _. cbn [attr_new at_Value rv_class rv_tag]. unfold maxInt32. lia. }
    constructor; [apply W; apply bytes_okb_spec; reflexivity|]. constructor; [apply W; cbn [snd]|constructor; [apply W; exact Ht|constructor]]. apply el_ok; [lia|lia|unfold zlen; rewrite SM3_length; lia|apply SM3_ok].
Qed.
(** the heart of C75, for any way of signing: what the verifier checks is the callback's answer to what the callback saw *)
Lemma callback_parse t der cert callback data out : bytes_ok data -> bytes_ok t -> bytes_ok der -> ParseCertificate net der = Ret cert ->
  NewSignedDataCallBack cCRL (Ret t) cert callback data = Ret out -> zlen out < 2 ^ 31 ->
  exists p7 m sig, ParsePKCS7 cCRL net out = Ret p7 /\ p7_Content p7 = data /\ p7_Certificates p7 = [cert] /\ GetOnlySigner p7 = Ret (Some cert) /\
    bytes_ok m /\ callback m = Ret sig /\ P7_Verify P p7 = checkSignature P SM2WithSM3 m sig (c_PublicKey cert).
Proof.
  intros Hd Ht Hder Ec E Hz. unfold NewSignedDataCallBack in E. destruct (getSignerInfo _ _ _ _ _) as [si|e|] eqn:G; [|now apply build_failed in E|unfold buildSignedData in E; apply bind_inv in E as (? & _ & E); discriminate E].
  apply signer_info_inv in G as (tvs & es & m & sig & Pm & F & Ds & Hm & Es & ->); [|exact Hd]. destruct (issuer_el _ _ _ Hder Ec) as (issuer & Hi). rewrite (build_message _ _ _ _ _ Hi) in E.
  pose proof (Parse_raw _ _ _ Hder Ec) as Hr. assert (Hp : ParseCertificates net (c_Raw cert) = Ret [cert]).
  { pose proof (C71_concatenation net [der] [cert]) as K. cbn [List.concat] in K. rewrite app_nil_r in K. rewrite Hr. apply K; repeat constructor; auto. }
  assert (Ho : Forall (fun tv => oid_ok (fst tv)) tvs) by (eapply Permutation_Forall; [exact Pm|apply attributes_oids]).
  pose proof (message_parse CRL cCRL net data (c_Raw cert) _ _ [cert] out E Hz (si_rt issuer (c_SerialNumber cert) (Some tvs) sig Ho) Hp) as Ep.
  eexists _, m, sig. split; [exact Ep|]. split; [reflexivity|]. split; [reflexivity|].
  destruct (signed_by_perm t data tvs es m Hd Ht Pm F Ds Hm) as [Sm Om].
  assert (Gc : getCertFromCertsByIssuerAndSerial [cert] (ias_read issuer (c_SerialNumber cert)) = Ret (Some cert)).
  { cbn [getCertFromCertsByIssuerAndSerial isCertMatchForIssuerAndSerial ias_read ias_Serial bind ias_Issuer rv_full sl]. rewrite Z.eqb_refl, Hi, (proj2 (bytes_eqb_spec _ _) eq_refl). reflexivity. }
  split; [exact Gc|]. split; [exact Om|]. split; [exact Es|]. unfold P7_Verify. cbn [p7_Signers verifyAll]. rewrite verifySignature_eq. cbn [p7_Content p7_Certificates si_read si_IAS si_EncryptedDigest option_map].
  assert (W : signer_wf (si_read issuer (c_SerialNumber cert) (Some tvs) [])).
  { split; [|split; [constructor|discriminate]]. cbn [si_read si_Attrs option_map lst]. apply Forall_map. eapply Permutation_Forall; [exact Pm|].
    assert (K : forall tv, bytes_ok (snd tv) -> zlen (snd tv) < 2 ^ 31 -> attr_wf (attr_read tv)). { intros tv H1 H2. split; [split; [exact H1|]|]; cbn [attr_read at_Value rv_full sl]; [apply el_ok; [lia|lia|lia|exact H1]|]. intros C. exfalso. revert C. apply el_ne. }
    assert (Lt : zlen t < 2 ^ 31).
    { assert (I : In (attr_new (oidAttributeSigningTime, t)) (map attr_new tvs)) by (apply in_map; eapply Permutation_in; [exact Pm|right; right; left; reflexivity]). clear - I F Ds Hm. destruct Ds as (es' & Pe & _ & ->).
      apply in_split in I as (l1 & l2 & E). rewrite E in F. apply Forall2_app_inv_l in F as (e1 & e2 & _ & F2 & ->). inversion F2 as [|? e ? e2' (ob & _ & He) _]; subst.
      assert (L : zlen (List.concat es') < 2 ^ 31) by (pose proof (el_len 0 17 true (List.concat es')); lia). clear Hm. assert (I : In (el 0 16 true (el 0 6 false ob ++ raw_der (at_Value (attr_new (oidAttributeSigningTime, t))))) es') by (eapply Permutation_in; [exact Pe|apply in_or_app; right; left; reflexivity]).
      apply in_split in I as (q1 & q2 & ->). rewrite concat_app in L. cbn [List.concat] in L. rewrite !zlen_app in L. match type of L with context[el 0 16 true ?x] => pose proof (el_len 0 16 true x) as L2; rewrite zlen_app in L2 end.
      change (raw_der (at_Value (attr_new (oidAttributeSigningTime, t)))) with (el 0 17 true t) in *. pose proof (el_len 0 17 true t). pose proof (zlen_nonneg (List.concat q1)). pose proof (zlen_nonneg (List.concat q2)). pose proof (zlen_nonneg (el 0 6 false ob)). lia. }
    unfold attributes_of. rewrite <- digest_octets. constructor; [apply K; [apply bytes_okb_spec; reflexivity|reflexivity]|]. assert (L3 : zlen (SM3 data) = 32) by (unfold zlen; rewrite SM3_length; reflexivity).
    constructor; [apply K; cbn [snd]; [apply el_ok; [lia|lia|lia|apply SM3_ok]|pose proof (el_ub 0 4 false (SM3 data) ltac:(lia) ltac:(lia)); lia]|]. constructor; [apply K; [exact Ht|exact Lt]|constructor]. }
  change (toVerify data (si_read issuer (c_SerialNumber cert) (Some tvs) sig)) with (toVerify data (si_read issuer (c_SerialNumber cert) (Some tvs) [])). rewrite (proj2 (toVerify_iff data _ m Hd W) Sm). cbn [bind]. rewrite Gc. cbn [bind sl].
  destruct (checkSignature P SM2WithSM3 m sig (c_PublicKey cert)) as [[]|e|]; reflexivity.
Qed.
End Made.

(** ** C75 *)
(** The message made by NewSignedDataCallBack parses back to the content and the certificate, which GetOnlySigner
    returns, and Verify says of it exactly what the certificate's key says of the callback's signature over the bytes the
    callback was given. *)
Theorem C75_callback : forall CRL (cCRL : codec CRL) net P t der cert callback data out,
  bytes_ok data -> bytes_ok t -> bytes_ok der -> ParseCertificate net der = Ret cert ->
  NewSignedDataCallBack cCRL (Ret t) cert callback data = Ret out -> zlen out < 2 ^ 31 ->
  exists p7 m sig, ParsePKCS7 cCRL net out = Ret p7 /\ p7_Content p7 = data /\ p7_Certificates p7 = [cert] /\ GetOnlySigner p7 = Ret (Some cert) /\
    bytes_ok m /\ callback m = Ret sig /\ (P7_Verify P p7 = Ret tt <-> key_accepts P (c_PublicKey cert) m sig).
Proof.
  intros CRL cCRL net P t der cert callback data out Hd Ht Hder Ec E Hz. destruct (callback_parse CRL cCRL net P t der cert callback data out Hd Ht Hder Ec E Hz) as (p7 & m & sig & H1 & H2 & H3 & H4 & H5 & H6 & H7).
  exists p7, m, sig. repeat (split; [assumption|]). rewrite H7. now apply key_accepts_iff.
Qed.
Print Assumptions C75_callback.
(** With an SM2 key matching the certificate, Verify succeeds unless the nonce the signature used gives a point with x = 0
    (the only case in which SM2 signatures of this package are not accepted, see C13). *)
Theorem C75_roundtrip : forall CRL (cCRL : codec CRL) net P rand t der cert priv data out,
  bytes_ok data -> bytes_ok t -> bytes_ok der -> ParseCertificate net der = Ret cert -> c_PublicKey cert = PKsm2 (sk_Pub priv) -> pk_Curve (sk_Pub priv) = SM2P256V1_id ->
  keypair priv -> 1 <= sk_D priv <= sm2_N - 2 ->
  NewSignedData cCRL rand (Ret t) cert (ASM2 priv) data = Ret out -> zlen out < 2 ^ 31 ->
  exists p7 pre b rest, ParsePKCS7 cCRL net out = Ret p7 /\ p7_Content p7 = data /\ p7_Certificates p7 = [cert] /\ GetOnlySigner p7 = Ret (Some cert) /\
    rand = pre ++ b ++ rest /\ List.length b = 40%nat /\ (P7_Verify P p7 = Ret tt <-> xcoord (nonce_of b ⊗ G) <> 0).
Proof.
  intros CRL cCRL net P rand t der cert priv data out Hd Ht Hder Ec Ek Hc HK Hr E Hz.
  assert (E' : NewSignedDataCallBack cCRL (Ret t) cert (fun m => do (sig, _) <- Sign rand priv m []; Ret sig) data = Ret out) by exact E.
  destruct (C75_callback CRL cCRL net P t der cert _ data out Hd Ht Hder Ec E' Hz) as (p7 & m & sig & H1 & H2 & H3 & H4 & H5 & H6 & H7). clear E E'.
  apply bind_inv in H6 as ([sg rest] & H6 & Es). assert (sg = sig) by congruence. subst sg. clear Es.
  destruct (C13_message rand priv m [] sig rest H5 (Forall_nil _) HK Hr H6) as (pre & b & Er & Hb & V & _). exists p7, pre, b, rest. repeat (split; [assumption|]). rewrite H7, Ek. unfold key_accepts. rewrite V. split.
  - intros [_ K]. destruct (Z.eqb_spec (xcoord (nonce_of b ⊗ G)) 0) as [Q|Q]; [cbn [negb] in K; discriminate K|exact Q].
  - intros K. split; [exact Hc|]. apply Z.eqb_neq in K. rewrite K. reflexivity.
Qed.
Print Assumptions C75_roundtrip.
(** all hypotheses can be met at once *)
Example C75_instance : bytes_ok example_der /\ keypair key1 /\ 1 <= sk_D key1 <= sm2_N - 2 /\ pk_Curve (sk_Pub key1) = SM2P256V1_id /\
  exists cert out, ParseCertificate net0 example_der = Ret cert /\ c_PublicKey cert = PKsm2 (sk_Pub key1) /\
    NewSignedData cRaw (repeat 0 40) (Ret [0x17; 0]) cert (ASM2 key1) [1; 2; 3] = Ret out /\ zlen out < 2 ^ 31.
Proof.
  destruct C12_nonvacuous as (HK & Hd & _). split; [apply certificate_instance|]. split; [exact HK|]. split; [exact Hd|]. split; [reflexivity|]. eexists _, _. split; [vm_compute; reflexivity|]. split; [vm_compute; reflexivity|].
  split; [vm_compute; reflexivity|]. vm_compute; reflexivity.
Qed.

(** ** C76 *)
Lemma fe {A B} p (c : codec A) (fs : fcodec B) a b : (exists x, makeField c p a = Ret x) -> (exists y, f_enc fs b = Ret y) -> exists z, f_enc (fcons p c fs) (a, b) = Ret z.
Proof. intros (x & Ex) (y & Ey). eexists. apply f_cons; eauto. Qed.
Lemma fe_nil : exists z, f_enc fnil tt = Ret z. Proof. eexists. reflexivity. Qed.
Lemma ms_struct {X A} (fs : fcodec X) (mk : X -> A) un a : (exists bs, f_enc fs (un a) = Ret bs) -> exists e, makeField (cStruct fs mk un) noP a = Ret e.
Proof. intros (bs & E). eexists. apply mk_struct. exact E. Qed.
Lemma si_encodes issuer n sig : exists e, makeField cSI noP (si_of issuer n None sig) = Ret e.
Proof.
  unfold cSI. apply ms_struct. apply fe; [eexists; reflexivity|]. apply fe. { unfold cIAS. apply ms_struct. apply fe; [eexists; apply (raw_full_make (mkRaw 0 0 false None (Some (el 0 16 true issuer))) (el 0 16 true issuer) eq_refl (el_ne _ _ _ _))|]. apply fe; [eexists; reflexivity|apply fe_nil]. }
  apply fe; [eexists; vm_compute; reflexivity|]. apply fe; [eexists; reflexivity|]. apply fe; [eexists; vm_compute; reflexivity|]. apply fe; [eexists; reflexivity|]. apply fe; [eexists; reflexivity|apply fe_nil].
Qed.
Lemma message_encodes CRL (cCRL : codec CRL) content certs issuer n sig : exists out, message CRL cCRL content certs (si_of issuer n None sig) = Ret out.
Proof.
  unfold message. assert (I : exists inner, Marshal (SD CRL cCRL) (sd_of CRL content certs (si_of issuer n None sig)) = Ret inner).
  { unfold Marshal, SD, cSD. apply ms_struct. apply fe; [eexists; reflexivity|]. apply fe; [eexists; vm_compute; reflexivity|]. apply fe; [eexists; apply (cinfo_make oidGMData _ (el 0 4 false content) eq_refl)|].
    apply fe. { unfold makeField. cbn [p_omit p_opt p_def optImplicitP andb c_iszero cRawCerts cStructRaw c_whole p_set c_tag c_body p_tag p_exp c_comp sl]. destruct (el 2 0 true certs); eexists; reflexivity. }
    apply fe; [eexists; reflexivity|]. apply fe; [|apply fe_nil]. destruct (si_encodes issuer n sig) as (e & E). eexists. apply make_set. exists [e]. split; [|reflexivity]. cbn [mapM]. rewrite E. reflexivity. }
  destruct I as (inner & ->). cbn [bind]. eexists. exact (cinfo_make oidGMSignedData sd_oid inner eq_refl).
Qed.
Lemma parsed_certs CRL (cCRL : codec CRL) net data p7 : bytes_ok data -> ParsePKCS7 cCRL net data = Ret p7 ->
  Forall (fun c => bytes_ok (c_Raw c) /\ ParseCertificate net (c_Raw c) = Ret c) (p7_Certificates p7).
Proof.
  intros Hd E. apply ParsePKCS7_inv in E as (info & sd & _ & _ & _ & _ & (W & _ & _) & Ec & _); [|exact Hd]. unfold rawCertificates_Parse in Ec.
  destruct (isnil (sl (sd_Certificates sd))); [assert (K : p7_Certificates p7 = []) by congruence; rewrite K; constructor|]. apply bind_inv in Ec as ([v r] & Ev & Ec).
  apply (unmarshal_pok cRaw raw_ok) in Ev as [[Ev _] _]; [|apply pok_rawok|exact W]. apply C71_exact in Ec as [Er F]; [|exact Ev]. rewrite Er in Ev. clear - Ev F. induction F as [|c l H _ IH]; [constructor|]. cbn [map List.concat] in Ev.
  unfold bytes_ok in Ev. apply Forall_app in Ev as [E1 E2]. constructor; [split; [exact E1|exact H]|]. apply IH. exact E2.
Qed.
(** the message anyone can make from content, certificates, the signer's certificate and a signature *)
Definition forge {CRL} (cCRL : codec CRL) (content : bytes) (certs : list Certificate) (signer : Certificate) (sig : bytes) : outcome bytes :=
  message CRL cCRL content (List.concat (map c_Raw certs)) (mkSI 1 (cert2issuerAndSerial signer) sm3_ai None sm2_ai (Some sig) None).
(** Take any message and any signer in it that Verify finds acceptable and that has signed attributes.  The DER SET of those
    attributes is itself the content of another message, built by anyone from public data, with the same certificates and
    the same signature but no attributes, and that message verifies. *)
Theorem C76_replay_refuted : forall CRL (cCRL : codec CRL) net P data p7 s, bytes_ok data -> ParsePKCS7 cCRL net data = Ret p7 ->
  In s (p7_Signers p7) -> lst (si_Attrs s) <> [] -> signer_accepted P (p7_Content p7) (p7_Certificates p7) s ->
  exists es m cert out, Forall2 attr_der (lst (si_Attrs s)) es /\ der_set es m /\ zlen m < 2 ^ 31 /\ In cert (p7_Certificates p7) /\
    forge cCRL m (p7_Certificates p7) cert (sl (si_EncryptedDigest s)) = Ret out /\
    (zlen out < 2 ^ 31 -> exists p7', ParsePKCS7 cCRL net out = Ret p7' /\ p7_Content p7' = m /\ p7_Certificates p7' = p7_Certificates p7 /\ P7_Verify P p7' = Ret tt).
Proof.
  intros CRL cCRL net P data p7 s Hd E Is Ha (cert & m & Hc & Hm & Hk). pose proof (parsed_certs _ _ _ _ _ Hd E) as Fc. apply parsed_wf in E as [Wc Ws]; [|exact Hd].
  rewrite Forall_forall in Ws. destruct (Ws s Is) as (Wa & Wsig & _). clear Ws.
  assert (X : exists es, Forall2 attr_der (lst (si_Attrs s)) es /\ der_set es m /\ zlen m < 2 ^ 31) by (inversion Hm as [E1 E2|attrs a rest es m' _ _ F Ds Hz E1 E2]; [congruence|subst; eauto]). destruct X as (es & F & Ds & Hz).
  assert (Om : bytes_ok m) by exact (der_set_ok _ _ _ Wa F Ds Hz).
  pose proof Hc as (pre & post & Ecs & (Nn & Ni) & Fp). assert (Ic : In cert (p7_Certificates p7)) by (rewrite Ecs; apply in_or_app; right; left; reflexivity).
  rewrite Forall_forall in Fc. destruct (Fc cert Ic) as [Oc Pc]. destruct (issuer_el _ _ _ Oc Pc) as (issuer & Hi).
  destruct (message_encodes CRL cCRL m (List.concat (map c_Raw (p7_Certificates p7))) issuer (c_SerialNumber cert) (sl (si_EncryptedDigest s))) as (out & Eo).
  exists es, m, cert, out. split; [exact F|]. split; [exact Ds|]. split; [exact Hz|]. split; [exact Ic|]. split; [unfold forge, cert2issuerAndSerial; rewrite Hi; exact Eo|]. intros Zo.
  assert (Hp : ParseCertificates net (List.concat (map c_Raw (p7_Certificates p7))) = Ret (p7_Certificates p7)).
  { apply C71_concatenation; [apply Forall_forall; intros b Hb; apply in_map_iff in Hb as (c & <- & Hc'); now apply Fc|]. clear - Fc. induction (p7_Certificates p7) as [|c l IH]; cbn [map]; constructor; [apply Fc; now left|apply IH; intros x Hx; apply Fc; now right]. }
  pose proof (message_parse CRL cCRL net m _ _ _ _ out Eo Zo (si_rt issuer (c_SerialNumber cert) None (sl (si_EncryptedDigest s)) (Forall_nil _)) Hp) as Ep.
  eexists. split; [exact Ep|]. split; [reflexivity|]. split; [reflexivity|]. apply Verify_iff.
  - split; [exact Om|]. constructor; [|constructor]. split; [constructor|]. split; [exact Wsig|discriminate].
  - cbn [p7_Signers p7_Content p7_Certificates]. split; [discriminate|]. constructor; [|constructor]. exists cert, m. split; [|split; [apply signs_content|exact Hk]].
    exists pre, post. split; [exact Ecs|]. assert (Q : forall d, names (ias_read issuer (c_SerialNumber cert)) d <-> names (si_IAS s) d).
    { intros d. unfold names. cbn [ias_read ias_Serial ias_Issuer rv_full sl]. rewrite Nn, <- Ni, Hi. tauto. }
    cbn [si_read si_IAS]. split; [apply Q; split; [exact Nn|exact Ni]|]. eapply Forall_impl; [|exact Fp]. intros d Hd' Hn. apply Hd'. now apply Q.
Qed.
Print Assumptions C76_replay_refuted.
(** a concrete message, made by NewSignedData, meets the hypotheses of C74, C76, C78 and C79_verified *)
Definition example_cert : outcome Certificate := ParseCertificate net0 example_der.
Definition example_message : bytes := Eval vm_compute in
  match example_cert with Ret c => match NewSignedData cRaw (repeat 0 40) (Ret [0x17; 0]) c (ASM2 key1) [1; 2; 3] with Ret o => o | _ => [] end | _ => [] end.
Lemma example_made : exists cert, ParseCertificate net0 example_der = Ret cert /\ c_PublicKey cert = PKsm2 (sk_Pub key1) /\ NewSignedData cRaw (repeat 0 40) (Ret [0x17; 0]) cert (ASM2 key1) [1; 2; 3] = Ret example_message.
Proof. eexists. split; [vm_compute; reflexivity|]. split; vm_compute; reflexivity. Qed.
Example C76_instance : forall P, bytes_ok example_message /\ exists p7 s, ParsePKCS7 cRaw net0 example_message = Ret p7 /\ P7_Verify P p7 = Ret tt /\ p7_Signers p7 = [s] /\ lst (si_Attrs s) <> [] /\
  signer_accepted P (p7_Content p7) (p7_Certificates p7) s /\ p7_Content p7 = [1; 2; 3] /\ exists c, GetOnlySigner p7 = Ret (Some c).
Proof.
  intros P. destruct example_made as (cert & Ec & Ek & Em). destruct C12_nonvacuous as (HK & Hd & _). assert (Ob : bytes_ok example_message) by (apply bytes_okb_spec; vm_compute; reflexivity). split; [exact Ob|].
  destruct (C75_roundtrip rawValue cRaw net0 P (repeat 0 40) [0x17; 0] example_der cert key1 [1; 2; 3] example_message) as (p7 & pre & b & rest & E & Hc & Hcs & Hg & Er & Hb & V);
    [apply bytes_okb_spec; reflexivity|apply bytes_okb_spec; reflexivity|apply certificate_instance|exact Ec|exact Ek|reflexivity|exact HK|exact Hd|exact Em|vm_compute; reflexivity|].
  assert (Hv : P7_Verify P p7 = Ret tt).
  { apply V. assert (Hl : List.length (repeat 0 40) = List.length (pre ++ b ++ rest)) by congruence. rewrite repeat_length, !app_length, Hb in Hl. assert (pre = []) by (destruct pre; [reflexivity|cbn [List.length] in Hl; lia]). assert (rest = []) by (destruct rest; [reflexivity|cbn [List.length] in Hl; lia]). subst pre rest.
    rewrite app_nil_r in Er. cbn [app] in Er. rewrite <- Er. change (nonce_of (repeat 0 40)) with 1. pose proof (sm2_pmul_1 G) as E1. unfold sm2_pmul in E1. rewrite E1. discriminate. }
  pose proof (proj1 (proj1 (C74_verify _ _ _ P _ _ Ob E)) Hv) as [_ Fa].
  assert (S : exists p7' s, ParsePKCS7 cRaw net0 example_message = Ret p7' /\ p7_Signers p7' = [s] /\ lst (si_Attrs s) <> []) by (eexists _, _; split; [vm_compute; reflexivity|]; split; [vm_compute; reflexivity|vm_compute; discriminate]).
  destruct S as (p7' & s & E' & Es & Ea). assert (p7' = p7) by congruence. subst p7'. rewrite Es in Fa. apply Forall_cons_iff in Fa as [Fa _].
  exists p7, s. repeat (split; [assumption|]). eauto.
Qed.
(** the forged message of C76 for it has a possible size, so it verifies with a content nobody meant to sign *)
Definition example_set : bytes := Eval vm_compute in
  match ParsePKCS7 cRaw net0 example_message with Ret p7 => match p7_Signers p7 with s :: _ => match marshalAttributes (si_Attrs s) with Ret m => m | _ => [] end | _ => [] end | _ => [] end.
Definition example_forged : bytes := Eval vm_compute in
  match ParsePKCS7 cRaw net0 example_message with
  | Ret p7 => match p7_Signers p7, p7_Certificates p7 with s :: _, c :: _ => match forge cRaw example_set (p7_Certificates p7) c (sl (si_EncryptedDigest s)) with Ret m => m | _ => [] end | _, _ => [] end
  | _ => [] end.
Lemma example_facts : exists p7 s c, ParsePKCS7 cRaw net0 example_message = Ret p7 /\ p7_Signers p7 = [s] /\ p7_Certificates p7 = [c] /\ si_Attrs s = Some (lst (si_Attrs s)) /\ marshalAttributes (si_Attrs s) = Ret example_set /\
  forge cRaw example_set (p7_Certificates p7) c (sl (si_EncryptedDigest s)) = Ret example_forged.
Proof. eexists _, _, _. split; [vm_compute; reflexivity|]. split; [vm_compute; reflexivity|]. split; [vm_compute; reflexivity|]. split; [vm_compute; reflexivity|]. split; vm_compute; reflexivity. Qed.
Example C76_forged : forall P, example_set <> [1; 2; 3] /\ exists p7, ParsePKCS7 cRaw net0 example_forged = Ret p7 /\ p7_Content p7 = example_set /\ P7_Verify P p7 = Ret tt.
Proof.
  intros P. split; [discriminate|]. destruct (C76_instance P) as (Ob & p7 & s & E & _ & Es & Ha & Hacc & _). destruct example_facts as (p7' & s' & c & E' & Es' & Ec & Eas & Em & Ef). assert (p7' = p7) by congruence. subst p7'. assert (s' = s) by congruence. subst s'.
  destruct (C76_replay_refuted _ _ _ P _ _ s Ob E ltac:(rewrite Es; left; reflexivity) Ha Hacc) as (es & m & cert & out & F & Ds & Hz & Ic & Eo & K).
  assert (m = example_set). { assert (Q : marshalAttributes (Some (lst (si_Attrs s))) = Ret m) by (apply marshalAttributes_iff; eauto). rewrite <- Eas in Q. congruence. } subst m.
  assert (cert = c). { rewrite Ec in Ic. destruct Ic as [Ic|[]]. congruence. } subst cert. assert (out = example_forged) by congruence. subst out.
  destruct K as (p7' & K1 & K2 & _ & K3); [vm_compute; reflexivity|]. eauto.
Qed.
