(** * C74, C76-C79: verifying and parsing signed PKCS#7 messages *)
From Coq Require Import String Permutation Sorted.
From Verif Require Import Base Words SM3Spec SM3Model SM3Proofs ECModel SM2Model CryptoByte Asn1 Asn1Proofs Asn1Safe KeysModel KeysProofs P12Enc P12Round X509Model X509Sig X509Build PropertiesX509Sig X509CertProofs X509Safe PropertiesX509Safe.
From Verif Require Import PropertiesX509Cert.
From Verif Require Import Pkcs7Model Pkcs7Proofs Pkcs7Round.
Open Scope Z_scope.

(** ** Specification of an acceptable message *)
(** the certificate a signer names: the first one in the message with its issuer and serial number *)
Definition names (ias : issuerAndSerial) (c : Certificate) : Prop :=
  ias_Serial ias = Some (c_SerialNumber c) /\ c_RawIssuer c = sl (rv_full (ias_Issuer ias)).
Definition signer_cert (certs : list Certificate) (ias : issuerAndSerial) (c : Certificate) : Prop :=
  exists pre post, certs = pre ++ c :: post /\ names ias c /\ Forall (fun d => ~ names ias d) pre.
(** what a signer signs: the content or, if there are signed attributes, their DER SET, and then the first
    messageDigest attribute must hold SM3 of the content *)
Inductive signed_message (content : bytes) : list attribute -> bytes -> Prop :=
| signs_content : signed_message content [] content
| signs_attributes attrs a rest es m : first_attr oidAttributeMessageDigest attrs a -> sl (rv_bytes (at_Value a)) = el 0 4 false (SM3 content) ++ rest ->
    Forall2 attr_der attrs es -> der_set es m -> zlen m < 2 ^ 31 -> signed_message content attrs m.
(** a key accepts a signature: SM2 with the default user id, or whatever crypto/ecdsa says of the SM3 digest *)
Definition key_accepts (P : sigPrims) (key : pubKey) (msg sig : bytes) : Prop :=
  match key with
  | PKsm2 pub => pk_Curve pub = SM2P256V1_id /\ Verify pub msg [] sig = Ret true
  | PKecdsa c x y => ecdsa_VerifyASN1 P c x y (SM3 msg) sig = true
  | _ => False
  end.
Definition signer_accepted (P : sigPrims) (content : bytes) (certs : list Certificate) (s : signerInfo) : Prop :=
  exists cert msg, signer_cert certs (si_IAS s) cert /\ signed_message content (lst (si_Attrs s)) msg /\
    key_accepts P (c_PublicKey cert) msg (sl (si_EncryptedDigest s)).

(** ** Proofs *)
Lemma names_match c ias n : ias_Serial ias = Some n ->
  exists b, isCertMatchForIssuerAndSerial c ias = Ret b /\ (b = true <-> names ias c).
Proof.
  intros E. unfold isCertMatchForIssuerAndSerial, names. rewrite E. eexists. split; [reflexivity|]. rewrite andb_true_iff, Z.eqb_eq, bytes_eqb_spec.
  split; intros [A B]; (split; [congruence|auto]).
Qed.
Lemma getCert_spec ias n : ias_Serial ias = Some n -> forall certs,
  (exists c, getCertFromCertsByIssuerAndSerial certs ias = Ret (Some c) /\ signer_cert certs ias c) \/
  (getCertFromCertsByIssuerAndSerial certs ias = Ret None /\ Forall (fun d => ~ names ias d) certs).
Proof.
  intros E. induction certs as [|c certs IH]; cbn [getCertFromCertsByIssuerAndSerial]; [right; auto|].
  destruct (names_match c ias n E) as (b & -> & Hb). cbn [bind]. destruct b.
  - left. exists c. split; auto. exists [], certs. split; [reflexivity|]. split; [now apply Hb|constructor].
  - assert (N : ~ names ias c) by (intros H; apply Hb in H; discriminate). destruct IH as [(d & -> & pre & post & -> & Hd & F)|[-> F]].
    + left. exists d. split; auto. exists (c :: pre), post. split; [reflexivity|]. split; auto.
    + right. split; auto.
Qed.
Lemma signer_cert_unique certs ias c d : signer_cert certs ias c -> signer_cert certs ias d -> c = d.
Proof.
  intros (p1 & q1 & E1 & N1 & F1) (p2 & q2 & E2 & N2 & F2). subst certs. revert p2 E2 F2. induction p1 as [|x p1 IH]; intros [|y p2] E F2; cbn [app] in E.
  - congruence.
  - apply Forall_cons_iff in F2 as [F2 _]. congruence.
  - apply Forall_cons_iff in F1 as [F1 _]. congruence.
  - apply Forall_cons_iff in F1 as [_ F1]. apply Forall_cons_iff in F2 as [_ F2]. apply (IH F1 p2); auto. congruence.
Qed.
Lemma getCert_iff ias n certs c : ias_Serial ias = Some n -> getCertFromCertsByIssuerAndSerial certs ias = Ret (Some c) <-> signer_cert certs ias c.
Proof.
  intros E. destruct (getCert_spec ias n E certs) as [(d & -> & Hd)|[-> F]].
  - split; [intros H; assert (d = c) by congruence; subst; auto|]. intros Hc. rewrite (signer_cert_unique _ _ _ _ Hc Hd). reflexivity.
  - split; [discriminate|]. intros (pre & post & -> & N & _). apply Forall_app in F as [_ F]. apply Forall_cons_iff in F as [F _]. contradiction.
Qed.
Lemma key_accepts_iff P key msg sig : bytes_ok msg -> checkSignature P SM2WithSM3 msg sig key = Ret tt <-> key_accepts P key msg sig.
Proof.
  intros H. rewrite (proj1 (C53_decision P SM2WithSM3 msg sig key H)). destruct key; cbn [accept_spec key_accepts]; try tauto.
  - split; [|tauto]. intros [(h & Hh & _)|(h & Hh & _)]; exfalso; cbn in Hh; repeat destruct Hh as [Hh|Hh]; try discriminate Hh; exact Hh.
  - split; [|auto]. intros [(h & Hh & _)|[_ E]]; auto. exfalso; cbn in Hh; repeat destruct Hh as [Hh|Hh]; try discriminate Hh; exact Hh.
Qed.
(** the message a signer signs, as verifySignature computes it *)
Definition toVerify (content : bytes) (signer : signerInfo) : outcome bytes :=
  match lst (si_Attrs signer) with
  | [] => Ret content
  | attrs =>
      do digest <- unmarshalAttribute cBytes attrs oidAttributeMessageDigest;
      do computed <- sm3Digest content;
      if negb (bytes_eqb (sl digest) computed) then Err "pkcs7: Message digest mismatch" else
      marshalAttributes (si_Attrs signer)
  end.
Lemma marshalAttributes_np l : marshalAttributes l <> Panic.
Proof.
  unfold marshalAttributes. apply bind_np; [|intros w _; apply bind_np; [apply np_unmarshal, np_raw|intros [? ?] _; discriminate]].
  assert (F : forall a, makeField cAttr noP a <> Panic).
  { intros a. unfold makeField. cbn [p_omit p_opt p_def noP andb c_whole cAttr cStruct p_set c_tag c_body p_tag]. apply bind_np; [|intros b _; discriminate].
    cbn [f_enc fcons fst snd fnil]. apply bind_np.
    - unfold makeField. cbn [p_omit p_opt p_def noP andb c_whole cOID prim p_set c_tag c_body p_tag]. apply bind_np; [|discriminate]. unfold oid_body. destruct (at_Type a) as [|? [|? ?]]; try discriminate. destruct (_ || _); discriminate.
    - intros x _. apply bind_np; [|discriminate]. apply bind_np; [|discriminate]. change (raw_whole (at_Value a) <> Panic). rewrite raw_whole_der. discriminate. }
  unfold Marshal, makeField at 1. cbn [p_omit p_opt p_def noP andb c_whole cAttrsStruct cStruct p_set c_tag c_body p_tag]. apply bind_np; [|intros b _; discriminate].
  cbn [f_enc fcons fst snd fnil]. apply bind_np; [|intros b _; discriminate].
  unfold makeField at 1. cbn [p_omit p_opt p_def setP andb c_whole cSeqOf p_set c_tag c_body p_tag]. change (TagSequence =? TagSequence) with true. cbn [negb]. apply bind_np; [|intros b _; discriminate].
  unfold seq_body. apply bind_np; [|intros b _; discriminate]. generalize (match l with Some l => l | None => [] end). intros q. induction q as [|a q IH]; cbn [mapM]; [discriminate|].
  apply bind_np; [apply F|]. intros y _. apply bind_np; [exact IH|discriminate].
Qed.
Lemma toVerify_iff content s msg : bytes_ok content -> signer_wf s -> toVerify content s = Ret msg <-> signed_message content (lst (si_Attrs s)) msg.
Proof.
  intros Hc (Ha & _ & _). unfold toVerify. destruct (lst (si_Attrs s)) as [|a0 attrs] eqn:El.
  - split; [intros E; assert (msg = content) by congruence; subst; constructor|]. inversion 1; subst; [reflexivity|]. exfalso.
    match goal with H : first_attr _ [] _ |- _ => destruct H as (pre & post & E & _); destruct pre; discriminate E end.
  - assert (Es : si_Attrs s = Some (a0 :: attrs)) by (destruct (si_Attrs s); cbn [lst] in El; congruence). rewrite Es. clear El.
    remember (a0 :: attrs) as l eqn:El. rewrite (sm3Digest_spec content Hc). unfold unmarshalAttribute. split.
    + intros E. apply bind_inv in E as (d & Ed & E). cbn [bind] in E. destruct (bytes_eqb (sl d) (SM3 content)) eqn:Eq; cbn [negb] in E; [|discriminate E]. apply bytes_eqb_spec in Eq.
      destruct (find (fun a => oid_eqb (at_Type a) oidAttributeMessageDigest) l) as [a|] eqn:Ef; [|discriminate Ed]. apply find_first in Ef.
      apply bind_inv in Ed as ([v r] & Ev & Ed). assert (v = d) by congruence. subst v.
      assert (Hv : bytes_ok (sl (rv_bytes (at_Value a)))).
      { destruct Ef as (pre & post & E1 & _). rewrite E1 in Ha. apply Forall_app in Ha as [_ Ha]. apply Forall_cons_iff in Ha as [Ha _]. apply Ha. }
      apply Unmarshal_bytes in Ev as [Ev _]; auto. rewrite Eq in Ev. apply marshalAttributes_iff in E as (es & F2 & Hs & Hz). eapply signs_attributes; eauto.
    + intros H. inversion H as [E1 E2|attrs' a rest es m Hf Hv F2 Hs Hz E1 E2]; [congruence|]. subst attrs' m. pose proof Hf as Hf'. apply find_first in Hf'. rewrite Hf', Hv.
      assert (L3 : zlen (SM3 content) < 2 ^ 31) by (unfold zlen; rewrite SM3_length; lia).
      rewrite (Unmarshal_bytes_ok (SM3 content) rest L3). cbn [bind sl]. rewrite (proj2 (bytes_eqb_spec _ _) eq_refl). cbn [negb]. apply marshalAttributes_iff. eauto.
Qed.
Lemma unmarshalAttribute_np attrs t : unmarshalAttribute cBytes attrs t <> Panic.
Proof. unfold unmarshalAttribute. destruct (find _ attrs); [|discriminate]. apply bind_np; [apply np_unmarshal, np_bytes|intros [? ?] _; discriminate]. Qed.
Lemma toVerify_np content s : bytes_ok content -> toVerify content s <> Panic.
Proof.
  intros Hc. unfold toVerify. destruct (lst (si_Attrs s)) as [|a0 attrs]; [discriminate|]. apply bind_np; [apply unmarshalAttribute_np|]. intros d _.
  rewrite (sm3Digest_spec content Hc). cbn [bind]. destruct (negb _); [discriminate|apply marshalAttributes_np].
Qed.
Lemma toVerify_ok content s msg : bytes_ok content -> signer_wf s -> toVerify content s = Ret msg -> bytes_ok msg.
Proof.
  intros Hc Hs E. apply toVerify_iff in E; auto. destruct Hs as (Ha & _). destruct E as [|attrs a rest es m Hf Hv F2 Hd Hz]; auto. exact (der_set_ok attrs es m Ha F2 Hd Hz).
Qed.
Section Messages.
Variable CRL : Type.
Variable P : sigPrims.
Lemma verifySignature_eq (p7 : PKCS7 CRL) s : verifySignature P p7 s =
  do msg <- toVerify (p7_Content p7) s;
  do cert <- getCertFromCertsByIssuerAndSerial (p7_Certificates p7) (si_IAS s);
  match cert with
  | None => Err "pkcs7: No certificate for signer"
  | Some cert => checkSignature P SM2WithSM3 msg (sl (si_EncryptedDigest s)) (c_PublicKey cert)
  end.
Proof. reflexivity. Qed.
Lemma verifySignature_iff (p7 : PKCS7 CRL) s : bytes_ok (p7_Content p7) -> signer_wf s ->
  (verifySignature P p7 s = Ret tt <-> signer_accepted P (p7_Content p7) (p7_Certificates p7) s) /\ verifySignature P p7 s <> Panic.
Proof.
  intros Hc Hs. rewrite verifySignature_eq. pose proof Hs as (H1 & H2 & H3). destruct (ias_Serial (si_IAS s)) as [n|] eqn:En; [clear H3|congruence].
  split; [split|].
  - intros E. apply bind_inv in E as (msg & Em & E). apply bind_inv in E as (oc & Ec & E). destruct oc as [cert|]; [|discriminate E].
    exists cert, msg. split; [exact (proj1 (getCert_iff _ n _ _ En) Ec)|]. split; [now apply toVerify_iff|]. apply key_accepts_iff; [exact (toVerify_ok _ _ _ Hc Hs Em)|exact E].
  - intros (c0 & msg & Hcert & Hmsg & Hk). apply toVerify_iff in Hmsg; auto. rewrite Hmsg. cbn [bind]. rewrite (proj2 (getCert_iff _ n _ _ En) Hcert). cbn [bind].
    apply key_accepts_iff; [exact (toVerify_ok _ _ _ Hc Hs Hmsg)|exact Hk].
  - apply bind_np; [now apply toVerify_np|]. intros msg Em. destruct (getCert_spec _ n En (p7_Certificates p7)) as [(d & -> & _)|[-> _]]; cbn [bind]; [|discriminate].
    apply C53_decision. exact (toVerify_ok _ _ _ Hc Hs Em).
Qed.
Lemma verifyAll_iff (p7 : PKCS7 CRL) : bytes_ok (p7_Content p7) -> forall l, Forall signer_wf l ->
  (verifyAll P p7 l = Ret tt <-> Forall (signer_accepted P (p7_Content p7) (p7_Certificates p7)) l) /\ verifyAll P p7 l <> Panic.
Proof.
  intros Hc. induction l as [|s l IH]; intros Hl; cbn [verifyAll]; [split; [split; auto|discriminate]|]. apply Forall_cons_iff in Hl as [Hs Hl]. destruct (IH Hl) as [I1 I2].
  destruct (verifySignature_iff p7 s Hc Hs) as [V1 V2]. split; [split|].
  - intros E. apply bind_inv in E as ([] & E1 & E2). constructor; [now apply V1|now apply I1].
  - intros H. apply Forall_cons_iff in H as [H1 H2]. rewrite (proj2 V1 H1). cbn [bind]. now apply I1.
  - apply bind_np; auto.
Qed.
Definition message_wf (p7 : PKCS7 CRL) : Prop := bytes_ok (p7_Content p7) /\ Forall signer_wf (p7_Signers p7).
Lemma Verify_iff (p7 : PKCS7 CRL) : message_wf p7 ->
  (P7_Verify P p7 = Ret tt <-> p7_Signers p7 <> [] /\ Forall (signer_accepted P (p7_Content p7) (p7_Certificates p7)) (p7_Signers p7)) /\ P7_Verify P p7 <> Panic.
Proof.
  intros (Hc & Hs). unfold P7_Verify. destruct (p7_Signers p7) as [|s l] eqn:E; [split; [split; [discriminate|intros [H _]; congruence]|discriminate]|].
  destruct (verifyAll_iff p7 Hc (s :: l) Hs) as [V1 V2]. split; auto. rewrite V1. split; [intros H; split; [discriminate|auto]|tauto].
Qed.
End Messages.

(** ** What ParsePKCS7 returns *)
Lemma unmarshal_pok {A} (c : codec A) Q data a r : pok c Q -> bytes_ok data -> Unmarshal c data = Ret (a, r) -> Q a /\ bytes_ok r.
Proof. intros V Ho E. exact (pok_field c Q noP data a r V (or_introl eq_refl) Ho E). Qed.
Lemma pok_certs : pok cRawCerts (fun a => bytes_ok (sl a)).
Proof. intros t f i a Hf Hn Hi E. assert (a = Some f) by (cbn in E; congruence). subst a. exact Hf. Qed.
Lemma pok_rawok : pok cRaw raw_ok.
Proof. intros t f i a Hf Hn Hi E. now destruct (pok_raw t f i a Hf Hn Hi E). Qed.
Lemma raw_ok_zero : raw_ok rawZero. Proof. split; constructor. Qed.
Lemma pok_cinfo : pok cCI (fun a => raw_ok (ci_Content a)).
Proof.
  eapply pok_struct.
  - apply fpok_cons; [apply pok_true|left; reflexivity|]. apply fpok_cons; [apply pok_rawok|right; split; [exact raw_ok_zero|discriminate]|apply fpok_nil].
  - intros (x & y & []) (_ & H & _). exact H.
Qed.
Section Parse.
Variable CRL : Type.
Variable cCRL : codec CRL.
Variable net : netlib.
Lemma np_cinfo : np cCI.
Proof. unfold cCI. apply np_struct. apply fnp_cons; [apply np_oid|]. apply fnp_cons; [apply np_raw|apply fnp_nil]. Qed.
Lemma np_cattr : np cAttr.
Proof. unfold cAttr. apply np_struct. apply fnp_cons; [apply np_oid|]. apply fnp_cons; [apply np_raw|apply fnp_nil]. Qed.
Lemma np_csi : np cSI.
Proof.
  unfold cSI. apply np_struct. apply fnp_cons; [apply np_int|]. apply fnp_cons. { unfold cIAS. apply np_struct. apply fnp_cons; [apply np_raw|]. apply fnp_cons; [apply np_big|apply fnp_nil]. }
  apply fnp_cons; [apply np_AI|]. apply fnp_cons; [apply np_seq, np_cattr|]. apply fnp_cons; [apply np_AI|]. apply fnp_cons; [apply np_bytes|]. apply fnp_cons; [apply np_seq, np_cattr|apply fnp_nil].
Qed.
Lemma np_certs : np cRawCerts. Proof. intros t f i E. cbn in E. discriminate E. Qed.
Lemma keep_np {A S} (x : outcome (A * bytes)) (d : S) f : x <> Panic -> (forall a r, x = Ret (a, r) -> f a r <> Panic) -> keep x d f <> Panic.
Proof. intros H K. destruct x as [[a r]|e|]; cbn [keep]; [apply K; reflexivity|discriminate|congruence]. Qed.
Lemma unmarshalSD_np data : np cCRL -> unmarshalSD cCRL data <> Panic.
Proof.
  intros N. unfold unmarshalSD. apply keep_np; [apply np_unmarshal, np_raw|]. intros raw r _. destruct (negb _); [discriminate|].
  apply keep_np; [apply np_field, np_int|]. intros v s _. apply keep_np; [apply np_field, np_seq, np_AI|]. intros ds s2 _. apply keep_np; [apply np_field, np_cinfo|]. intros ci s3 _.
  apply keep_np; [apply np_field, np_certs|]. intros certs s4 _. apply keep_np; [apply np_field, np_seq, N|]. intros crls s5 _. apply keep_np; [apply np_field, np_seq, np_csi|]. discriminate.
Qed.
Lemma keep_inv {A S} (x : outcome (A * bytes)) (d : S) f (Q : S -> Prop) y : keep x d f = Ret y -> Q d -> (forall a r, x = Ret (a, r) -> f a r = Ret y -> Q y) -> Q y.
Proof. intros E H K. destruct x as [[a r]|e|]; cbn [keep] in E; [eapply K; eauto|congruence|discriminate E]. Qed.
Definition sd_wf (sd : signedData CRL) : Prop := bytes_ok (sl (sd_Certificates sd)) /\ raw_ok (ci_Content (sd_Content sd)) /\ Forall (fun s => signer_wf s /\ signer_full s) (lst (sd_SignerInfos sd)).
Lemma unmarshalSD_wf data sd : bytes_ok data -> unmarshalSD cCRL data = Ret sd -> sd_wf sd.
Proof.
  intros Hd E. unfold unmarshalSD in E. assert (Z0 : sd_wf sdZero) by (split; [constructor|split; [exact raw_ok_zero|constructor]]).
  eapply keep_inv; [exact E|exact Z0|]. clear E. intros raw r Er E. cbv beta in E. apply (unmarshal_pok cRaw raw_ok) in Er as [[Hb _] _]; [|apply pok_rawok|exact Hd].
  cbv beta in E. match type of E with (if ?b then _ else _) = _ => destruct b end; [assert (sd = sdZero) by congruence; subst; exact Z0|].
  eapply keep_inv; [exact E|exact Z0|]. clear E. intros v s Ev E. cbv beta in E. apply parseField_rest_ok in Ev as H1; [|exact Hb].
  eapply keep_inv; [exact E|split; [constructor|split; [exact raw_ok_zero|constructor]]|]. clear E. intros ds s2 E2 E. cbv beta in E. apply parseField_rest_ok in E2 as H2; [|exact H1].
  eapply keep_inv; [exact E|split; [constructor|split; [exact raw_ok_zero|constructor]]|]. clear E. intros ci s3 E3 E. cbv beta in E. apply (pok_field cCI _ noP _ _ _ pok_cinfo (or_introl eq_refl)) in E3 as [C3 H3]; [|exact H2].
  eapply keep_inv; [exact E|split; [constructor|split; [exact C3|constructor]]|]. clear E. intros certs s4 E4 E.
  apply (pok_field cRawCerts _ (optImplicitP 0) _ _ _ pok_certs) in E4 as [C4 H4]; [|right; split; [constructor|discriminate]|exact H3].
  eapply keep_inv; [exact E|split; [exact C4|split; [exact C3|constructor]]|]. clear E. intros crls s5 E5 E. cbv beta in E. apply parseField_rest_ok in E5 as H5; [|exact H4].
  eapply keep_inv; [exact E|split; [exact C4|split; [exact C3|constructor]]|]. clear E. intros sis s6 E6 E.
  apply (pok_field (cSeqOf false cSI) _ setP _ _ _ (pok_seq false cSI _ pok_si) (or_introl eq_refl)) in E6 as [C6 _]; [|exact H5].
  assert (sd = mkSD v ds ci certs crls sis) by congruence. subst sd. split; [exact C4|split; [exact C3|exact C6]].
Qed.
Lemma ParsePKCS7_inv data p7 : bytes_ok data -> ParsePKCS7 cCRL net data = Ret p7 -> exists info sd, Unmarshal cCI data = Ret (info, []) /\ ci_Type info = oidGMSignedData /\
  bytes_ok (sl (rv_bytes (ci_Content info))) /\ unmarshalSD cCRL (sl (rv_bytes (ci_Content info))) = Ret sd /\ sd_wf sd /\ rawCertificates_Parse net (sd_Certificates sd) = Ret (p7_Certificates p7) /\
  p7_Signers p7 = lst (sd_SignerInfos sd) /\ p7_CRLs p7 = sd_CRLs sd /\ bytes_ok (p7_Content p7).
Proof.
  intros Hd E. unfold ParsePKCS7 in E. destruct data as [|b0 data0] eqn:Ed; [discriminate E|]. rewrite <- Ed in *.
  apply bind_inv in E as ([info rest] & Ei & E). destruct rest as [|? ?]; cbn [isnil negb] in E; [|discriminate E]. destruct (oid_eqb (ci_Type info) oidGMSignedData) eqn:Eo; [|discriminate E]. apply oid_eqb_spec in Eo.
  pose proof (unmarshal_pok cCI _ _ _ _ pok_cinfo Hd Ei) as [[Hc _] _]. unfold parseSignedData in E. apply bind_inv in E as (sd & Es & E). apply bind_inv in E as (certs & Ec & E).
  apply bind_inv in E as (cp & Ep & E). apply bind_inv in E as (content & Et & E). assert (p7 = mkP7 content certs (sd_CRLs sd) (lst (sd_SignerInfos sd))) by congruence. subst p7. clear E.
  pose proof (unmarshalSD_wf _ _ Hc Es) as W. exists info, sd. split; [exact Ei|]. split; [exact Eo|]. split; [exact Hc|]. split; [exact Es|]. split; [exact W|]. split; [exact Ec|]. split; [reflexivity|]. split; [reflexivity|].
  cbn [p7_Content]. destruct W as (_ & [W _] & _). assert (K : raw_ok cp).
  { destruct (sl (rv_bytes (ci_Content (sd_Content sd)))) as [|x l] eqn:El; [assert (cp = rawZero) by congruence; subst; exact raw_ok_zero|]. apply bind_inv in Ep as ([c r] & Eu & Ep). assert (c = cp) by congruence. subst c.
    now apply (unmarshal_pok cRaw raw_ok) in Eu as [Eu _]; [|apply pok_rawok|exact W]. }
  destruct K as [K _]. destruct (rv_comp cp).
  - apply bind_inv in Et as ([c r] & Eu & Et). apply (unmarshal_pok cBytes _) with (1 := pok_bytes) in Eu as [Eu _]; [|exact K]. assert (content = sl c) by congruence. subst. exact Eu.
  - assert (content = sl (rv_bytes cp)) by congruence. subst. exact K.
Qed.
Lemma parsed_wf data p7 : bytes_ok data -> ParsePKCS7 cCRL net data = Ret p7 -> message_wf CRL p7.
Proof.
  intros Hd E. apply ParsePKCS7_inv in E as (info & sd & _ & _ & _ & _ & (_ & _ & W) & _ & Es & _ & Hc); [|exact Hd]. split; [exact Hc|]. rewrite Es. eapply Forall_impl; [|exact W]. intros s [H _]. exact H.
Qed.
Lemma ParsePKCS7_np data : np cCRL -> bytes_ok data -> ParsePKCS7 cCRL net data <> Panic.
Proof.
  intros N Hd. unfold ParsePKCS7. destruct data as [|b0 data0] eqn:Ed; [discriminate|]. rewrite <- Ed in *. apply bind_np; [apply np_unmarshal, np_cinfo|]. intros [info rest] Ei. destruct (negb _); [discriminate|].
  destruct (oid_eqb _ _); [|discriminate]. pose proof (unmarshal_pok cCI _ _ _ _ pok_cinfo Hd Ei) as [[Hc _] _]. unfold parseSignedData. apply bind_np; [apply unmarshalSD_np, N|]. intros sd Es.
  pose proof (unmarshalSD_wf _ _ Hc Es) as (W1 & [W2 _] & _). apply bind_np.
  { unfold rawCertificates_Parse. destruct (isnil _); [discriminate|]. apply bind_np; [apply np_unmarshal, np_raw|]. intros [v r] Ev. apply C90_no_panic. now apply (unmarshal_pok cRaw raw_ok) in Ev as [[Ev _] _]; [|apply pok_rawok|exact W1]. }
  intros certs _. apply bind_np. { destruct (sl (rv_bytes (ci_Content (sd_Content sd)))); [discriminate|]. apply bind_np; [apply np_unmarshal, np_raw|]. intros [? ?] _. discriminate. }
  intros cp _. apply bind_np; [|discriminate]. destruct (rv_comp cp); [|discriminate]. apply bind_np; [apply np_unmarshal, np_bytes|]. intros [? ?] _. discriminate.
Qed.
End Parse.

(** ** C74 *)
(** for every byte string that ParsePKCS7 accepts, Verify succeeds exactly when there is a signer and every signer is
    acceptable; it never panics *)
Theorem C74_verify : forall CRL (cCRL : codec CRL) net P data p7, bytes_ok data -> ParsePKCS7 cCRL net data = Ret p7 ->
  (P7_Verify P p7 = Ret tt <-> p7_Signers p7 <> [] /\ Forall (signer_accepted P (p7_Content p7) (p7_Certificates p7)) (p7_Signers p7)) /\ P7_Verify P p7 <> Panic.
Proof. intros CRL cCRL net P data p7 Hd E. apply Verify_iff. eapply parsed_wf; eauto. Qed.
Print Assumptions C74_verify.
(** parsing never panics either, if the decoder of revocation lists does not *)
Theorem C74_no_panic : forall CRL (cCRL : codec CRL) net data, np cCRL -> bytes_ok data -> ParsePKCS7 cCRL net data <> Panic.
Proof. intros CRL cCRL net data. apply ParsePKCS7_np. Qed.
Print Assumptions C74_no_panic.
(** nothing else in the message matters: the version, the digest and encryption algorithms a signer declares, its
    unauthenticated attributes and the revocation lists can be changed at will *)
Theorem C74_ignored_fields : forall CRL P (p7 p7' : PKCS7 CRL), p7_Content p7' = p7_Content p7 -> p7_Certificates p7' = p7_Certificates p7 ->
  Forall2 (fun s s' => si_IAS s' = si_IAS s /\ si_Attrs s' = si_Attrs s /\ si_EncryptedDigest s' = si_EncryptedDigest s) (p7_Signers p7) (p7_Signers p7') ->
  P7_Verify P p7' = P7_Verify P p7.
Proof.
  intros CRL P p7 p7' E1 E2 F. unfold P7_Verify. assert (A : verifyAll P p7 (p7_Signers p7) = verifyAll P p7' (p7_Signers p7')).
  { induction F as [|s s' l l' (H1 & H2 & H3) _ IH]; [reflexivity|]. cbn [verifyAll]. rewrite IH. f_equal. rewrite !verifySignature_eq. unfold toVerify. rewrite E1, E2, H1, H2, H3. reflexivity. }
  destruct F; [reflexivity|]. now symmetry.
Qed.
Print Assumptions C74_ignored_fields.

(** ** C78 *)
Theorem C78_only_signer : forall CRL (cCRL : codec CRL) net data p7, bytes_ok data -> ParsePKCS7 cCRL net data = Ret p7 ->
  (forall c, GetOnlySigner p7 = Ret (Some c) <-> exists s, p7_Signers p7 = [s] /\ signer_cert (p7_Certificates p7) (si_IAS s) c) /\
  ((forall s c, p7_Signers p7 = [s] -> ~ signer_cert (p7_Certificates p7) (si_IAS s) c) -> GetOnlySigner p7 = Ret None).
Proof.
  intros CRL cCRL net data p7 Hd E. apply parsed_wf in E as [_ W]; [|exact Hd]. unfold GetOnlySigner. destruct (p7_Signers p7) as [|s [|s2 l]].
  - split; [|reflexivity]. intros c. split; [discriminate|]. intros (s & H & _). discriminate H.
  - apply Forall_cons_iff in W as [(_ & _ & W) _]. destruct (ias_Serial (si_IAS s)) as [n|] eqn:En; [|congruence]. split.
    + intros c. rewrite (getCert_iff _ n _ _ En). split; [intros H; exists s; auto|]. intros (s' & H & K). assert (s = s') by congruence. subst. exact K.
    + intros H. destruct (getCert_spec _ n En (p7_Certificates p7)) as [(d & _ & K)|[K _]]; [|exact K]. destruct (H s d eq_refl K).
  - split; [|reflexivity]. intros c. split; [discriminate|]. intros (s' & H & _). discriminate H.
Qed.
Print Assumptions C78_only_signer.

(** ** C79 *)
(** a SignedData that asn1.Unmarshal rejects yields a message without signers, which Verify rejects *)
Theorem C79_malformed : forall CRL (cCRL : codec CRL) net P data p7 info e, bytes_ok data -> ParsePKCS7 cCRL net data = Ret p7 ->
  Unmarshal cCI data = Ret (info, []) -> Unmarshal (cSD cCRL) (sl (rv_bytes (ci_Content info))) = Err e ->
  p7_Signers p7 = [] /\ P7_Verify P p7 = Err "pkcs7: Message has no signers".
Proof.
  intros CRL cCRL net P data p7 info e Hd E Ei Ee. apply ParsePKCS7_inv in E as (info' & sd & Ei' & _ & _ & Es & _ & _ & Eq & _); [|exact Hd]. assert (info' = info) by congruence. subst info'.
  pose proof (unmarshalSD_spec CRL cCRL (sl (rv_bytes (ci_Content info)))) as H. unfold SD in H. rewrite Ee in H. destruct H as (sd' & Es' & H). assert (sd' = sd) by congruence. subst sd'. rewrite H in Eq. cbn [lst] in Eq.
  split; [exact Eq|]. unfold P7_Verify. now rewrite Eq.
Qed.
Print Assumptions C79_malformed.
(** so a message that verifies did decode completely *)
Theorem C79_verified : forall CRL (cCRL : codec CRL) net P data p7, np cCRL -> bytes_ok data -> ParsePKCS7 cCRL net data = Ret p7 -> P7_Verify P p7 = Ret tt ->
  exists info sd rest, Unmarshal cCI data = Ret (info, []) /\ Unmarshal (cSD cCRL) (sl (rv_bytes (ci_Content info))) = Ret (sd, rest) /\ p7_Signers p7 = lst (sd_SignerInfos sd).
Proof.
  intros CRL cCRL net P data p7 N Hd E V. apply ParsePKCS7_inv in E as (info & sd & Ei & _ & _ & Es & _ & _ & Eq & _); [|exact Hd]. exists info, sd.
  destruct (unmarshalSD_ret CRL cCRL _ _ N Es) as [[r H]|H]; [exists r; auto|]. rewrite H in Eq. cbn [lst] in Eq. unfold P7_Verify in V. rewrite Eq in V. discriminate V.
Qed.
Print Assumptions C79_verified.
(** refuted as first stated: any bytes at all may stand for the SignedData; if they do not even start like a SEQUENCE they
    are taken, without error, for an empty message *)
Lemma unmarshalSD_junk CRL (cCRL : codec CRL) b l : bytes_ok (b :: l) -> b <> 0x30 -> unmarshalSD cCRL (b :: l) = Ret sdZero.
Proof.
  intros Hb Hn. unfold unmarshalSD. destruct (Unmarshal cRaw (b :: l)) as [[raw r]|e|] eqn:E; cbn [keep]; [|reflexivity|exfalso; revert E; apply np_unmarshal, np_raw].
  rewrite raw_unm in E. apply bind_inv in E as ([t s1] & Et & E). destruct (_ <? _); [discriminate E|]. cbv zeta in E. match type of E with Ret (?x, _) = _ => assert (raw = x) by congruence end. subst raw. clear E. cbn [rv_class rv_tag rv_comp rv_bytes].
  destruct (t_class t =? ClassUniversal) eqn:E1; [|reflexivity]. destruct (t_tag t =? TagSequence) eqn:E2; [|reflexivity]. destruct (t_comp t) eqn:E3; [|reflexivity]. exfalso. apply Hn.
  apply ptl_inv in Et as (Et & _); [|exact Hb]. unfold appendTagAndLength in Et. apply Z.eqb_eq in E1. apply Z.eqb_eq in E2. rewrite E1, E2, E3 in Et. change (31 <=? TagSequence) with false in Et. cbv zeta iota in Et. apply (f_equal (hd 0)) in Et. exact Et.
Qed.
Theorem C79_garbage_refuted : forall CRL (cCRL : codec CRL) net b junk, bytes_ok (b :: junk) -> b <> 0x30 -> zlen junk < 2 ^ 20 ->
  exists out, Marshal cCI (mkCI oidGMSignedData (mkRaw 2 0 true (Some (b :: junk)) None)) = Ret out /\ ParsePKCS7 cCRL net out = Ret (mkP7 [] [] None []).
Proof.
  intros CRL cCRL net b junk Hb Hn Hz. eexists. split; [exact (cinfo_make oidGMSignedData sd_oid (b :: junk) eq_refl)|]. remember (el 0 16 true _) as out eqn:Eo.
  assert (No : out <> []) by (subst; apply el_ne). assert (U : Unmarshal cCI out = Ret (ci_read oidGMSignedData (b :: junk), [])).
  { apply (marshal_rt cCI (ci_of oidGMSignedData (b :: junk))); [apply cinfo_rt; [oidok|discriminate]|rewrite Eo; exact (cinfo_make oidGMSignedData sd_oid (b :: junk) eq_refl)|].
    rewrite Eo. assert (L : zlen (b :: junk) = 1 + zlen junk) by (unfold zlen; cbn [List.length]; lia). pose proof (el_ub 2 0 true (b :: junk) ltac:(lia) ltac:(lia)) as L2.
    match goal with |- context[el 0 16 true ?x] => assert (Lx : zlen x <= zlen junk + 30) by (rewrite zlen_app; change (zlen (el 0 6 false sd_oid)) with 12; lia); pose proof (el_ub 0 16 true x ltac:(lia) ltac:(lia)) end. lia. }
  unfold ParsePKCS7. clear Eo. destruct out as [|o0 out0] eqn:Ed; [congruence|]. rewrite <- Ed in *. rewrite U. cbn [bind isnil negb ci_read ci_Type ci_Content]. rewrite (proj2 (oid_eqb_spec oidGMSignedData oidGMSignedData) eq_refl).
  cbn [ctx0' rv_bytes sl]. unfold parseSignedData. rewrite (unmarshalSD_junk CRL cCRL b junk Hb Hn). reflexivity.
Qed.
Print Assumptions C79_garbage_refuted.
Example C79_instance : bytes_ok [0x04; 0xFF; 0x00] /\ 0x04 <> 0x30 /\ zlen [0xFF; 0x00] < 2 ^ 20.
Proof. split; [apply bytes_okb_spec; reflexivity|]. split; [discriminate|reflexivity]. Qed.

(** ** C77 *)
Definition encodable (t : oid) : Prop := exists b, oid_body t = Ret b.
Lemma insert_attr_perm x l : Permutation (x :: l) (insert_attr x l).
Proof. induction l as [|y l IH]; cbn [insert_attr]; auto. destruct (bytes_leb (fst x) (fst y)); auto. rewrite perm_swap. now constructor. Qed.
Lemma sort_attrs_perm l : Permutation l (sort_attrs l).
Proof. induction l as [|x l IH]; cbn [sort_attrs]; auto. rewrite <- insert_attr_perm. now constructor. Qed.
Lemma insert_attr_fst x l : map fst (insert_attr x l) = insert_sorted (fst x) (map fst l).
Proof. induction l as [|y l IH]; cbn [insert_attr map insert_sorted]; auto. destruct (bytes_leb (fst x) (fst y)); cbn [map]; [reflexivity|now f_equal]. Qed.
Lemma sort_attrs_fst l : map fst (sort_attrs l) = sort_bytes (map fst l).
Proof. induction l as [|x l IH]; cbn [sort_attrs map sort_bytes]; auto. now rewrite insert_attr_fst, IH. Qed.
Lemma sortable_iff t v x : sortable t v = Ret x <-> exists b, v = Ret b /\ attr_der (attr_new (t, b)) (fst x) /\ snd x = attr_new (t, b).
Proof.
  unfold sortable. split.
  - intros E. apply bind_inv in E as (b & -> & E). cbv zeta in E. apply bind_inv in E as (e & Ee & E). apply attr_marshal in Ee. assert (x = (e, attr_new (t, b))) by (unfold attr_new; cbn [fst snd]; congruence). subst x. exists b. auto.
  - intros (b & -> & H & K). cbn [bind]. cbv zeta. apply attr_marshal in H. change (mkAttr t (mkRaw 0 17 true (Some b) None)) with (attr_new (t, b)). rewrite H. cbn [bind]. destruct x as [e a]. cbn [fst snd] in *. now subst.
Qed.
Lemma sortables attrs l : mapM (fun '(t, v) => sortable t v) attrs = Ret l <-> exists tvs, attrs = map (fun tv => (fst tv, Ret (snd tv))) tvs /\ map snd l = map attr_new tvs /\ Forall2 attr_der (map snd l) (map fst l).
Proof.
  revert l. induction attrs as [|[t v] attrs IH]; intros l; cbn [mapM].
  - split; [intros E; assert (l = []) by congruence; subst; exists []; repeat split; constructor|]. intros (tvs & E & H & _). destruct tvs; [|discriminate E]. destruct l; [reflexivity|discriminate H].
  - split.
    + intros E. apply bind_inv in E as (x & Ex & E). apply bind_inv in E as (r & Er & E). assert (l = x :: r) by congruence. subst l. apply sortable_iff in Ex as (b & -> & Hd & Hs). apply IH in Er as (tvs & -> & H1 & H2).
      exists ((t, b) :: tvs). cbn [map fst snd]. rewrite Hs, H1. split; [reflexivity|]. split; [reflexivity|]. constructor; [exact Hd|]. now rewrite <- H1.
    + intros (tvs & E & H & F). destruct tvs as [|[t' b] tvs]; [discriminate E|]. cbn [map fst snd] in E. assert (t = t' /\ v = Ret b /\ attrs = map (fun tv => (fst tv, Ret (snd tv))) tvs) as (-> & -> & ->) by (repeat split; congruence).
      destruct l as [|x l]; [discriminate H|]. cbn [map] in H, F. assert (Hx : snd x = attr_new (t', b)) by congruence. assert (Hl : map snd l = map attr_new tvs) by congruence. inversion F as [|? ? ? ? F1 F2]; subst.
      rewrite Hx in F1. rewrite (proj2 (sortable_iff t' (Ret b) x) ltac:(exists b; auto)). cbn [bind]. rewrite (proj2 (IH l)) by (exists tvs; auto). reflexivity.
Qed.
Lemma F2_map {A B C} (R : A -> B -> Prop) (f : C -> A) (g : C -> B) l : Forall2 R (map f l) (map g l) <-> Forall (fun x => R (f x) (g x)) l.
Proof. induction l; cbn [map]; split; intros H; inversion H; subst; constructor; auto; now apply IHl. Qed.
(** ForMarshaling returns the added attributes, each wrapped in a SET, in ascending order of their encodings *)
Theorem C77_sorted : forall attrs out, ForMarshaling attrs = Ret out ->
  exists tvs es, attrs = map (fun tv => (fst tv, Ret (snd tv))) tvs /\ Permutation (map attr_new tvs) out /\ Forall2 attr_der out es /\ Sorted lex_le es.
Proof.
  intros attrs out E. unfold ForMarshaling in E. apply bind_inv in E as (l & El & E). assert (out = map snd (sort_attrs l)) by congruence. subst out. apply sortables in El as (tvs & -> & H1 & H2).
  exists tvs, (map fst (sort_attrs l)). split; [reflexivity|]. split; [rewrite <- H1; apply Permutation_map, sort_attrs_perm|]. split; [|rewrite sort_attrs_fst; apply sort_sorted].
  apply F2_map. apply F2_map in H2. eapply Permutation_Forall; [apply sort_attrs_perm|exact H2].
Qed.
Print Assumptions C77_sorted.
(** it succeeds exactly when every value could be encoded and every type is encodable *)
Theorem C77_success : forall attrs, (exists out, ForMarshaling attrs = Ret out) <-> Forall (fun tv => encodable (fst tv) /\ exists v, snd tv = Ret v) attrs.
Proof.
  intros attrs. split.
  - intros (out & E). unfold ForMarshaling in E. apply bind_inv in E as (l & El & _). apply sortables in El as (tvs & -> & H1 & H2). rewrite H1 in H2. clear H1. apply Forall_map. cbn [fst snd].
    remember (map fst l) as es. clear Heqes. revert es H2. induction tvs as [|[t b] tvs IH]; intros es H2; constructor; inversion H2 as [|? ? ? ? (ob & F1 & _) F2]; subst; [|eauto]. split; [exists ob; exact F1|eexists; reflexivity].
  - intros F. assert (G : exists l, mapM (fun '(t, v) => sortable t v) attrs = Ret l).
    { induction F as [|[t v] attrs [(ob & Ho) (b & Hv)] _ (l & IH)]; [exists []; reflexivity|]. cbn [fst snd] in *. subst v. eexists ((_, attr_new (t, b)) :: l). cbn [mapM]. rewrite IH.
      rewrite (proj2 (sortable_iff t (Ret b) (el 0 16 true (el 0 6 false ob ++ raw_der (at_Value (attr_new (t, b)))), attr_new (t, b)))) by (exists b; split; [reflexivity|]; split; [exists ob; split; [exact Ho|reflexivity]|reflexivity]). reflexivity. }
    destruct G as (l & G). unfold ForMarshaling. rewrite G. eexists. reflexivity.
Qed.
Print Assumptions C77_success.
Lemma attr_der_fun a e e' : attr_der a e -> attr_der a e' -> e = e'.
Proof. intros (b & H & ->) (b' & H' & ->). congruence. Qed.
Lemma F2_der_fun l es es' : Forall2 attr_der l es -> Forall2 attr_der l es' -> es = es'.
Proof. intros H. revert es'. induction H as [|a e l es H1 _ IH]; intros es' H'; inversion H'; subst; [reflexivity|]. f_equal; [eapply attr_der_fun; eauto|auto]. Qed.
Lemma F2_perm (l l' : list attribute) es : Permutation l l' -> Forall2 attr_der l es -> exists es', Permutation es es' /\ Forall2 attr_der l' es'.
Proof. intros H F. exact (Permutation_Forall2 H F). Qed.
(** the order in which attributes were added does not matter: the same encodings in the same order, hence the same bytes to
    sign, and the very same attributes if their types are sane and their encodings of a possible size *)
Theorem C77_order_independent : forall attrs attrs' out, Permutation attrs attrs' -> ForMarshaling attrs = Ret out ->
  exists out' es, ForMarshaling attrs' = Ret out' /\ Forall2 attr_der out es /\ Forall2 attr_der out' es /\ (forall m, marshalAttributes (Some out') = Ret m <-> marshalAttributes (Some out) = Ret m) /\
    (Forall (fun tv => oid_ok (fst tv)) attrs -> Forall (fun e => zlen e < 2 ^ 31) es -> out' = out).
Proof.
  intros attrs attrs' out HP E.
  assert (S : exists out', ForMarshaling attrs' = Ret out'). { apply C77_success. eapply Permutation_Forall; [exact HP|]. apply C77_success. eauto. }
  destruct S as (out' & E'). destruct (C77_sorted _ _ E) as (tvs & es & T & P1 & F1 & S1). destruct (C77_sorted _ _ E') as (tvs' & es' & T' & P2 & F2 & S2).
  assert (Q : Permutation tvs tvs').
  { subst attrs attrs'. apply Permutation_map_inv in HP as (q & Em & HP). assert (tvs = q).
    { clear - Em. revert q Em. induction tvs as [|[a b] l IH]; intros [|[c d] q] Em.
      - reflexivity.
      - discriminate Em.
      - discriminate Em.
      - cbn [map fst snd] in Em. f_equal; [congruence|]. apply IH. congruence. }
    subst q. symmetry. exact HP. }
  assert (O : Permutation out out'). { rewrite <- P1, <- P2. now apply Permutation_map. }
  destruct (F2_perm _ _ _ O F1) as (es2 & Pe & F2'). assert (es2 = es') by (eapply F2_der_fun; eauto). subst es2.
  assert (es = es') by (apply sorted_unique; auto). subst es'. exists out', es. split; [exact E'|]. split; [exact F1|]. split; [exact F2|]. split.
  - intros m. rewrite !marshalAttributes_iff. split; intros (q & Fq & R); exists q; (split; [|exact R]).
    + assert (q = es) by (eapply F2_der_fun; eauto). subst. exact F1.
    + assert (q = es) by (eapply F2_der_fun; eauto). subst. exact F2.
  - intros Ho Hz. assert (G : forall l l', Forall (fun a => exists tv, a = attr_new tv /\ oid_ok (fst tv)) l -> Forall (fun a => exists tv, a = attr_new tv /\ oid_ok (fst tv)) l' -> forall es, Forall (fun e => zlen e < 2 ^ 31) es -> Forall2 attr_der l es -> Forall2 attr_der l' es -> l' = l).
    { clear. intros l l' Hl Hl' es Hz F. revert l' Hl'. induction F as [|a e l es Ha _ IH]; intros l' Hl' F'; inversion F' as [|a' ? ? ? Ha' F'']; subst; [reflexivity|].
      apply Forall_cons_iff in Hl as [(tv & -> & O) Hl]. apply Forall_cons_iff in Hl' as [(tv' & -> & O') Hl']. apply Forall_cons_iff in Hz as [Ze Hz]. f_equal; [|auto].
      apply attr_marshal in Ha. apply attr_marshal in Ha'. pose proof (marshal_rt cAttr _ _ _ (attr_new_rt tv O) Ha Ze) as U1. pose proof (marshal_rt cAttr _ _ _ (attr_new_rt tv' O') Ha' Ze) as U2.
      assert (K : attr_read tv' = attr_read tv) by congruence. unfold attr_read in K. assert (fst tv' = fst tv /\ snd tv' = snd tv) as [K1 K2] by (split; congruence). unfold attr_new. now rewrite K1, K2. }
    subst attrs. assert (Ho' : Forall (fun tv => oid_ok (fst tv)) tvs) by (rewrite Forall_forall in Ho |- *; intros tv I; apply (Ho (fst tv, Ret (snd tv))); apply in_map_iff; exists tv; auto). clear Ho. rename Ho' into Ho. assert (N : Forall (fun a => exists tv, a = attr_new tv /\ oid_ok (fst tv)) (map attr_new tvs)) by (apply Forall_map; eapply Forall_impl; [|exact Ho]; intros tv Htv; exists tv; auto).
    apply (G out out') with (es := es); auto; [eapply Permutation_Forall; [exact P1|exact N]|]. eapply Permutation_Forall; [|exact N]. rewrite P1. exact O.
Qed.
Print Assumptions C77_order_independent.
Definition two_attrs : list (oid * outcome bytes) := [(oidAttributeSigningTime, Ret [4; 1; 7]); (oidAttributeMessageDigest, Ret [4; 1; 9])].
Example C77_instance : exists out, ForMarshaling two_attrs = Ret out /\ map at_Type out = [oidAttributeMessageDigest; oidAttributeSigningTime] /\ ForMarshaling (rev two_attrs) = Ret out.
Proof. eexists. split; [vm_compute; reflexivity|]. split; vm_compute; reflexivity. Qed.

(** ** C91: nothing unsigned is emitted *)
(** a signing failure, although dropped by the code, makes the encoder fail on the missing serial number *)
Lemma zero_signer_fails x : makeField (cSeqOf false cSI) setP (Some [siZero]) <> Ret x.
Proof. intros E. apply make_set in E as (es & E & _). cbn [mapM] in E. apply bind_inv in E as (y & Ey & _). vm_compute in Ey. discriminate Ey. Qed.
Lemma build_failed CRL (cCRL : codec CRL) cert data e out : buildSignedData cCRL cert data (Err e) <> Ret out.
Proof.
  intros E. unfold buildSignedData in E. apply bind_inv in E as (content & _ & E). cbv zeta in E. cbn [bind] in E. apply bind_inv in E as (inner & E & _).
  unfold Marshal, makeField at 1 in E. cbn [p_omit p_opt p_def noP andb c_whole cSD cStruct p_set c_tag c_body p_tag] in E. apply bind_inv in E as (b & E & _).
  cbn [f_enc fcons fst snd fnil sd_Version sd_Digests sd_Content sd_Certificates sd_CRLs sd_SignerInfos] in E.
  do 5 (apply bind_inv in E as (? & _ & E); apply bind_inv in E as (? & E & _)). apply bind_inv in E as (? & E & _). now apply zero_signer_fails in E.
Qed.
Theorem C91_callback_failure : forall CRL (cCRL : codec CRL) now cert callback data out, NewSignedDataCallBack cCRL now cert callback data = Ret out ->
  exists m sig, callback m = Ret sig.
Proof.
  intros CRL cCRL now cert callback data out E. unfold NewSignedDataCallBack in E. destruct (getSignerInfo _ _ _ _ _) as [si|e|] eqn:G.
  - unfold getSignerInfo in G. apply bind_inv in G as (d & _ & G). apply bind_inv in G as (fa & _ & G). apply bind_inv in G as (sig & G & _). unfold signAttributesCallback in G. apply bind_inv in G as (m & _ & G). eauto.
  - now apply build_failed in E.
  - unfold buildSignedData in E. apply bind_inv in E as (? & _ & E). discriminate E.
Qed.
Print Assumptions C91_callback_failure.
Theorem C91_signing_failure : forall CRL (cCRL : codec CRL) rand now cert pkey data out, NewSignedData cCRL rand now cert pkey data = Ret out ->
  exists priv m sig rest, pkey = ASM2 priv /\ Sign rand priv m [] = Ret (sig, rest).
Proof.
  intros CRL cCRL rand now cert pkey data out E. unfold NewSignedData in E. destruct (getSignerInfo _ _ _ _ _) as [si|e|] eqn:G.
  - unfold getSignerInfo in G. apply bind_inv in G as (d & _ & G). apply bind_inv in G as (fa & _ & G). apply bind_inv in G as (sig & G & _). unfold signAttributes in G. apply bind_inv in G as (m & _ & G).
    destruct pkey as [|priv|]; [discriminate G| |discriminate G]. apply bind_inv in G as ([sg rest] & G & _). exists priv, m, sg, rest. split; [reflexivity|exact G].
  - now apply build_failed in E.
  - unfold buildSignedData in E. apply bind_inv in E as (? & _ & E). discriminate E.
Qed.
Print Assumptions C91_signing_failure.
