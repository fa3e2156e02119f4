(** * C138: the signed PKCS#7 message, byte for byte *)
From Coq Require Import String Permutation Sorted.
From Verif Require Import Base Words SM3Spec SM3Model SM3Proofs ECSpec ECModel SM2Spec SM2Model ECProofs BaseOrder SM2SigProofs PropertiesSM2Sig CryptoByte Asn1 Asn1Proofs Asn1Safe KeysModel KeysProofs P12Enc P12Round X509Model X509Sig X509Build PropertiesX509Sig X509CertProofs X509ExtProofs PropertiesX509Cert.
From Verif Require Import Pkcs7Model Pkcs7Proofs Pkcs7Round PropertiesPkcs7 PropertiesPkcs7Sign PropertiesWire PropertiesWireCert.
Open Scope Z_scope.

(** ** The specification *)
(** GB/T 35275: 2a 81 1c cf 55 = 1.2.156.10197 *)
Definition gm : bytes := [0x2a; 0x81; 0x1c; 0xcf; 0x55].
Definition id_gm_data : bytes := gm ++ [6; 1; 4; 2; 1].          (* 1.2.156.10197.6.1.4.2.1 *)
Definition id_gm_signedData : bytes := gm ++ [6; 1; 4; 2; 2].    (* 1.2.156.10197.6.1.4.2.2 *)
Definition id_sm3 : bytes := gm ++ [1; 0x83; 0x11].              (* 1.2.156.10197.1.401 *)
Definition id_sm2sign : bytes := gm ++ [1; 0x82; 0x2d; 1].       (* 1.2.156.10197.1.301.1 *)
Definition id_contentType : bytes := rsadsi ++ [9; 3].           (* 1.2.840.113549.1.9.3 *)
Definition id_messageDigest : bytes := rsadsi ++ [9; 4].         (* 1.2.840.113549.1.9.4 *)
Definition id_signingTime : bytes := rsadsi ++ [9; 5].           (* 1.2.840.113549.1.9.5 *)
(** the three attributes; [t] is the DER encoding of the time of the call *)
Definition p7_attributes (data t : bytes) : list bytes :=
  [ SEQ (OID id_contentType ++ SETOF (OID id_gm_data));
    SEQ (OID id_messageDigest ++ SETOF (OCTETS (SM3 data)));
    SEQ (OID id_signingTime ++ SETOF t) ].
(** SignerInfo { 1, { issuer, serial }, SM3, [0] attributes, SM2, signature }; no unsigned attributes *)
Definition p7_signer (issuer : bytes) (serial : Z) (attrs sig : bytes) : bytes :=
  SEQ (INTEGER [1] ++ SEQ (issuer ++ INTEGER (int_octets serial)) ++ SEQ (OID id_sm3) ++ CTX0 attrs ++ SEQ (OID id_sm2sign) ++ OCTETS sig).
(** ContentInfo { signedData, SignedData { 1, { SM3 }, { data, content }, [0] certificate, [1] nothing, { signer } } } *)
Definition p7_message (content cert signer : bytes) : bytes :=
  SEQ (OID id_gm_signedData ++ CTX0 (SEQ (INTEGER [1] ++ SETOF (SEQ (OID id_sm3)) ++ SEQ (OID id_gm_data ++ CTX0 (OCTETS content)) ++
       CTX0 cert ++ DER 0xa1 [] ++ SETOF signer))).

(** ** The model's encodings are these *)
Lemma sm3_ai_lit : makeField cAI noP sm3_ai = Ret (SEQ (OID id_sm3)). Proof. vm_compute. reflexivity. Qed.
Lemma sm2_ai_lit : makeField cAI noP sm2_ai = Ret (SEQ (OID id_sm2sign)). Proof. vm_compute. reflexivity. Qed.
Lemma attr_lit7 o ob v : oid_body o = Ret ob -> attr_der (attr_new (o, v)) (SEQ (OID ob ++ SETOF v)).
Proof. intros E. exists ob. split; [exact E|]. rewrite <- el_oid, <- el_set, <- el_seq. reflexivity. Qed.
Lemma attr_der_fun a e e' : attr_der a e -> attr_der a e' -> e = e'.
Proof. intros (ob & E & ->) (ob' & E' & ->). congruence. Qed.
Lemma attrs_lit t data : Forall2 attr_der (map attr_new (attributes_of t data)) (p7_attributes data t).
Proof.
  unfold attributes_of, p7_attributes. rewrite <- digest_octets. rewrite (el_oct (SM3 data)). cbn [map].
  constructor; [apply (attr_lit7 _ id_contentType [6; 10; 42; 129; 28; 207; 85; 6; 1; 4; 2; 1]); reflexivity|].
  constructor; [apply (attr_lit7 _ id_messageDigest); reflexivity|]. constructor; [apply (attr_lit7 _ id_signingTime); reflexivity|constructor].
Qed.
Lemma signer_info_sorted cert callback t data si : bytes_ok data -> getSignerInfo cert (fun attrs => signAttributesCallback attrs callback) (Ret t) data [] = Ret si ->
  exists tvs es sig, Permutation (attributes_of t data) tvs /\ Forall2 attr_der (map attr_new tvs) es /\ Permutation (p7_attributes data t) es /\ Sorted lex_le es /\ callback (SETOF (List.concat es)) = Ret sig /\
    si = mkSI 1 (cert2issuerAndSerial cert) sm3_ai (Some (map attr_new tvs)) sm2_ai (Some sig) None.
Proof.
  intros Hd E. unfold getSignerInfo in E. rewrite (sm3Digest_spec data Hd) in E. apply bind_inv in E as (d & Ed & E). assert (d = SM3 data) by congruence. subst d. clear Ed.
  apply bind_inv in E as (fa & Ef & E). rewrite signedAttrs_eq in Ef. apply C77_sorted in Ef as (tvs0 & es & Et & Pm & F & So). apply map_pair_inj in Et. subst tvs0. symmetry in Pm.
  apply Permutation_map_inv in Pm as (tvs & -> & Pm). apply bind_inv in E as (sig & Es & E). unfold signAttributesCallback in Es. apply bind_inv in Es as (m & Em & Es). apply marshalAttributes_iff in Em as (es' & F' & Ds & Hz).
  assert (Q : forall l e e', Forall2 attr_der l e -> Forall2 attr_der l e' -> e = e').
  { clear. induction l as [|a l IH]; intros e e' H H'; inversion H; inversion H'; subst; [reflexivity|]. f_equal; [eapply attr_der_fun; eassumption|auto]. }
  assert (es' = es) by (eapply Q; eassumption). subst es'. exists tvs, es, sig. split; [exact Pm|]. split; [exact F|].
  assert (Pe : Permutation (p7_attributes data t) es).
  { destruct (Permutation_Forall2 (Permutation_map attr_new Pm) (attrs_lit t data)) as (es2 & P2 & F2). rewrite (Q _ _ _ F F2). exact P2. }
  split; [exact Pe|]. split; [exact So|]. split; [|unfold sm3_ai, sm2_ai; congruence].
  apply der_set_iff in Ds. rewrite <- Es. f_equal. rewrite <- el_set, Ds. f_equal. f_equal. symmetry. now apply sort_id.
Qed.
Lemma signer_lit issuer n tvs es sig : Forall2 attr_der (map attr_new tvs) es ->
  makeField cSI noP (si_of issuer n (Some tvs) sig) = Ret (p7_signer (SEQ issuer) n (List.concat es) sig).
Proof.
  intros F. unfold cSI, p7_signer. rewrite <- int_octets_eq. rewrite <- el_seq. rewrite <- (app_nil_r (OCTETS sig)). apply mk_struct.
  unfold si_of. cbn [si_Version si_IAS si_DigestAlgorithm si_Attrs si_DigestEncryptionAlgorithm si_EncryptedDigest si_Unauth option_map].
  apply f_cons; [reflexivity|]. apply f_cons.
  { unfold cIAS. rewrite <- el_seq. apply mk_struct. cbn [ias_of ias_Issuer ias_Serial]. rewrite <- (app_nil_r (INTEGER _)). apply f_cons.
    - rewrite <- el_seq. apply (raw_full_make (mkRaw 0 0 false None (Some (el 0 16 true issuer))) (el 0 16 true issuer) eq_refl (el_ne _ _ _ _)).
    - rewrite <- el_int. apply f_cons; reflexivity. }
  apply f_cons; [apply sm3_ai_lit|]. apply f_cons.
  { assert (M : mapM (makeField cAttr noP) (map attr_new tvs) = Ret es) by (apply (mapM_F2 _ attr_der); [apply attr_marshal|exact F]).
    unfold makeField. cbn [p_omit p_opt p_def optImplicitP andb c_iszero cSeqOf c_whole p_set c_tag c_body p_tag p_exp c_comp]. unfold seq_body. rewrite M. cbn [bind]. rewrite <- el_c0. reflexivity. }
  apply f_cons; [apply sm2_ai_lit|]. apply f_cons; [rewrite <- el_oct; reflexivity|]. reflexivity.
Qed.
Lemma message_lit CRL (cCRL : codec CRL) content certs si s : zlen certs < 2 ^ 31 -> makeField cSI noP si = Ret s ->
  message CRL cCRL content certs si = Ret (p7_message content certs s).
Proof.
  intros Hc Es. unfold message.
  assert (I : Marshal (SD CRL cCRL) (sd_of CRL content certs si) = Ret (SEQ (INTEGER [1] ++ SETOF (SEQ (OID id_sm3)) ++ SEQ (OID id_gm_data ++ CTX0 (OCTETS content)) ++ CTX0 certs ++ DER 0xa1 [] ++ SETOF s))).
  { unfold Marshal, SD, cSD. rewrite <- el_seq. apply mk_struct. unfold sd_of. cbn [sd_Version sd_Digests sd_Content sd_Certificates sd_CRLs sd_SignerInfos].
    apply f_cons; [reflexivity|]. apply f_cons. { apply make_set. exists [SEQ (OID id_sm3)]. split; [cbn [mapM]; rewrite sm3_ai_lit; reflexivity|]. rewrite <- el_set. reflexivity. }
    apply f_cons. { pose proof (cinfo_make oidGMData id_gm_data (el 0 4 false content) eq_refl) as K. unfold Marshal in K. rewrite K. els. reflexivity. }
    apply f_cons; [rewrite <- el_c0; now apply certs_make|]. apply f_cons; [reflexivity|]. rewrite <- (app_nil_r (SETOF s)). apply f_cons; [|reflexivity].
    apply make_set. exists [s]. split; [cbn [mapM]; rewrite Es; reflexivity|]. rewrite <- el_set. cbn [sort_bytes insert_sorted List.concat]. now rewrite app_nil_r. }
  rewrite I. cbn [bind]. rewrite (cinfo_make oidGMSignedData id_gm_signedData _ eq_refl). unfold p7_message. els. reflexivity.
Qed.

(** ** C138 *)
(** What NewSignedDataCallBack returns is exactly this message, around the signature the callback gave for the SET of
    the three attributes in ascending order; the signer is named by the issuer and serial number of the certificate. *)
Theorem C138_message : forall CRL (cCRL : codec CRL) net t der cert callback data out,
  bytes_ok data -> bytes_ok der -> zlen der < 2 ^ 31 -> ParseCertificate net der = Ret cert ->
  NewSignedDataCallBack cCRL (Ret t) cert callback data = Ret out ->
  exists attrs sig, Permutation (p7_attributes data t) attrs /\ Sorted lex_le attrs /\ callback (SETOF (List.concat attrs)) = Ret sig /\
    out = p7_message data der (p7_signer (c_RawIssuer cert) (c_SerialNumber cert) (List.concat attrs) sig).
Proof.
  intros CRL cCRL net t der cert callback data out Hd Hder Hz Ec E. unfold NewSignedDataCallBack in E.
  destruct (getSignerInfo _ _ _ _ _) as [si|e|] eqn:G; [|now apply build_failed in E|unfold buildSignedData in E; apply bind_inv in E as (? & _ & E); discriminate E].
  apply signer_info_sorted in G as (tvs & es & sig & Pm & F & Pe & So & Es & ->); [|exact Hd]. destruct (issuer_el _ _ _ Hder Ec) as (issuer & Hi). rewrite (build_message _ _ _ _ _ _ _ Hi) in E.
  exists es, sig. split; [exact Pe|]. split; [exact So|]. split; [exact Es|]. pose proof (Parse_raw _ _ _ Hder Ec) as Hr.
  rewrite Hr in E. rewrite (message_lit _ _ _ _ _ _ Hz (signer_lit issuer (c_SerialNumber cert) tvs es sig F)) in E. rewrite Hi, el_seq. congruence.
Qed.
Print Assumptions C138_message.
(** NewSignedData with an SM2 key: the callback is Sign with no explicit identity *)
Theorem C138_sm2 : forall CRL (cCRL : codec CRL) net rand t der cert priv data out,
  bytes_ok data -> bytes_ok der -> zlen der < 2 ^ 31 -> ParseCertificate net der = Ret cert ->
  NewSignedData cCRL rand (Ret t) cert (ASM2 priv) data = Ret out ->
  exists attrs sig rest, Permutation (p7_attributes data t) attrs /\ Sorted lex_le attrs /\ Sign rand priv (SETOF (List.concat attrs)) [] = Ret (sig, rest) /\
    out = p7_message data der (p7_signer (c_RawIssuer cert) (c_SerialNumber cert) (List.concat attrs) sig).
Proof.
  intros CRL cCRL net rand t der cert priv data out Hd Hder Hz Ec E.
  assert (E' : NewSignedDataCallBack cCRL (Ret t) cert (fun m => do (sig, _) <- Sign rand priv m []; Ret sig) data = Ret out) by exact E. clear E.
  destruct (C138_message CRL cCRL net t der cert _ data out Hd Hder Hz Ec E') as (attrs & sig & P1 & P2 & P3 & P4).
  apply bind_inv in P3 as ([sg rest] & P3 & Q). exists attrs, sig, rest. assert (sg = sig) by congruence. subst sg. auto.
Qed.
Print Assumptions C138_sm2.
(** the hypotheses are those of C75, met by example_der, key1 and the content 1 2 3 *)
Example C138_instance : bytes_ok example_der /\ zlen example_der < 2 ^ 31 /\ exists cert out, ParseCertificate net0 example_der = Ret cert /\ NewSignedData cRaw (repeat 0 40) (Ret [0x17; 0]) cert (ASM2 key1) [1; 2; 3] = Ret out /\ out = example_message.
Proof.
  destruct C75_instance as (Ob & _). destruct example_made as (cert & Ec & _ & Em). split; [exact Ob|]. split; [vm_compute; reflexivity|]. exists cert, example_message. auto.
Qed.
