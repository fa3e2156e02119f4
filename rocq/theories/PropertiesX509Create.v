(** * C99-C102: certificates made by CreateCertificate *)
From Coq Require Import String Permutation.
From Verif Require Import Base Words Utf8 BMPModel ECModel SM2Model CryptoByte Asn1 Asn1Proofs KeysModel KeysProofs P12Enc X509Model X509Sig PropertiesX509Str PropertiesX509Sig X509Build X509Proofs X509StrProofs X509ExtProofs X509NCProofs PropertiesX509Ext PropertiesX509Build PropertiesX509Exts X509CertProofs PropertiesX509Cert X509Crl X509CrlProofs X509Time PropertiesX509Crl X509Spki X509CsrProofs X509CreateProofs.
Open Scope Z_scope.

(** ** What the caller asked for *)
(** the name a template stands for: the given encoding when there is one (tag, length and a content the parser can read),
    otherwise the subject with valid identifiers; each RDN is a set, so its members may come back in another order *)
Definition has_name (t : Template) : Prop :=
  (tp_RawSubject t = [] /\ Forall (Forall (fun a => valid_oid (atv_Type a) /\ bytes_ok (atv_Value a))) (tp_Subject t)) \/
  (exists c n, tp_RawSubject t = tlv T_SEQUENCE c /\ zlen c < 2 ^ 31 /\ parseName (tp_RawSubject t) = Ret n).
Definition is_name_of (t : Template) (raw : bytes) (n : RDNSequence) : Prop :=
  (tp_RawSubject t = [] /\ Forall2 (@Permutation ATV) (tp_Subject t) n) \/
  (tp_RawSubject t <> [] /\ raw = tp_RawSubject t /\ parseName raw = Ret n).
(** a UTC time that exists and lies in the years 0 to 9999 *)
Definition utc_time (t : civil) : Prop :=
  0 <= t_Year t <= 9999 /\ 1 <= t_Month t <= 12 /\ 1 <= t_Day t <= days_in (t_Month t) (t_Year t) /\
  0 <= t_Hour t < 24 /\ 0 <= t_Min t < 60 /\ 0 <= t_Sec t < 60 /\ t_Off t = 0.
(** the algorithms whose signatures CreateCertificate does not check (x509.go:1793) *)
Definition unchecked (a : Z) : Prop := a = MD5WithRSA \/ a = SHA1WithRSA \/ a = ECDSAWithSHA1.

Lemma interpreted_ok : Forall oid_ok interpreted.
Proof. repeat (apply Forall_cons; [repeat constructor; vm_compute; discriminate|]). apply Forall_nil. Qed.
Lemma built_exts_ok t se aki ski exts : buildCertExtensions t se aki ski = Ret exts -> Forall (fun e => valid_oid (x_Id e)) (tp_ExtraExtensions t) -> Forall ext_ok exts.
Proof.
  intros E Hx. destruct (C88_extra_extensions _ _ _ _ _ E) as (g & -> & _ & G & _). apply Forall_app. split.
  - eapply Forall_impl; [|exact G]. cbv beta. intros e [Hi _]. pose proof interpreted_ok as O. rewrite Forall_forall in O. exact (O _ Hi).
  - eapply Forall_impl; [|exact Hx]. cbv beta. intros e He. apply valid_oid_ok. exact He.
Qed.
Lemma marshalName_el n bs : marshalName n = Ret bs -> exists b, bs = el 0 16 true b.
Proof. intros E. unfold marshalName, Marshal in E. eapply seq_make; [exact E|reflexivity..]. Qed.
Lemma subject_ne t b : has_name t -> subjectBytes t = Ret b -> exists c, b = el 0 16 true c.
Proof.
  unfold subjectBytes. intros [(Hr & _)|(c & n & Hr & Hc & _)] E.
  - rewrite Hr in E. exact (marshalName_el _ _ E).
  - exists c. rewrite Hr in E. change (tlv T_SEQUENCE c) with (T_SEQUENCE :: match der_len (zlen c) with Some l => l | None => [] end ++ c) in E. cbv iota in E.
    rewrite el_tlv by lia. assert (b = T_SEQUENCE :: match der_len (zlen c) with Some l => l | None => [] end ++ c) by congruence. subst b. reflexivity.
Qed.
Lemma subject_name t b : has_name t -> subjectBytes t = Ret b -> zlen b < 2 ^ 31 -> exists n, encoded_name b n /\ is_name_of t b n.
Proof.
  intros Hn E Hz. destruct (subject_ne t b Hn E) as [c Hc]. unfold subjectBytes in E. destruct Hn as [(Hr & Hn)|(c' & n & Hr & _ & Hp)].
  - rewrite Hr in E. destruct (name_parse (tp_Subject t) b) as (b' & n' & Hb & Sn & Pn); [|exact E|exact Hz|].
    { unfold name_ok. eapply Forall_impl; [|exact Hn]. cbv beta. intros l Hl. eapply Forall_impl; [|exact Hl]. cbv beta. intros a [H1 H2]. split; [now apply valid_oid_ok|exact H2]. }
    exists n'. split; [split; [exists c; exact Hc|exact Pn]|]. left. split; [exact Hr|exact Sn].
  - assert (N : tp_RawSubject t <> []) by (rewrite Hr; discriminate). assert (Hb : b = tp_RawSubject t) by (destruct (tp_RawSubject t); congruence).
    exists n. split; [split; [exists c; exact Hc|rewrite Hb; exact Hp]|]. right. split; [exact N|]. split; [exact Hb|rewrite Hb; exact Hp].
Qed.
Lemma signCert_sizes P rand key h pss ai t n issuer subject pk pkAlg exts der : tp_SerialNumber t = Some n -> issuer <> [] -> subject <> [] ->
  signCert P rand key h pss ai (tbsOf t ai issuer subject pk pkAlg exts) = Ret der -> zlen der < 2 ^ 31 -> zlen issuer < 2 ^ 31 /\ zlen subject < 2 ^ 31.
Proof.
  intros Hn Hi Hs E Hz. unfold signCert in E. apply bind_inv in E as (tbs & Et & E). apply bind_inv in E as (digest & Ed & E). apply bind_inv in E as (sig & Es & E). apply bind_inv in E as (der' & Ec & E).
  assert (der' = der). { destruct (_ || _) in E; [congruence|]. destruct (checkSignature _ _ _ _ _) in E; congruence. } subst der'. clear E.
  unfold Marshal in Ec. apply cert_parts in Ec as (tbs' & aib' & Et' & Ea' & Ed'). pose proof (el_len 0 16 true (tbs' ++ aib' ++ el 0 3 false (0 :: sig))) as L0. rewrite <- Ed' in L0. rewrite !zlen_app in L0.
  pose proof (zlen_nonneg aib'). pose proof (zlen_nonneg (el 0 3 false (0 :: sig))).
  assert (L : zlen tbs <= zlen tbs'). { unfold Marshal in Et. unfold cTbs in Et, Et'. eapply raw_remake; [| |exact Et|exact Et']; reflexivity. }
  destruct (tbs_parts t n ai issuer subject pk pkAlg exts tbs Hn Hi Hs Et) as (aib & t1 & t2 & spki & xs & Ea & T1 & T2 & Ek & Ex & Etb).
  pose proof (el_len 0 16 true (el 2 0 true [2; 1; 2] ++ el 0 2 false (bigint_content n) ++ aib ++ issuer ++ el 0 16 true (t1 ++ t2) ++ subject ++ spki ++ xs)) as L1. rewrite <- Etb in L1. rewrite !zlen_app in L1.
  pose proof (zlen_nonneg (el 2 0 true [2; 1; 2])). pose proof (zlen_nonneg (el 0 2 false (bigint_content n))). pose proof (zlen_nonneg aib). pose proof (zlen_nonneg issuer). pose proof (zlen_nonneg (el 0 16 true (t1 ++ t2))). pose proof (zlen_nonneg subject). pose proof (zlen_nonneg spki). pose proof (zlen_nonneg xs). lia.
Qed.
(** the steps of CreateCertificate *)
Lemma create_inv P rand t parent pub priv der : CreateCertificate P rand t parent pub priv = Ret der ->
  exists key n h ai pk pkAlg issuer subject exts, priv = ASigner key /\ tp_SerialNumber t = Some n /\
    signingParamsForPublicKey (sg_Public key) (tp_SignatureAlgorithm t) = Ret (h, ai) /\ marshalPublicKey pub = Ret (pk, pkAlg) /\
    subjectBytes parent = Ret issuer /\ subjectBytes t = Ret subject /\ (forall k, tp_PublicKey parent = Some k -> pub_Equal (sg_Public key) k = true) /\
    buildCertExtensions t (bytes_eqb subject emptyASN1Subject) (chooseAKI t parent issuer subject) (chooseSKI P t pk) = Ret exts /\
    (i_BasicConstraintsValid (tp_Info t) = true -> i_IsCA (tp_Info t) = false -> i_MaxPathLen (tp_Info t) = -1 \/ (i_MaxPathLen (tp_Info t) = 0 /\ i_MaxPathLenZero (tp_Info t) = false)) /\
    signCert P rand key h (isRSAPSS (tp_SignatureAlgorithm t)) ai (tbsOf t ai issuer subject pk pkAlg exts) = Ret der.
Proof.
  unfold CreateCertificate. intros E. destruct priv as [key|k|]; cbn [asSigner] in E; try discriminate E. destruct (tp_SerialNumber t) as [n|] eqn:Hn; [|discriminate E].
  cbv zeta in E. destruct (_ && _ && _ && _) eqn:G in E; [discriminate E|].
  apply bind_inv in E as ([h ai] & Es & E). apply bind_inv in E as ([pk pkAlg] & Ep & E). apply bind_inv in E as (issuer & Ei & E). apply bind_inv in E as (subject & Esub & E).
  match type of E with (if ?c then _ else _) = _ => destruct c eqn:Q; [discriminate E|] end. apply bind_inv in E as (exts & Ex & E).
  exists key, n, h, ai, pk, pkAlg, issuer, subject, exts. repeat (split; [solve [assumption|reflexivity]|]). split.
  - intros k Hk. rewrite Hk in Q. now apply negb_false_iff in Q.
  - split; [exact Ex|]. split; [|exact E]. intros B C. rewrite B, C in G. cbn [negb andb] in G. destruct (i_MaxPathLenZero (tp_Info t)); lia.
Qed.

(** ** C99 *)
(** the fields of a parsed certificate against the template; [shorts], [p], [x]: addresses and constraints as written (C87) *)
Definition fields_kept (t : Template) (shorts : list bytes) (p x : constraints) (i : extInfo) : Prop :=
  let T := tp_Info t in
  (forall b, 0 <= b -> Z.testbit (i_KeyUsage i) b = (b <? 9) && Z.testbit (i_KeyUsage T) b) /\
  i_BasicConstraintsValid i = i_BasicConstraintsValid T /\
  (i_BasicConstraintsValid T = true -> i_IsCA i = i_IsCA T /\ limit (i_MaxPathLen i) (i_MaxPathLenZero i) = limit (i_MaxPathLen T) (i_MaxPathLenZero T)) /\
  i_SAN i = mkSANs (san_DNS (i_SAN T)) (san_Email (i_SAN T)) shorts (san_URI (i_SAN T)) /\
  i_Permitted i = p /\ i_Excluded i = x /\
  (~ (no_constraints (i_Permitted T) /\ no_constraints (i_Excluded T)) -> i_PermittedDNSDomainsCritical i = i_PermittedDNSDomainsCritical T) /\
  i_CRLDistributionPoints i = i_CRLDistributionPoints T /\
  i_ExtKeyUsage i = i_ExtKeyUsage T /\ i_UnknownExtKeyUsage i = i_UnknownExtKeyUsage T /\ i_PolicyIdentifiers i = i_PolicyIdentifiers T /\
  i_OCSPServer i = i_OCSPServer T /\ i_IssuingCertificateURL i = i_IssuingCertificateURL T /\
  i_Unhandled i = map x_Id (filter x_Critical (tp_ExtraExtensions t)).
Lemma created_full : forall P net rand t parent pub key der shorts p x,
  CreateCertificate P rand t parent pub (ASigner key) = Ret der -> zlen der < 2 ^ 31 ->
  has_name t -> has_name parent -> utc_time (tp_NotBefore t) -> utc_time (tp_NotAfter t) -> good_pub pub ->
  well_formed net t shorts p x -> Forall (fun e => valid_oid (x_Id e)) (tp_ExtraExtensions t) ->
  exists c, ParseCertificate net der = Ret c /\ buildCertExtensions t (bytes_eqb (c_RawSubject c) emptyASN1Subject) (i_AuthorityKeyId (c_Info c)) (i_SubjectKeyId (c_Info c)) = Ret (c_Extensions c) /\
    c_Raw c = der /\ c_Version c = 3 /\ tp_SerialNumber t = Some (c_SerialNumber c) /\
    c_NotBefore c = tp_NotBefore t /\ c_NotAfter c = tp_NotAfter t /\
    is_name_of t (c_RawSubject c) (c_Subject c) /\ is_name_of parent (c_RawIssuer c) (c_Issuer c) /\
    c_PublicKey c = pub /\ c_PublicKeyAlgorithm c = key_family pub /\
    fields_kept t shorts p x (c_Info c) /\
    (* key identifiers *)
    i_AuthorityKeyId (c_Info c) = (if bytes_eqb (c_RawIssuer c) (c_RawSubject c) || isnil (i_SubjectKeyId (tp_Info parent)) then i_AuthorityKeyId (tp_Info t) else i_SubjectKeyId (tp_Info parent)) /\
    (i_SubjectKeyId (tp_Info t) <> [] \/ i_IsCA (tp_Info t) = false -> i_SubjectKeyId (c_Info c) = i_SubjectKeyId (tp_Info t)) /\
    (i_SubjectKeyId (tp_Info t) = [] -> i_IsCA (tp_Info t) = true -> exists pk pkAlg, marshalPublicKey pub = Ret (pk, pkAlg) /\ i_SubjectKeyId (c_Info c) = hash_fn P H_SHA1 pk) /\
    (* the caller's extensions come last, unchanged *)
    (exists generated, c_Extensions c = generated ++ tp_ExtraExtensions t /\ forall e, In e generated -> ~ In (x_Id e) (map x_Id (tp_ExtraExtensions t))) /\
    (* the signature *)
    chosen_alg (sg_Public key) (tp_SignatureAlgorithm t) (c_SignatureAlgorithm c) /\
    (exists digest, toSign P (fst (lookupDetails (c_SignatureAlgorithm c))) (c_RawTBSCertificate c) = Ret digest /\
       sg_Sign key rand digest (fst (lookupDetails (c_SignatureAlgorithm c)), isRSAPSS (tp_SignatureAlgorithm t)) = Ret (c_Signature c)) /\
    (unchecked (c_SignatureAlgorithm c) \/ checkSignature P (c_SignatureAlgorithm c) (c_RawTBSCertificate c) (c_Signature c) (sg_Public key) = Ret tt).
Proof.
  intros P net rand t parent pub key der shorts p x E Hz Ht Hpa Vb Va Gp W Hx.
  destruct (create_inv _ _ _ _ _ _ _ E) as (key' & n & h & ai & pk & pkAlg & issuer & subject & exts & Hk & Hn & Es & Ep & Ei & Esub & _ & Ex & _ & S). injection Hk as <-. clear E.
  destruct (subject_ne parent issuer Hpa Ei) as [ic Hic]. destruct (subject_ne t subject Ht Esub) as [sc Hsc].
  assert (Nei : issuer <> []) by (rewrite Hic; apply el_ne). assert (Nes : subject <> []) by (rewrite Hsc; apply el_ne).
  destruct (signCert_sizes P rand key h (isRSAPSS (tp_SignatureAlgorithm t)) ai t n issuer subject pk pkAlg exts der Hn Nei Nes S Hz) as [Zi Zs].
  destruct (subject_name parent issuer Hpa Ei Zi) as (iN & Ni & Ii). destruct (subject_name t subject Ht Esub Zs) as (sN & Ns & Is).
  destruct (proj1 (C57_consistent (sg_Public key) (tp_SignatureAlgorithm t)) h ai Es) as (a & _ & Ca & Ga & Ra & _ & La).
  pose proof (built_exts_ok _ _ _ _ _ Ex Hx) as Ox.
  assert (C87 : exists info, Forall (fun e => zlen (x_Value e) < 2 ^ 31) exts -> processExtensions net info0 exts = Ret info /\ fields_kept t shorts p x info /\ i_AuthorityKeyId info = chooseAKI t parent issuer subject /\ i_SubjectKeyId info = chooseSKI P t pk).
  { destruct (Forall_dec (fun e => zlen (x_Value e) < 2 ^ 31) (fun e => Z_lt_dec (zlen (x_Value e)) (2 ^ 31)) exts) as [D|D]; [|exists info0; tauto].
    destruct (C87_template net t shorts p x _ _ _ _ W Ex D) as (i & Hi & Q). exists i. intros _. split; [exact Hi|]. cbv zeta in Q. unfold fields_kept. cbv zeta. tauto. }
  destruct C87 as (info & Q).
  destruct (cert_parse net P rand key h (isRSAPSS (tp_SignatureAlgorithm t)) ai t issuer subject iN sN pk pkAlg pub exts der n a info S Hz Hn Ra Ni Ns Vb Va Gp Ep Ox (fun D => proj1 (Q D))) as (tbs & spki & digest & sig & Et & Ek & Ed & Esg & Pc).
  assert (D : Forall (fun e => zlen (x_Value e) < 2 ^ 31) exts).
  { destruct (tbs_parts t n ai issuer subject pk pkAlg exts tbs Hn Nei Nes Et) as (aib & t1 & t2 & spki' & xs & _ & _ & _ & _ & Exx & Etb).
    assert (zlen tbs < 2 ^ 31).
    { assert (BB := S). unfold signCert in BB. apply bind_inv in BB as (tb & Et0 & BB). assert (tb = tbs) by congruence. subst tb. apply bind_inv in BB as (dg & _ & BB). apply bind_inv in BB as (sg & _ & BB). apply bind_inv in BB as (d & Ec & BB).
      assert (d = der). { destruct (_ || _) in BB; [congruence|]. destruct (checkSignature _ _ _ _ _) in BB; congruence. } subst d. unfold Marshal in Ec. apply cert_parts in Ec as (tbs' & ab & Et' & _ & Ed').
      pose proof (el_len 0 16 true (tbs' ++ ab ++ el 0 3 false (0 :: sg))) as L0. rewrite <- Ed' in L0. rewrite !zlen_app in L0. pose proof (zlen_nonneg ab). pose proof (zlen_nonneg (el 0 3 false (0 :: sg))).
      assert (L : zlen tbs <= zlen tbs'). { unfold Marshal in Et. unfold cTbs in Et, Et'. eapply raw_remake; [| |exact Et|exact Et']; reflexivity. } lia. }
    pose proof (el_len 0 16 true (el 2 0 true [2; 1; 2] ++ el 0 2 false (bigint_content n) ++ aib ++ issuer ++ el 0 16 true (t1 ++ t2) ++ subject ++ spki' ++ xs)) as L1. rewrite <- Etb in L1. rewrite !zlen_app in L1.
    pose proof (zlen_nonneg (el 2 0 true [2; 1; 2])). pose proof (zlen_nonneg (el 0 2 false (bigint_content n))). pose proof (zlen_nonneg aib). pose proof (zlen_nonneg issuer). pose proof (zlen_nonneg (el 0 16 true (t1 ++ t2))). pose proof (zlen_nonneg subject). pose proof (zlen_nonneg spki').
    eapply Forall_impl; [|exact (exts_sizes _ _ Exx)]. cbv beta. intros e He. lia. }
  destruct (Q D) as (_ & Fk & Aki & Ski).
  eexists. split. { unfold ParseCertificate. rewrite Pc. cbn [bind c_Raw]. rewrite Nat.eqb_refl. reflexivity. }
  cbn [c_Raw c_RawTBSCertificate c_SerialNumber c_RawIssuer c_RawSubject c_RawSubjectPublicKeyInfo c_Version c_Issuer c_Subject c_SignatureAlgorithm c_NotBefore c_NotAfter c_PublicKeyAlgorithm c_PublicKey c_Extensions c_Info c_Signature].
  split; [rewrite Aki, Ski; exact Ex|]. split; [reflexivity|]. split; [reflexivity|]. split; [exact Hn|]. split; [reflexivity|]. split; [reflexivity|]. split; [exact Is|]. split; [exact Ii|]. split; [reflexivity|]. split; [reflexivity|]. split; [exact Fk|].
  split. { rewrite Aki. unfold chooseAKI. destruct (bytes_eqb issuer subject); [reflexivity|]. cbn [negb andb orb]. destruct (i_SubjectKeyId (tp_Info parent)); reflexivity. }
  split. { intros H. rewrite Ski. unfold chooseSKI. destruct H as [H|H]; [destruct (i_SubjectKeyId (tp_Info t)); [congruence|reflexivity]|rewrite H, andb_false_r; reflexivity]. }
  split. { intros H1 H2. exists pk, pkAlg. split; [exact Ep|]. rewrite Ski. unfold chooseSKI. rewrite H1, H2. reflexivity. }
  split. { destruct (C88_extra_extensions _ _ _ _ _ Ex) as (g & Hg & _ & G & _). exists g. split; [exact Hg|]. intros e He. rewrite Forall_forall in G. exact (proj2 (G e He)). }
  split. { unfold chosen_alg. destruct Ca as [[-> Hd]|[H1 H2]]; [left; auto|right; auto]. }
  split. { exists digest. rewrite La. cbn [fst]. auto. }
  unfold signCert in S. rewrite Et in S. cbn [bind] in S. rewrite Ed in S. cbn [bind] in S. rewrite Esg in S. cbn [bind] in S. apply bind_inv in S as (d & _ & S). cbv zeta in S. rewrite Ga in S. unfold unchecked.
  destruct (Z.eqb_spec a MD5WithRSA); [left; auto|]. destruct (Z.eqb_spec a SHA1WithRSA); [left; auto|]. destruct (Z.eqb_spec a ECDSAWithSHA1); [left; auto|]. cbn [orb] in S. right.
  destruct (checkSignature P a tbs sig (sg_Public key)) as [[]| |]; congruence.
Qed.

Theorem C99_created : forall P net rand t parent pub key der shorts p x,
  CreateCertificate P rand t parent pub (ASigner key) = Ret der -> zlen der < 2 ^ 31 ->
  has_name t -> has_name parent -> utc_time (tp_NotBefore t) -> utc_time (tp_NotAfter t) -> good_pub pub ->
  well_formed net t shorts p x -> Forall (fun e => valid_oid (x_Id e)) (tp_ExtraExtensions t) ->
  exists c, ParseCertificate net der = Ret c /\
    c_Raw c = der /\ c_Version c = 3 /\ tp_SerialNumber t = Some (c_SerialNumber c) /\
    c_NotBefore c = tp_NotBefore t /\ c_NotAfter c = tp_NotAfter t /\
    is_name_of t (c_RawSubject c) (c_Subject c) /\ is_name_of parent (c_RawIssuer c) (c_Issuer c) /\
    c_PublicKey c = pub /\ c_PublicKeyAlgorithm c = key_family pub /\
    fields_kept t shorts p x (c_Info c) /\
    (* key identifiers *)
    i_AuthorityKeyId (c_Info c) = (if bytes_eqb (c_RawIssuer c) (c_RawSubject c) || isnil (i_SubjectKeyId (tp_Info parent)) then i_AuthorityKeyId (tp_Info t) else i_SubjectKeyId (tp_Info parent)) /\
    (i_SubjectKeyId (tp_Info t) <> [] \/ i_IsCA (tp_Info t) = false -> i_SubjectKeyId (c_Info c) = i_SubjectKeyId (tp_Info t)) /\
    (i_SubjectKeyId (tp_Info t) = [] -> i_IsCA (tp_Info t) = true -> exists pk pkAlg, marshalPublicKey pub = Ret (pk, pkAlg) /\ i_SubjectKeyId (c_Info c) = hash_fn P H_SHA1 pk) /\
    (* the caller's extensions come last, unchanged *)
    (exists generated, c_Extensions c = generated ++ tp_ExtraExtensions t /\ forall e, In e generated -> ~ In (x_Id e) (map x_Id (tp_ExtraExtensions t))) /\
    (* the signature *)
    chosen_alg (sg_Public key) (tp_SignatureAlgorithm t) (c_SignatureAlgorithm c) /\
    (exists digest, toSign P (fst (lookupDetails (c_SignatureAlgorithm c))) (c_RawTBSCertificate c) = Ret digest /\
       sg_Sign key rand digest (fst (lookupDetails (c_SignatureAlgorithm c)), isRSAPSS (tp_SignatureAlgorithm t)) = Ret (c_Signature c)) /\
    (unchecked (c_SignatureAlgorithm c) \/ checkSignature P (c_SignatureAlgorithm c) (c_RawTBSCertificate c) (c_Signature c) (sg_Public key) = Ret tt).
Proof.
  intros P net rand t parent pub key der shorts p x E Hz Ht Hpa Vb Va Gp W Hx.
  destruct (created_full P net rand t parent pub key der shorts p x E Hz Ht Hpa Vb Va Gp W Hx) as (c & Hc & _ & R). exists c. exact (conj Hc R).
Qed.
Print Assumptions C99_created.

(** ** C100: which extensions a created certificate carries, in which order, and which of them are critical *)
(** the fields of a template that ask for an extension: is it asked for, its identifier (RFC 5280), is it critical *)
Definition asked (T : extInfo) (emptySubject : bool) (aki ski : bytes) : list (bool * oid * bool) :=
  [ (negb (i_KeyUsage T =? 0), [2; 5; 29; 15], true);
    (negb (isnil (i_ExtKeyUsage T) && isnil (i_UnknownExtKeyUsage T)), [2; 5; 29; 37], false);
    (i_BasicConstraintsValid T, [2; 5; 29; 19], true);
    (negb (isnil ski), [2; 5; 29; 14], false);
    (negb (isnil aki), [2; 5; 29; 35], false);
    (negb (isnil (i_OCSPServer T) && isnil (i_IssuingCertificateURL T)), [1; 3; 6; 1; 5; 5; 7; 1; 1], false);
    (negb (isnil (san_DNS (i_SAN T)) && isnil (san_Email (i_SAN T)) && isnil (san_IP (i_SAN T)) && isnil (san_URI (i_SAN T))), [2; 5; 29; 17], emptySubject);
    (negb (isnil (i_PolicyIdentifiers T)), [2; 5; 29; 32], false);
    (negb (forallb (fun k => isnil (nc_DNS k) && isnil (nc_IP k) && isnil (nc_Email k) && isnil (nc_URI k)) [i_Permitted T; i_Excluded T]), [2; 5; 29; 30], i_PermittedDNSDomainsCritical T);
    (negb (isnil (i_CRLDistributionPoints T)), [2; 5; 29; 31], false) ].
Definition shape (e : Extension) : oid * bool := (x_Id e, x_Critical e).
(** those asked for, but for the ones the caller gives himself *)
Definition expected (extra : list Extension) (l : list (bool * oid * bool)) : list (oid * bool) :=
  map (fun '(_, o, c) => (o, c)) (filter (fun '(b, o, _) => b && negb (existsb (bytes_eqb o) (map x_Id extra))) l).
Lemma in_extra o extra : oidInExtensions o extra = existsb (bytes_eqb o) (map x_Id extra).
Proof.
  unfold oidInExtensions, oid_eqb. induction extra as [|e l IH]; [reflexivity|]. cbn [existsb map]. rewrite IH. f_equal.
  apply Bool.eq_iff_eq_true. rewrite !bytes_eqb_spec. split; congruence.
Qed.
Lemma block_shape cond cond' o extra c mk l : block cond' o extra mk = Ret l -> cond' = cond -> (forall e, mk = Ret e -> shape e = (o, c)) ->
  map shape l = expected extra [(cond, o, c)].
Proof.
  intros E -> H. unfold block in E. rewrite in_extra in E. unfold expected. cbn [filter]. destruct (cond && _).
  - apply bind_inv in E as (e & M & E). injection E as <-. cbn [map]. rewrite (H e M). reflexivity.
  - injection E as <-. reflexivity.
Qed.
Lemma expected_cons extra x l : expected extra (x :: l) = expected extra [x] ++ expected extra l.
Proof. unfold expected. cbn [filter]. destruct x as [[b o] c]. destruct (b && _); reflexivity. Qed.
Lemma build_shape t se aki ski exts : buildCertExtensions t se aki ski = Ret exts ->
  map shape exts = expected (tp_ExtraExtensions t) (asked (tp_Info t) se aki ski) ++ map shape (tp_ExtraExtensions t).
Proof.
  intros E. unfold buildCertExtensions in E. cbv zeta in E.
  repeat match type of E with bind (block _ _ _ _) _ = _ => let l := fresh "l" in let H := fresh "H" in apply bind_inv in E as (l & H & E) end.
  injection E as <-. rewrite !map_app, !app_assoc. f_equal. rewrite <- !app_assoc. unfold asked.
  rewrite (expected_cons _ _ [_; _; _; _; _; _; _; _; _]), (expected_cons _ _ [_; _; _; _; _; _; _; _]), (expected_cons _ _ [_; _; _; _; _; _; _]), (expected_cons _ _ [_; _; _; _; _; _]), (expected_cons _ _ [_; _; _; _; _]),
    (expected_cons _ _ [_; _; _; _]), (expected_cons _ _ [_; _; _]), (expected_cons _ _ [_; _]), (expected_cons _ _ [_]).
  assert (V : forall o c (v : outcome bytes) e, bind v (fun b => Ret (mkExt o c b)) = Ret e -> shape e = (o, c)).
  { intros o c v e M. apply value_id in M as (A & B & _). unfold shape. congruence. }
  repeat match goal with |- _ ++ _ = _ ++ _ => f_equal end; (eapply block_shape; [eassumption|solve [reflexivity|rewrite negb_andb; reflexivity|cbn [forallb]; rewrite andb_true_r, negb_andb; reflexivity]|]); intros e M; try exact (V _ _ _ _ M).
  - unfold marshalExtKeyUsage in M. apply bind_inv in M as (? & _ & M). exact (V _ _ _ _ M).
  - unfold marshalBasicConstraints in M. clear - M. destruct (Marshal _ _); try discriminate M; injection M as <-; reflexivity.
Qed.
Theorem C100_extensions : forall P net rand t parent pub key der shorts p x,
  CreateCertificate P rand t parent pub (ASigner key) = Ret der -> zlen der < 2 ^ 31 ->
  has_name t -> has_name parent -> utc_time (tp_NotBefore t) -> utc_time (tp_NotAfter t) -> good_pub pub ->
  well_formed net t shorts p x -> Forall (fun e => valid_oid (x_Id e)) (tp_ExtraExtensions t) ->
  exists c, ParseCertificate net der = Ret c /\
    map shape (c_Extensions c) =
      expected (tp_ExtraExtensions t) (asked (tp_Info t) (bytes_eqb (c_RawSubject c) [48; 0]) (i_AuthorityKeyId (c_Info c)) (i_SubjectKeyId (c_Info c))) ++ map shape (tp_ExtraExtensions t).
Proof.
  intros P net rand t parent pub key der shorts p x E Hz Ht Hpa Vb Va Gp W Hx.
  destruct (created_full P net rand t parent pub key der shorts p x E Hz Ht Hpa Vb Va Gp W Hx) as (c & Hc & B & _). exists c. split; [exact Hc|]. exact (build_shape _ _ _ _ _ B).
Qed.
Print Assumptions C100_extensions.

(** ** C101: what is refused before anything is signed *)
(** a crypto.Signer, a serial number, a path length only for a CA, a supported key and an algorithm for that kind of key, and the
    parent's public key (if it has one) is the signer's *)
Definition may_sign (t parent : Template) (priv : anyPriv) : Prop :=
  exists key n, priv = ASigner key /\ tp_SerialNumber t = Some n /\
    (i_BasicConstraintsValid (tp_Info t) = true -> i_IsCA (tp_Info t) = false -> limit (i_MaxPathLen (tp_Info t)) (i_MaxPathLenZero (tp_Info t)) = None) /\
    default_alg (sg_Public key) <> None /\ (tp_SignatureAlgorithm t = 0 \/ alg_family (tp_SignatureAlgorithm t) = key_family (sg_Public key)) /\
    (forall k, tp_PublicKey parent = Some k -> k = sg_Public key).
(** the same private key with another signing function: it has the same public key *)
Definition with_sign (f : bytes -> bytes -> Z * bool -> outcome bytes) (priv : anyPriv) : anyPriv :=
  match priv with ASigner k => ASigner (mkSigner (sg_Public k) f) | p => p end.
Lemma pub_Equal_spec a b : default_alg a <> None -> (pub_Equal a b = true <-> b = a).
Proof.
  intros D. destruct a, b; cbn [pub_Equal default_alg] in *; try (split; discriminate); try contradiction.
  - rewrite andb_true_iff, !Z.eqb_eq. split; [intros [-> ->]; reflexivity|intros E; injection E as <- <-; auto].
  - rewrite !andb_true_iff, !Z.eqb_eq. split; [intros [[-> ->] ->]; reflexivity|intros E; injection E as <- <- <-; auto].
  - destruct k as [c x y], k0 as [c' x' y']. unfold PublicKey_Equal. cbn [pk_Curve pk_X pk_Y]. rewrite !andb_true_iff, !Z.eqb_eq. split; [intros [[-> ->] ->]; reflexivity|intros E; injection E as <- <- <-; auto].
  - rewrite bytes_eqb_spec. split; [intros ->; reflexivity|intros E; injection E as <-; reflexivity].
Qed.
Lemma mpl_guard i : i_BasicConstraintsValid i && negb (i_IsCA i) && negb (i_MaxPathLen i =? -1) && (negb (i_MaxPathLen i =? 0) || i_MaxPathLenZero i) = false <->
  (i_BasicConstraintsValid i = true -> i_IsCA i = false -> limit (i_MaxPathLen i) (i_MaxPathLenZero i) = None).
Proof.
  unfold limit. destruct (i_BasicConstraintsValid i), (i_IsCA i), (i_MaxPathLenZero i), (i_MaxPathLen i =? -1), (i_MaxPathLen i =? 0); cbn; split; intros H; auto; try discriminate; try (intros; discriminate); specialize (H eq_refl eq_refl); discriminate.
Qed.
Theorem C101_guards : forall t parent pub priv,
  (forall P rand der, CreateCertificate P rand t parent pub priv = Ret der -> may_sign t parent priv) /\
  (~ may_sign t parent priv -> exists r, (forall der, r <> Ret der) /\ forall P rand f, CreateCertificate P rand t parent pub (with_sign f priv) = r).
Proof.
  intros t parent pub priv.
  assert (D : may_sign t parent priv \/ exists r, (forall der, r <> Ret der) /\ forall P rand f, CreateCertificate P rand t parent pub (with_sign f priv) = r).
  { destruct priv as [key|k|]; [|right; exists (Err errNotSigner); split; [discriminate|reflexivity]..].
    unfold CreateCertificate. cbn [with_sign asSigner sg_Public].
    destruct (tp_SerialNumber t) as [n|] eqn:Hn; [|right; eexists (Err _); split; [discriminate|reflexivity]]. cbv zeta.
    match goal with |- _ \/ exists r, _ /\ forall P rand f, (if ?c then _ else _) = _ => destruct c eqn:G end; [right; eexists (Err _); split; [discriminate|reflexivity]|]. pose proof (proj1 (mpl_guard _) G) as G'. clear G.
    destruct (signingParamsForPublicKey (sg_Public key) (tp_SignatureAlgorithm t)) as [[h ai]|e|] eqn:Es; [|right; eexists (Err _); split; [discriminate|reflexivity]|right; exists Panic; split; [discriminate|reflexivity]]. cbn [bind].
    destruct (proj1 (C57_consistent _ _) _ _ Es) as (a & Dn & Ca & _ & _ & Fa & _).
    destruct (marshalPublicKey pub) as [[pk pkAlg]|e|]; [|right; eexists (Err _); split; [discriminate|reflexivity]|right; exists Panic; split; [discriminate|reflexivity]]. cbn [bind].
    destruct (subjectBytes parent) as [is|e|]; [|right; eexists (Err _); split; [discriminate|reflexivity]|right; exists Panic; split; [discriminate|reflexivity]]. cbn [bind].
    destruct (subjectBytes t) as [sb|e|]; [|right; eexists (Err _); split; [discriminate|reflexivity]|right; exists Panic; split; [discriminate|reflexivity]]. cbn [bind].
    match goal with |- _ \/ exists r, _ /\ forall P rand f, (if ?c then _ else _) = _ => destruct c eqn:Q end; [right; eexists (Err _); split; [discriminate|reflexivity]|].
    left. exists key, n. split; [reflexivity|]. split; [exact Hn|]. split; [exact G'|]. split; [exact Dn|]. split.
    - destruct Ca as [[H _]|[_ H]]; [left; exact H|right; congruence].
    - intros k Hk. rewrite Hk in Q. apply negb_false_iff in Q. exact (proj1 (pub_Equal_spec _ _ Dn) Q). }
  split.
  - intros P rand der E. destruct D as [D|(r & Hr & D)]; [exact D|]. exfalso. destruct priv as [key|k|]; [|discriminate E..].
    specialize (D P rand (sg_Sign key)). cbn [with_sign] in D. destruct key as [k f]. cbn [sg_Public sg_Sign] in D. apply (Hr der). rewrite <- D. exact E.
  - intros N. destruct D as [D|D]; [contradiction|exact D].
Qed.
Print Assumptions C101_guards.
(** an SM2 private key of this library is not a crypto.Signer, so no certificate can be created with it; nor with an Ed25519 key,
    whose signature the final check can never accept (C54) *)
Theorem C101_sm2_private_key_refused : forall P rand t parent pub k, exists e, CreateCertificate P rand t parent pub (ASM2 k) = Err e.
Proof. intros. eexists. reflexivity. Qed.
Print Assumptions C101_sm2_private_key_refused.
Theorem C101_ed25519_refused : forall P rand t parent pub k f der, CreateCertificate P rand t parent pub (ASigner (mkSigner (PKed25519 k) f)) <> Ret der.
Proof.
  intros P rand t parent pub k f der E. apply create_inv in E as (key & n & h & ai & pk & pkAlg & issuer & subject & exts & Hk & _ & Es & _ & _ & _ & _ & _ & _ & S). injection Hk as <-. cbn [sg_Public] in *.
  destruct (proj1 (C57_consistent _ _) _ _ Es) as (a & _ & _ & Ga & _ & Fa & _). cbn [key_family] in Fa.
  assert (a = PureEd25519) as ->. { unfold alg_family in Fa. destruct (existsb _ _); [discriminate|]. destruct (existsb _ _); [discriminate|]. destruct (existsb _ _); [discriminate|]. destruct (Z.eqb_spec a PureEd25519); [assumption|discriminate]. }
  unfold signCert in S. apply bind_inv in S as (tbs & _ & S). apply bind_inv in S as (m & _ & S). apply bind_inv in S as (sig & _ & S). apply bind_inv in S as (d & _ & S).
  cbv zeta in S. rewrite Ga in S. cbn [sg_Public] in S. rewrite (proj1 (C54_ed25519_never_verifies P 0 tbs sig k)) in S. discriminate S.
Qed.
Print Assumptions C101_ed25519_refused.

(** ** C102: what was created verifies against its issuer's certificate *)
(** a template for a certificate authority *)
Definition ca_template (t : Template) : Prop :=
  i_BasicConstraintsValid (tp_Info t) = true /\ i_IsCA (tp_Info t) = true /\ (i_KeyUsage (tp_Info t) = 0 \/ Z.testbit (i_KeyUsage (tp_Info t)) 5 = true).
(** either CreateCertificate has checked the signature itself, or the signer is one whose signatures verify *)
Definition trusted (P : sigPrims) (key : Signer) (t : Template) : Prop :=
  ~ unchecked (tp_SignatureAlgorithm t) \/ sound_signer P key /\ rsa_or_ecdsa (sg_Public key).
Definition fine (net : netlib) (t parent : Template) (pub : pubKey) (der : bytes) : Prop :=
  zlen der < 2 ^ 31 /\ has_name t /\ has_name parent /\ utc_time (tp_NotBefore t) /\ utc_time (tp_NotAfter t) /\ good_pub pub /\
  (exists shorts p x, well_formed net t shorts p x) /\ Forall (fun e => valid_oid (x_Id e)) (tp_ExtraExtensions t).

Lemma keyusage_ca (i T : extInfo) : (forall b, 0 <= b -> Z.testbit (i_KeyUsage i) b = (b <? 9) && Z.testbit (i_KeyUsage T) b) ->
  i_KeyUsage T = 0 \/ Z.testbit (i_KeyUsage T) 5 = true -> i_KeyUsage i = 0 \/ Z.testbit (i_KeyUsage i) 5 = true.
Proof.
  intros B [H|H].
  - left. apply Z.bits_inj'. intros n Hn. rewrite (B n Hn), H, !Z.bits_0, andb_false_r. reflexivity.
  - right. rewrite (B 5) by lia. rewrite H. reflexivity.
Qed.
(** the check of a created certificate against any certificate with the signer's key *)
Lemma created_verifies P net rand t parent pub key der c : CreateCertificate P rand t parent pub (ASigner key) = Ret der -> fine net t parent pub der -> trusted P key t ->
  ParseCertificate net der = Ret c -> checkSignature P (c_SignatureAlgorithm c) (c_RawTBSCertificate c) (c_Signature c) (sg_Public key) = Ret tt.
Proof.
  intros E (Hz & Ht & Hpa & Vb & Va & Gp & (shorts & p & x & W) & Hx) T Hc.
  destruct (C99_created P net rand t parent pub key der shorts p x E Hz Ht Hpa Vb Va Gp W Hx) as (c' & Hc' & _ & _ & _ & _ & _ & _ & _ & _ & _ & _ & _ & _ & _ & _ & Ca & (digest & Td & Sg) & V).
  assert (c' = c) by congruence. subst c'. destruct V as [U|V]; [|exact V].
  destruct (create_inv _ _ _ _ _ _ _ E) as (key' & n & h & ai & pk & pkAlg & issuer & subject & exts & Hk & _ & Es & _). injection Hk as <-.
  destruct (proj1 (C57_consistent _ _) _ _ Es) as (a & _ & Ca' & _ & _ & _ & La).
  assert (Aa : a = c_SignatureAlgorithm c). { unfold chosen_alg in Ca. destruct Ca as [[H1 H2]|[H1 H2]], Ca' as [[H3 H4]|[H3 H4]]; congruence. }
  rewrite Aa in La. rewrite La in Td, Sg. cbn [fst] in Td, Sg.
  destruct T as [N|[S K]].
  - exfalso. destruct Ca as [[Hz0 Hd]|[_ Hd]]; [|apply N; rewrite <- Hd; exact U].
    clear - U Hd. unfold default_alg in Hd. unfold unchecked in U. destruct (sg_Public key) as [| |k0| | |]; try discriminate.
    + assert (c_SignatureAlgorithm c = SHA256WithRSA) as H by congruence. rewrite H in U. destruct U as [U|[U|U]]; discriminate.
    + assert (H : In (c_SignatureAlgorithm c) [ECDSAWithSHA256; ECDSAWithSHA384; ECDSAWithSHA512]).
      { cbn [In]. repeat match type of Hd with match ?z with _ => _ end = _ => destruct z; try discriminate end; injection Hd as <-; tauto. }
      cbn [In] in H. destruct H as [H|[H|[H|[]]]]; rewrite <- H in U; destruct U as [U|[U|U]]; discriminate.
    + destruct (_ =? _); [|discriminate]. assert (c_SignatureAlgorithm c = SM2WithSM3) as H by congruence. rewrite H in U. destruct U as [U|[U|U]]; discriminate.
    + assert (c_SignatureAlgorithm c = PureEd25519) as H by congruence. rewrite H in U. destruct U as [U|[U|U]]; discriminate.
  - exact (check_signed P key rand (tp_SignatureAlgorithm t) _ h _ digest _ S K Ca La Td Sg).
Qed.
(** issue an authority's certificate for the key of [key1] (with any issuer [key0]), then a certificate signed by [key1]: the
    second verifies against the first, whatever is in it.  Neither the names nor the dates play a part (C56). *)
Theorem C102_chain : forall P net rand1 rand2 t1 parent1 key0 der1 t2 parent2 pub2 key1 der2,
  CreateCertificate P rand1 t1 parent1 (sg_Public key1) (ASigner key0) = Ret der1 -> fine net t1 parent1 (sg_Public key1) der1 -> ca_template t1 ->
  CreateCertificate P rand2 t2 parent2 pub2 (ASigner key1) = Ret der2 -> fine net t2 parent2 pub2 der2 -> trusted P key1 t2 ->
  exists c1 c2, ParseCertificate net der1 = Ret c1 /\ ParseCertificate net der2 = Ret c2 /\ CheckSignatureFrom P c2 c1 = Ret tt.
Proof.
  intros P net rand1 rand2 t1 parent1 key0 der1 t2 parent2 pub2 key1 der2 E1 F1 (A1 & A2 & A3) E2 F2 T2.
  destruct F1 as (Hz & Ht & Hpa & Vb & Va & Gp & (shorts & p & x & W) & Hx).
  destruct (C99_created P net rand1 t1 parent1 (sg_Public key1) key0 der1 shorts p x E1 Hz Ht Hpa Vb Va Gp W Hx) as (c1 & Hc1 & _ & _ & _ & _ & _ & _ & _ & K & KA & Fk & _).
  pose proof F2 as F2'. destruct F2' as (Hz2 & Ht2 & Hpa2 & Vb2 & Va2 & Gp2 & (shorts2 & p2 & x2 & W2) & Hx2).
  destruct (C99_created P net rand2 t2 parent2 pub2 key1 der2 shorts2 p2 x2 E2 Hz2 Ht2 Hpa2 Vb2 Va2 Gp2 W2 Hx2) as (c2 & Hc2 & _).
  exists c1, c2. split; [exact Hc1|]. split; [exact Hc2|]. apply C56_from.
  unfold fields_kept in Fk. cbv zeta in Fk. destruct Fk as (Fu & Fb & Fc & _). destruct (Fc A1) as [Fca _].
  split; [intros _; congruence|]. split; [intros _; congruence|]. split; [exact (keyusage_ca _ _ Fu A3)|]. split.
  - rewrite KA. destruct (C101_guards t2 parent2 pub2 (ASigner key1)) as [M _]. destruct (M _ _ _ E2) as (key' & n & Hk & _ & _ & D & _). injection Hk as <-. intros U. destruct (sg_Public key1); cbn in U, D; try discriminate. congruence.
  - rewrite K. exact (created_verifies P net rand2 t2 parent2 pub2 key1 der2 c2 E2 F2 T2 Hc2).
Qed.
Print Assumptions C102_chain.
(** a self-signed authority verifies itself *)
Theorem C102_self_signed : forall P net rand t key der,
  CreateCertificate P rand t t (sg_Public key) (ASigner key) = Ret der -> fine net t t (sg_Public key) der -> ca_template t -> trusted P key t ->
  exists c, ParseCertificate net der = Ret c /\ CheckSignatureFrom P c c = Ret tt.
Proof.
  intros P net rand t key der E F A T. destruct (C102_chain P net rand rand t t key der t t (sg_Public key) key der E F A E F T) as (c1 & c2 & H1 & H2 & H). exists c1. split; [exact H1|]. assert (c1 = c2) by congruence. congruence.
Qed.
Print Assumptions C102_self_signed.

(** ** A case: a self-signed authority and a certificate it issues, whose subject is empty (so its names are critical) *)
Definition noNet : netlib := mkNet (fun _ => None) (fun _ => false).
Definition ca0 : Template :=
  mkTmpl (Some 1) 0 [] (is_Subject issuer0) (mkCivil 2024 1 1 0 0 0 0) (mkCivil 2051 2 28 23 59 59 0) (tp_Info C87_tmpl) (tp_ExtraExtensions C87_tmpl) (Some (PKrsa 35 3)).
Definition leaf0 : Template :=
  mkTmpl (Some (-300)) SHA384WithRSA [] [] (mkCivil 1949 12 31 0 0 0 0) (mkCivil 2024 2 29 1 2 3 0)
    (mkInfo 1 false false 0 false (mkSANs [chars "a.cn"] [] [] []) noNC noNC false [] [] [5] [1] [] [] [] [] []) [mkExt [1; 2; 3] false [5; 0]] None.
Lemma wf_ca0 : exists shorts p x, well_formed noNet ca0 shorts p x.
Proof. destruct C87_instance as [W _]. destruct W. do 3 eexists. constructor; eassumption. Qed.
Lemma wf_leaf0 : exists shorts p x, well_formed noNet leaf0 shorts p x.
Proof.
  exists [], noNC, noNC. constructor; cbn.
  - lia.
  - split; constructor.
  - constructor.
  - constructor.
  - constructor.
  - repeat split; constructor.
  - repeat split; constructor.
  - constructor.
  - constructor; [|constructor]. cbn. intuition discriminate.
Qed.
Definition der_of (o : outcome bytes) : bytes := match o with Ret b => b | _ => [] end.
Definition der1 : bytes := Eval vm_compute in der_of (CreateCertificate prims0 [] ca0 ca0 (PKrsa 35 3) (ASigner rsa_signer)).
Definition der2 : bytes := Eval vm_compute in der_of (CreateCertificate prims0 [] leaf0 ca0 (PKrsa 91 5) (ASigner rsa_signer)).
Lemma made1 : CreateCertificate prims0 [] ca0 ca0 (PKrsa 35 3) (ASigner rsa_signer) = Ret der1.
Proof. vm_compute. reflexivity. Qed.
Lemma made2 : CreateCertificate prims0 [] leaf0 ca0 (PKrsa 91 5) (ASigner rsa_signer) = Ret der2.
Proof. vm_compute. reflexivity. Qed.
Lemma fine1 : fine noNet ca0 ca0 (PKrsa 35 3) der1.
Proof.
  assert (N : has_name ca0).
  { left. split; [reflexivity|]. destruct rl0_valid as [N _]. unfold name_ok in N. eapply Forall_impl; [|exact N]. cbv beta. intros r Hr. eapply Forall_impl; [|exact Hr]. cbv beta. intros a [H1 H2]. split; [apply valid_oid_ok; exact H1|exact H2]. }
  split; [vm_compute; reflexivity|]. split; [exact N|]. split; [exact N|]. split; [cbn; repeat split; discriminate|]. split; [cbn; repeat split; discriminate|]. split; [cbn; repeat split; discriminate|]. split; [exact wf_ca0|].
  constructor; [|constructor]. apply valid_oid_ok. repeat constructor; vm_compute; discriminate.
Qed.
Lemma fine2 : fine noNet leaf0 ca0 (PKrsa 91 5) der2.
Proof.
  split; [vm_compute; reflexivity|]. split; [left; split; [reflexivity|constructor]|]. split; [exact (proj1 (proj2 fine1))|]. split; [cbn; repeat split; discriminate|]. split; [cbn; repeat split; discriminate|].
  split; [cbn; repeat split; discriminate|]. split; [exact wf_leaf0|]. constructor; [|constructor]. apply valid_oid_ok. repeat constructor; vm_compute; discriminate.
Qed.
Example C99_nonvacuous : exists c1 c2, ParseCertificate noNet der1 = Ret c1 /\ ParseCertificate noNet der2 = Ret c2 /\
  i_SubjectKeyId (c_Info c1) = [] /\ List.length (c_Extensions c1) = 9%nat /\
  c_SerialNumber c2 = -300 /\ c_PublicKey c2 = PKrsa 91 5 /\ c_SignatureAlgorithm c2 = SHA384WithRSA /\ i_KeyUsage (c_Info c2) = 1 /\
  map shape (c_Extensions c2) = [([2; 5; 29; 15], true); ([2; 5; 29; 37], false); ([2; 5; 29; 14], false); ([2; 5; 29; 17], true); ([1; 2; 3], false)] /\ CheckSignatureFrom prims0 c2 c1 = Ret tt.
Proof. eexists _, _. split; [vm_compute; reflexivity|]. split; [vm_compute; reflexivity|]. repeat split. Qed.
Example C102_nonvacuous : ca_template ca0 /\ trusted prims0 rsa_signer ca0 /\ trusted prims0 rsa_signer leaf0 /\ may_sign leaf0 ca0 (ASigner rsa_signer) /\ ~ may_sign leaf0 ca0 (ASigner (mkSigner (PKrsa 35 5) (fun _ _ _ => Ret []))).
Proof.
  split; [cbn; repeat split; right; reflexivity|]. split; [left; intros [H|[H|H]]; discriminate|]. split; [left; intros [H|[H|H]]; discriminate|]. split.
  - exact (proj1 (C101_guards leaf0 ca0 (PKrsa 91 5) (ASigner rsa_signer)) _ _ _ made2).
  - intros (k & n & H & _ & _ & _ & _ & K). injection H as <-. specialize (K _ eq_refl). discriminate K.
Qed.
