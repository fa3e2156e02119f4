(** * Signed PKCS#7 messages: encoding followed by decoding *)
From Coq Require Import String Permutation Sorted.
From Verif Require Import Base Words SM3Spec SM3Model SM3Proofs ECModel SM2Model CryptoByte Asn1 Asn1Proofs Asn1Safe KeysModel KeysProofs P12Enc X509Model X509Sig X509Build PropertiesX509Sig X509CertProofs PropertiesX509Cert.
From Verif Require Import Pkcs7Model Pkcs7Proofs.
Open Scope Z_scope.

(** ** unmarshalSD agrees with asn1.Unmarshal, and keeps no signer when that fails *)
Section SD.
Variable CRL : Type.
Variable cCRL : codec CRL.
Definition SD := cSD cCRL.
Lemma SD_body t f b : c_parse SD t f b =
  do (v, s) <- parseField cInt default1P b;
  do (ds, s) <- parseField (cSeqOf false cAI) setP s;
  do (ci, s) <- parseField cCI noP s;
  do (certs, s) <- parseField cRawCerts (optImplicitP 0) s;
  do (crls, s) <- parseField (cSeqOf false cCRL) (optImplicitP 1) s;
  do (sis, s) <- parseField (cSeqOf false cSI) setP s;
  Ret (mkSD v ds ci certs crls sis).
Proof.
  unfold SD, cSD. cbn [c_parse cStruct f_dec fcons fnil].
  repeat match goal with |- context[parseField ?c ?p ?s] => destruct (parseField c p s) as [[? ?]|?|]; cbn [bind]; try reflexivity end.
Qed.
Lemma raw_unm b data : Unmarshal cRaw (b :: data) =
  do (t, s1) <- parseTagAndLength (b :: data);
  if zlen s1 <? t_len t then Err "data truncated" else
  let rest := skipn (Z.to_nat (t_len t)) s1 in
  Ret (mkRaw (t_class t) (t_tag t) (t_comp t) (Some (firstn (Z.to_nat (t_len t)) s1)) (Some (firstn (List.length (b :: data) - List.length rest) (b :: data))), rest).
Proof. reflexivity. Qed.
Lemma SD_unm b data : Unmarshal SD (b :: data) =
  do (t, s1) <- parseTagAndLength (b :: data);
  if (negb (t_class t =? ClassUniversal) || negb (t_tag t =? TagSequence)) || negb (Bool.eqb (t_comp t) true) then Err "tags don't match" else
  if zlen s1 <? t_len t then Err "data truncated" else
  let rest := skipn (Z.to_nat (t_len t)) s1 in
  do a <- c_parse SD t (firstn (List.length (b :: data) - List.length rest) (b :: data)) (firstn (Z.to_nat (t_len t)) s1);
  Ret (a, rest).
Proof. reflexivity. Qed.
Lemma unmarshalSD_spec data : match Unmarshal SD data with
  | Ret (sd, _) => unmarshalSD cCRL data = Ret sd
  | Err _ => exists sd, unmarshalSD cCRL data = Ret sd /\ sd_SignerInfos sd = None
  | Panic => True end.
Proof.
  assert (Z : exists sd, Ret (@sdZero CRL) = Ret sd /\ sd_SignerInfos sd = None) by (eexists; split; [reflexivity|reflexivity]).
  unfold unmarshalSD. destruct data as [|b data]; [exact Z|]. rewrite raw_unm, SD_unm.
  destruct (parseTagAndLength (b :: data)) as [[t s1]|e|]; cbn [bind keep]; [|exact Z|exact I].
  destruct (Z.ltb_spec (zlen s1) (t_len t)) as [L|L].
  { cbn [keep]. destruct (_ || _); exact Z. }
  cbn [bind keep rv_class rv_tag rv_comp rv_bytes sl].
  destruct (t_class t =? ClassUniversal); cbn [negb orb andb]; [|exact Z]. destruct (t_tag t =? TagSequence); cbn [negb orb andb]; [|exact Z]. destruct (t_comp t); cbn [Bool.eqb negb]; [|exact Z].
  rewrite SD_body. remember (firstn (Z.to_nat (t_len t)) s1) as body.
  repeat match goal with |- context[parseField ?c ?p ?s] => destruct (parseField c p s) as [[? ?]|?|]; cbn [bind keep]; try exact I; try (eexists; split; [reflexivity|reflexivity]) end.
  reflexivity.
Qed.
Lemma unmarshalSD_ret data sd : np cCRL -> unmarshalSD cCRL data = Ret sd -> (exists r, Unmarshal SD data = Ret (sd, r)) \/ sd_SignerInfos sd = None.
Proof.
  intros N E. pose proof (unmarshalSD_spec data) as H. destruct (Unmarshal SD data) as [[sd' r]|e|] eqn:EU.
  - left. exists r. congruence.
  - right. destruct H as (sd' & E' & H). congruence.
  - exfalso. revert EU. apply np_unmarshal. unfold SD, cSD, cAI, cCI, cRawCerts, cSI, cIAS, cAttr. repeat first [apply np_struct|apply fnp_cons|apply np_seq|apply np_structRaw|apply fnp_nil|apply np_oid|apply np_raw|apply np_int|apply np_big|apply np_bytes|exact N].
Qed.

(** ** one signed message *)
Definition sm3_ai : AI := mkAI oidDigestAlgorithmSM3 rawZero.
Definition sm2_ai : AI := mkAI oidSignatureECDSASM2 rawZero.
Lemma sm3_ai_rt : field_rt cAI noP sm3_ai sm3_ai. Proof. apply cAI_rt; [oidok|apply frt_params_zero]. Qed.
Lemma sm2_ai_rt : field_rt cAI noP sm2_ai sm2_ai. Proof. apply cAI_rt; [oidok|apply frt_params_zero]. Qed.
(** an attribute value without and with its full encoding *)
Definition attr_new (tv : oid * bytes) : attribute := mkAttr (fst tv) (mkRaw 0 17 true (Some (snd tv)) None).
Definition attr_read (tv : oid * bytes) : attribute := mkAttr (fst tv) (mkRaw 0 17 true (Some (snd tv)) (Some (el 0 17 true (snd tv)))).
Lemma attr_read_der tv e : attr_der (attr_read tv) e <-> attr_der (attr_new tv) e.
Proof.
  unfold attr_der, attr_read, attr_new. cbn [at_Type at_Value]. replace (raw_der (mkRaw 0 17 true (Some (snd tv)) (Some (el 0 17 true (snd tv))))) with (raw_der (mkRaw 0 17 true (Some (snd tv)) None)); [tauto|].
  unfold raw_der. cbn [rv_full sl rv_class rv_tag rv_comp rv_bytes]. destruct (el 0 17 true (snd tv)) eqn:E; [exfalso; eapply el_ne; exact E|reflexivity].
Qed.
Lemma attr_new_rt tv : oid_ok (fst tv) -> field_rt cAttr noP (attr_new tv) (attr_read tv).
Proof.
  intros Ho. eapply (struct_to _ _ _ (attr_new tv) (fst tv, (mkRaw 0 17 true (Some (snd tv)) (Some (el 0 17 true (snd tv))), tt))); [reflexivity|].
  apply frt_cons; [apply oid_rt_f; exact Ho|]. apply frt_cons; [|apply frt_nil]. intros bs tail E Hz.
  assert (bs = el 0 17 true (snd tv)). { change (Ret (el 0 17 true (snd tv)) = Ret bs) in E. congruence. } subst bs.
  pose proof (el_len 0 17 true (snd tv)).
  exact (raw_parse setP _ (mkTL 0 17 (zlen (snd tv)) true) (snd tv) tail eq_refl eq_refl (el_elem 0 17 true (snd tv) ltac:(lia) ltac:(lia) ltac:(lia))).
Qed.
(** the signer's name *)
Definition ias_of (issuer : bytes) (n : Z) : issuerAndSerial := mkIAS (mkRaw 0 0 false None (Some (el 0 16 true issuer))) (Some n).
Definition ias_read (issuer : bytes) (n : Z) : issuerAndSerial := mkIAS (mkRaw 0 16 true (Some issuer) (Some (el 0 16 true issuer))) (Some n).
Lemma raw_full_make v f : sl (rv_full v) = f -> f <> [] -> raw_whole v = Ret f.
Proof. intros E N. unfold raw_whole. rewrite E. destruct f; [congruence|reflexivity]. Qed.
Lemma ias_rt issuer n : field_rt cIAS noP (ias_of issuer n) (ias_read issuer n).
Proof.
  eapply (struct_to _ _ _ (ias_of issuer n) (mkRaw 0 16 true (Some issuer) (Some (el 0 16 true issuer)), (Some n, tt))); [reflexivity|].
  apply frt_cons; [|apply frt_cons; [apply big_rt|apply frt_nil]]. intros bs tail E Hz.
  assert (bs = el 0 16 true issuer). { change (raw_whole (mkRaw 0 0 false None (Some (el 0 16 true issuer))) = Ret bs) in E. rewrite (raw_full_make (mkRaw 0 0 false None (Some (el 0 16 true issuer))) (el 0 16 true issuer) eq_refl (el_ne _ _ _ _)) in E. congruence. } subst bs.
  pose proof (el_len 0 16 true issuer).
  exact (raw_parse noP _ (mkTL 0 16 (zlen issuer) true) issuer tail eq_refl eq_refl (el_elem 0 16 true issuer ltac:(lia) ltac:(lia) ltac:(lia))).
Qed.
(** the signer; [tvs] are the types and values of the signed attributes, if any *)
Definition si_of (issuer : bytes) (n : Z) (tvs : option (list (oid * bytes))) (sig : bytes) : signerInfo :=
  mkSI 1 (ias_of issuer n) sm3_ai (option_map (map attr_new) tvs) sm2_ai (Some sig) None.
Definition si_read (issuer : bytes) (n : Z) (tvs : option (list (oid * bytes))) (sig : bytes) : signerInfo :=
  mkSI 1 (ias_read issuer n) sm3_ai (option_map (map attr_read) tvs) sm2_ai (Some sig) None.
Lemma ai_hdr a x : makeField cAI noP a = Ret x -> zlen x < 2 ^ 31 -> exists b, x = el 0 16 true b /\ zlen b < 2 ^ 31.
Proof.
  intros E Hz. destruct (make_elem cAI a x eq_refl ltac:(apply tag_small; reflexivity) E Hz) as (b & _ & Hx & _). assert (K : x = el 0 16 true b) by exact Hx. clear Hx. subst x. exists b. split; [reflexivity|]. pose proof (el_len 0 16 true b). lia.
Qed.
Lemma si_rt issuer n tvs sig : Forall (fun tv => oid_ok (fst tv)) (lst tvs) -> field_rt cSI noP (si_of issuer n tvs sig) (si_read issuer n tvs sig).
Proof.
  intros Ho. eapply (struct_to _ _ _ (si_of issuer n tvs sig) (1, (ias_read issuer n, (sm3_ai, (option_map (map attr_read) tvs, (sm2_ai, (Some sig, (None, tt)))))))); [reflexivity|].
  unfold si_of. cbn [si_Version si_IAS si_DigestAlgorithm si_Attrs si_DigestEncryptionAlgorithm si_EncryptedDigest si_Unauth].
  apply frt_cons. { apply make_rt; try reflexivity; [apply tag_small; reflexivity|split; reflexivity|]. apply int_body_rt. lia. }
  apply frt_cons; [apply ias_rt|]. apply frt_cons; [apply sm3_ai_rt|].
  assert (T : frt (fcons noP cAI (fcons noP cBytes (fcons (optImplicitP 1) (cSeqOf false cAttr) fnil))) (sm2_ai, (Some sig, (None, tt))) (sm2_ai, (Some sig, (None, tt)))).
  { apply frt_cons; [apply sm2_ai_rt|]. apply frt_cons; [apply bytes_rt|]. apply frt_skip_end; [reflexivity|reflexivity|reflexivity|apply frt_nil]. }
  destruct tvs as [tvs|]; cbn [option_map].
  - apply frt_cons; [|exact T]. apply make_rt; [cbn; unfold maxInt32; lia|reflexivity|apply tag_small; reflexivity|reflexivity|split; reflexivity|].
    apply seq_body_rt; [reflexivity|apply tag_small; reflexivity|left; reflexivity|]. cbn [lst] in Ho. induction Ho; cbn [map]; constructor; auto. now apply attr_new_rt.
  - apply frt_skip; [reflexivity|reflexivity|cbn; unfold maxInt32; lia| |exact T]. intros y Ey Hz. cbn [f_enc fcons fst snd fnil] in Ey.
    apply bind_inv in Ey as (x & Ex & Ey). apply bind_inv in Ey as (z & Ez & Ey). assert (y = x ++ z) by congruence. subst y. rewrite zlen_app in Hz. pose proof (zlen_nonneg z).
    destruct (ai_hdr _ _ Ex ltac:(lia)) as (b & -> & Hb). unfold el. rewrite <- app_assoc. eexists _, _. split; [apply hdr_parse; [lia|unfold maxInt32; lia|pose proof (zlen_nonneg b); lia]|].
    split; [|left; cbn; discriminate]. intros E. apply app_eq_nil in E as [-> ->]. assert (E : makeField cAI noP sm2_ai = Ret (el 0 16 true [])) by exact Ex. vm_compute in E. discriminate E.
Qed.
(** ContentInfo *)
Definition ci_of (o : oid) (b : bytes) : contentInfo := mkCI o (ctx0 b).
Definition ci_read (o : oid) (b : bytes) : contentInfo := mkCI o (ctx0' b).
Lemma cinfo_rt o b : oid_ok o -> b <> [] -> field_rt cCI noP (ci_of o b) (ci_read o b).
Proof.
  intros Ho Hb. eapply (struct_to _ _ _ (ci_of o b) (o, (ctx0' b, tt))); [reflexivity|].
  apply frt_cons; [now apply oid_rt_f|]. apply frt_cons; [apply rt_ctx0; auto|apply frt_nil].
Qed.
Lemma cinfo_make o ob b : oid_body o = Ret ob -> Marshal cCI (ci_of o b) = Ret (el 0 16 true (el 0 6 false ob ++ el 2 0 true b)).
Proof. intros E. unfold Marshal, cCI. apply mk_struct. apply f_cons; [now apply mk_oid|]. apply f_one. apply mk_ctx0. auto. Qed.
(** certificates *)
Lemma strip_el cls tag comp b : 0 <= cls <= 3 -> 0 <= tag <= 30 -> zlen b < 2 ^ 31 -> stripTagAndLength (el cls tag comp b) = b.
Proof. intros Hc Ht Hz. unfold stripTagAndLength, el. rewrite hdr_parse; [reflexivity|exact Hc|unfold maxInt32; lia|pose proof (zlen_nonneg b); lia]. Qed.
Lemma marshalCertificates_eq certs : marshalCertificates certs = Some (el 2 0 true (List.concat (map c_Raw certs))).
Proof. reflexivity. Qed.
Lemma certs_make raws : zlen raws < 2 ^ 31 -> makeField cRawCerts (optImplicitP 0) (Some (el 2 0 true raws)) = Ret (el 2 0 true raws).
Proof.
  intros Hz. unfold makeField. cbn [p_omit p_opt p_def optImplicitP andb c_iszero cRawCerts cStructRaw c_whole p_set c_tag c_body p_tag p_exp c_comp sl].
  destruct (el 2 0 true raws) eqn:E; [exfalso; eapply el_ne; exact E|]. rewrite <- E. cbn [bind]. rewrite strip_el by lia. reflexivity.
Qed.
Lemma certs_rt raws : zlen raws < 2 ^ 31 -> field_rt cRawCerts (optImplicitP 0) (Some (el 2 0 true raws)) (Some (el 2 0 true raws)).
Proof.
  intros Hr bs tail E Hz. rewrite (certs_make raws Hr) in E. assert (bs = el 2 0 true raws) by congruence. subst bs.
  unfold parseField, el. rewrite <- app_assoc. destruct (hdr_ne 2 0 true (zlen raws) (raws ++ tail)) as (b0 & l0 & E0). rewrite E0, <- E0. pose proof (zlen_nonneg raws).
  rewrite hdr_parse by (unfold maxInt32; lia). cbn [bind p_exp optImplicitP].
  pose proof (tail_full cRawCerts (optImplicitP 0) (hdr 2 0 true (zlen raws)) (mkTL 2 0 (zlen raws) true) raws tail eq_refl eq_refl eq_refl eq_refl eq_refl) as T.
  rewrite T. reflexivity.
Qed.
(** SignedData *)
Definition sd_of (content certs : bytes) (si : signerInfo) : signedData CRL :=
  mkSD 1 (Some [sm3_ai]) (ci_of oidGMData (el 0 4 false content)) (Some (el 2 0 true certs)) (Some []) (Some [si]).
Definition sd_read (content certs : bytes) (si : signerInfo) : signedData CRL :=
  mkSD 1 (Some [sm3_ai]) (ci_read oidGMData (el 0 4 false content)) (Some (el 2 0 true certs)) (Some []) (Some [si]).
Lemma sd_rt content certs si si' : zlen certs < 2 ^ 31 -> field_rt cSI noP si si' -> field_rt SD noP (sd_of content certs si) (sd_read content certs si').
Proof.
  intros Hc Hs. unfold SD. eapply (struct_to _ _ _ (sd_of content certs si) (1, (Some [sm3_ai], (ci_read oidGMData (el 0 4 false content), (Some (el 2 0 true certs), (Some [], (Some [si'], tt))))))); [reflexivity|].
  unfold sd_of. cbn [sd_Version sd_Digests sd_Content sd_Certificates sd_CRLs sd_SignerInfos].
  apply frt_cons. { apply make_rt; try reflexivity; [apply tag_small; reflexivity|split; reflexivity|]. apply int_body_rt. lia. }
  apply frt_cons. { apply make_rt; [reflexivity|reflexivity|apply tag_small; reflexivity|reflexivity|split; reflexivity|]. apply seq_body_rt; [reflexivity|apply tag_small; reflexivity|right; cbn; lia|]. constructor; [apply sm3_ai_rt|constructor]. }
  apply frt_cons; [apply cinfo_rt; [oidok|apply el_ne]|]. apply frt_cons; [now apply certs_rt|].
  apply frt_cons. { apply make_rt; [cbn; unfold maxInt32; lia|reflexivity|apply tag_small; reflexivity|reflexivity|split; reflexivity|]. intros body t full E _. cbn [c_body cSeqOf] in E. unfold seq_body in E. cbn [mapM bind List.length Nat.ltb Nat.leb] in E. rewrite andb_false_r in E. assert (body = []) by (cbn in E; congruence). subst body. reflexivity. }
  apply frt_cons; [|apply frt_nil]. apply make_rt; [reflexivity|reflexivity|apply tag_small; reflexivity|reflexivity|split; reflexivity|]. apply seq_body_rt; [reflexivity|apply tag_small; reflexivity|right; cbn; lia|]. constructor; [exact Hs|constructor].
Qed.
Variable net : netlib.
(** the message around it *)
Definition message (content certs : bytes) (si : signerInfo) : outcome bytes :=
  do inner <- Marshal SD (sd_of content certs si); Marshal cCI (ci_of oidGMSignedData inner).
Definition sd_oid : bytes := Eval vm_compute in match oid_body oidGMSignedData with Ret b => b | _ => [] end.
Lemma message_parse content certs si si' parsed out : message content certs si = Ret out -> zlen out < 2 ^ 31 -> field_rt cSI noP si si' ->
  ParseCertificates net certs = Ret parsed -> ParsePKCS7 cCRL net out = Ret (mkP7 content parsed (Some []) [si']).
Proof.
  intros E Hz Hs Hp. unfold message in E. apply bind_inv in E as (inner & Ei & E). rewrite (cinfo_make oidGMSignedData sd_oid inner eq_refl) in E.
  assert (Eo : out = el 0 16 true (el 0 6 false sd_oid ++ el 2 0 true inner)) by congruence. clear E.
  assert (L : zlen inner + 4 <= zlen out). { rewrite Eo. match goal with |- context[el 0 16 true ?x] => pose proof (el_len 0 16 true x) as H; rewrite zlen_app in H end. pose proof (el_len 2 0 true inner). pose proof (zlen_nonneg (el 0 6 false sd_oid)). lia. }
  assert (Ni : inner <> []). { intros ->. unfold Marshal, makeField in Ei. cbn [p_omit p_opt p_def noP andb c_whole SD cSD cStruct p_set c_tag c_body p_tag] in Ei. apply bind_inv in Ei as (b & _ & Ei). change (Ret (el 0 16 true b) = Ret []) in Ei. assert (K : el 0 16 true b = []) by congruence. revert K. apply el_ne. }
  assert (U : Unmarshal cCI out = Ret (ci_read oidGMSignedData inner, [])).
  { apply (marshal_rt cCI (ci_of oidGMSignedData inner)); [apply cinfo_rt; [oidok|exact Ni]| |exact Hz]. rewrite (cinfo_make oidGMSignedData sd_oid inner eq_refl), Eo. reflexivity. }
  assert (Lc : zlen certs < 2 ^ 31 /\ zlen content < 2 ^ 31).
  { unfold Marshal, makeField in Ei. cbn [p_omit p_opt p_def noP andb c_whole SD cSD cStruct p_set c_tag c_body p_tag] in Ei. apply bind_inv in Ei as (b & Eb & Ei). change (Ret (el 0 16 true b) = Ret inner) in Ei. assert (inner = el 0 16 true b) by congruence. subst inner.
    pose proof (el_len 0 16 true b) as Lb. cbn [f_enc fcons fst snd fnil sd_of sd_Version sd_Digests sd_Content sd_Certificates sd_CRLs sd_SignerInfos] in Eb.
    apply bind_inv in Eb as (x1 & _ & Eb). apply bind_inv in Eb as (y1 & Ey & Eb). assert (b = x1 ++ y1) by congruence. subst b.
    apply bind_inv in Ey as (x2 & _ & Ey). apply bind_inv in Ey as (y2 & Ez & Ey). assert (y1 = x2 ++ y2) by congruence. subst y1.
    apply bind_inv in Ez as (x3 & Ex3 & Ez). apply bind_inv in Ez as (y3 & Et & Ez). assert (y2 = x3 ++ y3) by congruence. subst y2.
    apply bind_inv in Et as (x4 & Ex4 & Et). apply bind_inv in Et as (y4 & _ & Et). assert (y3 = x4 ++ y4) by congruence. subst y3.
    rewrite !zlen_app in Lb. pose proof (zlen_nonneg x1). pose proof (zlen_nonneg x2). pose proof (zlen_nonneg x3). pose proof (zlen_nonneg x4). pose proof (zlen_nonneg y4).
    rewrite (cinfo_make oidGMData match oid_body oidGMData with Ret b => b | _ => [] end (el 0 4 false content) eq_refl : makeField cCI noP _ = _) in Ex3.
    assert (H5 : zlen content + 2 <= zlen x3). { assert (K : x3 = el 0 16 true (el 0 6 false match oid_body oidGMData with Ret b => b | _ => [] end ++ el 2 0 true (el 0 4 false content))) by congruence. rewrite K.
      match goal with |- context[el 0 16 true ?x] => pose proof (el_len 0 16 true x) as H5; rewrite zlen_app in H5 end. pose proof (el_len 2 0 true (el 0 4 false content)). pose proof (el_len 0 4 false content). match goal with H : context[el 0 6 false ?x] |- _ => pose proof (zlen_nonneg (el 0 6 false x)) end. lia. }
    split; [|lia]. destruct (Z_lt_le_dec (zlen certs) (2 ^ 31)) as [|Lc]; auto. exfalso.
    unfold makeField in Ex4. cbn [p_omit p_opt p_def optImplicitP andb c_iszero cRawCerts cStructRaw c_whole p_set c_tag c_body p_tag p_exp c_comp sl] in Ex4.
    destruct (el 2 0 true certs) eqn:E; [eapply el_ne; exact E|]. rewrite <- E in Ex4. cbn [bind] in Ex4. unfold stripTagAndLength, el in Ex4. destruct (ptl_large 2 0 true (zlen certs) certs ltac:(lia) ltac:(lia) Lc) as [e Ee]. rewrite Ee in Ex4.
    fold (el 2 0 true certs) in Ex4. match type of Ex4 with Ret ?x = Ret _ => assert (K : x4 = x) by congruence end. rewrite K in *. rewrite zlen_app in *. pose proof (el_len 2 0 true certs). match goal with _ : context[hdr ?a ?b ?c ?d] |- _ => pose proof (zlen_nonneg (hdr a b c d)) end. lia. }
  destruct Lc as [Lc Ld].
  assert (V : unmarshalSD cCRL inner = Ret (sd_read content certs si')).
  { pose proof (unmarshalSD_spec inner) as H. assert (R : Unmarshal SD inner = Ret (sd_read content certs si', [])) by (apply (marshal_rt SD (sd_of content certs si)); [now apply sd_rt|exact Ei|lia]). rewrite R in H. exact H. }
  unfold ParsePKCS7. assert (No : out <> []) by (rewrite Eo; apply el_ne). destruct out as [|b0 out0] eqn:Eout; [congruence|]. rewrite <- Eout in *. rewrite U. cbn [bind isnil negb].
  cbn [ci_read ci_Type ci_Content]. rewrite (proj2 (oid_eqb_spec oidGMSignedData oidGMSignedData) eq_refl). cbn [ctx0' rv_bytes sl]. unfold parseSignedData. rewrite V. cbn [bind sd_read sd_Certificates sd_Content sd_CRLs sd_SignerInfos].
  assert (C : rawCertificates_Parse net (Some (el 2 0 true certs)) = Ret parsed).
  { unfold rawCertificates_Parse. cbn [sl]. destruct (el 2 0 true certs) eqn:Ec; [exfalso; eapply el_ne; exact Ec|]. cbn [isnil]. rewrite <- Ec.
    pose proof (raw_parse noP _ _ _ [] eq_refl eq_refl (el_elem 2 0 true certs ltac:(lia) ltac:(lia) Lc)) as R. rewrite app_nil_r in R. unfold Unmarshal. rewrite R. cbn [bind rv_bytes sl]. exact Hp. }
  rewrite C. cbn [bind ci_read ci_Content ctx0' rv_bytes sl]. destruct (el 0 4 false content) eqn:Ed; [exfalso; eapply el_ne; exact Ed|]. rewrite <- Ed.
  pose proof (raw_parse noP _ _ _ [] eq_refl eq_refl (el_elem 0 4 false content ltac:(lia) ltac:(lia) Ld)) as R. rewrite app_nil_r in R. unfold Unmarshal. rewrite R. cbn [bind rv_comp t_comp rv_bytes sl lst]. reflexivity.
Qed.
End SD.
