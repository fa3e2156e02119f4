(** * C141, C142: revocation lists and certificate requests, byte for byte *)
From Coq Require Import String Ascii Permutation Sorted ZifyBool ZifyNat.
From Verif Require Import Base Words Utf8 BMPModel ECModel SM2Model CryptoByte Asn1 Asn1Proofs KeysModel KeysProofs P12Enc X509Model X509Sig X509Build X509Proofs X509StrProofs PropertiesX509Str X509ExtProofs X509NCProofs PropertiesX509Ext PropertiesX509Sig Pkcs7Proofs X509Crl X509CrlProofs X509CsrProofs X509CreateProofs PropertiesX509Exts PropertiesX509Crl PropertiesX509Csr PropertiesX509Create PropertiesX509Written PropertiesX509Time PropertiesP12Pem PropertiesWire PropertiesWireCert PropertiesWireTbs.
Open Scope Z_scope.

(** ** Specification (RFC 5280, 5.1) *)
(** an optional list of extensions *)
Definition exts_der (l : list Extension) : bytes := SEQ (each ext_der l).
(** revokedCertificates: the serial number, the time and the entry's extensions, if it has any *)
Definition revoked_der (r : revoked) (b : bytes) : Prop := exists n, rc_Serial r = Some n /\
  b = SEQ (INTEGER (int_octets n) ++ time_der (tm_civil (rc_Time r)) ++ match rc_Extensions r with None => [] | Some l => exts_der l end).
(** Go's zero time stands for an absent nextUpdate *)
Definition year1 (t : timeT) : bool := (t_Year (tm_civil t) =? 1) && (t_Month (tm_civil t) =? 1) && (t_Day (tm_civil t) =? 1) &&
  (t_Hour (tm_civil t) =? 0) && (t_Min (tm_civil t) =? 0) && (t_Sec (tm_civil t) =? 0) && (tm_ns t =? 0).
(** TBSCertList, version 2; [revoked] and [exts] are empty or the two optional fields *)
Definition crl_tbs (alg issuer : bytes) (this next : timeT) (revoked exts : bytes) : bytes :=
  SEQ (INTEGER [1] ++ alg ++ issuer ++ time_der (tm_civil this) ++ (if year1 next then [] else time_der (tm_civil next)) ++ revoked ++ exts).

(** ** Proofs *)
Lemma time_inv {B} p t (fs : fcodec B) b bs : f_enc (fconsTime p fs) (t, b) = Ret bs -> exists x y, makeField cUTC p t = Ret x /\ f_enc fs b = Ret y /\ bs = x ++ y.
Proof. intros E. cbn [f_enc fconsTime fst snd] in E. apply bind_inv in E as (x & Ex & E). apply bind_inv in E as (y & Ey & E). exists x, y. split; [exact Ex|]. split; [exact Ey|]. congruence. Qed.
Lemma utc_make t x : utc_time (tm_civil t) -> makeField cUTC noP t = Ret x -> x = time_der (tm_civil t).
Proof. intros V E. apply time_written; [exact V|exact E]. Qed.
Lemma utc_opt_make t x : utc_time (tm_civil t) -> makeField cUTC optP t = Ret x -> x = if year1 t then [] else time_der (tm_civil t).
Proof.
  intros V E. assert (Q : year1 t = c_iszero cUTC t).
  { unfold year1. cbn [c_iszero cUTC cTimeAs]. unfold civil_eqb. change (t_Year zeroTime) with 1. change (t_Month zeroTime) with 1. change (t_Day zeroTime) with 1. change (t_Hour zeroTime) with 0. change (t_Min zeroTime) with 0. change (t_Sec zeroTime) with 0. change (t_Off zeroTime) with 0.
    destruct V as (_ & _ & _ & _ & _ & _ & ->). rewrite andb_true_r. reflexivity. }
  rewrite Q. destruct (c_iszero cUTC t) eqn:Z.
  - unfold makeField in E. cbn [p_omit p_opt p_def optP andb] in E. rewrite Z in E. cbn in E. congruence.
  - unfold makeField in E. cbn [p_omit p_opt p_def optP andb] in E. rewrite Z in E. apply time_written; [exact V|exact E].
Qed.
Lemma exts_map exts es : Forall ext_ok exts -> mapM (makeField cExt noP) exts = Ret es -> List.concat es = each ext_der exts.
Proof.
  intros Hx Em. unfold each. f_equal. apply mapM_Forall2 in Em. induction Em as [|e b l bs H _ IH]; [reflexivity|]. inversion Hx as [|? ? H1 H2]; subst. cbn [map]. f_equal; [|exact (IH H2)].
  apply ext_make in H as (ob & Eo & ->). rewrite (oid_body_ok _ H1) in Eo. assert (ob = oid_bytes (x_Id e)) by congruence. subst ob. rewrite el_seq, PropertiesWire.el_oid, el_oct, (oid_octets_eq _ H1). unfold ext_der. destruct (x_Critical e); reflexivity.
Qed.
Lemma seq_opt {A} (c : codec A) l x : makeField (cSeqOf false c) optP (Some l) = Ret x -> exists es, mapM (makeField c noP) l = Ret es /\ x = el 0 16 true (List.concat es).
Proof.
  intros E. unfold makeField in E at 1. cbn [p_omit optP p_opt andb p_def c_iszero cSeqOf c_whole p_set c_tag c_body p_tag c_comp] in E. apply bind_inv in E as (b & Eb & E). change (Ret (el 0 16 true b) = Ret x) in E.
  unfold seq_body in Eb. apply bind_inv in Eb as (es & Em & Eb). change (Ret (List.concat es) = Ret b) in Eb. exists es. split; [exact Em|]. congruence.
Qed.
Lemma seq_exp0 {A} (c : codec A) l x : makeField (cSeqOf false c) (optExplicitP 0) (Some l) = Ret x -> exists es, mapM (makeField c noP) l = Ret es /\ x = el 2 0 true (el 0 16 true (List.concat es)).
Proof.
  intros E. unfold makeField in E at 1. cbn [p_omit optExplicitP p_opt andb p_def c_iszero cSeqOf c_whole p_set c_tag c_body p_tag c_comp] in E. apply bind_inv in E as (b & Eb & E). change (Ret (el 2 0 true (el 0 16 true b)) = Ret x) in E.
  unfold seq_body in Eb. apply bind_inv in Eb as (es & Em & Eb). change (Ret (List.concat es) = Ret b) in Eb. exists es. split; [exact Em|]. congruence.
Qed.
Lemma opt_none {A} (c : codec A) p x : p = optP \/ p = optExplicitP 0 -> makeField (cSeqOf false c) p None = Ret x -> x = [].
Proof. intros [->| ->] E; change (Ret [] = Ret x) in E; congruence. Qed.
Definition exts_fine (l : option (list Extension)) : Prop := match l with Some l => Forall (fun e => valid_oid (x_Id e)) l | None => True end.
Definition revoked_fine (r : revoked) : Prop := utc_time (tm_civil (rc_Time r)) /\ exts_fine (rc_Extensions r).
Lemma fine_ok l : Forall (fun e => valid_oid (x_Id e)) l -> Forall ext_ok l.
Proof. intros H. eapply Forall_impl; [|exact H]. cbv beta. intros e He. apply valid_oid_ok. exact He. Qed.
Lemma rev_written r b : revoked_fine r -> makeField cRevoked noP r = Ret b -> revoked_der r b.
Proof.
  intros [V X] E. unfold cRevoked in E. apply struct_make_inv in E as (body & E & ->). apply f_cons_inv in E as (x & y & E1 & E & ->). apply time_inv in E as (z & w & E2 & E & ->). apply f_cons_inv in E as (u & v & E3 & E & ->). apply f_nil_inv in E. subst v.
  destruct (rc_Serial r) as [n|] eqn:S; [|discriminate E1]. apply big_make in E1. subst x. apply utc_make in E2; [|exact V]. subst z. exists n. split; [exact S|].
  rewrite el_seq, el_int, int_octets_eq, app_nil_r. destruct (rc_Extensions r) as [l|].
  - apply seq_opt in E3 as (es & Em & ->). rewrite (exts_map l es (fine_ok _ X) Em), el_seq. reflexivity.
  - apply opt_none in E3; [subst u|left; reflexivity]. reflexivity.
Qed.
Lemma crl_written ai n this next rv exts tbs : Marshal cTbsCRL (mkTbsCRL None 1 ai (rdns_of n) this next rv exts) = Ret tbs -> strings_ok n -> utc_time (tm_civil this) -> utc_time (tm_civil next) ->
  match rv with Some l => Forall revoked_fine l | None => True end -> exts_fine exts ->
  exists alg issuer rs, makeField cAI noP ai = Ret alg /\ name_der n issuer /\ Forall2 revoked_der (match rv with Some l => l | None => [] end) rs /\
    tbs = crl_tbs alg issuer this next (match rv with Some _ => SEQ (List.concat rs) | None => [] end) (match exts with Some l => CTX0 (exts_der l) | None => [] end).
Proof.
  intros E Hn V1 V2 Hr Hx. unfold Marshal, cTbsCRL in E. apply structRaw_make_inv in E as (body & E & ->); [|reflexivity]. cbn [tl_Version tl_Signature tl_Issuer tl_ThisUpdate tl_NextUpdate tl_Revoked tl_Extensions] in E.
  apply f_cons_inv in E as (v & b1 & Ev & E & ->). apply f_cons_inv in E as (alg & b2 & Ea & E & ->). apply f_cons_inv in E as (issuer & b3 & Ei & E & ->). apply time_inv in E as (t1 & b4 & E1 & E & ->). apply time_inv in E as (t2 & b5 & E2 & E & ->).
  apply f_cons_inv in E as (rb & b6 & Er & E & ->). apply f_cons_inv in E as (xb & b7 & Ex & E & ->). apply f_nil_inv in E. subst b7.
  change (Ret [2; 1; 1] = Ret v) in Ev. assert (v = [2; 1; 1]) by congruence. subst v. clear Ev.
  assert (Hi : name_der n issuer). { apply C136_name; [exact Hn|]. rewrite marshalName_any. exact Ei. }
  apply utc_make in E1; [|exact V1]. apply utc_opt_make in E2; [|exact V2]. subst t1 t2.
  assert (X : xb = match exts with Some l => CTX0 (exts_der l) | None => [] end).
  { destruct exts as [l|]; [|apply opt_none in Ex; [exact Ex|right; reflexivity]]. apply seq_exp0 in Ex as (es & Em & ->). rewrite (exts_map l es (fine_ok _ Hx) Em), el_seq, el_c0. reflexivity. }
  subst xb. clear Ex. destruct rv as [l|].
  - apply seq_opt in Er as (rs & Em & ->). exists alg, issuer, rs. split; [exact Ea|]. split; [exact Hi|]. split.
    + apply mapM_Forall2 in Em. clear - Em Hr. induction Em as [|r b l bs H _ IH]; [constructor|]. inversion Hr; subst. constructor; [apply rev_written; assumption|apply IH; assumption].
    + rewrite !el_seq, app_nil_r. reflexivity.
  - apply opt_none in Er; [subst rb|left; reflexivity]. exists alg, issuer, []. split; [exact Ea|]. split; [exact Hi|]. split; [constructor|]. rewrite el_seq, app_nil_r. reflexivity.
Qed.

(** ** C141 *)
(** CreateRevocationList: the authority key identifier and the number come first *)
Theorem C141_revocation_list : forall P rand t iss key der, CreateRevocationList P rand (Some t) (Some iss) key = Ret der ->
  strings_ok (is_Subject iss) -> utc_time (tm_civil (rl_ThisUpdate t)) -> utc_time (tm_civil (rl_NextUpdate t)) -> Forall revoked_fine (rl_Revoked t) -> Forall (fun e => valid_oid (x_Id e)) (rl_ExtraExtensions t) ->
  exists a alg n issuer rs tbs digest sig,
    chosen_alg (sg_Public key) (rl_SignatureAlgorithm t) a /\ In (a, alg) algorithms /\ rl_Number t = Some n /\ name_der (is_Subject iss) issuer /\ Forall2 revoked_der (rl_Revoked t) rs /\
    tbs = crl_tbs alg issuer (rl_ThisUpdate t) (rl_NextUpdate t) (match rl_Revoked t with [] => [] | _ => SEQ (List.concat rs) end)
            (CTX0 (SEQ (SEQ (OID [0x55; 29; 35] ++ OCTETS (SEQ (DER 0x80 (is_SubjectKeyId iss)))) ++
                        SEQ (OID [0x55; 29; 20] ++ OCTETS (INTEGER (int_octets n))) ++ each ext_der (rl_ExtraExtensions t)))) /\
    toSign P (fst (lookupDetails a)) tbs = Ret digest /\ sg_Sign key rand digest (fst (lookupDetails a), isRSAPSS (rl_SignatureAlgorithm t)) = Ret sig /\ der = cert_der tbs alg sig.
Proof.
  intros P rand t iss key der E Hn V1 V2 Hr Hx. unfold CreateRevocationList in E.
  destruct (Z.land (is_KeyUsage iss) KeyUsageCRLSign =? 0); [discriminate|]. destruct (isnil (is_SubjectKeyId iss)); [discriminate|]. destruct (time_Before _ _); [discriminate|].
  destruct (rl_Number t) as [n|]; [|discriminate]. apply bind_inv in E as ([h ai] & Es & E). apply bind_inv in E as (aki & Ea & E). apply aki_val in Ea. apply bind_inv in E as (num & Em & E).
  apply big_make in Em. subst num aki. unfold signCRL in E. apply bind_inv in E as (tbs & Et & E). apply bind_inv in E as (digest & Ed & E). apply bind_inv in E as (sig & Eg & E).
  destruct (list_inv _ _ _ _ E) as (tbs' & ab & Et' & Eab & Hd). assert (tbs' = tbs) by congruence. subst tbs'. clear Et' E.
  apply crl_written in Et; try assumption.
  2:{ destruct (rl_Revoked t); [exact Logic.I|exact Hr]. }
  2:{ cbn [exts_fine app]. constructor; [|constructor; [|exact Hx]]; cbn [x_Id]; [exists 2, 5, [29; 35]|exists 2, 5, [29; 20]]; (split; [reflexivity|]; repeat split; try lia; repeat constructor; lia). }
  destruct Et as (alg & issuer & rs & Hal & Hi & Hrs & Ht). assert (ab = alg) by (unfold Marshal in Eab; congruence). subst ab. destruct (alg_written _ _ _ _ _ Es Hal) as (a & Ca & Ia & La).
  exists a, alg, n, issuer, rs, tbs, digest, sig. split; [exact Ca|]. split; [exact Ia|]. split; [reflexivity|]. split; [exact Hi|]. split; [destruct (rl_Revoked t); exact Hrs|]. rewrite La. cbn [fst].
  split. { rewrite Ht. unfold exts_der. cbn [app]. unfold each. cbn [map List.concat]. unfold ext_der at 1 2. cbn [x_Id x_Critical x_Value]. rewrite !app_nil_l, !el_seq, el_int, int_octets_eq, (el_der 2 0 false) by lia. destruct (rl_Revoked t); reflexivity. }
  split; [exact Ed|]. split; [exact Eg|]. rewrite Hd, el_seq, (el_der 0 3 false) by lia. reflexivity.
Qed.
Print Assumptions C141_revocation_list.
(** CreateCRL: the list of revoked certificates is always written, even when it is empty; the only extension is the authority key identifier *)
Theorem C141_crl : forall P rand c key revoked now expiry der, CreateCRL P c rand (ASigner key) revoked now expiry = Ret der ->
  strings_ok (is_Subject c) -> utc_time (tm_civil now) -> utc_time (tm_civil expiry) -> Forall revoked_fine revoked ->
  exists a alg issuer rs tbs input sig,
    default_alg (sg_Public key) = Some a /\ In (a, alg) algorithms /\ name_der (is_Subject c) issuer /\ Forall2 revoked_der revoked rs /\
    tbs = crl_tbs alg issuer now expiry (SEQ (List.concat rs))
            (if given (is_SubjectKeyId c) then CTX0 (SEQ (SEQ (OID [0x55; 29; 35] ++ OCTETS (SEQ (DER 0x80 (is_SubjectKeyId c)))))) else []) /\
    (match sg_Public key with PKsm2 _ | PKed25519 _ => input = tbs | _ => hashSum P (fst (lookupDetails a)) tbs = Ret input end) /\
    sg_Sign key rand input (fst (lookupDetails a), false) = Ret sig /\ der = cert_der tbs alg sig.
Proof.
  intros P rand c key revoked now expiry der E Hn V1 V2 Hr. unfold CreateCRL in E. cbn [asSigner] in E.
  apply bind_inv in E as ([h ai] & Es & E). apply bind_inv in E as (exts & Ee & E). unfold signCRL in E. apply bind_inv in E as (tbs & Et & E). apply bind_inv in E as (input & Ed & E). apply bind_inv in E as (sig & Eg & E).
  destruct (list_inv _ _ _ _ E) as (tbs' & ab & Et' & Eab & Hd). assert (tbs' = tbs) by congruence. subst tbs'. clear Et' E.
  assert (X : exts = if given (is_SubjectKeyId c) then Some [mkExt oidExtensionAuthorityKeyId false (el 0 16 true (el 2 0 false (is_SubjectKeyId c)))] else None).
  { destruct (is_SubjectKeyId c) as [|x0 r0]; cbn [isnil given] in *; [congruence|]. apply bind_inv in Ee as (x & Ex & Ee). apply aki_val in Ex. subst x. congruence. }
  clear Ee. apply crl_written in Et; try assumption.
  2:{ rewrite X. destruct (given (is_SubjectKeyId c)); [|exact Logic.I]. constructor; [|constructor]. cbn [x_Id]. exists 2, 5, [29; 35]. split; [reflexivity|]. repeat split; try lia; repeat constructor; lia. }
  destruct Et as (alg & issuer & rs & Hal & Hi & Hrs & Ht). assert (ab = alg) by (unfold Marshal in Eab; congruence). subst ab. destruct (alg_written _ _ _ _ _ Es Hal) as (a & Ca & Ia & La).
  exists a, alg, issuer, rs, tbs, input, sig. split. { destruct Ca as [[_ Q]|[Q _]]; [exact Q|contradiction]. } split; [exact Ia|]. split; [exact Hi|]. split; [exact Hrs|]. rewrite La. cbn [fst].
  split. { rewrite Ht, X. destruct (given (is_SubjectKeyId c)); [|reflexivity]. unfold exts_der, each. cbn [map List.concat]. unfold ext_der. cbn [x_Id x_Critical x_Value]. rewrite !app_nil_l, !app_nil_r, !el_seq, (el_der 2 0 false) by lia. reflexivity. }
  split. { clear - Es Ed. destruct (sg_Public key) as [N e|cu x y|k|k|y p q g|]; unfold signingParamsForPublicKey in Es; cbn [defaultSigning] in Es; try discriminate Es.
    - injection Es as <- <-. exact Ed.
    - destruct ((cu =? 224) || (cu =? 256)); [injection Es as <- <-; exact Ed|]. destruct (cu =? 384); [injection Es as <- <-; exact Ed|]. destruct (cu =? 521); [injection Es as <- <-; exact Ed|discriminate Es].
    - destruct (pk_Curve k =? SM2P256V1_id); [|discriminate Es]. injection Es as <- <-. cbn in Ed. congruence.
    - injection Es as <- <-. cbn in Ed. congruence. }
  split; [exact Eg|]. rewrite Hd, el_seq, (el_der 0 3 false) by lia. reflexivity.
Qed.
Print Assumptions C141_crl.
(** ** Cases *)
Definition rl0_der : bytes := Eval vm_compute in der_of (CreateRevocationList prims0 [] (Some rl0) (Some issuer0) rsa_signer).
Definition crl0_der : bytes := Eval vm_compute in der_of (CreateCRL prims0 (mkIssuer 0 [] (is_Subject issuer0)) [] (ASigner rsa_signer) [] (rl_ThisUpdate rl0) timeZero).
Definition ca_name : bytes := SEQ (SETOF (SEQ (OID [0x55; 4; 6] ++ DER 19 (chars "CN"))) ++ SETOF (SEQ (OID [0x55; 4; 10] ++ DER 19 (chars "O")) ++ SEQ (OID [0x55; 4; 3] ++ DER 19 (chars "CA")))).
Lemma issuer0_ok : strings_ok (is_Subject issuer0).
Proof. repeat (apply Forall_cons || apply Forall_nil); unfold byte_ok; lia. Qed.
Example C141_instance :
  CreateRevocationList prims0 [] (Some rl0) (Some issuer0) rsa_signer = Ret rl0_der /\ strings_ok (is_Subject issuer0) /\ utc_time (tm_civil (rl_ThisUpdate rl0)) /\ utc_time (tm_civil (rl_NextUpdate rl0)) /\
  Forall revoked_fine (rl_Revoked rl0) /\ Forall (fun e => valid_oid (x_Id e)) (rl_ExtraExtensions rl0) /\
  rl0_der = cert_der
    (SEQ (INTEGER [1] ++ rsa_alg 11 ++ ca_name ++ DER 23 (chars "230228000000Z") ++ DER 24 (chars "20510228000000Z") ++
          SEQ (SEQ (INTEGER [77] ++ DER 23 (chars "230102030405Z") ++ SEQ (SEQ (OID [0x55; 29; 21] ++ OCTETS [10; 1; 1])))) ++
          CTX0 (SEQ (SEQ (OID [0x55; 29; 35] ++ OCTETS (SEQ (DER 0x80 [9; 9]))) ++ SEQ (OID [0x55; 29; 20] ++ OCTETS (INTEGER [1; 44])) ++ SEQ (OID [0x55; 29; 99] ++ [1; 1; 255] ++ OCTETS [5; 0])))))
    (rsa_alg 11) [1; 2; 3].
Proof.
  split; [vm_compute; reflexivity|]. split; [exact issuer0_ok|]. split; [cbn; repeat split; discriminate|]. split; [cbn; repeat split; discriminate|].
  split. { constructor; [|constructor]. split; [cbn; repeat split; discriminate|]. cbn [exts_fine rc_Extensions]. constructor; [|constructor]. cbn [x_Id]. exists 2, 5, [29; 21]. split; [reflexivity|]. repeat split; try lia; repeat constructor; lia. }
  split. { constructor; [|constructor]. cbn [x_Id]. exists 2, 5, [29; 99]. split; [reflexivity|]. repeat split; try lia; repeat constructor; lia. }
  vm_compute. reflexivity.
Qed.
(** an empty list without a next update: the empty SEQUENCE is there, the next update is not *)
Example C141_crl_instance : CreateCRL prims0 (mkIssuer 0 [] (is_Subject issuer0)) [] (ASigner rsa_signer) [] (rl_ThisUpdate rl0) timeZero = Ret crl0_der /\ utc_time (tm_civil timeZero) /\
  crl0_der = cert_der (SEQ (INTEGER [1] ++ rsa_alg 11 ++ ca_name ++ DER 23 (chars "230228000000Z") ++ SEQ [])) (rsa_alg 11) [1; 2; 3].
Proof. split; [vm_compute; reflexivity|]. split; [cbn; repeat split; discriminate|]. vm_compute. reflexivity. Qed.
