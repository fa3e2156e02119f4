(** * C58, C80, C92-C94: revocation lists; keys that cannot sign *)
From Coq Require Import String Permutation ZifyBool.
From Verif Require Import Base Words Utf8 SM3Spec SM3Model SM3Proofs ECSpec ECModel ECBridge ECProofs BaseOrder SM2Spec SM2Model SM2SigProofs PropertiesSM2Sig CryptoByte Asn1 Asn1Proofs Asn1Safe KeysModel KeysProofs P12Enc
  X509Model X509Sig X509Build X509CertProofs PropertiesX509Sig X509Crl X509CrlProofs X509Time.
Open Scope Z_scope.

(** ** C58: only crypto.Signer keys *)
(** an SM2 private key, and any other value that is not a crypto.Signer, is refused for every template, before anything else is
    looked at *)
Theorem C58_sm2_keys_refused : forall priv, (exists k, priv = ASM2 k) \/ priv = AOther ->
  (forall P rand t parent pub, CreateCertificate P rand t parent pub priv = Err errNotSigner) /\
  (forall P rand t, CreateCertificateRequest P rand t priv = Err errNotSigner) /\
  (forall P c rand revoked now expiry, CreateCRL P c rand priv revoked now expiry = Err errNotSigner).
Proof. intros priv [[k ->]| ->]; repeat split. Qed.
Print Assumptions C58_sm2_keys_refused.
Theorem C58_refuted : ~ (forall (k : PrivateKey) P c rand revoked now expiry, keypair k -> exists der, CreateCRL P c rand (ASM2 k) revoked now expiry = Ret der).
Proof.
  intros H. destruct C12_nonvacuous as (HK & _). destruct (H key1 (mkSigPrims (fun _ _ => []) (fun _ _ _ _ _ => None) (fun _ _ _ _ _ => None) (fun _ _ _ _ _ => true) (fun _ _ _ => true))
    (mkIssuer 0 [] []) [] [] timeZero timeZero HK) as [der E]. discriminate E.
Qed.
Print Assumptions C58_refuted.

(** ** C80: the guards of CreateRevocationList *)
(** bit 6 of the key usage: cRLSign *)
Definition crl_guards (template : option RevocationList) (issuer : option Issuer) : Prop :=
  exists t iss n, template = Some t /\ issuer = Some iss /\ Z.testbit (is_KeyUsage iss) 6 = true /\ is_SubjectKeyId iss <> [] /\
    instant (rl_ThisUpdate t) <= instant (rl_NextUpdate t) /\ rl_Number t = Some n.
Definition crl_times_ok (template : option RevocationList) : Prop :=
  forall t, template = Some t -> valid_time (rl_ThisUpdate t) /\ valid_time (rl_NextUpdate t).
Lemma crlSign_bit n : (Z.land n KeyUsageCRLSign =? 0) = negb (Z.testbit n 6).
Proof.
  unfold KeyUsageCRLSign. change 64 with (2 ^ 6). destruct (Z.testbit n 6) eqn:E; cbn [negb].
  - apply Z.eqb_neq. intros H0. assert (H1 : Z.testbit (Z.land n (2 ^ 6)) 6 = true) by (rewrite Z.land_spec, E, Z.pow2_bits_true by lia; reflexivity). rewrite H0 in H1. discriminate.
  - apply Z.eqb_eq, Z.bits_inj'. intros k Hk. rewrite Z.land_spec, Z.bits_0. destruct (Z.eq_dec k 6) as [->|]; [rewrite E; reflexivity|].
    rewrite Z.pow2_bits_false by lia. apply andb_false_r.
Qed.
(** C80: a list is made only if all guards hold; if one fails, the error does not depend on the signer, which is not used *)
Theorem C80_guards : forall template issuer, crl_times_ok template ->
  (forall P rand key der, CreateRevocationList P rand template issuer key = Ret der -> crl_guards template issuer) /\
  (~ crl_guards template issuer -> exists e, forall P rand key, CreateRevocationList P rand template issuer key = Err e).
Proof.
  intros template issuer Ht. assert (D : crl_guards template issuer \/ exists e, forall P rand key, CreateRevocationList P rand template issuer key = Err e).
  { destruct template as [t|]; [|right; eexists; reflexivity]. destruct issuer as [iss|]; [|right; eexists; reflexivity].
    destruct (Ht t eq_refl) as [V1 V2]. pose proof (Before_instant (rl_NextUpdate t) (rl_ThisUpdate t) V2 V1) as B.
    destruct (Z.testbit (is_KeyUsage iss) 6) eqn:E1.
    2:{ right. eexists. intros P rand key. unfold CreateRevocationList. rewrite crlSign_bit, E1. reflexivity. }
    destruct (isnil (is_SubjectKeyId iss)) eqn:E2.
    { right. eexists. intros P rand key. unfold CreateRevocationList. rewrite crlSign_bit, E1, E2. reflexivity. }
    destruct (time_Before (rl_NextUpdate t) (rl_ThisUpdate t)) eqn:E3.
    { right. eexists. intros P rand key. unfold CreateRevocationList. rewrite crlSign_bit, E1, E2, E3. reflexivity. }
    destruct (rl_Number t) as [n|] eqn:E4.
    2:{ right. eexists. intros P rand key. unfold CreateRevocationList. rewrite crlSign_bit, E1, E2, E3, E4. reflexivity. }
    left. exists t, iss, n. repeat split; auto; [intros E; rewrite E in E2; discriminate|lia]. }
  split; [|tauto]. intros P rand key der E. destruct D as [D|[e D]]; auto. rewrite D in E. discriminate.
Qed.
Print Assumptions C80_guards.
(** each guard on its own is enough to be refused, whatever the rest *)
Theorem C80_each_guard : forall P rand key t iss, valid_time (rl_ThisUpdate t) -> valid_time (rl_NextUpdate t) ->
  Z.testbit (is_KeyUsage iss) 6 = false \/ is_SubjectKeyId iss = [] \/ instant (rl_NextUpdate t) < instant (rl_ThisUpdate t) \/ rl_Number t = None ->
  exists e, CreateRevocationList P rand (Some t) (Some iss) key = Err e.
Proof.
  intros P rand key t iss V1 V2 H. destruct (C80_guards (Some t) (Some iss)) as [_ G]. { intros t0 E. injection E as <-. auto. }
  destruct G as [e G]; [|exists e; apply G]. intros (t' & iss' & n & E1 & E2 & G1 & G2 & G3 & G4). injection E1 as <-. injection E2 as <-.
  destruct H as [H|[H|[H|H]]]; [congruence|contradiction|lia|congruence].
Qed.
Print Assumptions C80_each_guard.

(** ** C92: what CreateRevocationList writes is what ParseDERCRL reads *)
Lemma valid_next t : valid_civil (tm_civil t) -> next_ok t.
Proof.
  intros V. unfold next_ok. destruct (c_iszero cUTC t) eqn:E; [left|right; auto]. cbn [c_iszero cUTC cTimeAs] in E. apply andb_prop in E as [E1 E2]. destruct t as [[y m d h mi s o] ns].
  unfold civil_eqb, zeroTime in E1. cbn [tm_civil tm_ns t_Year t_Month t_Day t_Hour t_Min t_Sec t_Off] in *. unfold timeZero, zeroTime.
  repeat (apply andb_prop in E1; destruct E1 as [E1 ?]). f_equal; [f_equal|]; lia.
Qed.
Lemma aki_val ski e : akiExt ski = Ret e -> e = mkExt oidExtensionAuthorityKeyId false (el 0 16 true (el 2 0 false ski)).
Proof.
  unfold akiExt, Marshal, cAuthKeyId. rewrite (mk_struct _ _ _ (Some ski) (el 2 0 false ski)) by (apply f_one; apply mk_bytes_imp). cbn [bind]. intros E. symmetry. congruence.
Qed.
Lemma list_inv t ai sig der : Marshal cCertList (mkCRL t ai (fullBits sig)) = Ret der ->
  exists tbs ab, Marshal cTbsCRL t = Ret tbs /\ Marshal cAI ai = Ret ab /\ der = el 0 16 true (tbs ++ ab ++ el 0 3 false (0 :: sig)).
Proof.
  intros E. unfold Marshal, makeField in E. cbn [p_omit noP p_opt andb c_whole cCertList cStruct p_set c_tag c_body p_tag c_comp] in E. apply bind_inv in E as (body & Eb & E).
  change (Ret (el 0 16 true body) = Ret der) in E. assert (der = el 0 16 true body) by congruence. subst der. clear E. cbn [f_enc fcons fst snd fnil cl_TBS cl_Alg cl_Sig] in Eb.
  apply bind_inv in Eb as (x & Ex & Eb). apply bind_inv in Eb as (y & Ey & Eb). apply bind_inv in Ey as (z & Ez & Ey). apply bind_inv in Ey as (w & Ew & Ey). apply bind_inv in Ew as (v & Ev & Ew).
  exists x, z. split; [exact Ex|]. split; [exact Ez|]. assert (body = x ++ y) by congruence. assert (y = z ++ w) by congruence. cbn [bind] in Ew. rewrite app_nil_r in Ew. assert (w = v) by congruence. subst.
  change (Ret (el 0 3 false ((8 - Z.rem (zlen sig * 8) 8) mod 8 :: sig)) = Ret v) in Ev. rewrite Z.rem_mul in Ev by lia. change ((8 - 0) mod 8) with 0 in Ev. congruence.
Qed.
Lemma crl_read rand key opts input ai n this next r e der : let t := mkTbsCRL None 1 ai (rdns_of n) this next r e in
  signCRL rand key opts input ai t = Ret der -> ai_good ai -> name_ok n -> valid_civil (tm_civil this) -> valid_civil (tm_civil next) -> revs_ok r -> exts_ok e -> zlen der < 2 ^ 31 ->
  exists tbs ab signed sig ai' m, input tbs = Ret signed /\ sg_Sign key rand signed opts = Ret sig /\ same_name n m /\
    getSignatureAlgorithmFromAI ai' = getSignatureAlgorithmFromAI ai /\ der = el 0 16 true (tbs ++ ab ++ el 0 3 false (0 :: sig)) /\
    ParseDERCRL der = Ret (mkCRL (tbs_read tbs ai' m t) ai' (fullBits sig)).
Proof.
  intros t E (ai' & Ha & Hg) Hn Ht Hx Hr He Hz. unfold signCRL in E. apply bind_inv in E as (tbs & Et & E). apply bind_inv in E as (signed & Es & E). apply bind_inv in E as (sig & Eg & E).
  destruct (list_inv _ _ _ _ E) as (tbs' & ab & Et' & Eab & Ed). assert (tbs' = tbs) by congruence. subst tbs'.
  pose proof (list_len _ _ _ _ _ Et E) as L. pose proof (zlen_nonneg tbs). pose proof (zlen_nonneg sig).
  destruct (name_rt n Hn) as (m & Sm & Rm). exists tbs, ab, signed, sig, ai', m. split; [exact Es|]. split; [exact Eg|]. split; [exact Sm|]. split; [exact Hg|]. split; [exact Ed|].
  assert (RT : field_rt cTbsCRL noP t (tbs_read tbs ai' m t)) by (apply tbs_rt; auto; [now apply valid_next|lia]).
  pose proof (list_rt t _ ai ai' sig RT Ha der [] E Hz) as U. rewrite app_nil_r in U. unfold ParseDERCRL, Unmarshal. rewrite U. reflexivity.
Qed.
(** the algorithm that is used: the requested one, or the default of the key *)
Definition chosen_alg (pub : pubKey) (req a : Z) : Prop := req = 0 /\ default_alg pub = Some a \/ req <> 0 /\ a = req.
Definition opt_list {A} (l : list A) : option (list A) := match l with [] => None | _ => Some l end.
Theorem C92_revocation_list : forall P rand t iss key der,
  CreateRevocationList P rand (Some t) (Some iss) key = Ret der ->
  name_ok (is_Subject iss) -> valid_civil (tm_civil (rl_ThisUpdate t)) -> valid_civil (tm_civil (rl_NextUpdate t)) ->
  Forall rev_ok (rl_Revoked t) -> Forall ext_ok (rl_ExtraExtensions t) -> zlen der < 2 ^ 31 ->
  exists l n a h issuer tbs ai digest sig,
    ParseDERCRL der = Ret l /\ rl_Number t = Some n /\
    (* the signed part, and the bytes it stands for *)
    tl_Raw (cl_TBS l) = Some tbs /\ der = el 0 16 true (tbs ++ ai ++ el 0 3 false (0 :: sig)) /\
    tl_Version (cl_TBS l) = 1 /\
    same_name (is_Subject iss) issuer /\ tl_Issuer (cl_TBS l) = rdns_of issuer /\
    tl_ThisUpdate (cl_TBS l) = seconds (rl_ThisUpdate t) /\ tl_NextUpdate (cl_TBS l) = seconds (rl_NextUpdate t) /\
    tl_Revoked (cl_TBS l) = opt_list (map (fun r => mkRev (rc_Serial r) (seconds (rc_Time r)) (rc_Extensions r)) (rl_Revoked t)) /\
    tl_Extensions (cl_TBS l) = Some (mkExt [2; 5; 29; 35] false (el 0 16 true (el 2 0 false (is_SubjectKeyId iss))) ::
                                     mkExt [2; 5; 29; 20] false (el 0 2 false (bigint_content n)) :: rl_ExtraExtensions t) /\
    (* the algorithm, the same inside and outside, and the signature *)
    tl_Signature (cl_TBS l) = cl_Alg l /\ getSignatureAlgorithmFromAI (cl_Alg l) = a /\ chosen_alg (sg_Public key) (rl_SignatureAlgorithm t) a /\
    lookupDetails a = (h, key_family (sg_Public key)) /\ toSign P h tbs = Ret digest /\
    sg_Sign key rand digest (h, isRSAPSS (rl_SignatureAlgorithm t)) = Ret sig /\ cl_Sig l = fullBits sig /\ RightAlign (cl_Sig l) = sig.
Proof.
  intros P rand t iss key der E Hn Ht Hx Hr He Hz. unfold CreateRevocationList in E.
  destruct (Z.land (is_KeyUsage iss) KeyUsageCRLSign =? 0); [discriminate|]. destruct (isnil (is_SubjectKeyId iss)); [discriminate|]. destruct (time_Before _ _); [discriminate|].
  destruct (rl_Number t) as [n|]; [|discriminate]. apply bind_inv in E as ([h ai] & Es & E). apply bind_inv in E as (aki & Ea & E). apply aki_val in Ea. apply bind_inv in E as (num & Em & E).
  change (Ret (el 0 2 false (bigint_content n)) = Ret num) in Em. assert (num = el 0 2 false (bigint_content n)) by congruence. subst num aki. clear Em.
  destruct (proj1 (C57_consistent _ _) _ _ Es) as (a & _ & Hc & Hg & _ & _ & Hl).
  apply crl_read in E; auto.
  - destruct E as (tbs & ab & digest & sig & ai' & m & H1 & H2 & H3 & H4 & H5 & H6).
    eexists _, n, a, h, m, tbs, ab, digest, sig. split; [exact H6|]. cbn [cl_TBS cl_Alg cl_Sig tbs_read tl_Raw tl_Version tl_Issuer tl_ThisUpdate tl_NextUpdate tl_Revoked tl_Extensions tl_Signature].
    repeat (split; [first [reflexivity|assumption|congruence]|]). split; [destruct (rl_Revoked t); reflexivity|]. split; [reflexivity|]. split; [reflexivity|]. split; [congruence|].
    split; [destruct Hc as [Hc|[Hc Hc']]; [left; auto|right; auto]|]. split; [exact Hl|]. split; [exact H1|]. split; [exact H2|]. split; [reflexivity|].
    unfold fullBits. replace (zlen sig * 8) with (8 * zlen sig) by lia. apply RightAlign_full.
  - eapply signing_good; eauto.
  - destruct (rl_Revoked t); [exact I|exact Hr].
  - cbn [app exts_ok]. constructor; [oidok|]. constructor; [oidok|exact He].
Qed.
Print Assumptions C92_revocation_list.
(** a concrete case: an RSA signer, one revoked certificate with a reason code, an additional extension, a two-attribute name *)
Definition prims0 : sigPrims := mkSigPrims (fun _ _ => []) (fun _ _ _ _ _ => None) (fun _ _ _ _ _ => None) (fun _ _ _ _ _ => true) (fun _ _ _ => true).
Definition rsa_signer : Signer := mkSigner (PKrsa 35 3) (fun _ _ _ => Ret [1; 2; 3]).
Definition issuer0 : Issuer := mkIssuer 96 [9; 9] [[mkATV [2; 5; 4; 6] [67; 78]]; [mkATV [2; 5; 4; 3] [67; 65]; mkATV [2; 5; 4; 10] [79]]].
Definition rl0 : RevocationList :=
  mkRL 0 [mkRev (Some 77) (mkTime (mkCivil 2023 1 2 3 4 5 0) 600) (Some [mkExt [2; 5; 29; 21] false [10; 1; 1]])] (Some 300) (mkTime (mkCivil 2023 2 28 0 0 0 0) 7) (mkTime (mkCivil 2051 2 28 0 0 0 0) 0)
    [mkExt [2; 5; 29; 99] true [5; 0]].
Lemma rl0_valid : name_ok (is_Subject issuer0) /\ valid_time (rl_ThisUpdate rl0) /\ valid_time (rl_NextUpdate rl0) /\ Forall rev_ok (rl_Revoked rl0) /\ Forall ext_ok (rl_ExtraExtensions rl0).
Proof.
  split; [|split; [|split; [|split]]].
  - repeat (apply Forall_cons || apply Forall_nil); (split; [oidok|apply bytes_okb_spec; reflexivity]).
  - cbv. intuition discriminate.
  - cbv. intuition discriminate.
  - apply Forall_cons; [|constructor]. split; [discriminate|]. split; [cbv; intuition discriminate|]. apply Forall_cons; [oidok|constructor].
  - constructor; [oidok|constructor].
Qed.
Example C92_nonvacuous : exists der, CreateRevocationList prims0 [] (Some rl0) (Some issuer0) rsa_signer = Ret der /\ zlen der < 2 ^ 31 /\ bytes_ok der.
Proof. eexists. split; [vm_compute; reflexivity|]. split; [reflexivity|apply bytes_okb_spec; vm_compute; reflexivity]. Qed.
Example C80_nonvacuous : crl_times_ok (Some rl0) /\ crl_guards (Some rl0) (Some issuer0) /\ ~ crl_guards (Some rl0) (Some (mkIssuer 32 [9; 9] [])).
Proof.
  destruct rl0_valid as (_ & V1 & V2 & _). split; [intros t E; injection E as <-; auto|]. split.
  - exists rl0, issuer0, 300. repeat split; [discriminate|]. vm_compute. discriminate.
  - intros (t & iss & n & _ & E & B & _). injection E as <-. discriminate.
Qed.

(** ** C93: the same for CreateCRL *)
(** The list of revoked certificates is present even if empty; there is no CRL number; the identifier of the issuer's key only
    if the issuer has one.  The signer is given the digest, or the encoded list itself for an SM2 key. *)
Theorem C93_create_crl : forall P rand c key revoked now expiry der,
  CreateCRL P c rand (ASigner key) revoked now expiry = Ret der ->
  name_ok (is_Subject c) -> valid_civil (tm_civil now) -> valid_civil (tm_civil expiry) -> Forall rev_ok revoked -> zlen der < 2 ^ 31 ->
  exists l a h issuer tbs ai input sig,
    ParseDERCRL der = Ret l /\
    tl_Raw (cl_TBS l) = Some tbs /\ der = el 0 16 true (tbs ++ ai ++ el 0 3 false (0 :: sig)) /\
    tl_Version (cl_TBS l) = 1 /\
    same_name (is_Subject c) issuer /\ tl_Issuer (cl_TBS l) = rdns_of issuer /\
    tl_ThisUpdate (cl_TBS l) = seconds now /\ tl_NextUpdate (cl_TBS l) = seconds expiry /\
    tl_Revoked (cl_TBS l) = Some (map (fun r => mkRev (rc_Serial r) (seconds (rc_Time r)) (rc_Extensions r)) revoked) /\
    tl_Extensions (cl_TBS l) = match is_SubjectKeyId c with [] => None | ski => Some [mkExt oidExtensionAuthorityKeyId false (el 0 16 true (el 2 0 false ski))] end /\
    tl_Signature (cl_TBS l) = cl_Alg l /\ getSignatureAlgorithmFromAI (cl_Alg l) = a /\ default_alg (sg_Public key) = Some a /\
    lookupDetails a = (h, key_family (sg_Public key)) /\
    (match sg_Public key with PKsm2 _ | PKed25519 _ => input = tbs | _ => hashSum P h tbs = Ret input end) /\
    sg_Sign key rand input (h, false) = Ret sig /\ cl_Sig l = fullBits sig /\ RightAlign (cl_Sig l) = sig.
Proof.
  intros P rand c key revoked now expiry der E Hn Ht Hx Hr Hz. unfold CreateCRL in E. cbn [asSigner] in E.
  apply bind_inv in E as ([h ai] & Es & E). apply bind_inv in E as (exts & Ee & E).
  assert (exts = match is_SubjectKeyId c with [] => None | ski => Some [mkExt oidExtensionAuthorityKeyId false (el 0 16 true (el 2 0 false ski))] end) as X.
  { destruct (is_SubjectKeyId c) as [|b s]; cbn [isnil] in Ee; [congruence|]. apply bind_inv in Ee as (aki & Ea & Ee). apply aki_val in Ea. subst aki. congruence. }
  clear Ee. destruct (proj1 (C57_consistent _ _) _ _ Es) as (a & _ & [[_ Hc]|[Hc _]] & Hg & _ & _ & Hl); [|congruence].
  apply crl_read in E; auto.
  - destruct E as (tbs & ab & digest & sig & ai' & m & H1 & H2 & H3 & H4 & H5 & H6).
    eexists _, a, h, m, tbs, ab, digest, sig. split; [exact H6|]. cbn [cl_TBS cl_Alg cl_Sig tbs_read tl_Raw tl_Version tl_Issuer tl_ThisUpdate tl_NextUpdate tl_Revoked tl_Extensions tl_Signature].
    repeat (split; [first [reflexivity|assumption|congruence]|]). split.
    + assert (HH : h = fst (lookupDetails a)) by (rewrite Hl; reflexivity). clear - H1 Hc HH. destruct (sg_Public key) as [nn ee|cc x y|k|k|y p q g|]; cbn [default_alg] in Hc.
      * injection Hc as <-. subst h. exact H1.
      * assert (K : (negb (h =? 0) && negb (h =? H_SM3)) = true).
        { subst h. destruct (Z.eq_dec cc 224) as [->|]; [injection Hc as <-; reflexivity|]. destruct (Z.eq_dec cc 256) as [->|]; [injection Hc as <-; reflexivity|].
          destruct (Z.eq_dec cc 384) as [->|]; [injection Hc as <-; reflexivity|]. destruct (Z.eq_dec cc 521) as [->|]; [injection Hc as <-; reflexivity|].
          exfalso. destruct cc as [|q|q]; try discriminate. repeat (destruct q as [q|q|]; try discriminate; try congruence). }
        rewrite K in H1. exact H1.
      * destruct (pk_Curve k =? SM2P256V1_id); [|discriminate]. injection Hc as <-. subst h. change (Ret tbs = Ret digest) in H1. congruence.
      * injection Hc as <-. subst h. change (Ret tbs = Ret digest) in H1. congruence.
      * discriminate.
      * discriminate.
    + split; [exact H2|]. split; [reflexivity|]. unfold fullBits. replace (zlen sig * 8) with (8 * zlen sig) by lia. apply RightAlign_full.
  - eapply signing_good; eauto.
  - subst exts. destruct (is_SubjectKeyId c); [exact I|]. constructor; [oidok|constructor].
Qed.
Print Assumptions C93_create_crl.
Example C93_nonvacuous : exists der, CreateCRL prims0 issuer0 [] (ASigner rsa_signer) (rl_Revoked rl0) (rl_ThisUpdate rl0) (rl_NextUpdate rl0) = Ret der /\ zlen der < 2 ^ 31.
Proof. eexists. split; [vm_compute; reflexivity|reflexivity]. Qed.

(** ** C94: checking a list against the issuer's certificate *)
Theorem C94_decision : forall P c der l, bytes_ok der -> ParseDERCRL der = Ret l ->
  (CheckCRL P c l = Ret tt <-> accept_spec P (getSignatureAlgorithmFromAI (cl_Alg l)) (sl (tl_Raw (cl_TBS l))) (RightAlign (cl_Sig l)) (c_PublicKey c)) /\
  CheckCRL P c l <> Panic.
Proof.
  intros P c der l Ho E. unfold ParseDERCRL in E. apply bind_inv in E as ([l' rest] & U & E). destruct rest; [|discriminate]. assert (l' = l) by congruence. subst l'. clear E.
  apply Unmarshal_inv in U; auto. apply field_read_ok in U as (_ & t & full & inner & Hi & _ & _ & E); auto. cbn [c_parse cCertList cStruct] in E. apply bind_inv in E as (x & Ex & E).
  cbn [f_dec fcons] in Ex. apply bind_inv in Ex as ([tbs r] & Et & Ex). apply bind_inv in Ex as ([a' b'] & _ & Ex).
  assert (x = (tbs, (a', b'))) by congruence. subst x. assert (cl_TBS l = tbs) as T by (destruct b' as [b' u]; assert (mkCRL tbs a' b' = l) as <- by congruence; reflexivity).
  unfold CheckCRL, CheckCRLSignature, Certificate_CheckSignature. rewrite T. apply C53_decision. apply parseField_inv in Et; auto. destruct Et as [[Et _]|Et]; [discriminate|]. apply field_read_ok in Et as (_ & t2 & full2 & inner2 & _ & Hf & _ & Ep); auto.
  cbn [c_parse cTbsCRL cStructRaw] in Ep. apply bind_inv in Ep as (x & _ & Ep). destruct x as (v & a1 & i1 & t1 & n1 & r1 & e1 & u). assert (tbs = mkTbsCRL (Some full2) v a1 i1 t1 n1 r1 e1) by congruence. rewrite H. exact Hf.
Qed.
Print Assumptions C94_decision.

(** a signer whose signatures its public key's verification accepts *)
Definition sound_signer (P : sigPrims) (key : Signer) : Prop := forall rand m h pss sig, sg_Sign key rand m (h, pss) = Ret sig ->
  match sg_Public key with
  | PKrsa n e => (if pss then rsa_VerifyPSS P n e h m sig else rsa_VerifyPKCS1v15 P n e h m sig) = None
  | PKecdsa c x y => ecdsa_VerifyASN1 P c x y m sig = true
  | PKsm2 k => Verify k m [] sig = Ret true
  | _ => True
  end.
Definition rsa_or_ecdsa (pub : pubKey) : Prop := match pub with PKrsa _ _ | PKecdsa _ _ _ => True | _ => False end.
Lemma available a h f : lookupDetails a = (h, f) -> f = RSA \/ f = ECDSA -> Hash_Available h = true /\ (h =? 0) = false.
Proof.
  intros E Hf. destruct (algo_cases a) as [H|H]; [|rewrite H in E; injection E as <- <-; destruct Hf; discriminate].
  rewrite (lookup_row a H) in E. unfold all_algs in H. repeat (destruct H as [<-|H]; [cbv in E; injection E as <- <-; try (destruct Hf; discriminate); split; reflexivity|]). destruct H.
Qed.
Lemma chosen_pss pub req a : chosen_alg pub req a -> isRSAPSS a = isRSAPSS req.
Proof.
  intros [[-> H]|[_ ->]]; [|reflexivity]. destruct pub as [n e|c x y|k|k|y p q g|]; cbn [default_alg] in H; try discriminate; try (injection H as <-; reflexivity).
  - destruct (Z.eq_dec c 224) as [->|]; [injection H as <-; reflexivity|]. destruct (Z.eq_dec c 256) as [->|]; [injection H as <-; reflexivity|].
    destruct (Z.eq_dec c 384) as [->|]; [injection H as <-; reflexivity|]. destruct (Z.eq_dec c 521) as [->|]; [injection H as <-; reflexivity|].
    exfalso. destruct c as [|q|q]; try discriminate. repeat (destruct q as [q|q|]; try discriminate; try congruence).
  - destruct (_ =? _); [|discriminate]. injection H as <-. reflexivity.
Qed.
Lemma check_signed P key rand req a h m digest sig : sound_signer P key -> rsa_or_ecdsa (sg_Public key) -> chosen_alg (sg_Public key) req a -> lookupDetails a = (h, key_family (sg_Public key)) ->
  toSign P h m = Ret digest -> sg_Sign key rand digest (h, isRSAPSS req) = Ret sig -> checkSignature P a m sig (sg_Public key) = Ret tt.
Proof.
  intros S K C L T G. specialize (S _ _ _ _ _ G). rewrite <- (chosen_pss _ _ _ C) in S. clear G.
  assert (A : Hash_Available h = true /\ (h =? 0) = false) by (eapply available; [exact L|destruct (sg_Public key); cbn in *; tauto]). destruct A as [A1 A2].
  unfold toSign in T. rewrite A2 in T. unfold checkSignature. rewrite L, A1, A2. cbn [negb andb]. rewrite T. cbn [bind].
  destruct (sg_Public key); cbn [rsa_or_ecdsa key_family pkAlgo_eqb negb] in *; try contradiction.
  - destruct (isRSAPSS a); rewrite S; reflexivity.
  - rewrite S. reflexivity.
Qed.
(** C94: a list made by CreateRevocationList with an RSA or ECDSA signer is accepted with the issuer's certificate *)
Theorem C94_revocation_list_verifies : forall P rand t iss key der c,
  CreateRevocationList P rand (Some t) (Some iss) key = Ret der ->
  name_ok (is_Subject iss) -> valid_civil (tm_civil (rl_ThisUpdate t)) -> valid_civil (tm_civil (rl_NextUpdate t)) ->
  Forall rev_ok (rl_Revoked t) -> Forall ext_ok (rl_ExtraExtensions t) -> zlen der < 2 ^ 31 ->
  sound_signer P key -> rsa_or_ecdsa (sg_Public key) -> c_PublicKey c = sg_Public key ->
  exists l, ParseDERCRL der = Ret l /\ CheckCRL P c l = Ret tt.
Proof.
  intros P rand t iss key der c E H1 H2 H3 H4 H5 H6 S K Hc. destruct (C92_revocation_list _ _ _ _ _ _ E H1 H2 H3 H4 H5 H6) as
    (l & n & a & h & m & tbs & ai & digest & sig & L & _ & R & _ & _ & _ & _ & _ & _ & _ & _ & _ & G & C & D & T & Sg & _ & RA).
  exists l. split; [exact L|]. unfold CheckCRL, CheckCRLSignature, Certificate_CheckSignature. rewrite G, R, RA, Hc. cbn [sl]. eapply check_signed; eauto.
Qed.
Print Assumptions C94_revocation_list_verifies.
(** a list made by CreateCRL, also with an SM2 signer *)
Theorem C94_create_crl_verifies : forall P rand c0 key revoked now expiry der c,
  CreateCRL P c0 rand (ASigner key) revoked now expiry = Ret der ->
  name_ok (is_Subject c0) -> valid_civil (tm_civil now) -> valid_civil (tm_civil expiry) -> Forall rev_ok revoked -> zlen der < 2 ^ 31 -> bytes_ok der ->
  sound_signer P key -> (rsa_or_ecdsa (sg_Public key) \/ exists k, sg_Public key = PKsm2 k) -> c_PublicKey c = sg_Public key ->
  exists l, ParseDERCRL der = Ret l /\ CheckCRL P c l = Ret tt.
Proof.
  intros P rand c0 key revoked now expiry der c E H1 H2 H3 H4 H5 Ho S K Hc. destruct (C93_create_crl _ _ _ _ _ _ _ _ E H1 H2 H3 H4 H5) as
    (l & a & h & m & tbs & ai & input & sig & L & R & Ed & _ & _ & _ & _ & _ & _ & _ & _ & G & C & D & T & Sg & _ & RA).
  exists l. split; [exact L|]. unfold CheckCRL, CheckCRLSignature, Certificate_CheckSignature. rewrite G, R, RA, Hc. cbn [sl]. destruct K as [K|[k K]].
  - change false with (isRSAPSS 0) in Sg. eapply (check_signed P key rand 0 a h tbs input sig); auto; [left; auto|].
    assert (A : (h =? 0) = false) by (eapply available; [exact D|destruct (sg_Public key); cbn in *; tauto]). unfold toSign. rewrite A. destruct (sg_Public key); cbn in K; try contradiction; exact T.
  - specialize (S _ _ _ _ _ Sg). rewrite K in *. subst input. cbn [default_alg] in C. destruct (Z.eqb_spec (pk_Curve k) SM2P256V1_id) as [Hk|]; [|discriminate]. injection C as <-.
    apply C53_decision; [|split; [right; reflexivity|auto]]. rewrite Ed in Ho. unfold el, bytes_ok in *. apply Forall_app in Ho as [_ Ho]. apply Forall_app in Ho as [Ho _]. exact Ho.
Qed.
Print Assumptions C94_create_crl_verifies.
(** With an SM2 signer, what CreateRevocationList makes is a signature over the digest of the list taken as the message, and what
    CheckCRLSignature checks is one over the list: the list is accepted only if the two SM2 digests agree modulo the group order. *)
Definition default_uid : bytes := [49; 50; 51; 52; 53; 54; 55; 56; 49; 50; 51; 52; 53; 54; 55; 56].
Lemma verify_both pub m m' sig : 0 <= pk_X pub < 2 ^ 256 -> 0 <= pk_Y pub < 2 ^ 256 -> on_sm2 (PA (pk_X pub) (pk_Y pub)) -> bytes_ok m -> bytes_ok m' -> Verify pub m [] sig = Ret true ->
  (Verify pub m' [] sig = Ret true <-> be_to_Z (sm2_digest default_uid (pk_X pub) (pk_Y pub) m') mod sm2_N = be_to_Z (sm2_digest default_uid (pk_X pub) (pk_Y pub) m) mod sm2_N).
Proof.
  intros Hx Hy Hc Hm Hm' V.
  assert (D : forall q, bytes_ok q -> SM3Digest pub q [] = Ret (sm2_digest default_uid (pk_X pub) (pk_Y pub) q)).
  { intros q Hq. destruct (C09_default_uid pub key1 q [] 0 0 []) as [-> _]. apply C08_digest; auto; [apply bytes_okb_spec; reflexivity|discriminate|reflexivity]. }
  destruct (C18_message_is_digest pub m [] Hm ltac:(constructor)) as (h & E1 & _ & _ & V1 & _).
  destruct (C18_message_is_digest pub m' [] Hm' ltac:(constructor)) as (h' & E1' & _ & _ & V1' & _).
  rewrite D in E1, E1' by auto. assert (A : h = sm2_digest default_uid (pk_X pub) (pk_Y pub) m) by (symmetry; exact (f_equal (fun o => match o with Ret x => x | _ => h end) E1)).
  assert (A' : h' = sm2_digest default_uid (pk_X pub) (pk_Y pub) m') by (symmetry; exact (f_equal (fun o => match o with Ret x => x | _ => h' end) E1')).
  rewrite V1 in V. rewrite V1'. clear D E1 E1' V1 V1'. rewrite <- A, <- A'. clear A A'. unfold VerifyDigest in *. destruct (UnmarshalSign sig) as [[r s]| |]; try discriminate. apply C81_one_digest; auto.
Qed.
Theorem C94_sm2_prehash : forall P rand t iss key pub der c,
  CreateRevocationList P rand (Some t) (Some iss) key = Ret der ->
  name_ok (is_Subject iss) -> valid_civil (tm_civil (rl_ThisUpdate t)) -> valid_civil (tm_civil (rl_NextUpdate t)) ->
  Forall rev_ok (rl_Revoked t) -> Forall ext_ok (rl_ExtraExtensions t) -> zlen der < 2 ^ 31 -> bytes_ok der ->
  sound_signer P key -> sg_Public key = PKsm2 pub -> c_PublicKey c = PKsm2 pub -> on_sm2 (PA (pk_X pub) (pk_Y pub)) ->
  0 <= pk_X pub < 2 ^ 256 -> 0 <= pk_Y pub < 2 ^ 256 -> pk_Curve pub = SM2P256V1_id -> rl_SignatureAlgorithm t = 0 \/ rl_SignatureAlgorithm t = SM2WithSM3 ->
  exists l tbs, ParseDERCRL der = Ret l /\ tl_Raw (cl_TBS l) = Some tbs /\
    (CheckCRL P c l = Ret tt <->
     be_to_Z (sm2_digest default_uid (pk_X pub) (pk_Y pub) tbs) mod sm2_N = be_to_Z (sm2_digest default_uid (pk_X pub) (pk_Y pub) (SM3 tbs)) mod sm2_N).
Proof.
  intros P rand t iss key pub der c E H1 H2 H3 H4 H5 H6 Ho S Hk Hc Hq Hx Hy Hv Ha. destruct (C92_revocation_list _ _ _ _ _ _ E H1 H2 H3 H4 H5 H6) as
    (l & n & a & h & m & tbs & ai & digest & sig & L & _ & R & Ed & _ & _ & _ & _ & _ & _ & _ & _ & G & C & D & T & Sg & _ & RA). clear E.
  exists l, tbs. split; [exact L|]. split; [exact R|].
  assert (Hb : bytes_ok tbs). { rewrite Ed in Ho. unfold el, bytes_ok in *. apply Forall_app in Ho as [_ Ho]. apply Forall_app in Ho as [Ho _]. exact Ho. }
  assert (A : a = SM2WithSM3). { rewrite Hk in C. destruct C as [[_ C]|[N ->]]; [cbn [default_alg] in C; rewrite Hv, Z.eqb_refl in C; congruence|tauto]. }
  subst a. rewrite A in D. assert (Hh : h = H_SM3) by (change (lookupDetails SM2WithSM3) with (H_SM3, ECDSA) in D; congruence). subst h. clear D. unfold toSign in T. change (H_SM3 =? 0) with false in T. cbv iota in T. rewrite (sm3_hash P tbs Hb) in T.
  assert (DG : digest = SM3 tbs) by (symmetry; exact (f_equal (fun o => match o with Ret x => x | _ => digest end) T)). clear T.
  specialize (S _ _ _ _ _ Sg). rewrite Hk in S. rewrite DG in S. clear Sg.
  unfold CheckCRL, CheckCRLSignature, Certificate_CheckSignature. rewrite R, RA, Hc, A. cbn [sl]. rewrite (proj1 (C53_decision P SM2WithSM3 tbs sig (PKsm2 pub) Hb)). cbn [accept_spec].
  rewrite <- (verify_both pub (SM3 tbs) tbs sig Hx Hy Hq (SM3_ok tbs) Hb S). split; [intros (_ & _ & V); exact V|intros V; split; [right; reflexivity|split; [exact Hv|exact V]]].
Qed.
Print Assumptions C94_sm2_prehash.
Example C94_nonvacuous : exists P key der c l, sound_signer P key /\ rsa_or_ecdsa (sg_Public key) /\ CreateRevocationList P [] (Some rl0) (Some issuer0) key = Ret der /\
  c_PublicKey c = sg_Public key /\ ParseDERCRL der = Ret l /\ CheckCRL P c l = Ret tt.
Proof.
  destruct C92_nonvacuous as (der & E & Hz & Ho). destruct rl0_valid as (N & [V1 _] & [V2 _] & R & X).
  assert (S : sound_signer prims0 rsa_signer) by (intros rand m h pss sig _; cbn; destruct pss; reflexivity).
  destruct (C94_revocation_list_verifies prims0 [] rl0 issuer0 rsa_signer der (cert0 3 info0 0 (PKrsa 35 3) [] []) E N V1 V2 R X Hz S I eq_refl) as (l & L & C).
  exists prims0, rsa_signer, der, (cert0 3 info0 0 (PKrsa 35 3) [] []), l. repeat (split; [first [assumption|reflexivity|exact I]|]). exact C.
Qed.
(** such lists are refused: a concrete SM2 signer (key d = 1, nonce 1) whose signatures are sound and whose list is not accepted *)
Definition sm2_signer : Signer :=
  mkSigner (PKsm2 (sk_Pub key1)) (fun _ m _ => if bytes_okb m then (do (s, _) <- Sign (repeat 0 40) key1 m []; Ret s) else Err "").
Definition rl1 : RevocationList := mkRL 0 [] (Some 1) (mkTime (mkCivil 2023 1 1 0 0 0 0) 0) (mkTime (mkCivil 2024 1 1 0 0 0 0) 0) [].
Definition issuer1 : Issuer := mkIssuer 96 [9] [].
Lemma sm2_signer_sound P : sound_signer P sm2_signer.
Proof.
  intros rand m h pss sig E. cbn [sg_Public sg_Sign sm2_signer] in *. destruct (bytes_okb m) eqn:O; [|discriminate]. apply bytes_okb_spec in O.
  apply bind_inv in E as ([s rest] & E & X). assert (s = sig) by congruence. subst s. clear X.
  destruct C12_nonvacuous as (HK & Hd & _). destruct (C13_message _ _ _ _ _ _ O ltac:(constructor) HK Hd E) as (pre & b & Er & Hl & V & _). rewrite V. f_equal.
  assert (Hb : b = repeat 0 40).
  { assert (L : List.length (repeat 0 40) = (List.length pre + 40 + List.length rest)%nat) by (rewrite Er, !app_length, Hl; lia).
    cbn [repeat List.length] in L. destruct pre; [|cbn in L; lia]. destruct rest; [|cbn in L; lia]. rewrite app_nil_r in Er. auto. }
  rewrite Hb. change (nonce_of (repeat 0 40)) with 1. pose proof (sm2_pmul_1 G) as E1. unfold sm2_pmul in E1. rewrite E1. reflexivity.
Qed.
Definition rl1_tbs : bytes := match Marshal cTbsCRL (mkTbsCRL None 1 (mkAI oidSignatureSM2WithSM3 rawZero) (rdns_of []) (rl_ThisUpdate rl1) (rl_NextUpdate rl1) None
  (Some [mkExt oidExtensionAuthorityKeyId false (el 0 16 true (el 2 0 false [9])); mkExt oidExtensionCRLNumber false (el 0 2 false (bigint_content 1))])) with Ret b => b | _ => [] end.
Lemma digests_differ : be_to_Z (sm2_digest default_uid (pk_X (sk_Pub key1)) (pk_Y (sk_Pub key1)) rl1_tbs) mod sm2_N <> be_to_Z (sm2_digest default_uid (pk_X (sk_Pub key1)) (pk_Y (sk_Pub key1)) (SM3 rl1_tbs)) mod sm2_N.
Proof. vm_compute. discriminate. Qed.
Lemma rl1_made : exists der l, CreateRevocationList prims0 [] (Some rl1) (Some issuer1) sm2_signer = Ret der /\ zlen der < 2 ^ 31 /\ bytes_okb der = true /\
  ParseDERCRL der = Ret l /\ tl_Raw (cl_TBS l) = Some rl1_tbs.
Proof. eexists _, _. split; [vm_compute; reflexivity|]. split; [vm_compute; reflexivity|]. split; [vm_compute; reflexivity|]. split; vm_compute; reflexivity. Qed.
Theorem C94_refuted : exists P t iss key der c l, sound_signer P key /\ CreateRevocationList P [] (Some t) (Some iss) key = Ret der /\ c_PublicKey c = sg_Public key /\
  ParseDERCRL der = Ret l /\ CheckCRL P c l <> Ret tt.
Proof.
  destruct rl1_made as (der & l & E & Hz & Ho & L & R). apply bytes_okb_spec in Ho.
  exists prims0, rl1, issuer1, sm2_signer, der, (cert0 3 info0 0 (PKsm2 (sk_Pub key1)) [] []), l. split; [apply sm2_signer_sound|]. split; [exact E|]. split; [reflexivity|]. split; [exact L|].
  assert (V1 : valid_civil (tm_civil (rl_ThisUpdate rl1))) by (cbv; intuition discriminate). assert (V2 : valid_civil (tm_civil (rl_NextUpdate rl1))) by (cbv; intuition discriminate).
  assert (N1 : name_ok (is_Subject issuer1)) by constructor. assert (R1 : Forall rev_ok (rl_Revoked rl1)) by constructor. assert (X1 : Forall ext_ok (rl_ExtraExtensions rl1)) by constructor.
  assert (B1 : 0 <= pk_X (sk_Pub key1) < 2 ^ 256) by (split; [discriminate|reflexivity]). assert (B2 : 0 <= pk_Y (sk_Pub key1) < 2 ^ 256) by (split; [discriminate|reflexivity]).
  destruct (C94_sm2_prehash prims0 [] rl1 issuer1 sm2_signer (sk_Pub key1) der (cert0 3 info0 0 (PKsm2 (sk_Pub key1)) [] []) E N1 V1 V2 R1 X1 Hz Ho (sm2_signer_sound prims0) eq_refl eq_refl sm2_G_on B1 B2 eq_refl (or_introl eq_refl))
    as (l' & tbs & L' & R' & D).
  assert (l' = l) by (rewrite L in L'; congruence). subst l'. rewrite D. assert (tbs = rl1_tbs) by (rewrite R in R'; congruence). subst tbs. apply digests_differ.
Qed.
Print Assumptions C94_refuted.
