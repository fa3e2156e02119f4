(** * Certificate requests: properties C95-C98 *)
From Coq Require Import String Permutation ZifyBool.
From Verif Require Import Base Words GroupLaw ECSpec ECModel ECProofs SM3Spec SM3Model SM3Proofs SM2Spec SM2Model PropertiesSM2Sig CryptoByte Asn1 Asn1Proofs Asn1Safe KeysModel KeysProofs P12Enc X509Model X509Sig X509Build X509Proofs X509StrProofs X509ExtProofs X509CertProofs PropertiesX509Sig X509Crl X509CrlProofs X509Spki X509CsrProofs PropertiesX509Crl X509Safe PropertiesX509Safe.
Open Scope Z_scope.

(** ** what a template asks for *)
(** the subject: the name, unless an encoded name is given *)
Definition subject_is (t : CSRTemplate) (n : RDNSequence) : Prop := ct_RawSubject t = [] /\ ct_Subject t = n \/ marshalName n = Ret (ct_RawSubject t).
(** alternative names that can be written and read: addresses of 4 or 16 bytes, URIs that net/url parses back *)
Definition sans_ok (net : netlib) (s : SANs) : Prop := Forall (fun ip => (List.length ip = 4 \/ List.length ip = 16)%nat) (san_IP s) /\ Forall (san_ok net) (san_URI s).
Definition sans_read (s : SANs) : SANs := mkSANs (san_DNS s) (san_Email s) (map norm_ip (san_IP s)) (san_URI s).
(** the extensions asked for: one for the alternative names, if there are any, and the additional ones *)
Definition asked (t : CSRTemplate) (exts : list Extension) : Prop :=
  ct_SAN t = noSAN /\ exts = ct_ExtraExtensions t \/
  ct_SAN t <> noSAN /\ exists v, marshalSANs (san_DNS (ct_SAN t)) (san_Email (ct_SAN t)) (san_IP (ct_SAN t)) (san_URI (ct_SAN t)) = Ret v /\
    exts = mkExt oidExtensionSubjectAltName false v :: ct_ExtraExtensions t.

Lemma san_empty_spec s : san_empty s = true <-> s = noSAN.
Proof. destruct s as [d e i u]. unfold san_empty, noSAN. cbn. destruct d, e, i, u; split; intros; cbn in *; try discriminate; reflexivity. Qed.
Lemma build_asked t exts : Forall (fun e => x_Id e <> oidExtensionSubjectAltName) (ct_ExtraExtensions t) -> buildCSRExtensions t = Ret exts -> asked t exts.
Proof.
  intros H E. unfold buildCSRExtensions, block in E. assert (N : oidInExtensions oidExtensionSubjectAltName (ct_ExtraExtensions t) = false).
  { unfold oidInExtensions. apply not_true_is_false. intros Q. apply existsb_exists in Q as (e & Hi & Hq). rewrite Forall_forall in H. apply (H e Hi). apply oid_eqb_spec in Hq. auto. }
  rewrite N in E. cbn [negb] in E. rewrite andb_true_r in E. destruct (san_empty (ct_SAN t)) eqn:S; cbn [negb] in E.
  - left. cbn [bind app] in E. split; [now apply san_empty_spec|congruence].
  - right. split; [intros Q; apply san_empty_spec in Q; congruence|]. apply bind_inv in E as (s & Es & E). apply bind_inv in Es as (e & Ee & Es). apply bind_inv in Ee as (v & Ev & Ee). exists v. split; [exact Ev|].
    assert (s = [e]) by congruence. subst s. assert (e = mkExt oidExtensionSubjectAltName false v) by congruence. subst e. cbn [app] in E. congruence.
Qed.
Lemma csr_raws attrs exts raws : csrAttributes attrs exts = Ret raws -> exists bodies, raws = map rawEl bodies.
Proof.
  intros E. unfold csrAttributes in E. destruct exts as [|e exts]; [destruct (newRaw_spec _ _ E) as (b & _ & ->); eauto|].
  destruct (appendExtensions attrs (e :: exts)) as [l|]; [destruct (newRaw_spec _ _ E) as (b & _ & ->); eauto|]. apply bind_inv in E as (r & Er & E). destruct (newRaw_spec _ _ Er) as (b & _ & ->).
  destruct (Marshal cExtAttr _) as [x| |] eqn:Ex; try discriminate. apply bind_inv in E as ([rv rest] & Eu & E). destruct (ext_attr_make _ _ Ex) as (ob & xb & _ & _ & ->).
  destruct (Z_lt_le_dec (zlen (attr_body ob [xb])) (2 ^ 31)) as [L|L]; [|destruct (large_unm cRaw _ L) as [q Q]; rewrite Q in Eu; discriminate Eu].
  rewrite unm_raw in Eu by exact L. exists (b ++ [attr_body ob [xb]]). rewrite map_app. cbn [map]. congruence.
Qed.
Lemma name_seq n b : marshalName n = Ret b -> exists sb, b = el 0 16 true sb.
Proof. unfold marshalName, Marshal. apply ws_seq. Qed.
Lemma csr_core P net rand t priv key der n : CreateCertificateRequest P rand t priv = Ret der -> asSigner priv = Some key -> good_pub (sg_Public key) -> subject_is t n -> name_ok n -> zlen der < 2 ^ 31 ->
  exists exts bodies h a m tbs ai digest sig spki subj,
    buildCSRExtensions t = Ret exts /\ csrAttributes (ct_Attributes t) exts = Ret (map rawEl bodies) /\ zlen (els bodies) < 2 ^ 31 /\
    same_name n m /\ marshalName n = Ret subj /\ MarshalPKIXPublicKey (sg_Public key) = Ret spki /\
    chosen_alg (sg_Public key) (ct_SignatureAlgorithm t) a /\ lookupDetails a = (h, key_family (sg_Public key)) /\
    toSign P h tbs = Ret digest /\ sg_Sign key rand digest (h, false) = Ret sig /\
    der = el 0 16 true (tbs ++ ai ++ el 0 3 false (0 :: sig)) /\
    tbs = el 0 16 true ([2; 1; 0] ++ subj ++ spki ++ el 2 0 true (els bodies)) /\
    forall attrs' final sans, parseRawAttributes (map rawEl bodies) = Ret attrs' -> parseCSRExtensions (map rawEl bodies) = Ret final -> csrSANs net noSAN final = Ret sans ->
      ParseCertificateRequest net der = Ret (mkCSR der tbs spki subj 0 sig a (key_family (sg_Public key)) (sg_Public key) (rdns_of m) attrs' final sans).
Proof.
  intros E Hk Hp Hs Hn Hz. unfold CreateCertificateRequest in E. rewrite Hk in E. apply bind_inv in E as ([h sa] & Esp & E). apply bind_inv in E as ([pk pkai] & Epk & E).
  apply bind_inv in E as (exts & Eex & E). apply bind_inv in E as (raws & Er & E). apply bind_inv in E as (subj & Esu & E). apply bind_inv in E as (tbs & Et & E).
  apply bind_inv in E as (digest & Ed & E). apply bind_inv in E as (sig & Eg & E).
  destruct (csr_raws _ _ _ Er) as [bodies ->].
  assert (Em : marshalName n = Ret subj).
  { destruct Hs as [[R S]|S]; [rewrite R, S in Esu; exact Esu|]. destruct (name_seq _ _ S) as [sb Q]. pose proof (el_ne 0 16 true sb) as Ne. rewrite <- Q in Ne. destruct (ct_RawSubject t); [congruence|]. congruence. }
  destruct (name_seq _ _ Em) as [sb ->]. destruct (spki_read _ _ _ Hp Epk) as (ai' & Ra & Ea & Eal & Pk). destruct (signing_good _ _ _ _ Esp) as (sa' & Rs & Gs).
  destruct (csr_tbs_parts None sb pkai pk bodies tbs eq_refl Et) as (spki & Ek & Etb). fold (tbs_of None (el 0 16 true sb) pkai pk bodies) in Et. fold (tbs_of (Some tbs) (el 0 16 true sb) pkai pk bodies) in E.
  destruct (csr_unm sb pkai ai' pk bodies tbs spki sa sa' sig der Ra Rs Et Ek E Hz) as (Lt & (ab & Eder) & U).
  destruct (name_rt n Hn) as (m & Sm & Rm). destruct (proj1 (C57_consistent _ _) _ _ Esp) as (a & _ & Hc & Hg & _ & _ & Hl).
  assert (LL : zlen (els bodies) < 2 ^ 31 /\ zlen (el 0 16 true sb) < 2 ^ 31 /\ zlen spki < 2 ^ 31).
  { pose proof (el_len 0 16 true ([2; 1; 0] ++ el 0 16 true sb ++ spki ++ el 2 0 true (els bodies))) as L. rewrite <- Etb in L. rewrite !zlen_app in L. pose proof (zlen_nonneg (el 0 16 true sb)). pose proof (el_len 2 0 true (els bodies)). pose proof (zlen_nonneg spki). pose proof (zlen_nonneg (els bodies)). pose proof (zlen_nonneg [2; 1; 0]). lia. }
  destruct LL as (L1 & L2 & L3).
  assert (Lpk : zlen pk < 2 ^ 31).
  { unfold Marshal, makeField in Ek. cbn [p_omit noP p_opt andb p_def c_whole cPKI cStructRaw p_set c_tag c_body p_tag c_comp pki_Raw sl] in Ek. apply bind_inv in Ek as (body & Eb & Ek). change (Ret (el 0 16 true body) = Ret spki) in Ek.
    assert (spki = el 0 16 true body) by congruence. subst spki. pose proof (el_len 0 16 true body). cbn [f_enc fcons fst snd fnil pki_Algo pki_PublicKey] in Eb. apply bind_inv in Eb as (x & Ex & Eb). apply bind_inv in Eb as (y & Ey & Eb). apply bind_inv in Ey as (z & Ez & Ey).
    change (Ret (el 0 3 false ((8 - Z.rem (zlen pk * 8) 8) mod 8 :: pk)) = Ret z) in Ez. assert (z = el 0 3 false ((8 - Z.rem (zlen pk * 8) 8) mod 8 :: pk)) by congruence. subst z. cbn [bind] in Ey. rewrite app_nil_r in Ey.
    pose proof (el_len 0 3 false ((8 - Z.rem (zlen pk * 8) 8) mod 8 :: pk)) as L. rewrite zlen_cons in L.
    assert (body = x ++ el 0 3 false ((8 - Z.rem (zlen pk * 8) 8) mod 8 :: pk)) by congruence. subst body. rewrite zlen_app in *. pose proof (zlen_nonneg x). lia. }
  exists exts, bodies, h, a, m, tbs, ab, digest, sig, spki, (el 0 16 true sb). split; [exact Eex|]. split; [exact Er|]. split; [exact L1|]. split; [exact Sm|]. split; [exact Em|].
  split. { unfold MarshalPKIXPublicKey. rewrite Epk. cbn [bind]. replace (8 * zlen pk) with (zlen pk * 8) by lia.
    change (Marshal cPkix (mkPkix pkai (mkBits (Some pk) (zlen pk * 8)))) with (Marshal cPKI (mkPKI None pkai (fullBits pk))). rewrite Ek. reflexivity. }
  split; [destruct Hc as [Hc|[Hc Hc']]; [left; auto|right; auto]|]. split; [exact Hl|]. split; [exact Ed|]. split; [exact Eg|]. split; [exact Eder|]. split; [exact Etb|].
  intros attrs' final sans Pa Px Ps. unfold ParseCertificateRequest. rewrite U. cbn [bind]. unfold parseCertificateRequest.
  cbn [cr_TBS cr_Raw cr_Alg cr_Sig tr_Attributes tr_PublicKey tr_Subject tr_Raw tr_Version pki_Algo pki_Raw sl]. rewrite Pa. cbn [bind]. rewrite Ea, Eal.
  unfold fullBits at 1. replace (zlen pk * 8) with (8 * zlen pk) by lia. rewrite (Pk Lpk). cbn [bind]. rewrite raw_unsome.
  assert (US : Unmarshal cRDNs (el 0 16 true sb) = Ret (rdns_of m, [])). { rewrite marshalName_any in Em. pose proof (Rm _ [] Em L2) as R. rewrite app_nil_r in R. exact R. }
  rewrite US. cbn [bind]. rewrite Px. cbn [bind]. rewrite Ps. cbn [bind]. unfold fullBits. replace (zlen sig * 8) with (8 * zlen sig) by lia. rewrite RightAlign_full. rewrite Gs, Hg. reflexivity.
Qed.
(** ** attributes *)
Definition no_request (attrs : list ATVset) : Prop := Forall (fun a => as_Type a <> [1; 2; 840; 113549; 1; 9; 14]) attrs.
Lemma oid_ne a b : a <> b -> oid_eqb a b = false.
Proof. intros H. destruct (oid_eqb a b) eqn:Q; [|reflexivity]. apply oid_eqb_spec in Q. contradiction. Qed.
Lemma append_none attrs exts : no_request attrs -> appendExtensions attrs exts = None.
Proof.
  induction 1 as [|a l Ha Hl IH]; [reflexivity|]. cbn [appendExtensions]. rewrite (oid_ne _ oidExtensionRequest Ha). cbn [negb]. rewrite IH. destruct (as_Value a) as [[|? ?]|]; reflexivity.
Qed.
Definition given_ids (given : list Extension) (e : Extension) : bool := existsb (fun g => oid_eqb (x_Id g) (x_Id e)) given.
(** the extensions of a request attribute in the template come first and hide requested extensions of the same types *)
Definition merged (given exts : list Extension) : list Extension := given ++ filter (fun e => negb (given_ids given e)) exts.
Lemma append_some pre given post exts : no_request pre -> appendExtensions (pre ++ request_attr given :: post) exts = Some (pre ++ request_attr (merged given exts) :: post).
Proof.
  induction 1 as [|a l Ha Hl IH].
  - cbn [app appendExtensions request_attr as_Value as_Type]. replace (oid_eqb oidExtensionRequest oidExtensionRequest) with true by reflexivity. cbn [negb map List.concat]. rewrite app_nil_r.
    assert (Q : forall e, existsb (fun x : ATVa => oid_eqb (aa_Type x) (x_Id e)) (map as_value given) = given_ids given e).
    { intros e. unfold given_ids. clear. induction given as [|g l IH]; [reflexivity|]. cbn [map existsb]. rewrite IH. reflexivity. }
    assert (F : filter (fun e => negb (existsb (fun x => oid_eqb (aa_Type x) (x_Id e)) (map as_value given))) exts = filter (fun e => negb (given_ids given e)) exts).
    { apply filter_ext. intros e. rewrite Q. reflexivity. }
    rewrite F. unfold request_attr, merged. rewrite map_app. reflexivity.
  - cbn [app appendExtensions]. rewrite (oid_ne _ oidExtensionRequest Ha). cbn [negb]. rewrite IH. destruct (as_Value a) as [[|? ?]|]; reflexivity.
Qed.
Lemma mapM_els_app {A} (f : A -> outcome bytes) l r bodies : mapM f (l ++ r) = Ret (map (el 0 16 true) bodies) -> exists bl br, bodies = bl ++ br /\ mapM f l = Ret (map (el 0 16 true) bl) /\ mapM f r = Ret (map (el 0 16 true) br).
Proof.
  revert bodies. induction l as [|a l IH]; intros bodies E; [exists [], bodies; auto|]. cbn [app mapM] in E. apply bind_inv in E as (x & Ex & E). apply bind_inv in E as (ys & Ey & E). destruct bodies as [|b bs]; [discriminate E|]. cbn [map] in E.
  assert (x = el 0 16 true b) by congruence. assert (ys = map (el 0 16 true) bs) by congruence. subst x ys. destruct (IH bs Ey) as (bl & br & -> & E1 & E2). exists (b :: bl), br. split; [reflexivity|]. split; [|exact E2]. cbn [mapM]. rewrite Ex, E1. reflexivity.
Qed.
Lemma els_app a b : els (a ++ b) = els a ++ els b. Proof. unfold els. rewrite map_app, concat_app. reflexivity. Qed.
Lemma rawEl_inj b b' : rawEl b = rawEl b' -> b = b'. Proof. intros E. exact (f_equal (fun r => sl (rv_bytes r)) E). Qed.
Lemma map_rawEl_inj l l' : map rawEl l = map rawEl l' -> l = l'.
Proof. revert l'. induction l as [|a l IH]; intros [|b l'] E; try discriminate; [reflexivity|]. cbn [map] in E. assert (rawEl a = rawEl b) as Q by congruence. apply rawEl_inj in Q. rewrite Q. f_equal. apply IH. congruence. Qed.
(** reading back attributes of other types, and the added one *)
Definition added (exts : list Extension) : list ATVset := match exts with [] => [] | _ => [mkATVset oidExtensionRequest (Some [Some (map ext_attr exts)])] end.
Lemma attrs_fresh attrs exts bodies : csrAttributes attrs exts = Ret (map rawEl bodies) -> Forall set_ok attrs -> no_request attrs -> Forall ext_ok exts -> zlen (els bodies) < 2 ^ 31 ->
  exists attrs', Forall2 same_attr attrs attrs' /\ parseRawAttributes (map rawEl bodies) = Ret (attrs' ++ added exts) /\ parseCSRExtensions (map rawEl bodies) = Ret exts /\
    Forall (fun e => zlen (x_Value e) < 2 ^ 31) exts.
Proof.
  intros E Ha Hn He Hz. assert (HN : Forall (fun a => oid_ok (as_Type a) /\ as_Type a <> oidExtensionRequest) attrs).
  { unfold no_request in Hn. rewrite Forall_forall in *. intros a Hi. split; [exact (proj1 (Ha a Hi))|exact (Hn a Hi)]. }
  unfold csrAttributes in E. destruct exts as [|e exts].
  - destruct (newRaw_spec _ _ E) as (b & Em & Q). apply map_rawEl_inj in Q. subst b. destruct (attrs_back attrs Ha bodies Em Hz) as (attrs' & F & R). exists attrs'. split; [exact F|].
    pose proof (R [] [] eq_refl) as R0. pose proof (attrs_no_exts attrs HN bodies Em Hz []) as X0. rewrite app_nil_r in R0, X0. split; [exact R0|]. rewrite X0. split; [reflexivity|constructor].
  - rewrite append_none in E by exact Hn. apply bind_inv in E as (r & Er & E). destruct (newRaw_spec _ _ Er) as (b & Em & ->).
    destruct (Marshal cExtAttr _) as [x| |] eqn:Ex; try discriminate. apply bind_inv in E as ([rv rest] & Eu & E). destruct (ext_attr_make _ _ Ex) as (ob & xb & _ & _ & Ebx).
    destruct (Z_lt_le_dec (zlen (attr_body ob [xb])) (2 ^ 31)) as [L|L]; [|destruct (large_unm cRaw _ L) as [q Q]; rewrite Ebx, Q in Eu; discriminate Eu].
    rewrite Ebx, unm_raw in Eu by exact L. assert (rv = rawEl (attr_body ob [xb])) by congruence. subst rv. clear Eu rest.
    assert (Q : map rawEl bodies = map rawEl (b ++ [attr_body ob [xb]])) by (rewrite map_app; cbn [map]; congruence). apply map_rawEl_inj in Q. subst bodies. clear E Er.
    rewrite els_app, zlen_app in Hz. pose proof (zlen_nonneg (els b)) as Zb. assert (Lx : zlen x < 2 ^ 31). { unfold els in Hz at 2. cbn [map List.concat] in Hz. rewrite app_nil_r in Hz. rewrite Ebx. lia. } pose proof (zlen_nonneg (els [attr_body ob [xb]])).
    destruct (ext_attr_read _ _ He Ex Lx) as (U1 & v & U2 & U3 & U4). rewrite Ebx in U1, U2.
    destruct (attrs_back attrs Ha b Em ltac:(lia)) as (attrs' & F & R). exists attrs'. split; [exact F|]. rewrite map_app. split; [|split; [|exact U4]].
    + apply R. cbn [map parseRawAttributes]. rewrite raw_unsome, U1. reflexivity.
    + rewrite (attrs_no_exts attrs HN b Em ltac:(lia)). cbn [map parseCSRExtensions]. rewrite raw_unsome, U2. replace (oid_eqb oidExtensionRequest oidExtensionRequest) with true by reflexivity. cbn [negb]. rewrite U3. cbn [bind]. rewrite app_nil_r. reflexivity.
Qed.
Lemma value_set_ok given : Forall ext_ok given -> set_ok (request_attr given).
Proof.
  intros H. split; [cbn [as_Type request_attr]; oidok|]. exists [Some (map as_value given)]. split; [reflexivity|]. constructor; [|constructor]. exists (map as_value given). split; [reflexivity|].
  induction H as [|e l He Hl IH]; cbn [map]; constructor; auto. split; [exact He|exact I].
Qed.
Lemma attrs_merged pre given post exts bodies : csrAttributes (pre ++ request_attr given :: post) exts = Ret (map rawEl bodies) -> Forall set_ok pre -> Forall set_ok post -> no_request pre -> no_request post ->
  Forall ext_ok given -> Forall ext_ok exts -> zlen (els bodies) < 2 ^ 31 ->
  exists attrs', Forall2 same_attr (pre ++ request_attr (merged given exts) :: post) attrs' /\ parseRawAttributes (map rawEl bodies) = Ret attrs' /\ parseCSRExtensions (map rawEl bodies) = Ret (map plain (merged given exts)) /\
    Forall (fun e => zlen (x_Value e) < 2 ^ 31) (merged given exts).
Proof.
  intros E Hp Hq Np Nq Hg He Hz. assert (Q : newRawAttributes (pre ++ request_attr (merged given exts) :: post) = Ret (map rawEl bodies)).
  { unfold csrAttributes in E. destruct exts as [|e exts]; [unfold merged; cbn [filter]; rewrite app_nil_r; exact E|]. rewrite append_some in E by exact Np. exact E. }
  clear E. destruct (newRaw_spec _ _ Q) as (b & Em & Q2). apply map_rawEl_inj in Q2. subst b. clear Q.
  assert (HG : Forall ext_ok (merged given exts)). { unfold merged. apply Forall_app. split; [exact Hg|]. rewrite Forall_forall in *. intros e Hi. apply filter_In in Hi as [Hi _]. auto. }
  assert (HA : Forall set_ok (pre ++ request_attr (merged given exts) :: post)). { apply Forall_app. split; [exact Hp|]. constructor; [now apply value_set_ok|exact Hq]. }
  destruct (attrs_back _ HA bodies Em Hz) as (attrs' & F & R). exists attrs'. split; [exact F|]. pose proof (R [] [] eq_refl) as R0. rewrite !app_nil_r in R0. split; [exact R0|].
  assert (T : forall l, Forall set_ok l -> no_request l -> Forall (fun a => oid_ok (as_Type a) /\ as_Type a <> oidExtensionRequest) l).
  { intros l H1 H2. unfold no_request in H2. rewrite Forall_forall in H1, H2 |- *. intros a Hi. split; [exact (proj1 (H1 a Hi))|exact (H2 a Hi)]. }
  destruct (mapM_els_app _ _ _ _ Em) as (bl & br & -> & E1 & E2). rewrite els_app, zlen_app in Hz. pose proof (zlen_nonneg (els bl)). pose proof (zlen_nonneg (els br)).
  rewrite map_app. rewrite (attrs_no_exts pre (T _ Hp Np) bl E1 ltac:(lia)).
  cbn [mapM] in E2. apply bind_inv in E2 as (x & Ex & E2). apply bind_inv in E2 as (ys & Ey & E2). destruct br as [|b br]; [discriminate E2|]. cbn [map] in E2. assert (x = el 0 16 true b) by congruence. assert (ys = map (el 0 16 true) br) by congruence. subst x ys. clear E2.
  assert (Lb : zlen (el 0 16 true b) < 2 ^ 31). { pose proof (els_in (b :: br) b (or_introl eq_refl)). lia. }
  assert (Lr : zlen (els br) < 2 ^ 31). { change (b :: br) with ([b] ++ br) in Hz. rewrite els_app, zlen_app in Hz. pose proof (zlen_nonneg (els [b])). lia. }
  destruct (request_back _ b HG Ex Lb) as (v & U1 & U2 & U3). split; [|exact U3]. cbn [map parseCSRExtensions]. rewrite raw_unsome, U1. replace (oid_eqb oidExtensionRequest oidExtensionRequest) with true by reflexivity. cbn [negb]. rewrite U2. cbn [bind].
  pose proof (attrs_no_exts post (T _ Hq Nq) br Ey Lr []) as X. rewrite app_nil_r in X. rewrite X. cbn [parseCSRExtensions bind]. rewrite app_nil_r. reflexivity.
Qed.
(** ** alternative names *)
Lemma csrSANs_skip net l : Forall (fun e => x_Id e <> oidExtensionSubjectAltName) l -> forall s, csrSANs net s l = Ret s.
Proof. induction 1 as [|e l He Hl IH]; intros s; [reflexivity|]. cbn [csrSANs]. rewrite (oid_ne _ _ He). apply IH. Qed.
Lemma sans_asked net t exts : asked t exts -> sans_ok net (ct_SAN t) -> Forall (fun e => x_Id e <> oidExtensionSubjectAltName) (ct_ExtraExtensions t) -> Forall (fun e => zlen (x_Value e) < 2 ^ 31) exts ->
  csrSANs net noSAN exts = Ret (sans_read (ct_SAN t)).
Proof.
  intros [[S ->]|(_ & v & Ev & ->)] [Hi Hu] Hn Hz; [rewrite csrSANs_skip by exact Hn; rewrite S; reflexivity|]. apply Forall_cons_iff in Hz as [Hv _]. cbn [x_Value] in Hv. cbn [csrSANs x_Id x_Value].
  replace (oid_eqb oidExtensionSubjectAltName oidExtensionSubjectAltName) with true by reflexivity. rewrite (sans_rt net _ _ _ _ v Hi Hu Ev Hv). cbn [bind]. apply csrSANs_skip. exact Hn.
Qed.
Lemma asked_ok t exts : asked t exts -> Forall ext_ok (ct_ExtraExtensions t) -> Forall ext_ok exts.
Proof. intros [[_ ->]|(_ & v & _ & ->)] H; [exact H|]. constructor; [oidok|exact H]. Qed.
(** ** C95: CreateCertificateRequest followed by ParseCertificateRequest *)
(** everything but attributes and extensions: version 0, the subject, the key, the signed bytes, the algorithm and the signature,
    which is made with the options (hash, not PSS) *)
Definition request_read (P : sigPrims) (rand : bytes) (t : CSRTemplate) (key : Signer) (n : RDNSequence) (der : bytes) (q : CSR) : Prop :=
  exists m h digest ai,
    q_Raw q = der /\ der = el 0 16 true (q_RawTBS q ++ ai ++ el 0 3 false (0 :: q_Signature q)) /\
    q_Version q = 0 /\ same_name n m /\ q_Subject q = rdns_of m /\ marshalName n = Ret (q_RawSubject q) /\
    q_PublicKey q = sg_Public key /\ q_PublicKeyAlgorithm q = key_family (sg_Public key) /\ MarshalPKIXPublicKey (sg_Public key) = Ret (q_RawSPKI q) /\
    chosen_alg (sg_Public key) (ct_SignatureAlgorithm t) (q_SignatureAlgorithm q) /\ lookupDetails (q_SignatureAlgorithm q) = (h, key_family (sg_Public key)) /\
    toSign P h (q_RawTBS q) = Ret digest /\ sg_Sign key rand digest (h, false) = Ret (q_Signature q).
Theorem C95_request : forall P net rand t priv key der n,
  CreateCertificateRequest P rand t priv = Ret der -> asSigner priv = Some key -> good_pub (sg_Public key) -> subject_is t n -> name_ok n ->
  Forall set_ok (ct_Attributes t) -> no_request (ct_Attributes t) -> Forall ext_ok (ct_ExtraExtensions t) ->
  sans_ok net (ct_SAN t) -> Forall (fun e => x_Id e <> oidExtensionSubjectAltName) (ct_ExtraExtensions t) -> zlen der < 2 ^ 31 ->
  exists q exts attrs,
    ParseCertificateRequest net der = Ret q /\ request_read P rand t key n der q /\
    (* the alternative names and the extensions *)
    asked t exts /\ q_Extensions q = exts /\ q_SAN q = sans_read (ct_SAN t) /\
    (* the attributes, and one holding the extensions: the value of a critical extension is not available there *)
    Forall2 same_attr (ct_Attributes t) attrs /\
    q_Attributes q = attrs ++ match exts with [] => [] | _ => [mkATVset [1; 2; 840; 113549; 1; 9; 14] (Some [Some (map (fun e => mkATVa (x_Id e) (if x_Critical e then VNone else VBytes (x_Value e))) exts)])] end.
Proof.
  intros P net rand t priv key der n E Hk Hp Hs Hn Ha Hr He Hv Hx Hz. destruct (csr_core P net rand t priv key der n E Hk Hp Hs Hn Hz) as
    (exts & bodies & h & a & m & tbs & ai & digest & sig & spki & subj & E1 & E2 & E3 & E4 & E5 & E6 & E7 & E8 & E9 & E10 & E11 & E12 & R).
  pose proof (build_asked t exts Hx E1) as A. destruct (attrs_fresh _ _ _ E2 Ha Hr (asked_ok _ _ A He) E3) as (attrs & F & R1 & R2 & L). pose proof (sans_asked net t exts A Hv Hx L) as R3.
  eexists _, exts, attrs. split; [exact (R _ _ _ R1 R2 R3)|]. split; [|split; [exact A|split; [reflexivity|split; [reflexivity|split; [exact F|reflexivity]]]]].
  exists m, h, digest, ai. cbn [q_Raw q_RawTBS q_Signature q_Version q_Subject q_RawSubject q_PublicKey q_PublicKeyAlgorithm q_RawSPKI q_SignatureAlgorithm].
  repeat (split; [first [reflexivity|assumption]|]). exact E10.
Qed.
Print Assumptions C95_request.
(** ** C96: a template that brings its own extensionRequest attribute *)
(** Its extensions take priority; the requested ones of other types are added to it; none of them is critical any more. *)
Theorem C96_merged : forall P net rand t priv key der n pre given post,
  CreateCertificateRequest P rand t priv = Ret der -> asSigner priv = Some key -> good_pub (sg_Public key) -> subject_is t n -> name_ok n ->
  ct_Attributes t = pre ++ mkATVset [1; 2; 840; 113549; 1; 9; 14] (Some [Some (map (fun e => mkATVa (x_Id e) (VBytes (x_Value e))) given)]) :: post ->
  Forall set_ok pre -> Forall set_ok post -> no_request pre -> no_request post -> Forall ext_ok given -> Forall ext_ok (ct_ExtraExtensions t) ->
  sans_ok net (ct_SAN t) -> Forall (fun e => x_Id e <> oidExtensionSubjectAltName) (ct_ExtraExtensions t) -> Forall (fun e => x_Id e <> oidExtensionSubjectAltName) given -> zlen der < 2 ^ 31 ->
  exists q exts new,
    ParseCertificateRequest net der = Ret q /\ request_read P rand t key n der q /\ asked t exts /\
    (forall e, In e new <-> In e exts /\ ~ In (x_Id e) (map x_Id given)) /\
    q_Extensions q = map (fun e => mkExt (x_Id e) false (x_Value e)) (given ++ new) /\ q_SAN q = sans_read (ct_SAN t) /\
    Forall2 same_attr (pre ++ mkATVset [1; 2; 840; 113549; 1; 9; 14] (Some [Some (map (fun e => mkATVa (x_Id e) (VBytes (x_Value e))) (given ++ new))]) :: post) (q_Attributes q).
Proof.
  change ([1; 2; 840; 113549; 1; 9; 14] : oid) with oidExtensionRequest.
  intros P net rand t priv key der n pre given post E Hk Hp Hs Hn Hat Ha Ha' Hr Hr' Hg He Hv Hx Hx' Hz. destruct (csr_core P net rand t priv key der n E Hk Hp Hs Hn Hz) as
    (exts & bodies & h & a & m & tbs & ai & digest & sig & spki & subj & E1 & E2 & E3 & E4 & E5 & E6 & E7 & E8 & E9 & E10 & E11 & E12 & R).
  pose proof (build_asked t exts Hx E1) as A. rewrite Hat in E2. destruct (attrs_merged pre given post exts bodies E2 Ha Ha' Hr Hr' Hg (asked_ok _ _ A He) E3) as (attrs & F & R1 & R2 & L).
  assert (GI : forall e, given_ids given e = true <-> In (x_Id e) (map x_Id given)).
  { intros e. unfold given_ids. rewrite existsb_exists, in_map_iff. split; intros (g & Q1 & Q2); exists g; [apply oid_eqb_spec in Q2|apply oid_eqb_spec in Q1]; auto. }
  assert (R3 : csrSANs net noSAN (map plain (merged given exts)) = Ret (sans_read (ct_SAN t))).
  { unfold merged in *. apply Forall_app in L as [_ L]. rewrite map_app. assert (S : forall l r s, Forall (fun e => x_Id e <> oidExtensionSubjectAltName) l -> csrSANs net s (map plain l ++ r) = csrSANs net s r).
    { intros l r s H. induction H as [|e l H1 H2 IH]; [reflexivity|]. cbn [map app csrSANs x_Id plain]. rewrite (oid_ne _ _ H1). exact IH. }
    rewrite S by exact Hx'. destruct A as [[S0 ->]|(S0 & v & Ev & ->)].
    - rewrite <- (app_nil_r (map plain _)). rewrite S; [rewrite S0; reflexivity|]. rewrite Forall_forall in *. intros e Hi. apply filter_In in Hi as [Hi _]. auto.
    - assert (N : given_ids given (mkExt oidExtensionSubjectAltName false v) = false).
      { apply not_true_is_false. intros Q. apply GI in Q. cbn [x_Id] in Q. apply in_map_iff in Q as (g & Q1 & Q2). rewrite Forall_forall in Hx'. exact (Hx' g Q2 Q1). }
      cbn [filter] in L |- *. rewrite N in L |- *. cbn [negb map csrSANs plain x_Id x_Value] in L |- *. apply Forall_cons_iff in L as [Lv _]. cbn [x_Value] in Lv.
      replace (oid_eqb oidExtensionSubjectAltName oidExtensionSubjectAltName) with true by reflexivity. destruct Hv as [Hi Hu]. rewrite (sans_rt net _ _ _ _ v Hi Hu Ev Lv). cbn [bind].
      rewrite <- (app_nil_r (map plain _)). rewrite S; [reflexivity|]. rewrite Forall_forall in *. intros e Hi'. apply filter_In in Hi' as [Hi' _]. auto. }
  eexists _, exts, (filter (fun e => negb (given_ids given e)) exts). split; [exact (R _ _ _ R1 R2 R3)|]. split; [|split; [exact A|split; [|split; [reflexivity|split; [reflexivity|exact F]]]]].
  - exists m, h, digest, ai. cbn [q_Raw q_RawTBS q_Signature q_Version q_Subject q_RawSubject q_PublicKey q_PublicKeyAlgorithm q_RawSPKI q_SignatureAlgorithm].
    repeat (split; [first [reflexivity|assumption]|]). exact E10.
  - intros e. rewrite filter_In. rewrite <- GI. destruct (given_ids given e); cbn [negb]; intuition congruence.
Qed.
Print Assumptions C96_merged.
(** a template with a two-attribute name, a host name and an address, a critical extension and an attribute with two values, in the
    wrong order; and one with its own extensionRequest attribute, which names the type of the additional extension *)
Definition net1 : netlib := mkNet (fun _ => None) (fun _ => true).
Definition attr0 : ATVset := mkATVset [1; 2; 840; 113549; 1; 9; 7] (Some [Some [mkATVa [2; 5; 4; 3] (VStr [122])]; Some [mkATVa [2; 5; 4; 3] (VStr [97])]]).
Definition name0 : RDNSequence := [[mkATV [2; 5; 4; 6] [67; 78]]; [mkATV [2; 5; 4; 3] [67; 65]; mkATV [2; 5; 4; 10] [79]]].
Definition ext1 : Extension := mkExt [2; 5; 29; 99] true [5; 0].
Definition ext2 : Extension := mkExt [2; 5; 29; 98] false [5; 0; 1].
Definition csr0 : CSRTemplate := mkCSRT 0 [] name0 (mkSANs [[97; 46; 98]] [] [[1; 2; 3; 4]] []) [ext1; ext2] [attr0].
Definition csr2 : CSRTemplate := mkCSRT 0 [] name0 (mkSANs [[97; 46; 98]] [] [[1; 2; 3; 4]] []) [ext1; ext2] [attr0; request_attr [mkExt [2; 5; 29; 98] false [4; 0]]].
Lemma csr0_valid : good_pub (sg_Public rsa_signer) /\ subject_is csr0 name0 /\ name_ok name0 /\ Forall set_ok [attr0] /\ no_request [attr0] /\ Forall ext_ok [ext1; ext2] /\
  (forall net, sans_ok net (ct_SAN csr0)) /\ Forall (fun e => x_Id e <> oidExtensionSubjectAltName) [ext1; ext2].
Proof.
  split; [split; lia|]. split; [left; auto|]. split; [repeat (apply Forall_cons || apply Forall_nil); (split; [oidok|apply bytes_okb_spec; reflexivity])|].
  split. { apply Forall_cons; [|apply Forall_nil]. split; [cbn [as_Type attr0]; oidok|]. eexists. split; [reflexivity|].
           repeat (apply Forall_cons || apply Forall_nil); (eexists; split; [reflexivity|apply Forall_cons; [split; [cbn [aa_Type]; oidok|apply bytes_okb_spec; reflexivity]|apply Forall_nil]]). }
  split; [apply Forall_cons; [discriminate|apply Forall_nil]|]. split; [repeat (apply Forall_cons || apply Forall_nil); unfold ext_ok; cbn [x_Id ext1 ext2]; oidok|].
  split; [intros net; split; [apply Forall_cons; [left; reflexivity|apply Forall_nil]|apply Forall_nil]|]. repeat (apply Forall_cons || apply Forall_nil); discriminate.
Qed.
Example C95_nonvacuous : exists der q, CreateCertificateRequest prims0 [] csr0 (ASigner rsa_signer) = Ret der /\ zlen der < 2 ^ 31 /\ bytes_ok der /\
  ParseCertificateRequest net1 der = Ret q /\ List.length (q_Extensions q) = 3%nat /\ List.length (q_Attributes q) = 2%nat /\ san_DNS (q_SAN q) = [[97; 46; 98]].
Proof.
  eexists _, _. split; [vm_compute; reflexivity|]. split; [vm_compute; reflexivity|]. split; [apply bytes_okb_spec; vm_compute; reflexivity|]. split; [vm_compute; reflexivity|]. repeat split.
Qed.
(** the additional extension of a type already given is dropped; the critical one is no longer critical *)
Example C96_nonvacuous : exists der q v, CreateCertificateRequest prims0 [] csr2 (ASigner rsa_signer) = Ret der /\ zlen der < 2 ^ 31 /\ bytes_ok der /\
  ParseCertificateRequest net1 der = Ret q /\ q_Extensions q = [mkExt [2; 5; 29; 98] false [4; 0]; mkExt oidExtensionSubjectAltName false v; mkExt [2; 5; 29; 99] false [5; 0]].
Proof.
  eexists _, _, _. split; [vm_compute; reflexivity|]. split; [vm_compute; reflexivity|]. split; [apply bytes_okb_spec; vm_compute; reflexivity|]. split; [vm_compute; reflexivity|]. vm_compute. reflexivity.
Qed.
(** An extensionRequest attribute with two values: the requested extensions are added to the first value, but a SET is written in
    the order of the encodings and only its first value is read.  They are lost. *)
Definition csr3 : CSRTemplate := mkCSRT 0 [] [] noSAN [ext1]
  [mkATVset oidExtensionRequest (Some [Some [mkATVa [2; 5; 29; 98] (VBytes [4; 0])]; Some [mkATVa [2; 5; 29; 97] (VBytes [4; 0])]])].
Theorem C96_two_values_refuted : exists der q, CreateCertificateRequest prims0 [] csr3 (ASigner rsa_signer) = Ret der /\ ParseCertificateRequest net1 der = Ret q /\
  q_Extensions q = [mkExt [2; 5; 29; 97] false [4; 0]] /\ ~ In (x_Id ext1) (map x_Id (q_Extensions q)).
Proof.
  eexists _, _. split; [vm_compute; reflexivity|]. split; [vm_compute; reflexivity|]. split; [reflexivity|]. intros [H|[]]. discriminate H.
Qed.
Print Assumptions C96_two_values_refuted.

(** ** C97: checking the signature of a request *)
Theorem C97_decision : forall P net der q, bytes_ok der -> ParseCertificateRequest net der = Ret q ->
  (CSR_CheckSignature P q = Ret tt <-> accept_spec P (q_SignatureAlgorithm q) (q_RawTBS q) (q_Signature q) (q_PublicKey q)) /\ CSR_CheckSignature P q <> Panic.
Proof.
  intros P net der q Ho E. unfold ParseCertificateRequest in E. apply bind_inv in E as ([c rest] & U & E). destruct rest; [|discriminate].
  unfold CSR_CheckSignature. apply C53_decision. unfold parseCertificateRequest in E. apply bind_inv in E as (attrs & _ & E). apply bind_inv in E as (pk & _ & E). apply bind_inv in E as ([s r] & _ & E). destruct r; [|discriminate].
  apply bind_inv in E as (ex & _ & E). apply bind_inv in E as (sn & _ & E). assert (Q : q_RawTBS q = sl (tr_Raw (cr_TBS c))) by (exact (f_equal (fun o => match o with Ret x => q_RawTBS x | _ => q_RawTBS q end) (eq_sym E))). rewrite Q. clear Q E.
  apply Unmarshal_inv in U; auto. apply field_read_ok in U as (_ & t & full & inner & Hi & _ & _ & E); auto. cbn [c_parse cCsr cStructRaw] in E. apply bind_inv in E as (x & Ex & E).
  cbn [f_dec fcons] in Ex. apply bind_inv in Ex as ([tbs r] & Et & Ex). apply bind_inv in Ex as ([a' b'] & _ & Ex).
  assert (x = (tbs, (a', b'))) by congruence. subst x. assert (cr_TBS c = tbs) as T by (destruct b' as [b' u]; assert (mkCsr (Some full) tbs a' b' = c) as <- by congruence; reflexivity).
  rewrite T. apply parseField_inv in Et; auto. destruct Et as [[Et _]|Et]; [discriminate|]. apply field_read_ok in Et as (_ & t2 & full2 & inner2 & _ & Hf & _ & Ep); auto.
  cbn [c_parse cTbsCSR cStructRaw] in Ep. apply bind_inv in Ep as (x & _ & Ep). destruct x as (v & s1 & k1 & a1 & u). assert (tbs = mkTbsCSR (Some full2) v s1 k1 a1) by congruence. rewrite H. exact Hf.
Qed.
Print Assumptions C97_decision.
(** a request made with a sound RSA or ECDSA signer is accepted, unless an RSA-PSS algorithm was asked for *)
Theorem C97_verifies : forall P rand t key n der q, request_read P rand t key n der q -> sound_signer P key -> rsa_or_ecdsa (sg_Public key) -> isRSAPSS (ct_SignatureAlgorithm t) = false ->
  CSR_CheckSignature P q = Ret tt.
Proof.
  intros P rand t key n der q (m & h & digest & ai & _ & _ & _ & _ & _ & _ & Hp & _ & _ & C & L & T & G) S K N. unfold CSR_CheckSignature. rewrite Hp. rewrite <- N in G. eapply check_signed; eauto.
Qed.
Print Assumptions C97_verifies.
(** then the signer is asked for a PKCS #1 v1.5 signature, and the request is accepted exactly if that is a PSS signature as well *)
Theorem C97_pss : forall P rand t key n der q N e, request_read P rand t key n der q -> sg_Public key = PKrsa N e -> isRSAPSS (ct_SignatureAlgorithm t) = true ->
  exists h digest, toSign P h (q_RawTBS q) = Ret digest /\ sg_Sign key rand digest (h, false) = Ret (q_Signature q) /\
    (CSR_CheckSignature P q = Ret tt <-> rsa_VerifyPSS P N e h digest (q_Signature q) = None).
Proof.
  intros P rand t key n der q N e (m & h & digest & ai & _ & _ & _ & _ & _ & _ & Hp & _ & _ & C & L & T & G) K Hq. exists h, digest. split; [exact T|]. split; [exact G|].
  unfold CSR_CheckSignature. rewrite Hp, K. rewrite K in L, C. cbn [key_family] in L.
  destruct (available _ _ _ L (or_introl eq_refl)) as [A1 A2]. unfold toSign in T. rewrite A2 in T. unfold checkSignature. rewrite L, A1, A2. cbn [negb andb]. rewrite T. cbn [bind pkAlgo_eqb negb].
  rewrite (chosen_pss _ _ _ C), Hq. destruct (rsa_VerifyPSS P N e h digest (q_Signature q)); split; intros X; try reflexivity; try discriminate X.
Qed.
Print Assumptions C97_pss.
(** with an SM2 signer the digest SM3(tbs) is signed, and tbs is checked *)
Theorem C97_sm2 : forall P rand t key n der q pub, request_read P rand t key n der q -> bytes_ok der -> sound_signer P key -> sg_Public key = PKsm2 pub -> good_pub (PKsm2 pub) -> on_sm2 (PA (pk_X pub) (pk_Y pub)) ->
  0 <= pk_X pub < 2 ^ 256 -> 0 <= pk_Y pub < 2 ^ 256 -> ct_SignatureAlgorithm t = 0 \/ ct_SignatureAlgorithm t = SM2WithSM3 ->
  (CSR_CheckSignature P q = Ret tt <->
   be_to_Z (sm2_digest default_uid (pk_X pub) (pk_Y pub) (q_RawTBS q)) mod sm2_N = be_to_Z (sm2_digest default_uid (pk_X pub) (pk_Y pub) (SM3 (q_RawTBS q))) mod sm2_N).
Proof.
  intros P rand t key n der q pub (m & h & digest & ai & _ & Ed & _ & _ & _ & _ & Hp & _ & _ & C & D & T & Sg) Ho S Hk [Hv _] Hq Hx Hy Ha.
  unfold CSR_CheckSignature. rewrite Hp, Hk. remember (q_RawTBS q) as tbs eqn:Qt. remember (q_Signature q) as sig eqn:Qs. remember (q_SignatureAlgorithm q) as a eqn:Qa. clear Qt Qs Qa Hp.
  assert (Hb : bytes_ok tbs). { rewrite Ed in Ho. unfold el, bytes_ok in *. apply Forall_app in Ho as [_ Ho]. apply Forall_app in Ho as [Ho _]. exact Ho. }
  assert (A : a = SM2WithSM3). { rewrite Hk in C. destruct C as [[_ C]|[N ->]]; [cbn [default_alg] in C; rewrite Hv, Z.eqb_refl in C; congruence|tauto]. }
  subst a. assert (Hh : h = H_SM3) by (change (lookupDetails SM2WithSM3) with (H_SM3, ECDSA) in D; congruence). subst h. clear D. unfold toSign in T. change (H_SM3 =? 0) with false in T. cbv iota in T. rewrite (sm3_hash P tbs Hb) in T.
  assert (DG : digest = SM3 tbs) by (symmetry; exact (f_equal (fun o => match o with Ret x => x | _ => digest end) T)). clear T.
  specialize (S _ _ _ _ _ Sg). rewrite Hk in S. rewrite DG in S. clear Sg.
  rewrite (proj1 (C53_decision P SM2WithSM3 tbs sig (PKsm2 pub) Hb)). cbn [accept_spec].
  rewrite <- (verify_both pub (SM3 tbs) tbs sig Hx Hy Hq (SM3_ok tbs) Hb S). split; [intros (_ & _ & V); exact V|intros V; split; [right; reflexivity|split; [exact Hv|exact V]]].
Qed.
Print Assumptions C97_sm2.
(** concrete cases.  A sound RSA signer and a request for SHA256WithRSAPSS that is refused: *)
Definition prims_strict : sigPrims := mkSigPrims (fun _ _ => []) (fun _ _ _ _ _ => None) (fun _ _ _ _ sig => match sig with [4] => None | _ => Some "crypto/rsa: verification error"%string end) (fun _ _ _ _ _ => true) (fun _ _ _ => true).
Definition rsa_signer2 : Signer := mkSigner (PKrsa 35 3) (fun _ _ '(_, pss) => Ret (if pss : bool then [4] else [1; 2; 3])).
Definition csr4 : CSRTemplate := mkCSRT SHA256WithRSAPSS [] name0 noSAN [] [].
Theorem C97_pss_refuted : exists P t key der q, sound_signer P key /\ good_pub (sg_Public key) /\ CreateCertificateRequest P [] t (ASigner key) = Ret der /\ ParseCertificateRequest net1 der = Ret q /\ CSR_CheckSignature P q <> Ret tt.
Proof.
  exists prims_strict, csr4, rsa_signer2. eexists _, _. split; [|split; [split; lia|split; [vm_compute; reflexivity|split; [vm_compute; reflexivity|vm_compute; discriminate]]]].
  intros rand m h pss sig E. cbn [sg_Sign rsa_signer2] in E. cbn [sg_Public rsa_signer2]. destruct pss; [|reflexivity]. assert (sig = [4]) by congruence. subst sig. reflexivity.
Qed.
Print Assumptions C97_pss_refuted.
Example C97_accepted : exists der q, CreateCertificateRequest prims_strict [] csr0 (ASigner rsa_signer2) = Ret der /\ ParseCertificateRequest net1 der = Ret q /\ CSR_CheckSignature prims_strict q = Ret tt.
Proof. eexists _, _. split; [vm_compute; reflexivity|]. split; [vm_compute; reflexivity|]. vm_compute. reflexivity. Qed.
(** a sound SM2 signer whose request is refused *)
Definition csr5 : CSRTemplate := mkCSRT 0 [] [] noSAN [] [].
Definition csr5_tbs : bytes := match MarshalPKIXPublicKey (PKsm2 (sk_Pub key1)) with Ret k => el 0 16 true ([2; 1; 0] ++ el 0 16 true [] ++ k ++ el 2 0 true []) | _ => [] end.
Lemma csr5_differ : be_to_Z (sm2_digest default_uid (pk_X (sk_Pub key1)) (pk_Y (sk_Pub key1)) csr5_tbs) mod sm2_N <> be_to_Z (sm2_digest default_uid (pk_X (sk_Pub key1)) (pk_Y (sk_Pub key1)) (SM3 csr5_tbs)) mod sm2_N.
Proof. vm_compute. discriminate. Qed.
Lemma csr5_made : exists der q, CreateCertificateRequest prims0 [] csr5 (ASigner sm2_signer) = Ret der /\ zlen der < 2 ^ 31 /\ bytes_okb der = true /\ ParseCertificateRequest net1 der = Ret q /\ q_RawTBS q = csr5_tbs.
Proof. eexists _, _. split; [vm_compute; reflexivity|]. split; [vm_compute; reflexivity|]. split; [vm_compute; reflexivity|]. split; [vm_compute; reflexivity|]. vm_compute. reflexivity. Qed.
Theorem C97_sm2_refuted : exists P t key der q, sound_signer P key /\ good_pub (sg_Public key) /\ CreateCertificateRequest P [] t (ASigner key) = Ret der /\ ParseCertificateRequest net1 der = Ret q /\ CSR_CheckSignature P q <> Ret tt.
Proof.
  destruct csr5_made as (der & q & E & Hz & Ho & Hq & R). apply bytes_okb_spec in Ho. assert (GP : good_pub (sg_Public sm2_signer)) by (split; vm_compute; reflexivity).
  exists prims0, csr5, sm2_signer, der, q. split; [apply sm2_signer_sound|]. split; [exact GP|]. split; [exact E|]. split; [exact Hq|].
  assert (S0 : sans_ok net1 (ct_SAN csr5)) by (split; apply Forall_nil).
  destruct (C95_request prims0 net1 [] csr5 (ASigner sm2_signer) sm2_signer der [] E eq_refl GP (or_introl (conj eq_refl eq_refl)) (Forall_nil _) (Forall_nil _) (Forall_nil _) (Forall_nil _) S0 (Forall_nil _) Hz) as (q' & ex & at' & Q & RR & _).
  assert (q' = q) by (rewrite Hq in Q; congruence). subst q'. assert (B1 : 0 <= pk_X (sk_Pub key1) < 2 ^ 256) by (split; [discriminate|reflexivity]). assert (B2 : 0 <= pk_Y (sk_Pub key1) < 2 ^ 256) by (split; [discriminate|reflexivity]).
  rewrite (C97_sm2 prims0 [] csr5 sm2_signer [] der q (sk_Pub key1) RR Ho (sm2_signer_sound prims0) eq_refl GP sm2_G_on B1 B2 (or_introl eq_refl)). rewrite R. apply csr5_differ.
Qed.
Print Assumptions C97_sm2_refuted.

(** ** C98: the parsers never panic *)
Lemma np_any : np cAny.
Proof.
  intros t f i. cbn [c_parse cAny]. unfold parseAny. destruct (_ || _); [discriminate|]. cbv zeta.
  destruct (_ || _); [apply bind_np; [apply parseASN1String_np|discriminate]|]. destruct (_ =? 22); [destruct (forallb _ _); discriminate|].
  destruct (_ =? TagInteger); [apply bind_np; [apply (np_int t f i)|discriminate]|]. destruct (_ =? TagBitString); [apply bind_np; [apply (np_bits t f i)|discriminate]|].
  destruct (_ =? TagOID); [apply bind_np; [apply (np_oid t f i)|discriminate]|].
  destruct (_ =? 23); [apply bind_np; [unfold asn1_UTCTime; destruct (match parse_utc false i with Some _ => _ | None => _ end); discriminate|discriminate]|].
  destruct (_ =? 24); [apply bind_np; [unfold asn1_GeneralizedTime; destruct (parse_generalized i); discriminate|discriminate]|].
  destruct (_ =? TagOctetString); discriminate.
Qed.
Lemma np_time s : np (timeCodec s).
Proof.
  assert (U : np cUTC) by (intros t f i; cbn; unfold asn1_UTCTime; destruct (match parse_utc false i with Some _ => _ | None => _ end); discriminate).
  assert (G : np cGeneralized) by (intros t f i; cbn; unfold asn1_GeneralizedTime; destruct (parse_generalized i); discriminate).
  unfold timeCodec. destruct (parseTagAndLength s) as [[t r]| |]; auto. destruct (_ && _); auto.
Qed.
Lemma fnp_time {B} p (fs : fcodec B) : fnp fs -> fnp (fconsTime p fs).
Proof. intros F s. cbn. apply bind_np; [apply np_field, np_time|]. intros [a r] _. apply bind_np; [apply F|discriminate]. Qed.
Lemma np_atva : np cATVa. Proof. apply np_struct, fnp_cons; [apply np_oid|]. apply fnp_cons; [apply np_any|apply fnp_nil]. Qed.
Lemma np_rdns : np cRDNs. Proof. apply np_seq, np_seq, np_atva. Qed.
Lemma np_ext : np cExt. Proof. apply np_struct. repeat (apply fnp_cons; [first [apply np_oid|apply np_bool|apply np_bytes]|]). apply fnp_nil. Qed.
Lemma np_rev : np cRevoked. Proof. apply np_struct, fnp_cons; [apply np_big|]. apply fnp_time, fnp_cons; [apply np_seq, np_ext|apply fnp_nil]. Qed.
Lemma np_certList : np cCertList.
Proof.
  apply np_struct, fnp_cons; [|apply fnp_cons; [apply np_AI|apply fnp_cons; [apply np_bits|apply fnp_nil]]].
  apply np_structRaw, fnp_cons; [apply np_int|]. apply fnp_cons; [apply np_AI|]. apply fnp_cons; [apply np_rdns|]. apply fnp_time, fnp_time. apply fnp_cons; [apply np_seq, np_rev|]. apply fnp_cons; [apply np_seq, np_ext|apply fnp_nil].
Qed.
Lemma np_csr : np cCsr.
Proof.
  apply np_structRaw, fnp_cons; [|apply fnp_cons; [apply np_AI|apply fnp_cons; [apply np_bits|apply fnp_nil]]].
  apply np_structRaw, fnp_cons; [apply np_int|]. apply fnp_cons; [apply np_raw|]. apply fnp_cons; [apply np_structRaw, fnp_cons; [apply np_AI|apply fnp_cons; [apply np_bits|apply fnp_nil]]|].
  apply fnp_cons; [apply np_seq, np_raw|apply fnp_nil].
Qed.
Lemma parseRaw_np raws : parseRawAttributes raws <> Panic.
Proof.
  induction raws as [|r l IH]; cbn [parseRawAttributes]; [discriminate|].
  assert (N : Unmarshal cATVset (sl (rv_full r)) <> Panic) by (apply np_unmarshal, np_struct, fnp_cons; [apply np_oid|apply fnp_cons; [apply np_seq, np_seq, np_atva|apply fnp_nil]]).
  destruct (Unmarshal cATVset (sl (rv_full r))) as [[a [|? ?]]| |]; try congruence. apply bind_np; [exact IH|discriminate].
Qed.
Lemma parseExts_np raws : parseCSRExtensions raws <> Panic.
Proof.
  induction raws as [|r l IH]; cbn [parseCSRExtensions]; [discriminate|].
  assert (N : Unmarshal cP10Attr (sl (rv_full r)) <> Panic) by (apply np_unmarshal, np_struct, fnp_cons; [apply np_oid|apply fnp_cons; [apply np_seq, np_raw|apply fnp_nil]]).
  destruct (Unmarshal cP10Attr (sl (rv_full r))) as [[[id [[|v vs]|]] [|? ?]]| |]; try congruence. destruct (negb _); [exact IH|].
  apply bind_np; [apply np_unmarshal, np_seq, np_ext|]. intros [e rest] _. apply bind_np; [exact IH|discriminate].
Qed.
Definition ext_bytes (e : Extension) : Prop := bytes_ok (x_Value e).
Lemma vok_ext : vok cExt ext_bytes.
Proof.
  unfold cExt. eapply vok_struct.
  - apply fok_cons; [apply vok_true|]. apply fok_cons; [apply vok_true|]. apply fok_cons; [apply vok_bytes|apply fok_nil].
  - intros (o & c & v & u) (_ & _ & H & _). exact H.
Qed.
Lemma parseExts_ok raws exts : Forall raw_ok raws -> parseCSRExtensions raws = Ret exts -> Forall ext_bytes exts.
Proof.
  intros H. revert exts. induction H as [|r l [_ Hr] Hl IH]; intros exts E; cbn [parseCSRExtensions] in E; [assert (exts = []) by congruence; subst; constructor|].
  destruct (Unmarshal cP10Attr (sl (rv_full r))) as [[[id [[|v vs]|]] [|? ?]]| |] eqn:U; try discriminate; try (apply IH; exact E). destruct (negb _); [apply IH; exact E|].
  apply bind_inv in E as ([e rest] & Ee & E). apply bind_inv in E as (m & Em & E). assert (Hv : raw_ok v).
  { assert (V : vok cP10Attr (fun x => Forall raw_ok (match snd x with Some l => l | None => [] end))).
    { unfold cP10Attr. eapply vok_struct.
      - apply fok_cons; [apply vok_true|]. apply fok_cons; [apply vok_seq, vok_raw|apply fok_nil].
      - intros (o & q & u) (_ & Q & _). exact Q. }
    pose proof (vok_unmarshal _ _ _ _ _ V Hr U) as Q. cbn [snd] in Q. now apply Forall_cons_iff in Q as [Q _]. }
  destruct Hv as [_ Hv]. pose proof (vok_unmarshal _ _ _ _ _ (vok_seq false _ _ vok_ext) Hv Ee) as Q. specialize (IH _ Em).
  assert (exts = match e with Some e => e | None => [] end ++ m) by congruence. subst exts. apply Forall_app. split; [exact Q|exact IH].
Qed.
Theorem C98_no_panic : forall net der, bytes_ok der -> ParseDERCRL der <> Panic /\ ParseCertificateRequest net der <> Panic.
Proof.
  intros net der Ho. split.
  - unfold ParseDERCRL. apply bind_np; [apply np_unmarshal, np_certList|]. intros [l [|? ?]] _; discriminate.
  - unfold ParseCertificateRequest. apply bind_np; [apply np_unmarshal, np_csr|]. intros [c [|? ?]] U; [|discriminate]. unfold parseCertificateRequest. cbv zeta.
    apply bind_np; [apply parseRaw_np|]. intros attrs _. apply bind_np; [apply parsePublicKey_np|]. intros pk _. apply bind_np; [apply np_unmarshal, np_rdns|]. intros [s [|? ?]] _; [|discriminate].
    apply bind_np; [apply parseExts_np|]. intros exts Ex. apply bind_np; [|discriminate].
    assert (R : Forall raw_ok (match tr_Attributes (cr_TBS c) with Some l => l | None => [] end)).
    { apply Unmarshal_inv in U; auto. apply field_read_ok in U as (_ & t & full & inner & Hi & _ & _ & E); auto. cbn [c_parse cCsr cStructRaw] in E. apply bind_inv in E as (x & Exx & E).
      cbn [f_dec fcons] in Exx. apply bind_inv in Exx as ([tbs r] & Et & Exx). apply bind_inv in Exx as ([a' b'] & _ & Exx).
      assert (x = (tbs, (a', b'))) by congruence. subst x. assert (cr_TBS c = tbs) as T by (destruct b' as [b' u]; assert (mkCsr (Some full) tbs a' b' = c) as <- by congruence; reflexivity).
      rewrite T. apply parseField_inv in Et; auto. destruct Et as [[Et _]|Et]; [discriminate|]. apply field_read_ok in Et as (_ & t2 & full2 & inner2 & Hi2 & Hf & _ & Ep); auto.
      cbn [c_parse cTbsCSR cStructRaw] in Ep. apply bind_inv in Ep as (x & Exx2 & Ep). destruct x as (v & s1 & k1 & a1 & u). assert (Q : tbs = mkTbsCSR (Some full2) v s1 k1 a1) by congruence. rewrite Q. cbn [tr_Attributes].
      pose proof (fok_cons noP _ _ _ _ (vok_true cInt) (fok_cons noP _ _ _ _ (vok_true cRaw) (fok_cons noP _ _ _ _ (vok_true cPKI) (fok_cons (implicitP 0) _ _ _ _ (vok_seq false _ _ vok_raw) fok_nil)))) as F.
      destruct (proj2 F _ _ Hi2 Exx2) as (_ & _ & _ & W & _). exact W. }
    pose proof (parseExts_ok _ _ R Ex) as X. clear - X. revert X. generalize noSAN as s0. induction exts as [|e l IH]; intros s0 X; cbn [csrSANs]; [discriminate|]. apply Forall_cons_iff in X as [Xe Xl].
    destruct (oid_eqb _ _); [|now apply IH]. apply bind_np; [now apply parseSAN_np|]. intros s' _. now apply IH.
Qed.
Print Assumptions C98_no_panic.
Example C98_instance : (exists der q, ParseCertificateRequest net1 der = Ret q) /\ (exists e, ParseCertificateRequest net1 [0x30; 0x82] = Err e) /\ (exists e, ParseDERCRL [0x30; 0x03; 0x30; 0x01; 0x02] = Err e).
Proof. destruct C95_nonvacuous as (der & q & _ & _ & _ & E & _). split; [exists der, q; exact E|]. split; eexists; vm_compute; reflexivity. Qed.
