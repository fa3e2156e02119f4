(** * C87, C88: all the extensions of a template together *)
From Coq Require Import String Ascii ZifyBool ZifyNat.
From Verif Require Import Base Words Utf8 BMPModel ECModel SM2Model CryptoByte Asn1 Asn1Proofs KeysModel KeysProofs P12Enc X509Model X509Sig X509Build X509Proofs X509StrProofs PropertiesX509Str X509ExtProofs X509NCProofs PropertiesX509Ext X509CertProofs PropertiesX509Build.
Open Scope Z_scope.

(** ** The blocks *)
Lemma oidIn_spec o l : oidInExtensions o l = true <-> In o (map x_Id l).
Proof.
  unfold oidInExtensions. rewrite existsb_exists, in_map_iff. split; intros (e & H1 & H2); exists e; [apply oid_eqb_spec in H2|]; split; auto. now apply oid_eqb_spec.
Qed.
Lemma block_inv cond o extra mk l : block cond o extra mk = Ret l ->
  (l = [] /\ (cond = false \/ In o (map x_Id extra))) \/ (cond = true /\ ~ In o (map x_Id extra) /\ exists e, l = [e] /\ mk = Ret e).
Proof.
  unfold block. destruct (oidInExtensions o extra) eqn:O.
  - rewrite andb_false_r. intros [= <-]. left. split; [reflexivity|right]. now apply oidIn_spec.
  - assert (N : ~ In o (map x_Id extra)) by (intros H; apply oidIn_spec in H; congruence). destruct cond; cbn [andb negb]; [|intros [= <-]; left; auto].
    destruct mk as [e| |]; cbn [bind]; try discriminate. intros [= <-]. right. eauto 6.
Qed.
Definition blk (extra : list Extension) (o : oid) (l : list Extension) : Prop := l = [] \/ exists e, l = [e] /\ x_Id e = o /\ ~ In o (map x_Id extra).
Lemma block_blk cond o extra mk l : block cond o extra mk = Ret l -> (forall e, mk = Ret e -> x_Id e = o) -> blk extra o l.
Proof. intros E H. apply block_inv in E as [[-> _]|(_ & N & e & -> & M)]; [left; reflexivity|right; eauto]. Qed.
Lemma value_id o (c : bool) (v : outcome bytes) e : bind v (fun b => Ret (mkExt o c b)) = Ret e -> x_Id e = o /\ x_Critical e = c /\ v = Ret (x_Value e).
Proof. destruct v; cbn [bind]; try discriminate. intros [= <-]. auto. Qed.
Lemma blks extra os ls : Forall2 (blk extra) os ls -> NoDup os ->
  NoDup (map x_Id (List.concat ls)) /\ Forall (fun e => In (x_Id e) os /\ ~ In (x_Id e) (map x_Id extra)) (List.concat ls).
Proof.
  induction 1 as [|o l os ls H _ IH]; intros N; [split; constructor|]. apply NoDup_cons_iff in N as [N1 N2]. destruct (IH N2) as [I1 I2]. clear IH.
  assert (I2' : Forall (fun e => In (x_Id e) (o :: os) /\ ~ In (x_Id e) (map x_Id extra)) (List.concat ls)) by (eapply Forall_impl; [|exact I2]; intros e [? ?]; split; [right|]; auto).
  destruct H as [->|(e & -> & <- & X)]; cbn [List.concat app map].
  - auto.
  - split; [|constructor; [split; [left; reflexivity|exact X]|exact I2']]. constructor; [|exact I1]. intros In1. apply in_map_iff in In1 as (e' & E & H). rewrite Forall_forall in I2. destruct (I2 _ H) as [H' _]. rewrite E in H'. auto.
Qed.

(** ** C88 *)
Theorem C88_extra_extensions : forall t subjectIsEmpty aki ski exts, buildCertExtensions t subjectIsEmpty aki ski = Ret exts ->
  exists generated, exts = generated ++ tp_ExtraExtensions t /\ NoDup (map x_Id generated) /\
    Forall (fun e => In (x_Id e) interpreted /\ ~ In (x_Id e) (map x_Id (tp_ExtraExtensions t))) generated /\
    (NoDup (map x_Id (tp_ExtraExtensions t)) -> NoDup (map x_Id exts)).
Proof.
  intros t se aki ski exts E. unfold buildCertExtensions in E. cbv zeta in E.
  repeat match type of E with bind (block _ _ _ _) _ = _ => let l := fresh "l" in let H := fresh "H" in apply bind_inv in E as (l & H & E) end.
  injection E as <-.
  assert (G : Forall2 (blk (tp_ExtraExtensions t)) [[2; 5; 29; 15]; [2; 5; 29; 37]; [2; 5; 29; 19]; [2; 5; 29; 14]; [2; 5; 29; 35]; [1; 3; 6; 1; 5; 5; 7; 1; 1]; [2; 5; 29; 17]; [2; 5; 29; 32]; [2; 5; 29; 30]; [2; 5; 29; 31]]
    [l; l0; l1; l2; l3; l4; l5; l6; l7; l8]).
  { repeat match goal with |- Forall2 _ (_ :: _) (_ :: _) => constructor end; [..|constructor]; (eapply block_blk; [eassumption|]); intros e M; try (apply value_id in M; apply M); clear - M.
    - unfold marshalExtKeyUsage in M. apply bind_inv in M as (? & _ & M). apply value_id in M. apply M.
    - unfold marshalBasicConstraints in M. destruct (Marshal _ _); try discriminate M; injection M as <-; reflexivity.
    }
  assert (ND : NoDup [[2; 5; 29; 15]; [2; 5; 29; 37]; [2; 5; 29; 19]; [2; 5; 29; 14]; [2; 5; 29; 35]; [1; 3; 6; 1; 5; 5; 7; 1; 1]; [2; 5; 29; 17]; [2; 5; 29; 32]; [2; 5; 29; 30]; [2; 5; 29; 31]]).
  { repeat constructor; cbn [In]; intuition discriminate. }
  destruct (blks _ _ _ G ND) as [N F]. exists (List.concat [l; l0; l1; l2; l3; l4; l5; l6; l7; l8]).
  split; [cbn [List.concat]; rewrite app_nil_r, <- !app_assoc; reflexivity|]. split; [exact N|]. split.
  - eapply Forall_impl; [|exact F]. intros e [I X]. split; [|exact X]. cbn [In interpreted] in *. tauto.
  - intros NE. replace (l ++ _) with (List.concat [l; l0; l1; l2; l3; l4; l5; l6; l7; l8] ++ tp_ExtraExtensions t) by (cbn [List.concat]; rewrite app_nil_r, <- !app_assoc; reflexivity).
    rewrite map_app. clear - N F NE. induction (List.concat _) as [|e m IH]; [exact NE|]. cbn [map app] in *. apply NoDup_cons_iff in N as [N1 N2]. apply Forall_cons_iff in F as [[_ F1] F2]. constructor; [|auto].
    rewrite in_app_iff. tauto.
Qed.
Print Assumptions C88_extra_extensions.
(** ExtraExtensions replaces the generated extension; a repeated extra extension stays repeated *)
Definition tmpl0 (i : extInfo) (extra : list Extension) : Template := mkTmpl (Some 1) 0 [] [] (mkCivil 2024 1 1 0 0 0 0) (mkCivil 2034 1 1 0 0 0 0) i extra None.
Example C88_instance :
  buildCertExtensions (tmpl0 (set_KeyUsage (set_BC info0 true (-1)) 96) [mkExt [2; 5; 29; 15] false [5; 0]; mkExt [1; 2; 3] true []]) false [7] [] =
    Ret [mkExt [2; 5; 29; 19] true [48; 3; 1; 1; 255]; mkExt [2; 5; 29; 35] false [48; 3; 128; 1; 7]; mkExt [2; 5; 29; 15] false [5; 0]; mkExt [1; 2; 3] true []].
Proof. reflexivity. Qed.

(** ** C87 *)
Lemma process_app net l1 : forall i l2, processExtensions net i (l1 ++ l2) = (do i' <- processExtensions net i l1; processExtensions net i' l2).
Proof. induction l1 as [|e l1 IH]; intros i l2; cbn [app processExtensions bind]; [reflexivity|]. destruct (processExtension net i e) as [[i1 u]| |]; cbn [bind]; auto. Qed.
Lemma process_other net i e : ~ In (x_Id e) interpreted -> processExtension net i e = Ret (i, true).
Proof.
  unfold processExtension. remember (x_Id e) as id eqn:Eid. intros N.
  destruct ((List.length id =? 4)%nat && (nth 0 id 0 =? 2) && (nth 1 id 0 =? 5) && (nth 2 id 0 =? 29)) eqn:C.
  - destruct id as [|a [|b [|c [|n [|? ?]]]]]; try (exfalso; cbn [List.length Nat.eqb andb] in C; congruence). cbn [List.length Nat.eqb andb nth] in *.
    apply andb_true_iff in C as [C C3]. apply andb_true_iff in C as [C1 C2]. apply Z.eqb_eq in C1, C2, C3. subst a b c.
    repeat match goal with
    | |- (if n =? ?k then _ else _) = _ => destruct (Z.eqb_spec n k); [exfalso; subst n; apply N; cbn [In interpreted]; tauto|]
    end. reflexivity.
  - destruct (oid_eqb id oidExtensionAuthorityInfoAccess) eqn:A; [|reflexivity]. apply oid_eqb_spec in A. exfalso. apply N. rewrite A. cbn [In interpreted]. unfold oidExtensionAuthorityInfoAccess. tauto.
Qed.
Definition with_unhandled (i : extInfo) (u : list oid) : extInfo :=
  let '(mkInfo z a b c d e f g h j k l m n o p q r) := i in mkInfo z a b c d e f g h j k l m n o p q (r ++ u).
Lemma process_extras net l : Forall (fun e => ~ In (x_Id e) interpreted) l -> forall i,
  processExtensions net i l = Ret (with_unhandled i (map x_Id (filter x_Critical l))).
Proof.
  induction 1 as [|e l H _ IH]; intros i; cbn [processExtensions filter map]; [destruct i; cbn; now rewrite app_nil_r|].
  rewrite process_other by exact H. cbn [bind]. rewrite IH. f_equal. destruct (x_Critical e); cbn [andb]; [|reflexivity]. destruct i. cbn. now rewrite <- app_assoc.
Qed.
Lemma blk_step net i cond o extra mk l F : In o interpreted -> Forall (fun e => ~ In (x_Id e) interpreted) extra -> block cond o extra mk = Ret l ->
  (forall e, l = [e] -> cond = true -> mk = Ret e -> processExtension net i e = Ret (F, false)) -> processExtensions net i l = Ret (if cond then F else i).
Proof.
  intros Io Hx E H. apply block_inv in E as [[-> [C|C]]|(-> & _ & e & -> & M)].
  - rewrite C. reflexivity.
  - exfalso. apply in_map_iff in C as (e & <- & C). rewrite Forall_forall in Hx. exact (Hx _ C Io).
  - cbn [processExtensions]. rewrite (H e eq_refl eq_refl M). cbn [bind]. rewrite andb_false_r. reflexivity.
Qed.
Lemma pull_KU (c : bool) i v : (if c then set_KeyUsage i v else i) = set_KeyUsage i (if c then v else i_KeyUsage i). Proof. destruct c, i; reflexivity. Qed.
Definition bc (i : extInfo) (valid isCA : bool) (mpl : Z) (zero : bool) : extInfo :=
  let '(mkInfo z _ _ _ _ e f g h j k l m n o p q r) := i in mkInfo z valid isCA mpl zero e f g h j k l m n o p q r.
Lemma pull_BC (c : bool) i ca mpl : (if c then set_BC i ca mpl else i) = bc i (c || i_BasicConstraintsValid i) (if c then ca else i_IsCA i) (if c then mpl else i_MaxPathLen i) (if c then mpl =? 0 else i_MaxPathLenZero i). Proof. destruct c, i; reflexivity. Qed.
Lemma pull_SAN (c : bool) i v : (if c then set_SAN i v else i) = set_SAN i (if c then v else i_SAN i). Proof. destruct c, i; reflexivity. Qed.
Lemma pull_NC (c : bool) i v w x : (if c then set_NC i v w x else i) = set_NC i (if c then v else i_Permitted i) (if c then w else i_Excluded i) (if c then x else i_PermittedDNSDomainsCritical i). Proof. destruct c, i; reflexivity. Qed.
Lemma pull_CRLDP (c : bool) i v : (if c then add_CRLDP i v else i) = add_CRLDP i (if c then v else []). Proof. destruct c, i; cbn; now rewrite ?app_nil_r. Qed.
Lemma pull_AKI (c : bool) i v : (if c then set_AKI i v else i) = set_AKI i (if c then v else i_AuthorityKeyId i). Proof. destruct c, i; reflexivity. Qed.
Lemma pull_SKI (c : bool) i v : (if c then set_SKI i v else i) = set_SKI i (if c then v else i_SubjectKeyId i). Proof. destruct c, i; reflexivity. Qed.
Lemma pull_EKU (c : bool) i v w : (if c then set_EKU i v w else i) = set_EKU i (if c then v else i_ExtKeyUsage i) (if c then w else i_UnknownExtKeyUsage i). Proof. destruct c, i; reflexivity. Qed.
Lemma pull_Pol (c : bool) i v : (if c then set_Policies i v else i) = set_Policies i (if c then v else i_PolicyIdentifiers i). Proof. destruct c, i; reflexivity. Qed.
Lemma pull_AIA (c : bool) i v w : (if c then add_AIA i v w else i) = add_AIA i (if c then v else []) (if c then w else []). Proof. destruct c, i; cbn; now rewrite ?app_nil_r. Qed.

(** a template whose names, addresses and identifiers are well formed; [shorts], [p] and [x] are the addresses and constraints
    in the form in which they are written *)
Record well_formed (net : netlib) (t : Template) (shorts : list bytes) (p x : constraints) : Prop := mkWF {
  wf_path : - 2 ^ 63 <= i_MaxPathLen (tp_Info t) < 2 ^ 63;
  wf_eku : Forall valid_oid (i_UnknownExtKeyUsage (tp_Info t)) /\ Forall (fun o => forall u, oidFromExtKeyUsage u <> Some o) (i_UnknownExtKeyUsage (tp_Info t));
  wf_policies : Forall valid_oid (i_PolicyIdentifiers (tp_Info t));
  wf_ips : Forall2 same_ip (san_IP (i_SAN (tp_Info t))) shorts;
  wf_uris : Forall (url_ok net) (san_URI (i_SAN (tp_Info t)));
  wf_permitted : written_nc net (i_Permitted (tp_Info t)) p;
  wf_excluded : written_nc net (i_Excluded (tp_Info t)) x;
  wf_masks : Forall (fun n => bytes_ok (ipn_Mask n)) (nc_IP (i_Permitted (tp_Info t)) ++ nc_IP (i_Excluded (tp_Info t)));
  wf_extra : Forall (fun e => ~ In (x_Id e) interpreted) (tp_ExtraExtensions t) }.
Lemma if_nil {A} (l : list A) : (if negb (isnil l) then l else []) = l. Proof. destruct l; reflexivity. Qed.
Theorem C87_template : forall net t shorts p x subjectIsEmpty aki ski exts, well_formed net t shorts p x ->
  buildCertExtensions t subjectIsEmpty aki ski = Ret exts -> Forall (fun e => zlen (x_Value e) < 2 ^ 31) exts ->
  exists i, processExtensions net info0 exts = Ret i /\
    let T := tp_Info t in
    (forall b, 0 <= b -> Z.testbit (i_KeyUsage i) b = (b <? 9) && Z.testbit (i_KeyUsage T) b) /\
    i_BasicConstraintsValid i = i_BasicConstraintsValid T /\
    (i_BasicConstraintsValid T = true -> i_IsCA i = i_IsCA T /\ limit (i_MaxPathLen i) (i_MaxPathLenZero i) = limit (i_MaxPathLen T) (i_MaxPathLenZero T)) /\
    i_SAN i = mkSANs (san_DNS (i_SAN T)) (san_Email (i_SAN T)) shorts (san_URI (i_SAN T)) /\
    i_Permitted i = p /\ i_Excluded i = x /\
    (~ (no_constraints (i_Permitted T) /\ no_constraints (i_Excluded T)) -> i_PermittedDNSDomainsCritical i = i_PermittedDNSDomainsCritical T) /\
    i_CRLDistributionPoints i = i_CRLDistributionPoints T /\ i_AuthorityKeyId i = aki /\ i_SubjectKeyId i = ski /\
    i_ExtKeyUsage i = i_ExtKeyUsage T /\ i_UnknownExtKeyUsage i = i_UnknownExtKeyUsage T /\ i_PolicyIdentifiers i = i_PolicyIdentifiers T /\
    i_OCSPServer i = i_OCSPServer T /\ i_IssuingCertificateURL i = i_IssuingCertificateURL T /\
    i_Unhandled i = map x_Id (filter x_Critical (tp_ExtraExtensions t)).
Proof.
  intros net t shorts p x se aki ski exts [W1 [W2 W2'] W3 W4 W5 W6 W7 W8 W9] E Z. unfold buildCertExtensions in E. cbv zeta in E.
  repeat match type of E with bind (block _ _ _ _) _ = _ => let l := fresh "l" in let H := fresh "H" in apply bind_inv in E as (l & H & E) end.
  assert (X : exts = l ++ l0 ++ l1 ++ l2 ++ l3 ++ l4 ++ l5 ++ l6 ++ l7 ++ l8 ++ tp_ExtraExtensions t) by congruence. rewrite X in Z |- *. clear E X exts.
  repeat (apply Forall_app in Z; destruct Z as [? Z]). 
  set (T := tp_Info t) in *.
  assert (S1 : forall i, processExtensions net i l = Ret (if negb (i_KeyUsage T =? 0) then set_KeyUsage i (Z.land (i_KeyUsage T) 511) else i)).
  { intros i. eapply blk_step; [|exact W9|exact H|]; [cbn [In interpreted]; tauto|]. intros e -> _ M. destruct (keyUsage_rt (i_KeyUsage T)) as (v & M' & _ & R). assert (e = mkExt oidExtensionKeyUsage true v) by congruence. subst e.
    unfold processExtension. cbn [x_Id x_Value]. change (nth 3 oidExtensionKeyUsage 0) with 15. cbn [List.length oidExtensionKeyUsage nth Nat.eqb Z.eqb Pos.eqb andb]. rewrite R. reflexivity. }
  assert (S2 : forall i, processExtensions net i l0 = Ret (if negb (isnil (i_ExtKeyUsage T)) || negb (isnil (i_UnknownExtKeyUsage T)) then set_EKU i (i_ExtKeyUsage T) (i_UnknownExtKeyUsage T) else i)).
  { intros i. eapply blk_step; [|exact W9|exact H0|]; [cbn [In interpreted]; tauto|]. intros e -> _ M. match goal with HF : Forall _ [e] |- _ => apply Forall_cons_iff in HF as [Ze _] end.
    apply C62_roundtrip in M as (Ei & _ & R); [|exact W2| |exact Ze]. 2:{ eapply Forall_impl; [|exact W2']. intros o Ho. destruct (extKeyUsageFromOID o) eqn:Eo; [|reflexivity]. apply C62_table in Eo. exfalso. exact (Ho _ Eo). }
    unfold processExtension. rewrite Ei, R. reflexivity. }
  assert (S3 : forall i, processExtensions net i l1 = Ret (if i_BasicConstraintsValid T then set_BC i (i_IsCA T) (eff_mpl (i_MaxPathLen T) (i_MaxPathLenZero T)) else i)).
  { intros i. eapply blk_step; [|exact W9|exact H1|]; [cbn [In interpreted]; tauto|]. intros e -> _ M. destruct (basicConstraints_rt (i_IsCA T) (i_MaxPathLen T) (i_MaxPathLenZero T) W1) as (v & M' & _ & R).
    assert (e = mkExt oidExtensionBasicConstraints true v) by congruence. subst e. unfold processExtension. cbn [x_Id x_Value]. rewrite R. reflexivity. }
  assert (S4 : forall i, processExtensions net i l2 = Ret (if negb (isnil ski) then set_SKI i ski else i)).
  { intros i. eapply blk_step; [|exact W9|exact H2|]; [cbn [In interpreted]; tauto|]. intros e -> _ M. match goal with HF : Forall _ [e] |- _ => apply Forall_cons_iff in HF as [Ze _] end.
    apply value_id in M as (Ei & _ & M). pose proof (ski_rt ski (x_Value e) [] M Ze) as R. rewrite app_nil_r in R. unfold processExtension. rewrite Ei, R. reflexivity. }
  assert (S5 : forall i, processExtensions net i l3 = Ret (if negb (isnil aki) then set_AKI i aki else i)).
  { intros i. eapply blk_step; [|exact W9|exact H3|]; [cbn [In interpreted]; tauto|]. intros e -> _ M. match goal with HF : Forall _ [e] |- _ => apply Forall_cons_iff in HF as [Ze _] end.
    apply value_id in M as (Ei & _ & M). pose proof (aki_rt aki (x_Value e) M Ze) as R. unfold processExtension. rewrite Ei, R. reflexivity. }
  assert (S6 : forall i, processExtensions net i l4 = Ret (if negb (isnil (i_OCSPServer T)) || negb (isnil (i_IssuingCertificateURL T)) then add_AIA i (i_OCSPServer T) (i_IssuingCertificateURL T) else i)).
  { intros i. eapply blk_step; [|exact W9|exact H4|]; [cbn [In interpreted]; tauto|]. intros e -> _ M. match goal with HF : Forall _ [e] |- _ => apply Forall_cons_iff in HF as [Ze _] end.
    apply value_id in M as (Ei & _ & M). pose proof (aia_rt _ _ (x_Value e) M Ze) as R. unfold processExtension. rewrite Ei, R. reflexivity. }
  assert (S7 : forall i, processExtensions net i l5 = Ret (if negb (san_empty (i_SAN T)) then set_SAN i (mkSANs (san_DNS (i_SAN T)) (san_Email (i_SAN T)) shorts (san_URI (i_SAN T))) else i)).
  { intros i. eapply blk_step; [|exact W9|exact H5|]; [cbn [In interpreted]; tauto|]. intros e -> C M. match goal with HF : Forall _ [e] |- _ => apply Forall_cons_iff in HF as [Ze _] end.
    apply value_id in M as (Ei & _ & M). pose proof (C64_roundtrip net _ _ _ shorts _ (x_Value e) W4 W5 M Ze) as R. unfold processExtension. rewrite Ei, R.
    assert (N : (List.length (san_DNS (i_SAN T)) =? 0)%nat && (List.length (san_Email (i_SAN T)) =? 0)%nat && (List.length shorts =? 0)%nat && (List.length (san_URI (i_SAN T)) =? 0)%nat = false).
    { clear - C W4. unfold san_empty in C. destruct (i_SAN T) as [[] [] si []]; try reflexivity; try (cbn; rewrite ?andb_false_r; reflexivity). cbn [san_IP] in W4. destruct W4; [discriminate C|reflexivity]. }
    cbn [bind san_DNS san_Email san_IP san_URI x_Id oidExtensionSubjectAltName List.length Nat.eqb nth Z.eqb Pos.eqb andb]. rewrite N. reflexivity. }
  assert (S8 : forall i, processExtensions net i l6 = Ret (if negb (isnil (i_PolicyIdentifiers T)) then set_Policies i (i_PolicyIdentifiers T) else i)).
  { intros i. eapply blk_step; [|exact W9|exact H6|]; [cbn [In interpreted]; tauto|]. intros e -> _ M. match goal with HF : Forall _ [e] |- _ => apply Forall_cons_iff in HF as [Ze _] end.
    apply policies_rt in M as (Ei & _ & R); [|eapply Forall_impl; [|exact W3]; intros o; apply valid_oid_ok|exact Ze]. unfold processExtension. rewrite Ei, R. reflexivity. }
  apply Forall_app in W8 as [W8 W8'].
  assert (S9 : forall i, processExtensions net i l7 = Ret (if negb (nc_empty (i_Permitted T)) || negb (nc_empty (i_Excluded T)) then set_NC i p x (i_PermittedDNSDomainsCritical T) else i)).
  { intros i. eapply blk_step; [|exact W9|exact H7|]; [cbn [In interpreted]; tauto|]. intros e -> C M. match goal with HF : Forall _ [e] |- _ => apply Forall_cons_iff in HF as [Ze _] end.
    apply value_id in M as (Ei & Ec & M). assert (NN : ~ (no_constraints (i_Permitted T) /\ no_constraints (i_Excluded T))) by (intros [N1 N2]; unfold no_constraints in N1, N2; rewrite N1, N2 in C; discriminate C).
    pose proof (C85_roundtrip net _ _ p x (x_Value e) W8 W8' W6 W7 NN M Ze) as R. unfold processExtension. rewrite Ei, Ec, R. reflexivity. }
  assert (S10 : forall i, processExtensions net i l8 = Ret (if negb (isnil (i_CRLDistributionPoints T)) then add_CRLDP i (i_CRLDistributionPoints T) else i)).
  { intros i. eapply blk_step; [|exact W9|exact H8|]; [cbn [In interpreted]; tauto|]. intros e -> _ M. match goal with HF : Forall _ [e] |- _ => apply Forall_cons_iff in HF as [Ze _] end.
    apply value_id in M as (Ei & _ & M). pose proof (crldp_rt _ (x_Value e) M Ze) as R. unfold processExtension. rewrite Ei, R. reflexivity. }
  repeat (rewrite process_app; first [rewrite S1|rewrite S2|rewrite S3|rewrite S4|rewrite S5|rewrite S6|rewrite S7|rewrite S8|rewrite S9|rewrite S10]; cbn [bind]).
  rewrite process_extras by exact W9. eexists. split; [reflexivity|]. cbv zeta.
  rewrite pull_KU, pull_EKU, pull_BC, pull_SKI, pull_AKI, pull_AIA, pull_SAN, pull_Pol, pull_NC, pull_CRLDP.
  cbn [with_unhandled set_KeyUsage set_EKU bc set_SKI set_AKI add_AIA set_SAN set_Policies set_NC add_CRLDP info0
       i_KeyUsage i_BasicConstraintsValid i_IsCA i_MaxPathLen i_MaxPathLenZero i_SAN i_Permitted i_Excluded i_PermittedDNSDomainsCritical i_CRLDistributionPoints i_AuthorityKeyId i_SubjectKeyId i_ExtKeyUsage i_UnknownExtKeyUsage i_PolicyIdentifiers i_OCSPServer i_IssuingCertificateURL i_Unhandled app].
  rewrite !if_nil. clear S1 S2 S3 S4 S5 S6 S7 S8 S9 S10 H H0 H1 H2 H3 H4 H5 H6 H7 H8.
  split; [|split; [apply orb_false_r|]]. 
  { intros b Hb. change 511 with (Z.ones 9). destruct (Z.eqb_spec (i_KeyUsage T) 0) as [->|]; cbn [negb]; [rewrite !Z.bits_0; now rewrite andb_false_r|]. rewrite Z.land_spec.
    destruct (Z.ltb_spec b 9); [rewrite Z.ones_spec_low by lia; now rewrite andb_true_r|rewrite Z.ones_spec_high by lia; now rewrite andb_false_r]. }
  split.
  { intros ->. split; [reflexivity|]. unfold limit, eff_mpl. destruct (Z.eqb_spec (i_MaxPathLen T) (-1)) as [->|]; [reflexivity|]. destruct (Z.eqb_spec (i_MaxPathLen T) 0) as [->|]; [destruct (i_MaxPathLenZero T); reflexivity|]. cbn [andb orb].
    replace (i_MaxPathLen T =? -1) with false by lia. replace (i_MaxPathLen T =? 0) with false by lia. reflexivity. }
  split.
  { unfold san_empty. destruct (i_SAN T) as [d e si u]. cbn [san_DNS san_Email san_IP san_URI] in *. destruct d, e, u, W4; reflexivity. }
  assert (NP : nc_empty (i_Permitted T) = true -> p = noNC).
  { intros Hn. clear - W6 Hn. destruct W6 as (A & _ & B & C & _ & D & _). destruct (i_Permitted T) as [[] [] [] []]; try discriminate Hn. cbn in *. inversion B as [I|]. destruct p; cbn in *; subst. reflexivity. }
  assert (NX : nc_empty (i_Excluded T) = true -> x = noNC).
  { intros Hn. clear - W7 Hn. destruct W7 as (A & _ & B & C & _ & D & _). destruct (i_Excluded T) as [[] [] [] []]; try discriminate Hn. cbn in *. inversion B as [I|]. destruct x; cbn in *; subst. reflexivity. }
  split; [|split; [|split]].
  { destruct (nc_empty (i_Permitted T)); [rewrite NP by reflexivity|]; destruct (nc_empty (i_Excluded T)); reflexivity. }
  { destruct (nc_empty (i_Excluded T)); [rewrite NX by reflexivity|]; destruct (nc_empty (i_Permitted T)); reflexivity. }
  { intros N. destruct (nc_empty (i_Permitted T)) eqn:C1; [|reflexivity]. destruct (nc_empty (i_Excluded T)) eqn:C2; [|reflexivity]. exfalso. apply N.
    clear - C1 C2. destruct (i_Permitted T) as [[] [] [] []]; try discriminate C1. destruct (i_Excluded T) as [[] [] [] []]; try discriminate C2. split; reflexivity. }
  repeat split; try reflexivity; try apply if_nil.
  - destruct (i_ExtKeyUsage T), (i_UnknownExtKeyUsage T); reflexivity.
  - destruct (i_ExtKeyUsage T), (i_UnknownExtKeyUsage T); reflexivity.
  - destruct (i_OCSPServer T), (i_IssuingCertificateURL T); reflexivity.
  - destruct (i_OCSPServer T), (i_IssuingCertificateURL T); reflexivity.
Qed.
Print Assumptions C87_template.
(** a template with all ten extensions and a critical extra one *)
Definition C87_tmpl : Template :=
  tmpl0 (mkInfo 96 true true 0 true (mkSANs [chars "a.cn"] [chars "x@b.cn"] [mapped ++ [10; 0; 0; 2]] [])
     (mkNC [chars ".example.cn"] [mkIPNet [10; 1; 2; 3] [255; 255; 0; 0]] [] []) noNC true [chars "http://c"] [] [] [1; 2] [[1; 2; 3; 4]] [[2; 5; 29; 32; 0]] [chars "http://o"] [chars "http://i"] [])
    [mkExt [1; 2; 3] true [5; 0]].
Example C87_instance : let net := mkNet (fun _ => None) (fun _ => false) in
  well_formed net C87_tmpl [[10; 0; 0; 2]] (mkNC [chars ".example.cn"] [mkIPNet [10; 1; 0; 0] [255; 255; 0; 0]] [] []) noNC /\
  exists exts, buildCertExtensions C87_tmpl true [7; 7] [8] = Ret exts /\ Forall (fun e => zlen (x_Value e) < 2 ^ 31) exts /\ List.length exts = 11%nat /\
  exists i, processExtensions net info0 exts = Ret i /\ i_ExtKeyUsage i = [1; 2] /\ i_Unhandled i = [[1; 2; 3]] /\ i_AuthorityKeyId i = [7; 7].
Proof.
  split.
  - constructor; cbn.
    + lia.
    + split; constructor; try constructor. * exists 1, 2, [3; 4]. repeat split; try lia. repeat constructor; lia. * intros u Hu. apply oidFrom_In in Hu. cbn in Hu. repeat destruct Hu as [Hu|Hu]; congruence || contradiction.
    + constructor; [|constructor]. exists 2, 5, [29; 32; 0]. repeat split; try lia. repeat constructor; lia.
    + constructor; [|constructor]. left. split; [reflexivity|right; reflexivity].
    + constructor.
    + split; [reflexivity|]. split; [constructor; [eexists; reflexivity|constructor]|]. split; [|repeat split; constructor].
      constructor; [|constructor]. exists [10; 1; 2; 3], 16%nat, 16%nat. split; [left; reflexivity|]. split; [reflexivity|]. split; [left; reflexivity|]. split; reflexivity.
    + repeat split; constructor.
    + constructor; [|constructor]. apply bytes_okb_spec. reflexivity.
    + constructor; [|constructor]. cbn. intuition discriminate.
  - eexists. split; [vm_compute; reflexivity|]. split; [repeat (apply Forall_cons; [vm_compute; reflexivity|]); constructor|]. split; [reflexivity|]. eexists. split; [vm_compute; reflexivity|]. repeat split.
Qed.
