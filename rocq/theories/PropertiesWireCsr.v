(** * C142: certificate requests, byte for byte *)
From Coq Require Import String Ascii Permutation Sorted ZifyBool ZifyNat.
From Verif Require Import Base Words Utf8 BMPModel ECModel SM2Model CryptoByte Asn1 Asn1Proofs KeysModel KeysProofs P12Enc X509Model X509Sig X509Build X509Proofs X509StrProofs PropertiesX509Str X509ExtProofs X509NCProofs PropertiesX509Ext PropertiesX509Sig Pkcs7Proofs X509Crl X509CrlProofs X509CsrProofs X509CreateProofs PropertiesX509Exts PropertiesX509Crl PropertiesX509Csr PropertiesX509Create PropertiesX509Written PropertiesX509Time PropertiesP12Pem PropertiesWire PropertiesWireCert PropertiesWireTbs PropertiesWireCrl.
Open Scope Z_scope.

(** ** Specification (RFC 2986, 4; RFC 2985, 5.4.2) *)
(** an attribute: its type and the SET of its values, each a SEQUENCE OF SEQUENCE { type, value }; the values here are strings and octet strings *)
Definition value_der (v : anyVal) (b : bytes) : Prop := match v with VStr s => string_der s b | VBytes x => b = OCTETS x | _ => False end.
Definition item_der (a : ATVa) (b : bytes) : Prop := exists v, value_der (aa_Value a) v /\ b = SEQ (OID (oid_octets (aa_Type a)) ++ v).
Definition entries {A} (o : option (list A)) : list A := match o with Some l => l | None => [] end.
Definition value_seq (o : option (list ATVa)) (b : bytes) : Prop := exists es, Forall2 item_der (entries o) es /\ b = SEQ (List.concat es).
Definition attribute_der (a : ATVset) (b : bytes) : Prop :=
  exists vs set, Forall2 value_seq (entries (as_Value a)) vs /\ der_set vs set /\ b = SEQ (OID (oid_octets (as_Type a)) ++ set).
(** the extensionRequest attribute: 1.2.840.113549.1.9.14 *)
Definition extension_request (exts : list Extension) : bytes := SEQ (OID (oid_octets [1; 2; 840; 113549; 1; 9; 14]) ++ SETOF (SEQ (each ext_der exts))).
(** the requested extensions: the alternative names, unless the template brings its own, and the template's *)
Definition requested (t : CSRTemplate) : list Extension :=
  field (ct_ExtraExtensions t) (given (san_DNS (ct_SAN t)) || given (san_Email (ct_SAN t)) || given (san_IP (ct_SAN t)) || given (san_URI (ct_SAN t)))
    (mkExt [2; 5; 29; 17] false (alt_names (ct_SAN t))) ++ ct_ExtraExtensions t.
Definition subject_written (t : CSRTemplate) (b : bytes) : Prop :=
  ct_RawSubject t <> [] /\ b = ct_RawSubject t \/ ct_RawSubject t = [] /\ name_der (ct_Subject t) b.
(** where the requested extensions go: nowhere if there are none; into the first value of the template's first
    extensionRequest attribute that has a value, as (type, octets) pairs after the ones given there, those of a type that
    any value of that attribute already has being left out; into a new last attribute if the template has no such one *)
Definition holder (a : ATVset) : Prop := as_Type a = [1; 2; 840; 113549; 1; 9; 14] /\ entries (as_Value a) <> [].
Inductive placed (exts : list Extension) : list ATVset -> list ATVset -> bytes -> Prop :=
| P_nothing attrs : exts = [] -> placed exts attrs attrs []
| P_last attrs : exts <> [] -> Forall (fun a => ~ holder a) attrs -> placed exts attrs attrs (extension_request exts)
| P_into pre v0 vs post new : exts <> [] -> Forall (fun a => ~ holder a) pre ->
    new = filter (fun e => if in_dec (list_eq_dec Z.eq_dec) (x_Id e) (map aa_Type (List.concat (map entries (v0 :: vs)))) then false else true) exts ->
    placed exts (pre ++ mkATVset [1; 2; 840; 113549; 1; 9; 14] (Some (v0 :: vs)) :: post)
      (pre ++ mkATVset [1; 2; 840; 113549; 1; 9; 14] (Some (Some (entries v0 ++ map (fun e => mkATVa (x_Id e) (VBytes (x_Value e))) new) :: vs)) :: post) [].
(** CertificationRequestInfo, version 1 *)
Definition csr_tbs (subject spki attrs : bytes) : bytes := SEQ (INTEGER [0] ++ subject ++ spki ++ CTX0 attrs).
(** what an attribute of a template may hold here *)
Definition attr_fine (a : ATVset) : Prop := valid_oid (as_Type a) /\ Forall (fun v => Forall (fun i => valid_oid (aa_Type i) /\ match aa_Value i with VStr s => bytes_ok s | VBytes _ => True | _ => False end) (entries v)) (entries (as_Value a)).

(** ** Proofs *)
Lemma item_written i b : valid_oid (aa_Type i) /\ match aa_Value i with VStr s => bytes_ok s | VBytes _ => True | _ => False end -> makeField cATVa noP i = Ret b -> item_der i b.
Proof.
  intros [Ho Hv] E. unfold cATVa in E. apply struct_make_inv in E as (body & E & ->). apply f_cons_inv in E as (x & y & E1 & E & ->). apply f_cons_inv in E as (z & w & E2 & E & ->). apply f_nil_inv in E. subst w.
  apply valid_oid_ok in Ho. rewrite (mk_oid _ _ (oid_body_ok _ Ho)) in E1. assert (x = el 0 6 false (oid_bytes (aa_Type i))) by congruence. subst x. exists z. split.
  - change (marshalAny (aa_Value i) = Ret z) in E2. unfold value_der. destruct (aa_Value i); try contradiction; cbn [marshalAny] in E2.
    + apply C136_string in E2; [exact E2|exact Hv].
    + change (Ret (el 0 4 false b) = Ret z) in E2. rewrite <- el_oct. congruence.
  - rewrite el_seq, PropertiesWire.el_oid, (oid_octets_eq _ Ho), app_nil_r. reflexivity.
Qed.
Lemma F2_written {A} (P : A -> Prop) (R : A -> bytes -> Prop) f l bs : (forall a b, P a -> f a = Ret b -> R a b) -> Forall P l -> mapM f l = Ret bs -> Forall2 R l bs.
Proof. intros H Hl E. apply mapM_Forall2 in E. induction E as [|a b l bs H1 _ IH]; [constructor|]. inversion Hl; subst. constructor; [apply H; assumption|apply IH; assumption]. Qed.
Lemma seq_no {A} (c : codec A) v x : makeField (cSeqOf false c) noP v = Ret x -> exists es, mapM (makeField c noP) (entries v) = Ret es /\ x = el 0 16 true (List.concat es).
Proof.
  intros E. destruct v as [l|]; [|exists []; split; [reflexivity|]; change (Ret (el 0 16 true []) = Ret x) in E; cbn [List.concat]; congruence].
  unfold makeField in E at 1. cbn [p_omit noP p_opt andb p_def c_iszero cSeqOf c_whole p_set c_tag c_body p_tag c_comp] in E. apply bind_inv in E as (b & Eb & E). change (Ret (el 0 16 true b) = Ret x) in E.
  unfold seq_body in Eb. apply bind_inv in Eb as (es & Em & Eb). change (Ret (List.concat es) = Ret b) in Eb. exists es. split; [exact Em|]. congruence.
Qed.
Lemma attribute_written a b : attr_fine a -> makeField cATVset noP a = Ret b -> attribute_der a b.
Proof.
  intros [Ho Hv] E. unfold cATVset in E. apply struct_make_inv in E as (body & E & ->). apply f_cons_inv in E as (x & y & E1 & E & ->). apply f_cons_inv in E as (z & w & E2 & E & ->). apply f_nil_inv in E. subst w.
  apply valid_oid_ok in Ho. rewrite (mk_oid _ _ (oid_body_ok _ Ho)) in E1. assert (x = el 0 6 false (oid_bytes (as_Type a))) by congruence. subst x.
  assert (S : exists vs, mapM (makeField (cSeqOf false cATVa) noP) (entries (as_Value a)) = Ret vs /\ z = el 0 17 true (List.concat (sort_bytes vs))).
  { destruct (as_Value a) as [l|]; [apply make_set in E2; exact E2|]. exists []. split; [reflexivity|]. change (Ret (el 0 17 true []) = Ret z) in E2. change (sort_bytes []) with (@nil bytes). cbn [List.concat]. congruence. }
  destruct S as (vs & Em & ->). exists vs, (el 0 17 true (List.concat (sort_bytes vs))). split.
  - eapply F2_written; [|exact Hv|exact Em]. cbv beta. intros v c Hc Ec. apply seq_no in Ec as (es & Ee & ->). exists es. split; [|apply el_seq]. eapply F2_written; [|exact Hc|exact Ee]. cbv beta. intros i d. apply item_written.
  - split; [apply der_set_iff; reflexivity|]. rewrite el_seq, PropertiesWire.el_oid, (oid_octets_eq _ Ho), app_nil_r. reflexivity.
Qed.
Lemma requested_written t exts : buildCSRExtensions t = Ret exts -> exts = requested t.
Proof.
  intros E. unfold buildCSRExtensions in E. apply bind_inv in E as (l & H & E). injection E as <-. unfold requested. f_equal. eapply block_field; [eassumption| |reflexivity|].
  - unfold san_empty. destruct (san_DNS (ct_SAN t)), (san_Email (ct_SAN t)), (san_IP (ct_SAN t)), (san_URI (ct_SAN t)); reflexivity.
  - intros e M. apply bind_inv in M as (v & Ev & M). apply alt_names_der in Ev. subst v. injection M as <-. reflexivity.
Qed.
Lemma concat_els bodies : els bodies = List.concat (map (el 0 16 true) bodies). Proof. reflexivity. Qed.
Lemma append_cases exts : exts <> [] -> forall attrs,
  match appendExtensions attrs exts with Some l => placed exts attrs l [] | None => Forall (fun a => ~ holder a) attrs end.
Proof.
  intros N. assert (C : forall a attrs attrs', ~ holder a -> placed exts attrs attrs' [] -> placed exts (a :: attrs) (a :: attrs') []).
  { intros a attrs attrs' Ha Hp. inversion Hp; subst.
    - congruence.
    - rewrite (app_comm_cons pre _ a), (app_comm_cons pre _ a). apply P_into; [assumption|constructor; assumption|reflexivity]. }
  induction attrs as [|a attrs IH]; cbn [appendExtensions]; [constructor|].
  assert (K : ~ holder a -> match option_map (cons a) (appendExtensions attrs exts) with Some l => placed exts (a :: attrs) l [] | None => Forall (fun a => ~ holder a) (a :: attrs) end).
  { intros Ha. destruct (appendExtensions attrs exts) as [l|]; cbn [option_map]; [apply C; assumption|constructor; assumption]. }
  destruct a as [ty [[|v0 vs]|]]; cbn [as_Value as_Type] in *.
  - apply K. intros [_ H]. cbn in H. congruence.
  - destruct (oid_eqb ty oidExtensionRequest) eqn:T; cbn [negb].
    + apply oid_eqb_spec in T. subst ty. cbv zeta. apply (P_into exts [] v0 vs attrs); [exact N|constructor|].
      apply filter_ext. intros e. destruct (in_dec (list_eq_dec Z.eq_dec) (x_Id e) (map aa_Type (List.concat (map entries (v0 :: vs))))) as [H|H].
      * apply negb_false_iff. apply existsb_exists. apply in_map_iff in H as (x & E & Hx). exists x. split; [exact Hx|]. apply oid_eqb_spec. exact E.
      * apply negb_true_iff. destruct (existsb _ _) eqn:X; [|reflexivity]. exfalso. apply H. apply existsb_exists in X as (x & Hx & E). apply oid_eqb_spec in E. apply in_map_iff. exists x. split; [exact E|exact Hx].
    + apply K. intros [H _]. cbn [as_Type] in H. apply oid_eqb_spec in H. change ([1; 2; 840; 113549; 1; 9; 14]) with oidExtensionRequest in H. congruence.
  - apply K. intros [_ H]. cbn in H. congruence.
Qed.
Lemma placed_fine exts attrs l x : placed exts attrs l x -> Forall (fun e => valid_oid (x_Id e)) exts -> Forall attr_fine attrs -> Forall attr_fine l.
Proof.
  intros Hp Hx Ha. destruct Hp as [| |pre v0 vs post new N _ ->]; try assumption. apply Forall_app in Ha as [H1 H2]. inversion H2 as [|? ? [Ho Hv] H3]; subst. cbn [as_Type as_Value entries] in *.
  apply Forall_app. split; [exact H1|]. constructor; [|exact H3]. split; [exact Ho|]. cbn [as_Value entries]. inversion Hv as [|? ? V1 V2]; subst. constructor; [|exact V2]. cbn [entries]. apply Forall_app. split; [exact V1|].
  apply Forall_map. cbn [aa_Type aa_Value]. apply Forall_forall. intros e He. apply filter_In in He as [He _]. split; [|exact Logic.I]. rewrite Forall_forall in Hx. apply Hx. exact He.
Qed.
Lemma attributes_written attrs exts bodies : csrAttributes attrs exts = Ret (map rawEl bodies) -> Forall attr_fine attrs -> Forall (fun e => valid_oid (x_Id e)) exts ->
  exists l as_ x, placed exts attrs l x /\ Forall2 attribute_der l as_ /\ els bodies = List.concat as_ ++ x.
Proof.
  intros E Ha Hv. pose proof (fine_ok _ Hv) as He. unfold csrAttributes in E. destruct exts as [|e exts].
  - destruct (newRaw_spec _ _ E) as (b & Em & Q). apply map_rawEl_inj in Q. subst b. exists attrs, (map (el 0 16 true) bodies), []. split; [constructor; reflexivity|]. split; [|rewrite app_nil_r; reflexivity]. eapply F2_written; [|exact Ha|exact Em]. intros a c. apply attribute_written.
  - pose proof (append_cases (e :: exts) ltac:(discriminate) attrs) as A. destruct (appendExtensions attrs (e :: exts)) as [l|].
    { destruct (newRaw_spec _ _ E) as (b & Em & Q). apply map_rawEl_inj in Q. subst b. exists l, (map (el 0 16 true) bodies), []. split; [exact A|]. split; [|rewrite app_nil_r; reflexivity].
      eapply F2_written; [|exact (placed_fine _ _ _ _ A Hv Ha)|exact Em]. intros a c. apply attribute_written. }
    apply bind_inv in E as (r & Er & E). destruct (newRaw_spec _ _ Er) as (b & Em & ->).
    destruct (Marshal cExtAttr _) as [x| |] eqn:Ex; try discriminate. apply bind_inv in E as ([rv rest] & Eu & E). destruct (ext_attr_make _ _ Ex) as (ob & xb & Eo & Exb & Ebx).
    destruct (Z_lt_le_dec (zlen (attr_body ob [xb])) (2 ^ 31)) as [L|L]; [|destruct (large_unm cRaw _ L) as [q Q]; rewrite Ebx, Q in Eu; discriminate Eu].
    rewrite Ebx, unm_raw in Eu by exact L. assert (rv = rawEl (attr_body ob [xb])) by congruence. subst rv. clear Eu rest.
    assert (Q : map rawEl bodies = map rawEl (b ++ [attr_body ob [xb]])) by (rewrite map_app; cbn [map]; congruence). apply map_rawEl_inj in Q. subst bodies. clear E Er.
    exists attrs, (map (el 0 16 true) b), (extension_request (e :: exts)). split; [apply P_last; [discriminate|exact A]|]. split; [eapply F2_written; [|exact Ha|exact Em]; intros a c; apply attribute_written|]. rewrite els_app. f_equal. unfold els. cbn [map List.concat]. rewrite app_nil_r.
    apply seq_no in Exb as (es & Ee & Hx). cbn [entries] in Ee. rewrite (exts_map _ _ He Ee) in Hx. unfold extension_request, attr_body. rewrite el_seq, PropertiesWire.el_oid. unfold els. cbn [map List.concat]. rewrite app_nil_r, Hx, el_set, el_seq.
    assert (ob = oid_octets [1; 2; 840; 113549; 1; 9; 14]). { vm_compute in Eo. injection Eo as <-. reflexivity. } subst ob. reflexivity.
Qed.

(** ** C142 *)
Theorem C142_request : forall P rand t key der, CreateCertificateRequest P rand t (ASigner key) = Ret der -> zlen der < 2 ^ 31 ->
  strings_ok (ct_Subject t) -> ct_RawSubject t = [] \/ (exists c, ct_RawSubject t = SEQ c) -> Forall attr_fine (ct_Attributes t) -> Forall (fun e => valid_oid (x_Id e)) (ct_ExtraExtensions t) ->
  exists a alg subject spki kalg pk attributes attrs extra tbs digest sig,
    chosen_alg (sg_Public key) (ct_SignatureAlgorithm t) a /\ In (a, alg) algorithms /\ subject_written t subject /\
    MarshalPKIXPublicKey (sg_Public key) = Ret spki /\ spki = SEQ (kalg ++ DER 3 (0 :: pk)) /\ placed (requested t) (ct_Attributes t) attributes extra /\ Forall2 attribute_der attributes attrs /\
    tbs = csr_tbs subject spki (List.concat attrs ++ extra) /\
    (* the options never ask for PSS *)
    toSign P (fst (lookupDetails a)) tbs = Ret digest /\ sg_Sign key rand digest (fst (lookupDetails a), false) = Ret sig /\ der = cert_der tbs alg sig.
Proof.
  intros P rand t key der E Hz Hn Hraw Ha Hx. unfold CreateCertificateRequest in E. cbn [asSigner] in E. apply bind_inv in E as ([h sa] & Esp & E). apply bind_inv in E as ([pk pkai] & Epk & E).
  apply bind_inv in E as (exts & Eex & E). apply bind_inv in E as (raws & Er & E). apply bind_inv in E as (subj & Esu & E). cbv zeta in E. apply bind_inv in E as (tbs & Et & E).
  apply bind_inv in E as (digest & Ed & E). apply bind_inv in E as (sig & Eg & E).
  destruct (csr_raws _ _ _ Er) as [bodies ->]. apply requested_written in Eex. subst exts.
  assert (Hs : subject_written t subj /\ exists sb, subj = el 0 16 true sb).
  { unfold subject_written. destruct Hraw as [R|[c R]].
    - rewrite R in Esu |- *. split; [right; split; [reflexivity|]; apply C136_name; assumption|exact (name_seq _ _ Esu)].
    - assert (N : ct_RawSubject t <> []) by (rewrite R; discriminate). assert (Q : subj = ct_RawSubject t) by (destruct (ct_RawSubject t); [congruence|]; congruence). rewrite <- Q in *. split; [left; auto|]. exists c. rewrite R, el_seq. reflexivity. }
  destruct Hs as (Hs & sb & Hsb). subst subj.
  destruct (csr_tbs_parts None sb pkai pk bodies tbs eq_refl Et) as (spki & Ek & Etb). destruct (csr_parts _ _ _ _ E) as (tb & ab & Etb' & Eab & Hd). unfold Marshal in Eab, Ek.
  assert (tb = tbs).
  { pose proof (el_len 0 16 true (tb ++ ab ++ el 0 3 false (0 :: sig))) as L0. rewrite <- Hd in L0. rewrite !zlen_app in L0. pose proof (zlen_nonneg tb). pose proof (zlen_nonneg ab). pose proof (zlen_nonneg (el 0 3 false (0 :: sig))).
    exact (proj2 (raw_remake _ _ tr_Raw _ (tbs_of (Some tbs) (el 0 16 true sb) pkai pk bodies) (tbs_of None (el 0 16 true sb) pkai pk bodies) tbs tb eq_refl eq_refl Et Etb') ltac:(lia)). }
  subst tb. clear Etb' E. destruct (alg_written _ _ _ _ _ Esp Eab) as (a & Ca & Ia & La). destruct (spki_written _ _ _ _ Epk Ek) as (Hspki & kalg & Hk).
  assert (Hxr : Forall (fun e => valid_oid (x_Id e)) (requested t)).
  { unfold requested. apply Forall_app. split; [|exact Hx]. unfold field. destruct (_ && _); [|constructor]. constructor; [|constructor]. cbn [x_Id]. exists 2, 5, [29; 17]. split; [reflexivity|]. repeat split; try lia; repeat constructor; lia. }
  destruct (attributes_written _ _ _ Er Ha Hxr) as (attributes & attrs & extra & Pl & F & Q).
  exists a, ab, (el 0 16 true sb), spki, kalg, pk, attributes, attrs, extra, tbs, digest, sig. split; [exact Ca|]. split; [exact Ia|]. split; [exact Hs|]. split; [exact Hspki|]. split; [exact Hk|]. split; [exact Pl|]. split; [exact F|].
  rewrite La. cbn [fst]. split. { rewrite Etb, Q. unfold csr_tbs. rewrite (el_seq (_ ++ _)), el_c0. reflexivity. }
  split; [exact Ed|]. split; [exact Eg|]. rewrite Hd, el_seq, (el_der 0 3 false) by lia. reflexivity.
Qed.
Print Assumptions C142_request.
(** ** A case: [csr0] of PropertiesX509Csr.v, with an attribute whose two values are given in the wrong order *)
Definition csr0_der : bytes := Eval vm_compute in der_of (CreateCertificateRequest prims0 [] csr0 (ASigner rsa_signer)).
Example C142_instance :
  CreateCertificateRequest prims0 [] csr0 (ASigner rsa_signer) = Ret csr0_der /\ zlen csr0_der < 2 ^ 31 /\ strings_ok (ct_Subject csr0) /\ ct_RawSubject csr0 = [] /\ Forall attr_fine (ct_Attributes csr0) /\
  Forall (fun e => valid_oid (x_Id e)) (ct_ExtraExtensions csr0) /\
  csr0_der = cert_der
    (SEQ (INTEGER [0] ++ ca_name ++ SEQ (rsa_alg 1 ++ DER 3 (0 :: SEQ (INTEGER [35] ++ INTEGER [3]))) ++
      CTX0 (SEQ (OID (oid_octets [1; 2; 840; 113549; 1; 9; 7]) ++ SETOF (SEQ (SEQ (OID [0x55; 4; 3] ++ DER 19 (chars "a"))) ++ SEQ (SEQ (OID [0x55; 4; 3] ++ DER 19 (chars "z"))))) ++
            SEQ (OID (oid_octets [1; 2; 840; 113549; 1; 9; 14]) ++ SETOF (SEQ (
              SEQ (OID [0x55; 29; 17] ++ OCTETS (SEQ (DER 0x82 (chars "a.b") ++ DER 0x87 [1; 2; 3; 4]))) ++
              SEQ (OID [0x55; 29; 99] ++ [1; 1; 255] ++ OCTETS [5; 0]) ++ SEQ (OID [0x55; 29; 98] ++ OCTETS [5; 0; 1])))))))
    (rsa_alg 11) [1; 2; 3].
Proof.
  split; [vm_compute; reflexivity|]. split; [vm_compute; reflexivity|]. split; [exact issuer0_ok|]. split; [reflexivity|].
  assert (V : forall a b c d, 0 <= c < 2 ^ 31 -> 0 <= d < 2 ^ 31 -> a = 2 -> b = 5 -> valid_oid [a; b; c; d]).
  { intros a b c d Hc Hd -> ->. exists 2, 5, [c; d]. split; [reflexivity|]. repeat split; try lia. constructor; [exact Hc|]. constructor; [exact Hd|constructor]. }
  split. { constructor; [|constructor]. split.
    - exists 1, 2, [840; 113549; 1; 9; 7]. split; [reflexivity|]. repeat split; try lia. repeat (apply Forall_cons; [lia|]). apply Forall_nil.
    - assert (W : valid_oid [2; 5; 4; 3]) by (exists 2, 5, [4; 3]; split; [reflexivity|]; repeat split; try lia; repeat (apply Forall_cons; [lia|]); apply Forall_nil).
      cbn [entries as_Value attr0]. repeat (apply Forall_cons || apply Forall_nil); (split; [exact W|cbn [aa_Value]; apply bytes_okb_spec; reflexivity]). }
  split. { cbn [ct_ExtraExtensions csr0]. apply Forall_cons; [apply V; lia|]. apply Forall_cons; [apply V; lia|apply Forall_nil]. }
  vm_compute. reflexivity.
Qed.
(** a template with its own request for 2.5.29.98: the alternative names and the critical 2.5.29.99 join it, the template's
    other 2.5.29.98 does not; nothing is critical any more *)
Definition csr2_der : bytes := Eval vm_compute in der_of (CreateCertificateRequest prims0 [] csr2 (ASigner rsa_signer)).
Example C142_merged_instance :
  CreateCertificateRequest prims0 [] csr2 (ASigner rsa_signer) = Ret csr2_der /\ zlen csr2_der < 2 ^ 31 /\ strings_ok (ct_Subject csr2) /\ ct_RawSubject csr2 = [] /\ Forall attr_fine (ct_Attributes csr2) /\
  Forall (fun e => valid_oid (x_Id e)) (ct_ExtraExtensions csr2) /\
  csr2_der = cert_der
    (SEQ (INTEGER [0] ++ ca_name ++ SEQ (rsa_alg 1 ++ DER 3 (0 :: SEQ (INTEGER [35] ++ INTEGER [3]))) ++
      CTX0 (SEQ (OID (oid_octets [1; 2; 840; 113549; 1; 9; 7]) ++ SETOF (SEQ (SEQ (OID [0x55; 4; 3] ++ DER 19 (chars "a"))) ++ SEQ (SEQ (OID [0x55; 4; 3] ++ DER 19 (chars "z"))))) ++
            SEQ (OID (oid_octets [1; 2; 840; 113549; 1; 9; 14]) ++ SETOF (SEQ (
              SEQ (OID [0x55; 29; 98] ++ OCTETS [4; 0]) ++
              SEQ (OID [0x55; 29; 17] ++ OCTETS (SEQ (DER 0x82 (chars "a.b") ++ DER 0x87 [1; 2; 3; 4]))) ++
              SEQ (OID [0x55; 29; 99] ++ OCTETS [5; 0])))))))
    (rsa_alg 11) [1; 2; 3].
Proof.
  split; [vm_compute; reflexivity|]. split; [vm_compute; reflexivity|]. split; [exact issuer0_ok|]. split; [reflexivity|].
  assert (V : forall a b c d, 0 <= c < 2 ^ 31 -> 0 <= d < 2 ^ 31 -> a = 2 -> b = 5 -> valid_oid [a; b; c; d]).
  { intros a b c d Hc Hd -> ->. exists 2, 5, [c; d]. split; [reflexivity|]. repeat split; try lia. constructor; [exact Hc|]. constructor; [exact Hd|constructor]. }
  split. { constructor; [|constructor; [|constructor]]; split.
    - exists 1, 2, [840; 113549; 1; 9; 7]. split; [reflexivity|]. repeat split; try lia. repeat (apply Forall_cons; [lia|]). apply Forall_nil.
    - assert (W : valid_oid [2; 5; 4; 3]) by (exists 2, 5, [4; 3]; split; [reflexivity|]; repeat split; try lia; repeat (apply Forall_cons; [lia|]); apply Forall_nil).
      cbn [entries as_Value attr0]. repeat (apply Forall_cons || apply Forall_nil); (split; [exact W|cbn [aa_Value]; apply bytes_okb_spec; reflexivity]).
    - exists 1, 2, [840; 113549; 1; 9; 14]. split; [reflexivity|]. repeat split; try lia. repeat (apply Forall_cons; [lia|]). apply Forall_nil.
    - cbn [entries as_Value request_attr map]. repeat (apply Forall_cons || apply Forall_nil). split; [apply V; lia|exact Logic.I]. }
  split. { cbn [ct_ExtraExtensions csr2]. apply Forall_cons; [apply V; lia|]. apply Forall_cons; [apply V; lia|apply Forall_nil]. }
  vm_compute. reflexivity.
Qed.
