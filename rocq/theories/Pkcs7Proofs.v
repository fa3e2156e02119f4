(** * Signed PKCS#7 messages: lemmas *)
From Coq Require Import String Permutation Sorted.
From Verif Require Import Base Words SM3Spec SM3Model SM3Proofs ECModel SM2Model CryptoByte Asn1 Asn1Proofs Asn1Safe KeysModel KeysProofs P12Enc X509Model X509Sig X509Build PropertiesX509Sig X509CertProofs.
From Verif Require Import Pkcs7Model.
Open Scope Z_scope.

(** ** Specification: DER SET OF *)
(** lexicographic order of byte strings *)
Inductive lex_le : bytes -> bytes -> Prop :=
| lex_nil b : lex_le [] b
| lex_lt x y a b : x < y -> lex_le (x :: a) (y :: b)
| lex_eq x a b : lex_le a b -> lex_le (x :: a) (x :: b).
(** the DER encoding of the set with the given element encodings: the elements in ascending order inside a SET *)
Definition der_set (es : list bytes) (m : bytes) : Prop := exists es', Permutation es es' /\ Sorted lex_le es' /\ m = el 0 17 true (List.concat es').

(** ** Sorting *)
Lemma leb_lex a : forall b, bytes_leb a b = true <-> lex_le a b.
Proof.
  induction a as [|x a IH]; intros [|y b]; cbn [bytes_leb].
  - split; auto. constructor.
  - split; auto. constructor.
  - split; [discriminate|inversion 1].
  - destruct (Z.ltb_spec x y) as [L|L]; [split; auto; intros _; now constructor|]. destruct (Z.ltb_spec y x) as [M|M].
    + split; [discriminate|]. inversion 1; lia.
    + assert (x = y) as -> by lia. rewrite IH. split; [now constructor|]. inversion 1; subst; [lia|auto].
Qed.
Lemma leb_total a : forall b, bytes_leb a b = false -> bytes_leb b a = true.
Proof.
  induction a as [|x a IH]; intros [|y b]; cbn [bytes_leb]; try discriminate; auto.
  destruct (Z.ltb_spec x y); [discriminate|]. destruct (Z.ltb_spec y x); auto.
Qed.
Lemma lex_antisym a : forall b, lex_le a b -> lex_le b a -> a = b.
Proof. induction a as [|x a IH]; intros b H1 H2; inversion H1; subst; inversion H2; subst; auto; try lia. f_equal. auto. Qed.
Lemma lex_trans a : forall b c, lex_le a b -> lex_le b c -> lex_le a c.
Proof. induction a as [|x a IH]; intros b c H1 H2; [constructor|]. inversion H1; subst; inversion H2; subst; try (apply lex_lt; lia). apply lex_eq. eauto. Qed.
Lemma lex_refl a : lex_le a a. Proof. induction a; [constructor|now apply lex_eq]. Qed.
Lemma insert_perm x l : Permutation (x :: l) (insert_sorted x l).
Proof. induction l as [|y l IH]; cbn [insert_sorted]; auto. destruct (bytes_leb x y); auto. rewrite perm_swap. now constructor. Qed.
Lemma sort_perm l : Permutation l (sort_bytes l).
Proof. induction l as [|x l IH]; cbn [sort_bytes]; auto. rewrite <- insert_perm. now constructor. Qed.
Lemma insert_sorted_ok x l : Sorted lex_le l -> Sorted lex_le (insert_sorted x l).
Proof.
  induction 1 as [|y l Hs IH Hd]; cbn [insert_sorted]; [repeat constructor|]. destruct (bytes_leb x y) eqn:E.
  - constructor; [now constructor|]. constructor. now apply leb_lex.
  - apply leb_total in E. apply leb_lex in E. constructor; auto. destruct l as [|z l]; cbn [insert_sorted]; [now constructor|]. destruct (bytes_leb x z); constructor; auto. now inversion Hd.
Qed.
Lemma sort_sorted l : Sorted lex_le (sort_bytes l).
Proof. induction l; cbn [sort_bytes]; [constructor|]. now apply insert_sorted_ok. Qed.
Lemma sorted_unique l1 : forall l2, Permutation l1 l2 -> Sorted lex_le l1 -> Sorted lex_le l2 -> l1 = l2.
Proof.
  induction l1 as [|x l1 IH]; intros l2 P S1 S2; [now apply Permutation_nil in P|].
  destruct l2 as [|y l2]; [symmetry in P; now apply Permutation_nil in P|].
  assert (T : Relations_1.Transitive lex_le) by (intros a b c; apply lex_trans).
  pose proof (Sorted_extends T S1) as X1. pose proof (Sorted_extends T S2) as X2.
  assert (x = y).
  { assert (I1 : In x (y :: l2)) by (eapply Permutation_in; [exact P|left; auto]). assert (I2 : In y (x :: l1)) by (eapply Permutation_in; [symmetry; exact P|left; auto]).
    rewrite Forall_forall in X1, X2. destruct I1 as [|I1]; auto. destruct I2 as [|I2]; auto. apply lex_antisym; auto. }
  subst y. f_equal. apply IH; [eapply Permutation_cons_inv; eauto|now apply Sorted_inv in S1|now apply Sorted_inv in S2].
Qed.
Lemma sort_unique l1 l2 : Permutation l1 l2 -> sort_bytes l1 = sort_bytes l2.
Proof. intros P. apply sorted_unique; [|apply sort_sorted|apply sort_sorted]. rewrite <- !sort_perm. exact P. Qed.
Lemma sort_id l : Sorted lex_le l -> sort_bytes l = l.
Proof. intros H. apply sorted_unique; auto; [symmetry; apply sort_perm|apply sort_sorted]. Qed.
Lemma der_set_iff es m : der_set es m <-> m = el 0 17 true (List.concat (sort_bytes es)).
Proof.
  split.
  - intros (es' & P & S & ->). f_equal. f_equal. rewrite <- (sort_id es' S). symmetry. now apply sort_unique.
  - intros ->. exists (sort_bytes es). split; [apply sort_perm|]. split; [apply sort_sorted|reflexivity].
Qed.

(** ** Lengths encoding/asn1 does not read *)
Lemma len_loop_large r l : forall acc, bytes_ok l -> l <> [] -> 0 <= acc -> 2 ^ 31 <= acc * 256 ^ zlen l + be_to_Z l -> exists e, len_loop (List.length l) (l ++ r) acc = Err e.
Proof.
  induction l as [|b l IH]; intros acc Ho Hn Ha Hv; [congruence|]. apply bytes_ok_cons in Ho as [B Ho]. unfold byte_ok in B. cbn [List.length len_loop app].
  destruct (Z.leb_spec (2 ^ 23) acc); [eauto|]. cbv zeta. destruct (_ =? 0); [eauto|]. destruct l as [|c l].
  { exfalso. change (zlen [b]) with 1 in Hv. rewrite be_to_Z_cons in Hv. change (zlen (@nil Z)) with 0 in Hv. change (be_to_Z []) with 0 in Hv. change (256 ^ 1) with 256 in Hv. change (256 ^ 0) with 1 in Hv. lia. }
  apply IH; auto; [congruence|lia|]. rewrite be_to_Z_cons in Hv. rewrite zlen_cons in Hv. pose proof (zlen_nonneg (c :: l)). rewrite Z.pow_add_r in Hv by lia. change (256 ^ 1) with 256 in Hv. lia.
Qed.
Lemma ptl_large cls tag comp len r : 0 <= cls <= 3 -> 0 <= tag <= 30 -> 2 ^ 31 <= len -> exists e, parseTagAndLength (hdr cls tag comp len ++ r) = Err e.
Proof.
  intros Hc Ht Hl. unfold hdr, appendTagAndLength. cbn [t_class t_comp t_tag t_len]. replace (31 <=? tag) with false by lia. replace (128 <=? len) with true by lia.
  cbn [app]. unfold parseTagAndLength.
  replace ((cls * 64 + (if comp then 32 else 0) + tag) mod 32) with tag by (destruct comp; [replace (cls * 64 + 32 + tag) with (tag + (2 * cls + 1) * 32) by lia|replace (cls * 64 + 0 + tag) with (tag + (2 * cls) * 32) by lia]; rewrite Z.mod_add, Z.mod_small; lia).
  cbv zeta. replace (tag =? 31) with false by lia. cbn [bind]. replace (128 + Z.of_nat (nbytes len) <? 128) with false by lia.
  replace (128 + Z.of_nat (nbytes len) - 128) with (Z.of_nat (nbytes len)) by lia. rewrite Nat2Z.id.
  pose proof (nbytes_spec len ltac:(lia)) as [N1 N2].
  assert (Hn : (nbytes len > 0)%nat). { destruct (nbytes len); [|lia]. cbn in N2. lia. }
  destruct (len_loop_large r (Z_to_be (nbytes len) len) 0) as [e E].
  - apply Z_to_be_ok.
  - intros E. pose proof (Z_to_be_zlen (nbytes len) len) as L. rewrite E in L. change (zlen (@nil Z)) with 0 in L. lia.
  - lia.
  - rewrite be_to_Z_to_be_small by lia. lia.
  - rewrite Z_to_be_length in E. replace (Z.of_nat (nbytes len) =? 0) with false by lia. rewrite E. cbn [bind]. eauto.
Qed.

(** ** The encoding of the attributes *)
(** a RawValue's encoding *)
Definition raw_der (v : rawValue) : bytes :=
  match sl (rv_full v) with [] => el (rv_class v) (rv_tag v) (rv_comp v) (sl (rv_bytes v)) | f => f end.
(** the encoding of an attribute: SEQUENCE { type, value } *)
Definition attr_der (a : attribute) (e : bytes) : Prop := exists ob, oid_body (at_Type a) = Ret ob /\ e = el 0 16 true (el 0 6 false ob ++ raw_der (at_Value a)).
Lemma raw_whole_der v : raw_whole v = Ret (raw_der v).
Proof. unfold raw_whole, raw_der, el. destruct (sl (rv_full v)); reflexivity. Qed.
Lemma attr_marshal a e : Marshal cAttr a = Ret e <-> attr_der a e.
Proof.
  unfold Marshal, attr_der. split.
  - intros E. unfold makeField in E. cbn [p_omit p_opt p_def noP andb c_whole cAttr cStruct p_set c_tag c_body p_tag] in E.
    apply bind_inv in E as (body & Eb & E). change (Ret (el 0 16 true body) = Ret e) in E. assert (Ee : e = el 0 16 true body) by congruence. clear E.
    cbn [f_enc fcons fst snd] in Eb. apply bind_inv in Eb as (x & Ex & Eb). apply bind_inv in Eb as (y & Ey & Eb). apply bind_inv in Ey as (z & Ez & Ey).
    assert (z = raw_der (at_Value a)). { change (raw_whole (at_Value a) = Ret z) in Ez. rewrite raw_whole_der in Ez. congruence. }
    cbn [fnil f_enc bind] in Ey. assert (y = z) by (rewrite app_nil_r in Ey; congruence). subst y z.
    destruct (oid_body (at_Type a)) as [ob|s|] eqn:Eo.
    + rewrite (mk_oid _ _ Eo) in Ex. exists ob. split; auto. rewrite Ee. congruence.
    + exfalso. unfold makeField in Ex. cbn [p_omit p_opt p_def noP andb c_whole cOID prim p_set c_tag c_body p_tag] in Ex. rewrite Eo in Ex. discriminate Ex.
    + exfalso. unfold makeField in Ex. cbn [p_omit p_opt p_def noP andb c_whole cOID prim p_set c_tag c_body p_tag] in Ex. rewrite Eo in Ex. discriminate Ex.
  - intros (ob & Eo & ->). unfold cAttr. apply mk_struct. apply f_cons; [now apply mk_oid|]. apply f_one. change (raw_whole (at_Value a) = Ret (raw_der (at_Value a))). apply raw_whole_der.
Qed.
Lemma mapM_F2 {A B} (f : A -> outcome B) (R : A -> B -> Prop) : (forall a b, f a = Ret b <-> R a b) -> forall l ys, mapM f l = Ret ys <-> Forall2 R l ys.
Proof.
  intros H. induction l as [|a l IH]; intros ys; cbn [mapM].
  - split; [intros E; assert (ys = []) by congruence; subst; constructor|inversion 1; reflexivity].
  - split.
    + intros E. apply bind_inv in E as (y & Ey & E). apply bind_inv in E as (r & Er & E). assert (ys = y :: r) by congruence. subst. constructor; [now apply H|now apply IH].
    + inversion 1; subst. rewrite (proj2 (H _ _)) by eassumption. cbn [bind]. rewrite (proj2 (IH _)) by eassumption. reflexivity.
Qed.
Lemma make_set {A} (c : codec A) l m : makeField (cSeqOf false c) setP (Some l) = Ret m <-> exists es, mapM (makeField c noP) l = Ret es /\ m = el 0 17 true (List.concat (sort_bytes es)).
Proof.
  unfold makeField at 1. cbn [p_omit p_opt p_def setP andb c_whole cSeqOf p_set c_tag c_body p_tag]. change (TagSequence =? TagSequence) with true. cbn [negb andb]. change (TagSet =? TagSet) with true. unfold seq_body.
  destruct (mapM (makeField c noP) l) as [es|s|] eqn:E; cbn [bind]; [|split; [discriminate|intros (es & ? & _); discriminate]|split; [discriminate|intros (es & ? & _); discriminate]].
  assert (S : (if true && (1 <? List.length l)%nat then sort_bytes es else es) = sort_bytes es).
  { cbn [andb]. destruct (Nat.ltb_spec 1 (List.length l)) as [L|L]; auto. apply mapM_length in E. destruct es as [|x [|y es]]; auto. cbn [List.length] in E. lia. }
  change (match (if true && (1 <? List.length l)%nat then sort_bytes es else es) with x => Ret (el 0 17 true (List.concat x)) = Ret m end <-> (exists es0, Ret es = Ret es0 /\ m = el 0 17 true (List.concat (sort_bytes es0)))).
  rewrite S. split.
  - intros H. exists es. split; auto. change (Ret (el 0 17 true (List.concat (sort_bytes es))) = Ret m) in H. congruence.
  - intros (es' & E' & ->). assert (es' = es) by congruence. subst. reflexivity.
Qed.
Lemma marshalAttributes_iff l m : marshalAttributes (Some l) = Ret m <-> exists es, Forall2 attr_der l es /\ der_set es m /\ zlen m < 2 ^ 31.
Proof.
  assert (M : forall es, mapM (makeField cAttr noP) l = Ret es <-> Forall2 attr_der l es) by (apply mapM_F2; apply attr_marshal).
  unfold marshalAttributes. split.
  - intros E. apply bind_inv in E as (w & Ew & E). apply bind_inv in E as ([raw rest] & Er & E). assert (Em : m = sl (rv_bytes raw)) by congruence. clear E.
    unfold Marshal, makeField at 1 in Ew. cbn [p_omit p_opt p_def noP andb c_whole cAttrsStruct cStruct p_set c_tag c_body p_tag] in Ew. apply bind_inv in Ew as (b & Eb & Ew).
    change (Ret (el 0 16 true b) = Ret w) in Ew. assert (w = el 0 16 true b) by congruence. subst w. clear Ew.
    cbn [f_enc fcons fst snd fnil] in Eb. apply bind_inv in Eb as (x & Ex & Eb). cbn [bind] in Eb. assert (b = x) by (rewrite app_nil_r in Eb; congruence). subst b. clear Eb.
    apply make_set in Ex as (es & Es & Ex). apply M in Es.
    assert (Hz : zlen x < 2 ^ 31). { destruct (Z_lt_le_dec (zlen x) (2 ^ 31)) as [|L]; auto. exfalso. destruct (ptl_large 0 16 true (zlen x) x ltac:(lia) ltac:(lia) L) as [e Ee].
      unfold Unmarshal, parseField in Er. unfold el in Er. destruct (hdr_ne 0 16 true (zlen x) x) as (b0 & l0 & E0). rewrite E0 in Er, Ee. rewrite Ee in Er. discriminate Er. }
    pose proof (raw_parse noP _ _ _ [] eq_refl eq_refl (el_elem 0 16 true x ltac:(lia) ltac:(lia) Hz)) as R. rewrite app_nil_r in R.
    unfold Unmarshal in Er. rewrite R in Er. assert (raw = mkRaw 0 16 true (Some x) (Some (el 0 16 true x))) by (cbn [t_class t_tag t_comp] in Er; congruence). subst raw.
    cbn [rv_bytes sl] in Em. subst m. exists es. split; auto. split; auto. apply der_set_iff. exact Ex.
  - intros (es & Hes & Hm & Hz). apply M in Hes. apply der_set_iff in Hm. assert (Ex : makeField (cSeqOf false cAttr) setP (Some l) = Ret m) by (apply make_set; eauto).
    assert (Ew : Marshal cAttrsStruct (Some l) = Ret (el 0 16 true m)) by (unfold Marshal, cAttrsStruct; apply mk_struct; apply f_one; exact Ex).
    rewrite Ew. cbn [bind]. pose proof (raw_parse noP _ _ _ [] eq_refl eq_refl (el_elem 0 16 true m ltac:(lia) ltac:(lia) Hz)) as R. rewrite app_nil_r in R. unfold Unmarshal. rewrite R. reflexivity.
Qed.

(** ** What a successful decoding has read *)
Lemma Unmarshal_el {A} (c : codec A) s a r : c_any c = false -> bytes_ok s -> Unmarshal c s = Ret (a, r) ->
  exists body, s = el 0 (c_tag c) (c_comp c) body ++ r /\ zlen body < 2 ^ 31 /\ c_parse c (mkTL 0 (c_tag c) (zlen body) (c_comp c)) (el 0 (c_tag c) (c_comp c) body) body = Ret a.
Proof.
  intros Ha Ho E. unfold Unmarshal, parseField in E. destruct s as [|b s]; [discriminate E|]. apply bind_inv in E as ([t s1] & Et & E). cbn [p_exp noP] in E.
  apply ptl_inv in Et as (Es & Hc & Ht & Hl); auto. unfold parseFieldTail in E. cbn [p_exp p_tag p_set noP] in E. rewrite Ha in E. cbn [negb andb] in E.
  destruct ((negb (t_class t =? ClassUniversal) || negb (t_tag t =? c_tag c)) || negb (Bool.eqb (t_comp t) (c_comp c))) eqn:Em; [discriminate E|].
  apply orb_false_iff in Em as [Em E3]. apply orb_false_iff in Em as [E1 E2]. apply negb_false_iff in E1, E2, E3. apply Z.eqb_eq in E1, E2. apply eqb_prop in E3.
  destruct (Z.ltb_spec (zlen s1) (t_len t)) as [L|L]; [discriminate E|]. cbv zeta in E. apply bind_inv in E as (v & Ev & E).
  assert (v = a) by congruence. assert (r = skipn (Z.to_nat (t_len t)) s1) by congruence. subst v. clear E.
  remember (firstn (Z.to_nat (t_len t)) s1) as body eqn:Eb. assert (Hb : zlen body = t_len t). { unfold zlen in *. rewrite Eb, firstn_length. lia. }
  destruct t as [cl tg ln cm]. cbn [t_class t_tag t_len t_comp] in *. unfold ClassUniversal in E1. subst cl tg cm.
  assert (E' : b :: s = el 0 (c_tag c) (c_comp c) body ++ r).
  { unfold el. rewrite <- app_assoc, Hb, H0, Eb, firstn_skipn. exact Es. }
  exists body. split; [exact E'|]. split; [lia|]. rewrite Hb.
  replace (firstn (List.length (b :: s) - List.length (skipn (Z.to_nat ln) s1)) (b :: s)) with (el 0 (c_tag c) (c_comp c) body) in Ev; [exact Ev|].
  rewrite E', <- H0. symmetry. apply firstn_app_exact. rewrite app_length. lia.
Qed.
Lemma Unmarshal_bytes v d r : bytes_ok v -> Unmarshal cBytes v = Ret (d, r) -> v = el 0 4 false (sl d) ++ r /\ zlen (sl d) < 2 ^ 31.
Proof.
  intros Ho E. apply Unmarshal_el in E as (body & -> & Hz & E); auto. assert (d = Some body) by (cbn in E; congruence). subst d. auto.
Qed.
Lemma Unmarshal_bytes_ok d r : zlen d < 2 ^ 31 -> Unmarshal cBytes (el 0 4 false d ++ r) = Ret (Some d, r).
Proof. intros Hz. pose proof (Unmarshal_hdr cBytes d r eq_refl ltac:(apply tag_small; reflexivity) Hz) as E. unfold el. rewrite <- app_assoc. exact E. Qed.
(** the first attribute of a type *)
Definition first_attr (t : oid) (attrs : list attribute) (a : attribute) : Prop :=
  exists pre post, attrs = pre ++ a :: post /\ Forall (fun b => at_Type b <> t) pre /\ at_Type a = t.
Lemma find_first t attrs a : find (fun b => oid_eqb (at_Type b) t) attrs = Some a <-> first_attr t attrs a.
Proof.
  induction attrs as [|b attrs IH]; cbn [find].
  - split; [discriminate|]. intros (pre & post & E & _). destruct pre; discriminate E.
  - destruct (oid_eqb (at_Type b) t) eqn:Eb.
    + apply oid_eqb_spec in Eb. split.
      * intros E. assert (b = a) by congruence. subst b. exists [], attrs. auto.
      * intros (pre & post & E & F & Ea). destruct pre as [|p pre]; cbn [app] in E; [congruence|]. apply Forall_cons_iff in F as [F _]. congruence.
    + assert (Nb : at_Type b <> t) by (intros H; apply oid_eqb_spec in H; congruence). rewrite IH. split.
      * intros (pre & post & -> & F & Ea). exists (b :: pre), post. split; [reflexivity|]. split; auto.
      * intros (pre & post & E & F & Ea). destruct pre as [|p pre]; cbn [app] in E; [congruence|]. apply Forall_cons_iff in F as [_ F]. exists pre, post. split; [congruence|auto].
Qed.

(** ** Well-formed messages: what ParsePKCS7 produces *)
Definition raw_wf (v : rawValue) : Prop := raw_ok v /\ (sl (rv_full v) = [] -> 0 <= rv_class v <= 3 /\ 0 <= rv_tag v <= maxInt32).
Lemma eok_raw_wf : eok cRaw raw_wf.
Proof.
  split; [discriminate|]. split; [|right; discriminate]. intros a b ((H1 & H2) & Hc) E Hz. destruct (sl (rv_full a)) as [|x f] eqn:Ef.
  - destruct eok_raw as (_ & W & _). apply (W a b); auto. split; [split; [exact H1|rewrite Ef; exact H2]|]. apply Hc. reflexivity.
  - assert (E' : raw_whole a = Ret b) by (cbn in E; congruence). rewrite raw_whole_der in E'. unfold raw_der in E'. rewrite Ef in E'. assert (b = x :: f) by congruence. subst b. exact H2.
Qed.
Definition attr_wf (a : attribute) : Prop := raw_wf (at_Value a).
Definition signer_wf (s : signerInfo) : Prop := Forall attr_wf (lst (si_Attrs s)) /\ bytes_ok (sl (si_EncryptedDigest s)) /\ ias_Serial (si_IAS s) <> None.
Lemma attr_der_ok a e : attr_wf a -> attr_der a e -> zlen e < 2 ^ 32 -> bytes_ok e.
Proof.
  intros Hw E Hz. apply attr_marshal in E. assert (K : eok cAttr attr_wf).
  { unfold cAttr. eapply eok_struct.
    - apply feok_cons; [reflexivity|apply eok_oid|]. apply feok_cons; [reflexivity|apply eok_raw_wf|apply feok_nil].
    - intros x H. cbn. auto. }
  exact (eok_make cAttr attr_wf noP a e K eq_refl Hw E Hz).
Qed.
Lemma der_set_ok attrs es m : Forall attr_wf attrs -> Forall2 attr_der attrs es -> der_set es m -> zlen m < 2 ^ 31 -> bytes_ok m.
Proof.
  intros Hw Hd (es' & P & _ & ->) Hz. pose proof (el_len 0 17 true (List.concat es')). apply el_ok; try lia.
  assert (F : Forall (fun e => zlen e < 2 ^ 32) es').
  { assert (L : zlen (List.concat es') < 2 ^ 32) by lia. clear - L. induction es' as [|e l IH]; constructor; cbn [List.concat] in L; rewrite zlen_app in L; pose proof (zlen_nonneg e); pose proof (zlen_nonneg (List.concat l)); [lia|apply IH; lia]. }
  assert (G : Forall (fun e => zlen e < 2 ^ 32 -> bytes_ok e) es).
  { clear - Hw Hd. revert Hw. induction Hd; intros Hw; constructor; apply Forall_cons_iff in Hw as [W1 W2]; auto. intros L. eapply attr_der_ok; eauto. }
  apply (Permutation_Forall P) in G. clear - F G. unfold bytes_ok. induction es' as [|e l IH]; cbn [List.concat]; [constructor|]. apply Forall_cons_iff in F as [F1 F2]. apply Forall_cons_iff in G as [G1 G2].
  apply Forall_app. split; auto. apply G1. exact F1.
Qed.

(** ** sm3.New, Write, Sum *)
Lemma sm3Digest_spec data : bytes_ok data -> sm3Digest data = Ret (SM3 data).
Proof.
  intros H. unfold sm3Digest, dWrite. destruct (write_rep sm3_New [] data new_rep H) as (d' & E & R).
  rewrite E. cbn [bind]. unfold sm3_Sum_method. rewrite (checkSum_spec d' _ R). reflexivity.
Qed.

(** ** Properties of decoded values *)
(** [Q] holds of every value decoded from a present element *)
Definition pok {A} (c : codec A) (Q : A -> Prop) : Prop := forall t f i a, bytes_ok f -> f <> [] -> bytes_ok i -> c_parse c t f i = Ret a -> Q a.
Definition fpok {X} (fs : fcodec X) (Q : X -> Prop) : Prop := forall s x, bytes_ok s -> f_dec fs s = Ret x -> Q x.
Lemma pok_field {A} (c : codec A) Q p s a r : pok c Q -> (setDefault c p = None \/ Q (c_zero c) /\ (forall d a, c_int c d = Some a -> Q a)) -> bytes_ok s -> parseField c p s = Ret (a, r) -> Q a /\ bytes_ok r.
Proof.
  intros V D Ho E. split; [|eapply parseField_rest_ok; eauto]. apply parseField_inv in E; auto. destruct E as [[E _]|E].
  - destruct D as [D|[Z0 I]]; [congruence|]. unfold setDefault in E. destruct (p_opt p); [|discriminate]. destruct (p_def p) as [d|].
    + destruct (c_int c d) eqn:Ed; assert (H : Q (c_zero c) \/ True) by auto; [eapply I; rewrite Ed; congruence|congruence].
    + congruence.
  - destruct E as (t & pre & inner & -> & Hne & Hz & E). unfold bytes_ok in Ho. apply Forall_app in Ho as [H1 H2]. apply Forall_app in H2 as [H2 H3].
    eapply V; [| |exact H2|exact E]; [apply Forall_app; auto|destruct pre; [congruence|discriminate]].
Qed.
Lemma pok_true {A} (c : codec A) : pok c (fun _ => True). Proof. intros t f i a _ _ _ _. exact I. Qed.
Lemma fpok_nil : fpok fnil (fun _ => True). Proof. intros s x _ _. exact I. Qed.
Lemma fpok_cons {A B} p (c : codec A) (fs : fcodec B) Q R : pok c Q -> (setDefault c p = None \/ Q (c_zero c) /\ (forall d a, c_int c d = Some a -> Q a)) -> fpok fs R ->
  fpok (fcons p c fs) (fun x => Q (fst x) /\ R (snd x)).
Proof.
  intros V D F s x Ho E. cbn [f_dec fcons] in E. apply bind_inv in E as ([a r] & Ea & E). apply bind_inv in E as (b & Eb & E). assert (x = (a, b)) by congruence. subst x.
  destruct (pok_field c Q p s a r V D Ho Ea) as [Qa Or]. split; auto. cbn [snd]. eapply F; eauto.
Qed.
Lemma pok_struct {X A} (fs : fcodec X) (mk : X -> A) un Q (R : A -> Prop) : fpok fs Q -> (forall x, Q x -> R (mk x)) -> pok (cStruct fs mk un) R.
Proof. intros F M t f i a _ _ Hi E. cbn [c_parse cStruct] in E. apply bind_inv in E as (x & Ex & E). assert (a = mk x) by congruence. subst a. eauto. Qed.
Lemma pok_seq {A} b (c : codec A) Q : pok c Q -> pok (cSeqOf b c) (fun l => Forall Q (lst l)).
Proof.
  intros V t f i a _ _ Hi E. cbn [c_parse cSeqOf] in E. apply bind_inv in E as (n & _ & E). apply bind_inv in E as (l & El & E). assert (a = Some l) by congruence. subst a. cbn [lst]. clear E.
  revert i l Hi El. induction n as [|n IH]; intros i l Hi El; cbn [parse_elems] in El; [assert (l = []) by congruence; subst; constructor|].
  apply bind_inv in El as ([x r] & Ex & El). apply bind_inv in El as (l' & El' & El). assert (l = x :: l') by congruence. subst l.
  destruct (pok_field c Q noP i x r V (or_introl eq_refl) Hi Ex) as [Qx Or]. constructor; eauto.
Qed.
Lemma pok_raw : pok cRaw (fun v => raw_ok v /\ sl (rv_full v) <> []).
Proof. intros t f i a Hf Hn Hi E. cbn in E. assert (a = mkRaw (t_class t) (t_tag t) (t_comp t) (Some i) (Some f)) by congruence. subst a. split; [split|]; auto. Qed.
Lemma pok_bytes : pok cBytes (fun b => bytes_ok (sl b)).
Proof. intros t f i a Hf Hn Hi E. assert (a = Some i) by (cbn in E; congruence). subst a. exact Hi. Qed.
Lemma pok_big : pok cBig (fun n => n <> None).
Proof. intros t f i a Hf Hn Hi E. cbn in E. destruct (checkASN1Integer i); [|discriminate]. congruence. Qed.
Lemma pok_attr : pok cAttr (fun a => attr_wf a /\ sl (rv_full (at_Value a)) <> []).
Proof.
  eapply pok_struct.
  - apply fpok_cons; [apply pok_true|left; reflexivity|]. apply fpok_cons; [apply pok_raw|left; reflexivity|apply fpok_nil].
  - intros (x & y & []) (_ & (H1 & H2) & _). cbn [fst snd] in *. split; [split; [exact H1|]|exact H2]. intros E. destruct (H2 E).
Qed.
(** the attributes of a parsed signer have their original encoding *)
Definition signer_full (s : signerInfo) : Prop := Forall (fun a => sl (rv_full (at_Value a)) <> []) (lst (si_Attrs s)).
Lemma pok_si : pok cSI (fun s => signer_wf s /\ signer_full s).
Proof.
  eapply pok_struct.
  - apply fpok_cons; [apply pok_true|left; reflexivity|]. apply fpok_cons; [|left; reflexivity|].
    { eapply (pok_struct _ _ _ _ (fun i => ias_Serial i <> None)).
      - apply fpok_cons; [apply pok_true|left; reflexivity|]. apply fpok_cons; [apply pok_big|left; reflexivity|apply fpok_nil].
      - intros (x & y & []) (_ & H & _). exact H. }
    apply fpok_cons; [apply pok_true|left; reflexivity|]. apply fpok_cons; [apply pok_seq, pok_attr|right; split; [constructor|discriminate]|].
    apply fpok_cons; [apply pok_true|left; reflexivity|]. apply fpok_cons; [apply pok_bytes|left; reflexivity|]. apply fpok_cons; [apply pok_true|right; split; [exact I|discriminate]|apply fpok_nil].
  - intros (a & b & c & d & e & f & g & []) (_ & Hb & _ & Hd & _ & Hf & _). cbn [fst snd] in *. unfold signer_wf, signer_full. cbn [si_Attrs si_EncryptedDigest si_IAS].
    split; [split; [|split; auto]|]; (eapply Forall_impl; [|exact Hd]; intros x Hx; apply Hx).
Qed.
