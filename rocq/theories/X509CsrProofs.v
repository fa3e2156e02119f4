(** * Certificate requests: encoding followed by decoding *)
From Coq Require Import String Permutation Sorted ZifyBool.
From Verif Require Import Base Words Utf8 ECModel SM3Model SM2Model CryptoByte Asn1 Asn1Proofs Asn1Safe KeysModel KeysProofs P12Enc X509Model X509Sig X509Build X509StrProofs X509ExtProofs X509CertProofs PropertiesX509Sig Pkcs7Proofs Pkcs7Round X509Crl X509CrlProofs X509Spki.
Open Scope Z_scope.

(** ** sequences of raw SEQUENCEs *)
Definition rawEl (b : bytes) : rawValue := mkRaw 0 16 true (Some b) (Some (el 0 16 true b)).
Definition els (bodies : list bytes) : bytes := List.concat (map (el 0 16 true) bodies).
Lemma els_in bodies b : In b bodies -> zlen (el 0 16 true b) <= zlen (els bodies).
Proof.
  unfold els. induction bodies as [|c l IH]; [intros []|]. cbn [map List.concat]. rewrite zlen_app. pose proof (zlen_nonneg (el 0 16 true c)). pose proof (zlen_nonneg (List.concat (map (el 0 16 true) l))).
  intros [->|Hb]; [lia|]. specialize (IH Hb). lia.
Qed.
Lemma raws_parse s bodies t full : zlen (els bodies) < 2 ^ 31 -> c_parse (cSeqOf s cRaw) t full (els bodies) = Ret (Some (map rawEl bodies)).
Proof.
  intros Hz. cbn [c_parse cSeqOf]. assert (HE : Forall (fun b => zlen b < 2 ^ 31) bodies).
  { apply Forall_forall. intros b Hb. pose proof (els_in bodies b Hb). pose proof (el_len 0 16 true b). lia. }
  unfold els in *. rewrite (count_elems_concat cRaw (map (el 0 16 true) bodies)).
  - cbn [bind]. rewrite map_length. assert (P : forall bodies, Forall (fun b => zlen b < 2 ^ 31) bodies -> parse_elems cRaw (List.length bodies) (List.concat (map (el 0 16 true) bodies)) = Ret (map rawEl bodies)).
    { clear. intros l H. induction H as [|b l Hb Hl IH]; [reflexivity|]. cbn [List.length map List.concat parse_elems].
      rewrite (raw_parse noP _ (mkTL 0 16 (zlen b) true) b _ eq_refl eq_refl (el_elem 0 16 true b ltac:(lia) ltac:(lia) Hb)). cbn [bind]. rewrite IH. reflexivity. }
    rewrite P by exact HE. reflexivity.
  - clear Hz. induction HE as [|b l Hb Hl IH]; constructor; auto. exists (mkTL 0 16 (zlen b) true), b. split; [apply el_elem; [lia|lia|exact Hb]|left; reflexivity].
  - lia.
Qed.
Lemma raws_make bodies : mapM (makeField cRaw noP) (map rawEl bodies) = Ret (map (el 0 16 true) bodies).
Proof.
  induction bodies as [|b l IH]; [reflexivity|]. cbn [map mapM]. change (makeField cRaw noP (rawEl b)) with (raw_whole (rawEl b)). unfold raw_whole, rawEl at 1. cbn [rv_full sl].
  pose proof (el_ne 0 16 true b) as N. destruct (el 0 16 true b) eqn:E; [congruence|]. cbn [bind]. rewrite IH. reflexivity.
Qed.
(** the attributes field *)
Lemma attrs_field_make bodies : makeField (cSeqOf false cRaw) (implicitP 0) (Some (map rawEl bodies)) = Ret (el 2 0 true (els bodies)).
Proof. unfold makeField. cbn [p_omit p_opt p_def implicitP andb c_whole cSeqOf p_set c_tag c_body p_tag]. unfold seq_body. rewrite raws_make. reflexivity. Qed.
Lemma attrs_field bodies : field_rt (cSeqOf false cRaw) (implicitP 0) (Some (map rawEl bodies)) (Some (map rawEl bodies)).
Proof.
  apply make_rt; [cbn; unfold maxInt32; lia|reflexivity|apply tag_small; reflexivity|reflexivity|split; reflexivity|]. intros body t full E Hz.
  cbn [c_body cSeqOf] in E. unfold seq_body in E. rewrite raws_make in E. cbn [bind] in E.
  change ((if p_set (implicitP 0) then TagSet else c_tag (cSeqOf false cRaw)) =? TagSet) with false in E. cbn [andb] in E. assert (body = els bodies) by (unfold els; congruence). subst body. now apply raws_parse.
Qed.
(** ** codecs that write SEQUENCEs *)
Definition writes_seq {A} (c : codec A) : Prop := forall a bs, makeField c noP a = Ret bs -> exists b, bs = el 0 16 true b.
Lemma seqs_of {A} (c : codec A) l es : writes_seq c -> mapM (makeField c noP) l = Ret es -> exists bodies, es = map (el 0 16 true) bodies.
Proof.
  intros W. revert es. induction l as [|a l IH]; intros es E; cbn [mapM] in E; [exists []; cbn; congruence|]. apply bind_inv in E as (x & Ex & E). apply bind_inv in E as (r & Er & E).
  destruct (W _ _ Ex) as [b ->]. destruct (IH _ Er) as [bs ->]. exists (b :: bs). cbn [map]. congruence.
Qed.
Lemma ws_struct {X A} (fs : fcodec X) (mk : X -> A) un : writes_seq (cStruct fs mk un).
Proof.
  intros a bs E. unfold makeField in E. cbn [p_omit noP p_opt andb p_def c_whole cStruct p_set c_tag c_body p_tag c_comp] in E. apply bind_inv in E as (b & _ & E). exists b.
  change (Ret (el 0 16 true b) = Ret bs) in E. congruence.
Qed.
Lemma ws_seq {A} (c : codec A) : writes_seq (cSeqOf false c).
Proof.
  intros a bs E. unfold makeField in E. cbn [p_omit noP p_opt andb p_def c_whole cSeqOf p_set c_tag c_body p_tag c_comp] in E. apply bind_inv in E as (b & _ & E). exists b.
  change (Ret (el 0 16 true b) = Ret bs) in E. congruence.
Qed.
Lemma large_unm {A} (c : codec A) b : 2 ^ 31 <= zlen b -> exists e, Unmarshal c (el 0 16 true b) = Err e.
Proof.
  intros L. destruct (ptl_large 0 16 true (zlen b) b ltac:(lia) ltac:(lia) L) as [e Ee]. unfold Unmarshal, parseField, el. destruct (hdr_ne 0 16 true (zlen b) b) as (b0 & l0 & E0). rewrite E0 in Ee |- *. rewrite Ee. cbn [bind]. eauto.
Qed.
Lemma unm_seq {A} (c : codec A) b : c_any c = false -> c_tag c = 16 -> c_comp c = true -> zlen b < 2 ^ 31 -> Unmarshal c (el 0 16 true b) = do a <- c_parse c (mkTL 0 16 (zlen b) true) (el 0 16 true b) b; Ret (a, []).
Proof. intros Ha Ht Hc Hz. pose proof (Unmarshal_hdr c b [] Ha ltac:(lia) Hz) as U. rewrite app_nil_r, Ht, Hc in U. exact U. Qed.
Lemma unm_raw b : zlen b < 2 ^ 31 -> Unmarshal cRaw (el 0 16 true b) = Ret (rawEl b, []).
Proof. intros Hz. pose proof (raw_parse noP _ _ _ [] eq_refl eq_refl (el_elem 0 16 true b ltac:(lia) ltac:(lia) Hz)) as R. rewrite app_nil_r in R. exact R. Qed.

(** ** attributes *)
(** newRawAttributes gives the encodings of the attributes *)
Lemma newRaw_spec attrs raws : newRawAttributes attrs = Ret raws -> exists bodies, mapM (makeField cATVset noP) attrs = Ret (map (el 0 16 true) bodies) /\ raws = map rawEl bodies.
Proof.
  unfold newRawAttributes. intros E. apply bind_inv in E as (b & Eb & E). unfold Marshal in Eb. unfold makeField in Eb. cbn [p_omit noP p_opt andb p_def c_whole cSeqOf p_set c_tag c_body p_tag c_comp] in Eb.
  apply bind_inv in Eb as (body & Eb & Eh). change (Ret (el 0 16 true body) = Ret b) in Eh. assert (b = el 0 16 true body) by congruence. subst b. clear Eh.
  unfold seq_body in Eb. destruct (mapM (makeField cATVset noP) attrs) as [es| |] eqn:Em; cbn [bind] in Eb; try discriminate. destruct (seqs_of cATVset _ _ (ws_struct _ _ _) Em) as [bodies ->].
  change (Ret (els bodies) = Ret body) in Eb. assert (body = els bodies) by congruence. subst body. clear Eb. exists bodies. split; [reflexivity|].
  destruct (Z_lt_le_dec (zlen (els bodies)) (2 ^ 31)) as [L|L].
  2:{ destruct (large_unm (cSeqOf false cRaw) (els bodies) L) as [e Ee]. rewrite Ee in E. discriminate E. }
  rewrite unm_seq in E by (reflexivity || exact L). rewrite raws_parse in E by exact L. cbn [bind] in E. congruence.
Qed.
(** encoding of an attribute: its type and the SET of its values *)
Definition attr_body (ob : bytes) (vals : list bytes) : bytes := el 0 6 false ob ++ el 0 17 true (els vals).
Lemma sorted_seqs {A} (c : codec A) l es : writes_seq c -> mapM (makeField c noP) l = Ret es -> exists vals l2, Permutation l l2 /\ sort_bytes es = map (el 0 16 true) vals /\ mapM (makeField c noP) l2 = Ret (map (el 0 16 true) vals).
Proof.
  intros W E. destruct (mapM_perm _ _ _ (sort_bytes es) E (sort_perm es)) as (l2 & P2 & E2). destruct (seqs_of _ _ _ W E2) as [vals Ev]. exists vals, l2. rewrite Ev in E2. auto.
Qed.
Lemma set_make {A} (c : codec A) v bs : writes_seq c -> makeField (cSeqOf false c) setP v = Ret bs -> exists vals l2, bs = el 0 17 true (els vals) /\
  Permutation (match v with Some l => l | None => [] end) l2 /\ mapM (makeField c noP) l2 = Ret (map (el 0 16 true) vals).
Proof.
  intros W E. destruct v as [l|].
  - apply make_set in E as (es & Em & ->). destruct (sorted_seqs _ _ _ W Em) as (vals & l2 & P2 & Es & E2). exists vals, l2. rewrite Es. auto.
  - exists [], []. change (Ret (el 0 17 true []) = Ret bs) in E. split; [unfold els; cbn [map List.concat]; congruence|]. split; [constructor|reflexivity].
Qed.
Lemma attr_make a b : makeField cATVset noP a = Ret (el 0 16 true b) -> exists ob vals l2, oid_body (as_Type a) = Ret ob /\ el 0 16 true b = el 0 16 true (attr_body ob vals) /\
  Permutation (match as_Value a with Some l => l | None => [] end) l2 /\ mapM (makeField (cSeqOf false cATVa) noP) l2 = Ret (map (el 0 16 true) vals).
Proof.
  intros E. unfold makeField in E. cbn [p_omit noP p_opt andb p_def c_whole cATVset cStruct p_set c_tag c_body p_tag c_comp] in E. apply bind_inv in E as (body & Eb & E).
  change (Ret (el 0 16 true body) = Ret (el 0 16 true b)) in E. assert (X : el 0 16 true body = el 0 16 true b) by congruence. clear E. cbn [f_enc fcons fst snd fnil] in Eb.
  apply bind_inv in Eb as (x & Ex & Eb). apply bind_inv in Eb as (y & Ey & Eb). apply bind_inv in Ey as (z & Ez & Ey). cbn [bind] in Ey. rewrite app_nil_r in Ey.
  assert (y = z) by congruence. subst y. apply (set_make _ _ _ (ws_seq cATVa)) in Ez as (vals & l2 & -> & P2 & E2).
  unfold makeField in Ex. cbn [p_omit noP p_opt andb p_def c_whole cOID prim p_set c_tag c_body p_tag c_comp] in Ex. apply bind_inv in Ex as (ob & Eo & Ex). change (Ret (el 0 6 false ob) = Ret x) in Ex.
  assert (x = el 0 6 false ob) by congruence. subst x. exists ob, vals, l2. split; [exact Eo|]. split; [|auto]. rewrite <- X. unfold attr_body. congruence.
Qed.
Lemma parse_univ {A} (c : codec A) p cls tag comp b tail a' : c_any c = false -> p_tag p = None -> p_exp p = false -> cls = 0 -> tag = (if p_set p then TagSet else c_tag c) -> comp = c_comp c -> 0 <= tag <= 30 -> zlen b < 2 ^ 31 ->
  (forall t f, c_parse c t f b = Ret a') -> parseField c p (el cls tag comp b ++ tail) = Ret (a', tail).
Proof.
  intros Ha Ht Hx -> Hg Hc Hr Hz HP. pose proof (zlen_nonneg b). unfold parseField, el. rewrite <- app_assoc. destruct (hdr_ne 0 tag comp (zlen b) (b ++ tail)) as (x & l & Ex'). rewrite Ex' at 1.
  rewrite hdr_parse by (unfold maxInt32; lia). cbn [bind]. rewrite Hx. apply tail_ok; rewrite ?Hx, ?Ht; auto.
Qed.
(** reading an attribute as a type and raw values *)
Lemma oid_field o ob tail : oid_ok o -> oid_body o = Ret ob -> zlen (el 0 6 false ob) < 2 ^ 31 -> parseField cOID noP (el 0 6 false ob ++ tail) = Ret (o, tail).
Proof. intros Ho Eo Hz. apply (oid_rt_f o Ho); [now apply mk_oid|exact Hz]. Qed.
Lemma attr_sizes ob vals : zlen (el 0 6 false ob) + zlen (els vals) + 4 <= zlen (el 0 16 true (attr_body ob vals)).
Proof. pose proof (el_len 0 16 true (attr_body ob vals)) as L. unfold attr_body in *. rewrite zlen_app in L. pose proof (el_len 0 17 true (els vals)). lia. Qed.
Lemma attr_read {A B} (c : codec A) (mk : oid * (option (list A) * unit) -> B) un o ob vals l : oid_ok o -> oid_body o = Ret ob -> zlen (el 0 16 true (attr_body ob vals)) < 2 ^ 31 ->
  (forall t f, c_parse (cSeqOf false c) t f (els vals) = Ret (Some l)) ->
  Unmarshal (cStruct (fcons noP cOID (fcons setP (cSeqOf false c) fnil)) mk un) (el 0 16 true (attr_body ob vals)) = Ret (mk (o, (Some l, tt)), []).
Proof.
  intros Ho Eo Hz HP. pose proof (attr_sizes ob vals). pose proof (zlen_nonneg (els vals)). pose proof (zlen_nonneg (el 0 6 false ob)). pose proof (el_len 0 16 true (attr_body ob vals)).
  rewrite unm_seq by (reflexivity || lia). cbn [c_parse cStruct f_dec fcons]. unfold attr_body at 1. rewrite (oid_field o ob _ Ho Eo) by lia. cbn [bind].
  rewrite <- (app_nil_r (el 0 17 true (els vals))). rewrite (parse_univ (cSeqOf false c) setP 0 17 true (els vals) [] (Some l)) by (reflexivity || lia || exact HP). reflexivity.
Qed.
Lemma p10_read o ob vals : oid_ok o -> oid_body o = Ret ob -> zlen (el 0 16 true (attr_body ob vals)) < 2 ^ 31 -> Unmarshal cP10Attr (el 0 16 true (attr_body ob vals)) = Ret ((o, Some (map rawEl vals)), []).
Proof.
  intros Ho Eo Hz. unfold cP10Attr. rewrite (attr_read cRaw _ _ o ob vals (map rawEl vals)); auto. intros t f. apply raws_parse. pose proof (attr_sizes ob vals). pose proof (zlen_nonneg (el 0 6 false ob)). lia.
Qed.
(** as a type and lists of types and values *)
Lemma vals_parse {A} (c : codec A) l l' vals : (forall a, c_whole c a = None) -> 0 <= c_tag c <= 30 -> Forall2 (field_rt c noP) l l' -> mapM (makeField c noP) l = Ret (map (el 0 16 true) vals) -> zlen (els vals) < 2 ^ 31 ->
  forall t f, c_parse (cSeqOf false c) t f (els vals) = Ret (Some l').
Proof.
  intros Hw Ht HF E Hz t f. refine (seq_body_rt false c false l l' Hw Ht (or_introl eq_refl) HF (els vals) t f _ Hz). cbn [c_body cSeqOf]. unfold seq_body. rewrite E. reflexivity.
Qed.
Lemma atvset_read o ob vals l l' : oid_ok o -> oid_body o = Ret ob -> zlen (el 0 16 true (attr_body ob vals)) < 2 ^ 31 ->
  mapM (makeField (cSeqOf false cATVa) noP) l = Ret (map (el 0 16 true) vals) -> Forall2 (field_rt (cSeqOf false cATVa) noP) l l' ->
  Unmarshal cATVset (el 0 16 true (attr_body ob vals)) = Ret (mkATVset o (Some l'), []).
Proof.
  intros Ho Eo Hz E HF. unfold cATVset. rewrite (attr_read (cSeqOf false cATVa) _ _ o ob vals l'); auto. apply (vals_parse (cSeqOf false cATVa) l l' vals); auto; [apply tag_small; reflexivity|].
  pose proof (attr_sizes ob vals). pose proof (zlen_nonneg (el 0 6 false ob)). lia.
Qed.
(** values that survive *)
Definition value_ok (v : anyVal) : Prop :=
  match v with VStr s => bytes_ok s | VBytes _ => True | VInt n => - 2 ^ 63 <= n < 2 ^ 63 | VOid o => oid_ok o | _ => False end.
Lemma value_rt v : value_ok v -> field_rt cAny noP v v.
Proof.
  destruct v as [|s|n|b|o|t|b]; cbn [value_ok]; intros H; try contradiction.
  - now apply str_any_rt.
  - intros bs tail E Hz. change (Ret (el 0 2 false (bigint_content n)) = Ret bs) in E. assert (bs = el 0 2 false (bigint_content n)) by congruence. subst bs. pose proof (el_len 0 2 false (bigint_content n)).
    apply (any_tail _ (mkTL 0 2 (zlen (bigint_content n)) false) (bigint_content n)); [apply el_elem; lia|]. unfold parseAny. cbn [t_comp t_class t_tag orb negb].
    change ((do n0 <- int_parse (bigint_content n); Ret (VInt n0)) = Ret (VInt n)). pose proof (int_body_rt false n H (bigint_content n) (mkTL 0 2 0 false) [] eq_refl) as R. cbn [c_parse cInt prim] in R. rewrite R by lia. reflexivity.
  - intros bs tail E Hz. destruct (oid_body o) as [ob| |] eqn:Eo; [|change (makeField cOID noP o = Ret bs) in E; unfold makeField in E; cbn in E; rewrite Eo in E; discriminate E|change (makeField cOID noP o = Ret bs) in E; unfold makeField in E; cbn in E; rewrite Eo in E; discriminate E].
    change (makeField cOID noP o = Ret bs) in E. rewrite (mk_oid o ob Eo) in E. assert (bs = el 0 6 false ob) by congruence. subst bs. pose proof (el_len 0 6 false ob).
    apply (any_tail _ (mkTL 0 6 (zlen ob) false) ob); [apply el_elem; lia|]. unfold parseAny. cbn [t_comp t_class t_tag orb negb].
    change ((do x <- oid_parse ob; Ret (VOid x)) = Ret (VOid o)). rewrite (oid_rt o ob H Eo). reflexivity.
  - apply bytes_any_rt.
Qed.
Definition atv_ok (a : ATVa) : Prop := oid_ok (aa_Type a) /\ value_ok (aa_Value a).
Definition vals_ok (v : option (list ATVa)) : Prop := exists l, v = Some l /\ Forall atv_ok l.
Lemma vals_rt v : vals_ok v -> field_rt (cSeqOf false cATVa) noP v v.
Proof.
  intros (l & -> & H). apply make_rt; [reflexivity|reflexivity|apply tag_small; reflexivity|reflexivity|split; reflexivity|]. apply seq_body_rt; [reflexivity|apply tag_small; reflexivity|left; reflexivity|].
  induction H as [|[o v] l [Ho Hv] Hl IH]; constructor; auto. apply atva_rt; [exact Ho|now apply value_rt].
Qed.
Definition set_ok (a : ATVset) : Prop := oid_ok (as_Type a) /\ exists l, as_Value a = Some l /\ Forall vals_ok l.
(** the same attribute: its values are a set *)
Definition same_attr (a a' : ATVset) : Prop := as_Type a = as_Type a' /\ exists l l', as_Value a = Some l /\ as_Value a' = Some l' /\ Permutation l l'.

(** ** extension requests *)
Definition exts_body (es : list bytes) : bytes := List.concat es.
Lemma ext_attr_make exts b : Marshal cExtAttr (oidExtensionRequest, Some [Some exts]) = Ret b ->
  exists ob xb, oid_body oidExtensionRequest = Ret ob /\ makeField (cSeqOf false cExt) noP (Some exts) = Ret (el 0 16 true xb) /\ b = el 0 16 true (attr_body ob [xb]).
Proof.
  intros E. unfold Marshal, makeField in E. cbn [p_omit noP p_opt andb p_def c_whole cExtAttr cStruct p_set c_tag c_body p_tag c_comp] in E. apply bind_inv in E as (body & Eb & E).
  change (Ret (el 0 16 true body) = Ret b) in E. assert (b = el 0 16 true body) by congruence. subst b. clear E. cbn [f_enc fcons fst snd fnil] in Eb.
  apply bind_inv in Eb as (x & Ex & Eb). apply bind_inv in Eb as (y & Ey & Eb). apply bind_inv in Ey as (z & Ez & Ey). cbn [bind] in Ey. rewrite app_nil_r in Ey.
  assert (y = z) by congruence. subst y. apply (set_make _ _ _ (ws_seq cExt)) in Ez as (vals & l2 & -> & P2 & E2).
  apply Permutation_length_1_inv in P2. subst l2. cbn [mapM] in E2. apply bind_inv in E2 as (e & Ee & E2). cbn [bind] in E2.
  destruct vals as [|xb [|? ?]]; [discriminate E2| |discriminate E2]. cbn [map] in E2. assert (e = el 0 16 true xb) by congruence. subst e.
  destruct (oid_body oidExtensionRequest) as [ob| |] eqn:Eo; [|discriminate Eo|discriminate Eo]. rewrite (mk_oid _ ob Eo) in Ex. assert (x = el 0 6 false ob) by congruence. subst x.
  exists ob, xb. split; [reflexivity|]. split; [exact Ee|]. unfold attr_body. f_equal. congruence.
Qed.
Lemma exts_unm exts b : Forall ext_ok exts -> makeField (cSeqOf false cExt) noP (Some exts) = Ret (el 0 16 true b) -> zlen (el 0 16 true b) < 2 ^ 31 -> Unmarshal (cSeqOf false cExt) (el 0 16 true b) = Ret (Some exts, []).
Proof.
  intros H E Hz. pose proof (exts_field noP exts H) as R. specialize (R eq_refl eq_refl eq_refl eq_refl (el 0 16 true b) []). rewrite app_nil_r in R. apply R; auto.
Qed.
(** an extension read as a type and a value: a critical one loses its value *)
Definition ext_attr (e : Extension) : ATVa := mkATVa (x_Id e) (if x_Critical e then VNone else VBytes (x_Value e)).
Lemma seqs_parse {A} (c : codec A) (l : list A) bodies : c_any c = false -> c_tag c = 16 -> c_comp c = true ->
  Forall2 (fun b a => forall tail, parseField c noP (el 0 16 true b ++ tail) = Ret (a, tail)) bodies l -> zlen (els bodies) < 2 ^ 31 ->
  forall s t f, c_parse (cSeqOf s c) t f (els bodies) = Ret (Some l).
Proof.
  intros Ha Ht Hc HF Hz s t f. cbn [c_parse cSeqOf]. assert (HE : Forall (fun b => zlen b < 2 ^ 31) bodies).
  { apply Forall_forall. intros b Hb. pose proof (els_in bodies b Hb). pose proof (el_len 0 16 true b). lia. }
  unfold els in *. rewrite (count_elems_concat c (map (el 0 16 true) bodies)).
  - cbn [bind]. rewrite map_length. assert (P : parse_elems c (List.length bodies) (List.concat (map (el 0 16 true) bodies)) = Ret l).
    { clear - HF. induction HF as [|b a bs l Hb Hl IH]; [reflexivity|]. cbn [List.length map List.concat parse_elems]. rewrite Hb. cbn [bind]. rewrite IH. reflexivity. }
    rewrite P. reflexivity.
  - clear Hz HF. induction HE as [|b l' Hb Hl IH]; constructor; auto. exists (mkTL 0 16 (zlen b) true), b. split; [apply el_elem; [lia|lia|exact Hb]|right; cbn; rewrite Ht, Hc; auto].
  - lia.
Qed.
Lemma ext_make e bs : makeField cExt noP e = Ret bs -> exists ob, oid_body (x_Id e) = Ret ob /\
  bs = el 0 16 true (el 0 6 false ob ++ (if x_Critical e then el 0 1 false [255] else []) ++ el 0 4 false (x_Value e)).
Proof.
  intros E. unfold makeField in E. cbn [p_omit noP p_opt andb p_def c_whole cExt cStruct p_set c_tag c_body p_tag c_comp] in E. apply bind_inv in E as (body & Eb & E).
  change (Ret (el 0 16 true body) = Ret bs) in E. assert (bs = el 0 16 true body) by congruence. subst bs. clear E. cbn [f_enc fcons fst snd fnil] in Eb.
  apply bind_inv in Eb as (x & Ex & Eb). apply bind_inv in Eb as (y & Ey & Eb). apply bind_inv in Ey as (z & Ez & Ey). apply bind_inv in Ey as (w & Ew & Ey). apply bind_inv in Ew as (v & Ev & Ew).
  cbn [bind] in Ew. rewrite app_nil_r in Ew. assert (w = v) by congruence. subst w. clear Ew.
  unfold makeField in Ex. cbn [p_omit noP p_opt andb p_def c_whole cOID prim p_set c_tag c_body p_tag c_comp] in Ex. apply bind_inv in Ex as (ob & Eo & Ex). change (Ret (el 0 6 false ob) = Ret x) in Ex.
  assert (x = el 0 6 false ob) by congruence. subst x. exists ob. split; [exact Eo|]. f_equal.
  change (Ret (el 0 4 false (x_Value e)) = Ret v) in Ev. assert (v = el 0 4 false (x_Value e)) by congruence. subst v.
  assert (Y : y = z ++ el 0 4 false (x_Value e)) by congruence. assert (B : body = el 0 6 false ob ++ y) by congruence. rewrite B, Y. clear - Ez. f_equal. f_equal.
  destruct (x_Critical e); [change (Ret (el 0 1 false [255]) = Ret z) in Ez|change (Ret (@nil Z) = Ret z) in Ez]; congruence.
Qed.
(** ... and so it is read *)
Lemma ext_as_atv e bs : ext_ok e -> makeField cExt noP e = Ret bs -> zlen bs < 2 ^ 31 -> forall tail, parseField cATVa noP (bs ++ tail) = Ret (ext_attr e, tail).
Proof.
  intros Ho E Hz tail. destruct (ext_make e bs E) as (ob & Eo & ->). remember ((if x_Critical e then el 0 1 false [255] else []) ++ el 0 4 false (x_Value e)) as w eqn:Ew.
  pose proof (el_len 0 16 true (el 0 6 false ob ++ w)) as L. rewrite zlen_app in L. pose proof (zlen_nonneg w). pose proof (zlen_nonneg (el 0 6 false ob)). pose proof (el_len 0 4 false (x_Value e)). pose proof (zlen_nonneg (x_Value e)).
  apply (parse_univ cATVa noP 0 16 true); try reflexivity; [lia|rewrite zlen_app; lia|]. intros t f. cbn [c_parse cATVa cStruct f_dec fcons]. rewrite (oid_field _ ob _ Ho Eo) by lia. cbn [bind].
  unfold ext_attr. destruct (x_Critical e).
  - subst w. rewrite (any_tail (el 0 1 false [255]) (mkTL 0 1 1 false) [255] (el 0 4 false (x_Value e)) VNone); [reflexivity| |reflexivity]. change (mkTL 0 1 1 false) with (mkTL 0 1 (zlen [255]) false). apply el_elem; [lia|lia|vm_compute; reflexivity].
  - cbn [app] in Ew. subst w. rewrite <- (app_nil_r (el 0 4 false (x_Value e))).
    rewrite (any_tail (el 0 4 false (x_Value e)) (mkTL 0 4 (zlen (x_Value e)) false) (x_Value e) [] (VBytes (x_Value e))); [reflexivity| |reflexivity]. apply el_elem; lia.
Qed.
Lemma exts_body_of exts xb : makeField (cSeqOf false cExt) noP (Some exts) = Ret (el 0 16 true xb) -> exists bodies, mapM (makeField cExt noP) exts = Ret (map (el 0 16 true) bodies) /\ el 0 16 true xb = el 0 16 true (els bodies).
Proof.
  intros E. unfold makeField in E. cbn [p_omit noP p_opt andb p_def c_whole cSeqOf p_set c_tag c_body p_tag c_comp] in E. apply bind_inv in E as (body & Eb & E).
  change (Ret (el 0 16 true body) = Ret (el 0 16 true xb)) in E. unfold seq_body in Eb. destruct (mapM (makeField cExt noP) exts) as [es| |] eqn:Em; cbn [bind] in Eb; try discriminate.
  destruct (seqs_of cExt _ _ (ws_struct _ _ _) Em) as [bodies ->]. change (Ret (els bodies) = Ret body) in Eb. exists bodies. split; [reflexivity|]. congruence.
Qed.
Lemma exts_value_len exts xb e : makeField (cSeqOf false cExt) noP (Some exts) = Ret (el 0 16 true xb) -> In e exts -> zlen (x_Value e) <= zlen (el 0 16 true xb).
Proof.
  intros E Hi. destruct (exts_body_of exts xb E) as (bodies & Em & ->). pose proof (el_len 0 16 true (els bodies)) as L. enough (zlen (x_Value e) <= zlen (els bodies)) by lia. clear L E.
  revert bodies Em. induction exts as [|a l IH]; [destruct Hi|]. intros bodies Em. cbn [mapM] in Em. apply bind_inv in Em as (x & Ex & Em). apply bind_inv in Em as (r & Er & Em). destruct bodies as [|b bs]; [discriminate Em|]. cbn [map] in Em.
  assert (x = el 0 16 true b) by congruence. assert (r = map (el 0 16 true) bs) by congruence. subst x r. clear Em. unfold els. cbn [map List.concat]. rewrite zlen_app. fold (els bs). pose proof (zlen_nonneg (els bs)). pose proof (zlen_nonneg (el 0 16 true b)).
  destruct Hi as [->|Hi]; [|specialize (IH Hi bs Er); lia]. destruct (ext_make e _ Ex) as (ob & _ & Eb). assert (W : exists w, el 0 16 true b = el 0 16 true (el 0 6 false ob ++ w ++ el 0 4 false (x_Value e))) by (eexists; exact Eb). clear Eb. destruct W as [w Eb].
  pose proof (el_len 0 16 true (el 0 6 false ob ++ w ++ el 0 4 false (x_Value e))) as L. rewrite <- Eb in L. rewrite !zlen_app in L. pose proof (el_len 0 4 false (x_Value e)). pose proof (zlen_nonneg (el 0 6 false ob)). pose proof (zlen_nonneg w). lia.
Qed.
Lemma exts_as_atvs exts bodies : Forall ext_ok exts -> mapM (makeField cExt noP) exts = Ret (map (el 0 16 true) bodies) -> zlen (els bodies) < 2 ^ 31 ->
  Forall2 (fun b a => forall tail, parseField cATVa noP (el 0 16 true b ++ tail) = Ret (a, tail)) bodies (map ext_attr exts).
Proof.
  intros H. revert bodies. induction H as [|e l He Hl IH]; intros bodies E Hz; cbn [mapM] in E.
  - destruct bodies; [constructor|discriminate E].
  - apply bind_inv in E as (x & Ex & E). apply bind_inv in E as (r & Er & E). destruct bodies as [|b bs]; [discriminate E|]. cbn [map] in E. assert (x = el 0 16 true b) by congruence. assert (r = map (el 0 16 true) bs) by congruence. subst x r. clear E.
    unfold els in Hz. cbn [map List.concat] in Hz. rewrite zlen_app in Hz. pose proof (zlen_nonneg (el 0 16 true b)). pose proof (zlen_nonneg (List.concat (map (el 0 16 true) bs))).
    cbn [map]. constructor; [apply ext_as_atv; [exact He|exact Ex|lia]|]. apply IH; [exact Er|unfold els; lia].
Qed.
Lemma ext_attr_read exts b : Forall ext_ok exts -> Marshal cExtAttr (oidExtensionRequest, Some [Some exts]) = Ret b -> zlen b < 2 ^ 31 ->
  Unmarshal cATVset b = Ret (mkATVset oidExtensionRequest (Some [Some (map ext_attr exts)]), []) /\
  exists v, Unmarshal cP10Attr b = Ret ((oidExtensionRequest, Some [v]), []) /\ Unmarshal (cSeqOf false cExt) (sl (rv_full v)) = Ret (Some exts, []) /\ Forall (fun e => zlen (x_Value e) < 2 ^ 31) exts.
Proof.
  intros H E Hz. destruct (ext_attr_make exts b E) as (ob & xb & Eo & Ex & ->). assert (Oo : oid_ok oidExtensionRequest) by oidok.
  pose proof (attr_sizes ob [xb]) as S. pose proof (zlen_nonneg (el 0 6 false ob)). assert (S1 : zlen (el 0 16 true xb) <= zlen (els [xb])) by (apply els_in; left; reflexivity). split.
  - unfold cATVset. rewrite (attr_read (cSeqOf false cATVa) _ _ oidExtensionRequest ob [xb] [Some (map ext_attr exts)] Oo Eo Hz); [reflexivity|].
    intros t f. destruct (exts_body_of exts xb Ex) as (bodies & Em & Exb). apply seqs_parse; [reflexivity|reflexivity|reflexivity| |lia]. constructor; [|constructor].
    intros tail. rewrite Exb in S1 |- *. pose proof (el_len 0 16 true (els bodies)). apply parse_univ; try reflexivity; [lia|lia|].
    apply (seqs_parse cATVa (map ext_attr exts) bodies); try reflexivity; [|lia]. apply exts_as_atvs; [exact H|exact Em|lia].
  - exists (rawEl xb). split; [apply (p10_read oidExtensionRequest ob [xb] Oo Eo Hz)|]. cbn [rv_full rawEl sl]. split; [apply exts_unm; [exact H|exact Ex|lia]|]. apply Forall_forall. intros e Hi. pose proof (exts_value_len exts xb e Ex Hi). lia.
Qed.
(** ** names: the two ways of writing them agree *)
Lemma make_seq_ext {A B} s (c : codec A) (c' : codec B) l l' : mapM (makeField c noP) l = mapM (makeField c' noP) l' -> List.length l = List.length l' ->
  makeField (cSeqOf s c) noP (Some l) = makeField (cSeqOf s c') noP (Some l').
Proof. intros E L. unfold makeField. cbn [p_omit noP p_opt andb p_def c_whole cSeqOf p_set c_tag c_body p_tag c_comp]. unfold seq_body. rewrite E, L. reflexivity. Qed.
Lemma mapM_map_ext {A B C} (f : A -> outcome C) (g : B -> outcome C) (h : A -> B) l : (forall a, f a = g (h a)) -> mapM f l = mapM g (map h l).
Proof. intros E. induction l as [|a l IH]; [reflexivity|]. cbn [map mapM]. rewrite E, IH. reflexivity. Qed.
Lemma marshalName_any n : marshalName n = Marshal cRDNs (rdns_of n).
Proof.
  unfold marshalName, Marshal, cRDNs, rdns_of. rewrite <- (map_map (map toAny) Some).
  apply make_seq_ext; [|now rewrite !map_length].
  rewrite !map_map. clear. induction n as [|r n IH]; [reflexivity|]. cbn [map mapM]. rewrite IH. f_equal. apply make_seq_ext; [|now rewrite map_length]. apply mapM_map_ext. reflexivity.
Qed.
(** ** attributes as they are read *)
Lemma raw_unsome b : sl (rv_full (rawEl b)) = el 0 16 true b. Proof. reflexivity. Qed.
Lemma attr_back a b : set_ok a -> makeField cATVset noP a = Ret (el 0 16 true b) -> zlen (el 0 16 true b) < 2 ^ 31 -> exists a', same_attr a a' /\ Unmarshal cATVset (el 0 16 true b) = Ret (a', []).
Proof.
  intros (Ho & l & El & HF) E Hz. destruct (attr_make a b E) as (ob & vals & l2 & Eo & Eb & P2 & E2). rewrite El in P2. rewrite Eb in Hz |- *.
  exists (mkATVset (as_Type a) (Some l2)). split; [split; [reflexivity|exists l, l2; auto]|]. apply (atvset_read _ ob vals l2 l2 Ho Eo Hz E2).
  assert (HF2 : Forall vals_ok l2) by (eapply Permutation_Forall; eauto). clear - HF2. induction HF2; constructor; auto. now apply vals_rt.
Qed.
Lemma attrs_back attrs : Forall set_ok attrs -> forall bodies, mapM (makeField cATVset noP) attrs = Ret (map (el 0 16 true) bodies) -> zlen (els bodies) < 2 ^ 31 ->
  exists attrs', Forall2 same_attr attrs attrs' /\ forall rest r, parseRawAttributes rest = Ret r -> parseRawAttributes (map rawEl bodies ++ rest) = Ret (attrs' ++ r).
Proof.
  induction 1 as [|a l Ha Hl IH]; intros bodies E Hz; cbn [mapM] in E.
  - destruct bodies; [|discriminate E]. exists []. split; [constructor|]. auto.
  - apply bind_inv in E as (x & Ex & E). apply bind_inv in E as (r & Er & E). destruct bodies as [|b bs]; [discriminate E|]. cbn [map] in E. assert (x = el 0 16 true b) by congruence. assert (r = map (el 0 16 true) bs) by congruence. subst x r. clear E.
    unfold els in Hz. cbn [map List.concat] in Hz. rewrite zlen_app in Hz. pose proof (zlen_nonneg (el 0 16 true b)). pose proof (zlen_nonneg (List.concat (map (el 0 16 true) bs))).
    destruct (IH bs Er) as (l' & F' & R'); [unfold els; lia|]. destruct (attr_back a b Ha Ex) as (a' & Sa & Ua); [lia|]. exists (a' :: l'). split; [constructor; auto|].
    intros rest r Hr. cbn [map app parseRawAttributes]. rewrite raw_unsome, Ua. rewrite (R' rest r Hr). reflexivity.
Qed.
(** attributes of other types hold no extensions *)
Lemma attrs_no_exts attrs : Forall (fun a => oid_ok (as_Type a) /\ as_Type a <> oidExtensionRequest) attrs -> forall bodies, mapM (makeField cATVset noP) attrs = Ret (map (el 0 16 true) bodies) -> zlen (els bodies) < 2 ^ 31 ->
  forall rest, parseCSRExtensions (map rawEl bodies ++ rest) = parseCSRExtensions rest.
Proof.
  induction 1 as [|a l [Ho Ha] Hl IH]; intros bodies E Hz rest; cbn [mapM] in E.
  - destruct bodies; [|discriminate E]. reflexivity.
  - apply bind_inv in E as (x & Ex & E). apply bind_inv in E as (r & Er & E). destruct bodies as [|b bs]; [discriminate E|]. cbn [map] in E. assert (x = el 0 16 true b) by congruence. assert (r = map (el 0 16 true) bs) by congruence. subst x r. clear E.
    unfold els in Hz. cbn [map List.concat] in Hz. rewrite zlen_app in Hz. pose proof (zlen_nonneg (el 0 16 true b)). pose proof (zlen_nonneg (List.concat (map (el 0 16 true) bs))).
    cbn [map app parseCSRExtensions]. rewrite raw_unsome. destruct (attr_make a b Ex) as (ob & vals & l2 & Eo & Eb & P2 & E2). rewrite Eb. rewrite (p10_read _ ob vals Ho Eo) by (rewrite <- Eb; lia).
    assert (Hne : oid_eqb (as_Type a) oidExtensionRequest = false). { destruct (oid_eqb (as_Type a) oidExtensionRequest) eqn:Q; [|reflexivity]. apply oid_eqb_spec in Q. contradiction. }
    rewrite Hne. destruct vals as [|v vs]; cbn [map negb]; apply (IH bs Er); unfold els; lia.
Qed.
(** extensions written as attribute values *)
Definition as_value (e : Extension) : ATVa := mkATVa (x_Id e) (VBytes (x_Value e)).
Definition plain (e : Extension) : Extension := mkExt (x_Id e) false (x_Value e).
Definition request_attr (exts : list Extension) : ATVset := mkATVset oidExtensionRequest (Some [Some (map as_value exts)]).
Lemma as_value_make e : makeField cATVa noP (as_value e) = makeField cExt noP (plain e).
Proof.
  unfold makeField, as_value, plain. cbn [p_omit noP p_opt andb p_def c_whole cATVa cExt cStruct p_set c_tag c_body p_tag c_comp f_enc fcons fst snd fnil aa_Type aa_Value x_Id x_Critical x_Value].
  destruct (makeField cOID noP (x_Id e)); reflexivity.
Qed.
Lemma request_value exts : makeField (cSeqOf false cATVa) noP (Some (map as_value exts)) = makeField (cSeqOf false cExt) noP (Some (map plain exts)).
Proof.
  apply make_seq_ext; [|now rewrite !map_length]. induction exts as [|e l IH]; [reflexivity|]. cbn [map mapM]. rewrite as_value_make, IH. reflexivity.
Qed.
Lemma request_back exts b : Forall ext_ok exts -> makeField cATVset noP (request_attr exts) = Ret (el 0 16 true b) -> zlen (el 0 16 true b) < 2 ^ 31 ->
  exists v, Unmarshal cP10Attr (el 0 16 true b) = Ret ((oidExtensionRequest, Some [v]), []) /\ Unmarshal (cSeqOf false cExt) (sl (rv_full v)) = Ret (Some (map plain exts), []) /\ Forall (fun e => zlen (x_Value e) < 2 ^ 31) exts.
Proof.
  intros H E Hz. destruct (attr_make _ b E) as (ob & vals & l2 & Eo & Eb & P2 & E2). cbn [as_Type as_Value request_attr] in Eo, P2. apply Permutation_length_1_inv in P2. subst l2.
  cbn [mapM] in E2. apply bind_inv in E2 as (e & Ee & E2). cbn [bind] in E2. destruct vals as [|xb [|? ?]]; [discriminate E2| |discriminate E2]. cbn [map] in E2. assert (e = el 0 16 true xb) by congruence. subst e. clear E2.
  rewrite Eb in Hz |- *. pose proof (attr_sizes ob [xb]). pose proof (zlen_nonneg (el 0 6 false ob)). assert (S1 : zlen (el 0 16 true xb) <= zlen (els [xb])) by (apply els_in; left; reflexivity).
  exists (rawEl xb). split; [apply (p10_read oidExtensionRequest ob [xb] ltac:(oidok) Eo Hz)|]. cbn [rv_full rawEl sl]. rewrite request_value in Ee. split; [apply exts_unm; [|exact Ee|lia]; clear - H; induction H; constructor; auto|].
  apply Forall_forall. intros e Hi. pose proof (exts_value_len (map plain exts) xb (plain e) Ee (in_map plain _ _ Hi)) as Q. cbn [x_Value plain] in Q. lia.
Qed.
(** ** the request *)
(** marshalling with the raw encoding filled in gives the same bytes *)
Lemma raw_remake {X A} (fs : fcodec X) (mk : option bytes -> X -> A) raw un a a0 tbs bs : sl (raw a0) = [] -> raw a = Some tbs ->
  makeField (cStructRaw fs mk raw un) noP a0 = Ret tbs -> makeField (cStructRaw fs mk raw un) noP a = Ret bs -> zlen tbs <= zlen bs /\ (zlen bs < 2 ^ 31 -> bs = tbs).
Proof.
  intros H0 Ha E0 E. unfold makeField in E0, E. cbn [p_omit noP p_opt andb p_def c_whole cStructRaw p_set c_tag c_body p_tag c_comp] in E0, E. rewrite H0 in E0. rewrite Ha in E. cbn [sl] in E.
  apply bind_inv in E0 as (body & Eb & E0). change (Ret (el 0 16 true body) = Ret tbs) in E0. assert (tbs = el 0 16 true body) by congruence. subst tbs. clear E0.
  pose proof (el_ne 0 16 true body) as Ne. destruct (Z_lt_le_dec (zlen body) (2 ^ 31)) as [L|L].
  - assert (D : (match el 0 16 true body with [] => f_enc fs (un a) | r => Ret (stripTagAndLength r) end) = Ret body).
    { rewrite <- (strip_el 0 16 true body ltac:(lia) ltac:(lia) L) at 2. destruct (el 0 16 true body); [congruence|reflexivity]. }
    change (bind (match el 0 16 true body with [] => f_enc fs (un a) | r => Ret (stripTagAndLength r) end) (fun b => Ret (el 0 16 true b)) = Ret bs) in E. rewrite D in E. cbn [bind] in E. assert (bs = el 0 16 true body) by congruence. subst bs. split; [lia|reflexivity].
  - destruct (ptl_large 0 16 true (zlen body) body ltac:(lia) ltac:(lia) L) as [e Ee].
    assert (D : (match el 0 16 true body with [] => f_enc fs (un a) | r => Ret (stripTagAndLength r) end) = Ret (el 0 16 true body)).
    { assert (S : stripTagAndLength (el 0 16 true body) = el 0 16 true body) by (unfold stripTagAndLength, el; rewrite Ee; reflexivity). rewrite <- S at 2. destruct (el 0 16 true body); [congruence|reflexivity]. }
    change (bind (match el 0 16 true body with [] => f_enc fs (un a) | r => Ret (stripTagAndLength r) end) (fun b => Ret (el 0 16 true b)) = Ret bs) in E. rewrite D in E. cbn [bind] in E. assert (bs = el 0 16 true (el 0 16 true body)) by congruence. subst bs.
    pose proof (el_len 0 16 true (el 0 16 true body)). pose proof (el_len 0 16 true body). split; [lia|]. intros. lia.
Qed.
Lemma subject_rt b : field_rt cRaw noP (mkRaw 0 0 false None (Some (el 0 16 true b))) (rawEl b).
Proof.
  intros bs tail E Hz. change (raw_whole (mkRaw 0 0 false None (Some (el 0 16 true b))) = Ret bs) in E. unfold raw_whole in E. cbn [rv_full sl] in E.
  assert (bs = el 0 16 true b). { pose proof (el_ne 0 16 true b). destruct (el 0 16 true b); congruence. } subst bs. pose proof (el_len 0 16 true b).
  exact (raw_parse noP _ _ _ tail eq_refl eq_refl (el_elem 0 16 true b ltac:(lia) ltac:(lia) ltac:(lia))).
Qed.
(** the key info keeps its encoding *)
Lemma pki_rt ai ai' b spki : field_rt cAI noP ai ai' -> Marshal cPKI (mkPKI None ai (fullBits b)) = Ret spki -> zlen spki < 2 ^ 31 -> field_rt cPKI noP (mkPKI None ai (fullBits b)) (mkPKI (Some spki) ai' (fullBits b)).
Proof.
  intros Ha E Hz. unfold cPKI. eapply (structRaw_to _ _ pki_Raw _ _ (ai', (fullBits b, tt)) spki); [reflexivity|reflexivity| |exact E|exact Hz].
  apply frt_cons; [exact Ha|]. apply frt_cons; [apply bits_rt|apply frt_nil].
Qed.
Definition tbs_of (raw : option bytes) (subject : bytes) (ai : AI) (pk : bytes) (bodies : list bytes) : tbsCSR :=
  mkTbsCSR raw 0 (mkRaw 0 0 false None (Some subject)) (mkPKI None ai (fullBits pk)) (Some (map rawEl bodies)).
Lemma csr_tbs_parts raw sb ai pk bodies tbs : sl raw = [] -> Marshal cTbsCSR (tbs_of raw (el 0 16 true sb) ai pk bodies) = Ret tbs -> exists spki,
  Marshal cPKI (mkPKI None ai (fullBits pk)) = Ret spki /\ tbs = el 0 16 true ([2; 1; 0] ++ el 0 16 true sb ++ spki ++ el 2 0 true (els bodies)).
Proof.
  intros Hr E. unfold Marshal, makeField in E. cbn [p_omit noP p_opt andb p_def c_whole cTbsCSR cStructRaw p_set c_tag c_body p_tag c_comp tbs_of tr_Raw] in E. rewrite Hr in E. apply bind_inv in E as (body & Eb & E).
  change (Ret (el 0 16 true body) = Ret tbs) in E. assert (tbs = el 0 16 true body) by congruence. subst tbs. clear E. cbn [f_enc fcons fst snd fnil tr_Version tr_Subject tr_PublicKey tr_Attributes] in Eb.
  apply bind_inv in Eb as (v & Ev & Eb). apply bind_inv in Eb as (r1 & Er1 & Eb). apply bind_inv in Er1 as (s & Es & Er1). apply bind_inv in Er1 as (r2 & Er2 & Er1). apply bind_inv in Er2 as (k & Ek & Er2).
  apply bind_inv in Er2 as (r3 & Er3 & Er2). apply bind_inv in Er3 as (at' & Eat & Er3). cbn [bind] in Er3. rewrite app_nil_r in Er3. assert (r3 = at') by congruence. subst r3. clear Er3.
  change (makeField (cSeqOf false cRaw) (implicitP 0) (Some (map rawEl bodies)) = Ret at') in Eat. rewrite attrs_field_make in Eat. assert (at' = el 2 0 true (els bodies)) by congruence. subst at'. clear Eat.
  change (Ret [2; 1; 0] = Ret v) in Ev. assert (v = [2; 1; 0]) by congruence. subst v. clear Ev.
  change (raw_whole (mkRaw 0 0 false None (Some (el 0 16 true sb))) = Ret s) in Es. unfold raw_whole in Es. cbn [rv_full sl] in Es.
  assert (s = el 0 16 true sb). { pose proof (el_ne 0 16 true sb). destruct (el 0 16 true sb); congruence. } subst s. clear Es.
  exists k. split; [exact Ek|]. f_equal. assert (r2 = k ++ el 2 0 true (els bodies)) by congruence. subst r2. assert (r1 = el 0 16 true sb ++ k ++ el 2 0 true (els bodies)) by congruence. subst r1. congruence.
Qed.
Lemma csr_tbs_rt sb ai ai' pk bodies tbs spki : field_rt cAI noP ai ai' -> Marshal cTbsCSR (tbs_of None (el 0 16 true sb) ai pk bodies) = Ret tbs -> Marshal cPKI (mkPKI None ai (fullBits pk)) = Ret spki -> zlen tbs < 2 ^ 31 ->
  field_rt cTbsCSR noP (tbs_of (Some tbs) (el 0 16 true sb) ai pk bodies) (mkTbsCSR (Some tbs) 0 (rawEl sb) (mkPKI (Some spki) ai' (fullBits pk)) (Some (map rawEl bodies))).
Proof.
  intros Ha E Ek Hz. destruct (csr_tbs_parts None sb ai pk bodies tbs eq_refl E) as (k & Ek' & Et). assert (k = spki) by congruence. subst k. clear Ek'.
  assert (Lk : zlen spki < 2 ^ 31). { pose proof (el_len 0 16 true ([2; 1; 0] ++ el 0 16 true sb ++ spki ++ el 2 0 true (els bodies))) as L. rewrite <- Et in L. rewrite !zlen_app in L. pose proof (zlen_nonneg (el 0 16 true sb)). pose proof (zlen_nonneg (el 2 0 true (els bodies))). pose proof (zlen_nonneg [2; 1; 0]). lia. }
  assert (R : field_rt cTbsCSR noP (tbs_of None (el 0 16 true sb) ai pk bodies) (mkTbsCSR (Some tbs) 0 (rawEl sb) (mkPKI (Some spki) ai' (fullBits pk)) (Some (map rawEl bodies)))).
  { unfold cTbsCSR. eapply (structRaw_to _ _ tr_Raw _ _ (0, (rawEl sb, (mkPKI (Some spki) ai' (fullBits pk), (Some (map rawEl bodies), tt)))) tbs); [reflexivity|reflexivity| |exact E|exact Hz].
    apply frt_cons; [apply int_rt; lia|]. apply frt_cons; [apply subject_rt|]. apply frt_cons; [apply pki_rt; auto|]. apply frt_cons; [apply attrs_field|apply frt_nil]. }
  intros bs tail Eb Hb. assert (M : bs = tbs). { exact (proj2 (raw_remake _ _ tr_Raw _ (tbs_of (Some tbs) (el 0 16 true sb) ai pk bodies) (tbs_of None (el 0 16 true sb) ai pk bodies) tbs bs eq_refl eq_refl E Eb) Hb). }
  subst bs. apply R; auto.
Qed.
(** the outer SEQUENCE *)
Lemma csr_parts t ai sig der : Marshal cCsr (mkCsr None t ai (fullBits sig)) = Ret der -> exists tb ab, Marshal cTbsCSR t = Ret tb /\ Marshal cAI ai = Ret ab /\ der = el 0 16 true (tb ++ ab ++ el 0 3 false (0 :: sig)).
Proof.
  intros E. unfold Marshal, makeField in E. cbn [p_omit noP p_opt andb p_def c_whole cCsr cStructRaw p_set c_tag c_body p_tag c_comp cr_Raw sl] in E. apply bind_inv in E as (body & Eb & E).
  change (Ret (el 0 16 true body) = Ret der) in E. assert (der = el 0 16 true body) by congruence. subst der. clear E. cbn [f_enc fcons fst snd fnil cr_TBS cr_Alg cr_Sig] in Eb.
  apply bind_inv in Eb as (x & Ex & Eb). apply bind_inv in Eb as (y & Ey & Eb). apply bind_inv in Ey as (z & Ez & Ey). apply bind_inv in Ey as (w & Ew & Ey). apply bind_inv in Ew as (v & Ev & Ew).
  cbn [bind] in Ew. rewrite app_nil_r in Ew. assert (w = v) by congruence. subst w. exists x, z. split; [exact Ex|]. split; [exact Ez|].
  change (Ret (el 0 3 false ((8 - Z.rem (zlen sig * 8) 8) mod 8 :: sig)) = Ret v) in Ev. rewrite Z.rem_mul in Ev by lia. change ((8 - 0) mod 8) with 0 in Ev.
  assert (v = el 0 3 false (0 :: sig)) by congruence. subst v. f_equal. assert (y = z ++ el 0 3 false (0 :: sig)) by congruence. subst y. congruence.
Qed.
Lemma csr_unm sb ai ai' pk bodies tbs spki sa sa' sig der : field_rt cAI noP ai ai' -> field_rt cAI noP sa sa' -> Marshal cTbsCSR (tbs_of None (el 0 16 true sb) ai pk bodies) = Ret tbs -> Marshal cPKI (mkPKI None ai (fullBits pk)) = Ret spki ->
  Marshal cCsr (mkCsr None (tbs_of (Some tbs) (el 0 16 true sb) ai pk bodies) sa (fullBits sig)) = Ret der -> zlen der < 2 ^ 31 ->
  zlen tbs < 2 ^ 31 /\ (exists ab, der = el 0 16 true (tbs ++ ab ++ el 0 3 false (0 :: sig))) /\
  Unmarshal cCsr der = Ret (mkCsr (Some der) (mkTbsCSR (Some tbs) 0 (rawEl sb) (mkPKI (Some spki) ai' (fullBits pk)) (Some (map rawEl bodies))) sa' (fullBits sig), []).
Proof.
  intros Ha Hs Et Ek E Hz. destruct (csr_parts _ _ _ _ E) as (tb & ab & Etb & Eab & Ed).
  pose proof (raw_remake _ _ tr_Raw _ (tbs_of (Some tbs) (el 0 16 true sb) ai pk bodies) (tbs_of None (el 0 16 true sb) ai pk bodies) tbs tb eq_refl eq_refl Et Etb) as [L1 L2].
  assert (Lt : zlen tb < 2 ^ 31). { pose proof (el_len 0 16 true (tb ++ ab ++ el 0 3 false (0 :: sig))) as L. rewrite <- Ed in L. rewrite !zlen_app in L. pose proof (zlen_nonneg ab). pose proof (zlen_nonneg (el 0 3 false (0 :: sig))). lia. }
  assert (tb = tbs) by auto. subst tb. split; [exact Lt|]. split; [exists ab; exact Ed|].
  pose proof (csr_tbs_rt sb ai ai' pk bodies tbs spki Ha Et Ek Lt) as R.
  assert (RC : field_rt cCsr noP (mkCsr None (tbs_of (Some tbs) (el 0 16 true sb) ai pk bodies) sa (fullBits sig)) (mkCsr (Some der) (mkTbsCSR (Some tbs) 0 (rawEl sb) (mkPKI (Some spki) ai' (fullBits pk)) (Some (map rawEl bodies))) sa' (fullBits sig))).
  { unfold cCsr. eapply (structRaw_to _ _ cr_Raw _ _ (_, (sa', (fullBits sig, tt))) der); [reflexivity|reflexivity| |exact E|exact Hz].
    apply frt_cons; [exact R|]. apply frt_cons; [exact Hs|]. apply frt_cons; [apply bits_rt|apply frt_nil]. }
  specialize (RC der [] E Hz). rewrite app_nil_r in RC. exact RC.
Qed.
