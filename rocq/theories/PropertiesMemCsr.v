(** * C122: creating a certificate request does not change the template's attributes *)
From Coq Require Import String ZifyBool ZifyNat.
From Verif Require Import Base Asn1 Asn1Proofs KeysModel X509Model X509Build X509Crl Mem MemCsr.
Local Open Scope nat_scope.

(** a slice that Go could have built over these arrays *)
Definition wfW {X} (arrays : list (list X)) (s : slc) : Prop :=
  s_arr s < List.length arrays /\ s_len s <= s_cap s /\ s_off s + s_cap s <= List.length (nth (s_arr s) arrays []).
Definition wfA (h : heap2) (a : mattr) : Prop :=
  forall s, ma_Value a = Some s -> wfW (outerA h) s /\ forall t, In (Some t) (win (outerA h) s) -> wfW (innerA h) t.
(** all arrays of [h] are in [h'] as they were *)
Definition extends2 (h h' : heap2) : Prop := exists o i, outerA h' = outerA h ++ o /\ innerA h' = innerA h ++ i.

Lemma ext_refl h : extends2 h h. Proof. exists [], []. rewrite !app_nil_r. auto. Qed.
Lemma ext_trans a b c : extends2 a b -> extends2 b c -> extends2 a c.
Proof. intros (o & i & E1 & E2) (o' & i' & E3 & E4). exists (o ++ o'), (i ++ i'). rewrite E3, E4, E1, E2, !app_assoc. auto. Qed.
Lemma setL_length {X} (l : list X) i a : List.length (setL l i a) = List.length l.
Proof. revert i. induction l; intros [|i]; cbn; auto. Qed.
Lemma setL_app {X} (l m : list X) i a : List.length l <= i -> setL (l ++ m) i a = l ++ setL m (i - List.length l) a.
Proof.
  revert i. induction l as [|x l IH]; intros i H; cbn [app List.length] in *; [now rewrite Nat.sub_0_r|]. destruct i as [|i]; [lia|]. cbn [setL]. rewrite IH by lia. reflexivity.
Qed.
Lemma nth_setL {X} (l : list X) i j a d : i < List.length l -> nth j (setL l i a) d = if j =? i then a else nth j l d.
Proof.
  revert i j. induction l as [|x l IH]; intros i j H; cbn [List.length] in H; [lia|]. destruct i as [|i]; destruct j as [|j]; cbn [setL nth]; auto.
  rewrite (IH i j) by lia. reflexivity.
Qed.
Lemma setL_ge {X} (l : list X) i a : List.length l <= i -> setL l i a = l.
Proof. revert i. induction l as [|x l IH]; intros [|i] H; cbn [List.length setL] in *; auto; [lia|]. rewrite IH by lia. reflexivity. Qed.
Lemma pokeL_app {X} (l m : list (list X)) s i b : List.length l <= s_arr s -> exists m', pokeL (l ++ m) s i b = l ++ m'.
Proof. intros H. unfold pokeL. rewrite setL_app by exact H. eauto. Qed.
Lemma pokeL_length {X} (l : list (list X)) s i b : List.length (pokeL l s i b) = List.length l.
Proof. apply setL_length. Qed.
Lemma pokeL_other {X} (l : list (list X)) s i b k : k <> s_arr s -> nth k (pokeL l s i b) [] = nth k l [].
Proof.
  intros H. unfold pokeL. destruct (Nat.lt_ge_cases (s_arr s) (List.length l)) as [L|L]; [|rewrite setL_ge by exact L; reflexivity].
  rewrite nth_setL by exact L. destruct (Nat.eqb_spec k (s_arr s)); [contradiction|reflexivity].
Qed.
Lemma pokeL_same {X} (l : list (list X)) s i b : s_arr s < List.length l -> nth (s_arr s) (pokeL l s i b) [] = putL (nth (s_arr s) l []) (s_off s + i) b.
Proof. intros L. unfold pokeL. rewrite nth_setL by exact L. rewrite Nat.eqb_refl. reflexivity. Qed.

(** ** Nothing of the caller's memory changes *)
Lemma copyValues_spec h a : let '(h', b) := copyValues h a in
  innerA h' = innerA h /\ (exists x, outerA h' = outerA h ++ [x]) /\ ma_Type b = ma_Type a /\
  exists s, ma_Value b = Some s /\ s_arr s = List.length (outerA h).
Proof.
  unfold copyValues. cbv zeta. cbn [outerA innerA ma_Type ma_Value]. split; [reflexivity|]. split; [|eauto].
  unfold pokeL. cbn [s_arr]. rewrite setL_app by lia. rewrite Nat.sub_diag. cbn [setL]. eauto.
Qed.
Lemma copyAttributes_ext l : forall h, let '(h', m) := copyAttributes h l in
  extends2 h h' /\ Forall (fun b => forall s, ma_Value b = Some s -> List.length (outerA h) <= s_arr s) m.
Proof.
  induction l as [|a l IH]; intros h; cbn [copyAttributes]; [split; [apply ext_refl|constructor]|].
  pose proof (copyValues_spec h a) as C. destruct (copyValues h a) as [h1 b]. destruct C as (Ei & (x & Eo) & _ & s & Es & As).
  specialize (IH h1). destruct (copyAttributes h1 l) as [h2 m]. destruct IH as [X F]. split.
  - apply (ext_trans h h1); [|exact X]. exists [x], []. rewrite app_nil_r. auto.
  - constructor; [intros s' Es'; rewrite Es in Es'; injection Es' as <-; lia|]. apply (Forall_impl _) with (2 := F). intros c Hc s' Es'. specialize (Hc s' Es'). rewrite Eo, app_length in Hc. lia.
Qed.
Lemma appendA_ext n h s b : n <= List.length (innerA h) -> n <= s_arr s ->
  let '(h', s') := appendA h s b in outerA h' = outerA h /\ (exists i, innerA h' = firstn n (innerA h) ++ i) /\ n <= List.length (innerA h') /\ n <= s_arr s'.
Proof.
  intros Hn Hs. unfold appendA. cbv zeta. destruct (_ <=? _); cbn [outerA innerA s_arr].
  - split; [reflexivity|]. split; [|rewrite pokeL_length; auto].
    pose proof (pokeL_app (firstn n (innerA h)) (skipn n (innerA h)) s (s_len s) b ltac:(rewrite firstn_length; lia)) as X. rewrite firstn_skipn in X. exact X.
  - split; [reflexivity|]. split; [|rewrite app_length; cbn [List.length]; lia]. exists (skipn n (innerA h) ++ [win (innerA h) s ++ b]). rewrite app_assoc, firstn_skipn. reflexivity.
Qed.
Lemma firstn_pre {X} n (l i : list X) : n <= List.length l -> firstn n (firstn n l ++ i) = firstn n l.
Proof. intros H. rewrite firstn_app, firstn_firstn, Nat.min_id, firstn_length, Nat.min_l, Nat.sub_diag by exact H. cbn [firstn]. apply app_nil_r. Qed.
Lemma appendNew_ext n sp exts : forall h s, n <= List.length (innerA h) -> n <= s_arr s ->
  let '(h', s') := appendNew h sp s exts in outerA h' = outerA h /\ (exists i, innerA h' = firstn n (innerA h) ++ i) /\ n <= List.length (innerA h').
Proof.
  induction exts as [|e exts IH]; intros h s Hn Hs; cbn [appendNew].
  - split; [reflexivity|]. split; [|exact Hn]. exists (skipn n (innerA h)). symmetry. apply firstn_skipn.
  - destruct (existsb _ sp); [apply IH; auto|]. pose proof (appendA_ext n h s [mkATVa (x_Id e) (VBytes (x_Value e))] Hn Hs) as A.
    destruct (appendA h s _) as [h1 s1]. destruct A as (E1 & (i & E2) & L & A). specialize (IH h1 s1 L A). destruct (appendNew h1 sp s1 exts) as [h2 s2].
    destruct IH as (F1 & (i' & F2) & L2). split; [congruence|]. split; [|exact L2]. exists i'. rewrite F2, E2, firstn_pre by exact Hn. reflexivity.
Qed.
Lemma appendToExisting_ext blank n exts L : forall h, n <= List.length (outerA h) ->
  Forall (fun b => forall s, ma_Value b = Some s -> n <= s_arr s) L ->
  let '(h', _) := appendToExisting blank h L exts in (exists o, outerA h' = firstn n (outerA h) ++ o) /\ exists i, innerA h' = innerA h ++ i.
Proof.
  induction L as [|a L IH]; intros h Hn F; cbn [appendToExisting].
  - split; [exists (skipn n (outerA h)); symmetry; apply firstn_skipn|exists []; symmetry; apply app_nil_r].
  - inversion F as [|? ? Fa FL]; subst. destruct (ma_Value a) as [s|]; [|apply IH; auto]. destruct (_ || _); [apply IH; auto|]. cbv zeta.
    set (v0 := olist (innerA h) _). set (h1 := mkH2 (outerA h) _). set (nv := mkS _ _ _ _).
    pose proof (appendA_ext (List.length (innerA h)) h1 nv v0 ltac:(subst h1; cbn [innerA]; rewrite app_length; lia) ltac:(subst nv; cbn [s_arr]; lia)) as A.
    destruct (appendA h1 nv v0) as [h2 nv2]. destruct A as (E1 & (i & E2) & L2 & A2).
    pose proof (appendNew_ext (List.length (innerA h)) (List.concat (map (olist (innerA h)) (win (outerA h) s))) exts h2 nv2 L2 A2) as B.
    destruct (appendNew h2 _ nv2 exts) as [h3 nv3]. destruct B as (E3 & (i' & E4) & L4). cbn [outerA innerA]. split.
    + rewrite E3, E1. subst h1. cbn [outerA]. specialize (Fa s eq_refl).
      pose proof (pokeL_app (firstn n (outerA h)) (skipn n (outerA h)) s 0 [Some nv3] ltac:(rewrite firstn_length; lia)) as X. rewrite firstn_skipn in X. exact X.
    + exists i'. rewrite E4, E2. rewrite firstn_pre by (subst h1; cbn [innerA]; rewrite app_length; lia). subst h1. cbn [innerA].
      rewrite firstn_app, Nat.sub_diag, firstn_all. cbn [firstn]. rewrite app_nil_r. reflexivity.
Qed.
(** C122: whatever the template's attributes, shared or not, and whatever the extensions: when the request has been built
    (or building it has failed) every array that existed before is as it was *)
Theorem C122_untouched : forall blank h attrs exts, extends2 h (fst (memCsrAttributes blank h attrs exts)).
Proof.
  intros blank h attrs exts. unfold memCsrAttributes. pose proof (copyAttributes_ext attrs h) as C. destruct (copyAttributes h attrs) as [h1 l]. destruct C as [X F].
  destruct exts as [|e exts]; [exact X|]. destruct X as (o & i & Eo & Ei).
  assert (L : List.length (outerA h) <= List.length (outerA h1)) by (rewrite Eo, app_length; lia).
  pose proof (appendToExisting_ext blank (List.length (outerA h)) (e :: exts) l h1 L F) as A.
  destruct (appendToExisting blank h1 l (e :: exts)) as [h2 b]. destruct A as [[o' E1] [i' E2]]. cbn [fst]. exists o', (i ++ i').
  split; [|rewrite E2, Ei, app_assoc; reflexivity]. rewrite E1, Eo, firstn_app, Nat.sub_diag, firstn_all. cbn [firstn]. rewrite app_nil_r. reflexivity.
Qed.
Print Assumptions C122_untouched.

(** so what the template says is unchanged *)
Lemma win_app {X} (l m : list (list X)) s : s_arr s < List.length l -> win (l ++ m) s = win l s.
Proof. intros H. unfold win. rewrite app_nth1 by exact H. reflexivity. Qed.
Lemma view_ext h h' a : extends2 h h' -> wfA h a -> view h' a = view h a.
Proof.
  intros (o & i & Eo & Ei) W. unfold view. destruct (ma_Value a) as [s|] eqn:Es; [|reflexivity]. destruct (W s Es) as [(L & _) T]. f_equal. f_equal.
  rewrite Eo, win_app by exact L. apply map_ext_in. intros [t|] Ht; [|reflexivity]. cbn [option_map]. destruct (T t Ht) as (Lt & _). rewrite Ei, win_app by exact Lt. reflexivity.
Qed.
Theorem C122_template : forall blank h attrs exts, Forall (wfA h) attrs ->
  map (view (fst (memCsrAttributes blank h attrs exts))) attrs = map (view h) attrs.
Proof.
  intros blank h attrs exts W. apply map_ext_in. intros a Ha. apply view_ext; [apply C122_untouched|]. exact (proj1 (Forall_forall _ _) W a Ha).
Qed.
Print Assumptions C122_template.

(** ** The request is the one the model without sharing describes *)
(** a nil list of values and an empty one *)
Definition norm (a : ATVset) : ATVset := mkATVset (as_Type a) (Some (match as_Value a with Some l => l | None => [] end)).
Lemma norm_make a : makeField cATVset noP (norm a) = makeField cATVset noP a.
Proof. destruct a as [t [l|]]; reflexivity. Qed.
Lemma norm_raw l : newRawAttributes (map norm l) = newRawAttributes l.
Proof.
  unfold newRawAttributes, Marshal.
  assert (E : mapM (makeField cATVset noP) (map norm l) = mapM (makeField cATVset noP) l).
  { induction l as [|a l IH]; cbn [map mapM]; [reflexivity|]. rewrite norm_make, IH. reflexivity. }
  assert (F : makeField (cSeqOf false cATVset) noP (Some (map norm l)) = makeField (cSeqOf false cATVset) noP (Some l)).
  { unfold makeField. cbn [p_omit p_opt p_def noP andb p_set]. cbn [c_whole cSeqOf c_body]. unfold seq_body. rewrite E. reflexivity. }
  rewrite F. reflexivity.
Qed.
Lemma norm_append l exts : appendExtensions (map norm l) exts = option_map (map norm) (appendExtensions l exts).
Proof.
  induction l as [|a l IH]; cbn [map appendExtensions]; [reflexivity|]. destruct a as [t [[|v0 vs]|]]; cbn [norm as_Value as_Type].
  - rewrite IH. destruct (appendExtensions l exts); reflexivity.
  - destruct (negb _); [rewrite IH; destruct (appendExtensions l exts); reflexivity|]. cbv zeta. reflexivity.
  - rewrite IH. destruct (appendExtensions l exts); reflexivity.
Qed.
(** a slice that is its whole array *)
Definition whole2 {X} (arrays : list (list X)) (s : slc) : Prop :=
  s_arr s < List.length arrays /\ s_off s = 0 /\ s_len s = List.length (nth (s_arr s) arrays []).
Lemma whole_win {X} (arrays : list (list X)) s : whole2 arrays s -> win arrays s = nth (s_arr s) arrays [].
Proof. intros (_ & O & L). unfold win. rewrite O, L. cbn [skipn]. apply firstn_all. Qed.
Lemma win_length {X} (arrays : list (list X)) s : wfW arrays s -> List.length (win arrays s) = s_len s.
Proof. intros (_ & A & B). unfold win. rewrite firstn_length, skipn_length. lia. Qed.
Definition own (h : heap2) (b : mattr) (s : slc) : Prop :=
  ma_Value b = Some s /\ whole2 (outerA h) s /\ forall t, In (Some t) (win (outerA h) s) -> s_arr t < List.length (innerA h).
Lemma copyValues_view h a : wfA h a -> let '(h', b) := copyValues h a in
  (exists s, own h' b s /\ s_arr s = List.length (outerA h)) /\ view h' b = norm (view h a) /\ exists x, outerA h' = outerA h ++ [x] /\ innerA h' = innerA h.
Proof.
  intros W. pose proof (copyValues_spec h a) as C. unfold copyValues in *. cbv zeta in *. cbn [outerA innerA ma_Type ma_Value] in C. destruct C as (_ & (x & Ex) & _).
  set (n := match ma_Value a with Some s => s_len s | None => 0 end) in *. set (v := mkS _ 0 n n) in *.
  assert (O : firstn n (olist (outerA h ++ [repeat None n]) (ma_Value a)) = olist (outerA h) (ma_Value a) /\ List.length (olist (outerA h) (ma_Value a)) = n).
  { subst n. unfold olist. destruct (ma_Value a) as [s|] eqn:Es; [|split; reflexivity]. destruct (W s Es) as [Ws _]. rewrite win_app by apply Ws.
    rewrite <- (win_length _ _ Ws) at 1. split; [apply firstn_all|apply win_length, Ws]. }
  destruct O as [O Ln]. rewrite O in Ex |- *.
  assert (Ev : nth (s_arr v) (pokeL (outerA h ++ [repeat None n]) v 0 (olist (outerA h) (ma_Value a))) [] = olist (outerA h) (ma_Value a)).
  { rewrite pokeL_same by (subst v; cbn [s_arr]; rewrite app_length; cbn [List.length]; lia). subst v. cbn [s_arr s_off]. rewrite app_nth2, Nat.sub_diag by lia. cbn [nth Nat.add]. unfold putL. cbn [firstn app].
    rewrite skipn_all2 by (rewrite repeat_length; lia). apply app_nil_r. }
  assert (Wh : whole2 (pokeL (outerA h ++ [repeat None n]) v 0 (olist (outerA h) (ma_Value a))) v).
  { split; [rewrite pokeL_length, app_length; subst v; cbn [s_arr List.length]; lia|]. split; [reflexivity|]. rewrite Ev. subst v. cbn [s_len]. lia. }
  split; [|split].
  - exists v. split; [|reflexivity]. split; [reflexivity|]. cbn [outerA innerA]. split; [exact Wh|]. intros t Ht. rewrite (whole_win _ _ Wh), Ev in Ht.
    unfold olist in Ht. destruct (ma_Value a) as [s|] eqn:Es; [|destruct Ht]. destruct (W s Es) as [_ T]. apply (T t Ht).
  - unfold view, norm. cbn [ma_Type ma_Value as_Type as_Value outerA innerA]. rewrite (whole_win _ _ Wh), Ev. unfold olist. destruct (ma_Value a); reflexivity.
  - exists x. cbn [outerA innerA]. auto.
Qed.
Lemma own_ext h h' b s : extends2 h h' -> own h b s -> own h' b s /\ view h' b = view h b.
Proof.
  intros (o & i & Eo & Ei) (V & (L & O & Ln) & T).
  assert (Ew : win (outerA h') s = win (outerA h) s) by (rewrite Eo; apply win_app; exact L).
  split.
  - split; [exact V|]. split; [split; [rewrite Eo, app_length; lia|]; split; [exact O|]; rewrite Eo, app_nth1 by exact L; exact Ln|].
    intros t Ht. rewrite Ew in Ht. specialize (T t Ht). rewrite Ei, app_length. lia.
  - unfold view. rewrite V. f_equal. f_equal. rewrite Ew. apply map_ext_in. intros [t|] Ht; [|reflexivity]. cbn [option_map]. rewrite Ei, win_app by exact (T t Ht). reflexivity.
Qed.
Lemma copyAttributes_view l : forall h, Forall (wfA h) l -> let '(h', m) := copyAttributes h l in
  exists ss, Forall2 (own h') m ss /\ NoDup (map s_arr ss) /\ Forall (fun s => List.length (outerA h) <= s_arr s) ss /\ map (view h') m = map norm (map (view h) l).
Proof.
  induction l as [|a l IH]; intros h W; cbn [copyAttributes]; [exists []; repeat constructor|].
  inversion W as [|? ? Wa Wl]; subst. pose proof (copyValues_view h a Wa) as C. destruct (copyValues h a) as [h1 b]. destruct C as ((s & Os & As) & Ev & x & Eo & Ei).
  assert (X1 : extends2 h h1) by (exists [x], []; rewrite app_nil_r; auto).
  assert (W1 : Forall (wfA h1) l).
  { apply (Forall_impl _) with (2 := Wl). intros c Wc s' Es'. destruct (Wc s' Es') as [(L & A & B) T]. rewrite Eo, Ei. rewrite win_app by exact L. split; [|exact T].
    split; [rewrite app_length; lia|]. split; [exact A|]. rewrite app_nth1 by exact L. exact B. }
  assert (Vl : map (view h1) l = map (view h) l) by (apply map_ext_in; intros c Hc; apply view_ext; [exact X1|exact (proj1 (Forall_forall _ _) Wl c Hc)]).
  specialize (IH h1 W1). pose proof (copyAttributes_ext l h1) as CX. destruct (copyAttributes h1 l) as [h2 m]. destruct CX as [X2 _]. destruct IH as (ss & F & N & G & V).
  destruct (own_ext h1 h2 b s X2 Os) as [Os2 Ev2]. exists (s :: ss). split; [constructor; auto|]. split; [|split].
  - cbn [map]. constructor; [|exact N]. rewrite in_map_iff. intros (t & Et & Ht). pose proof (proj1 (Forall_forall _ _) G t Ht) as G'. cbv beta in G'. rewrite Eo, app_length in G'. cbn [List.length] in G'. lia.
  - constructor; [lia|]. apply (Forall_impl _) with (2 := G). intros t Ht. cbv beta in *. rewrite Eo, app_length in Ht. lia.
  - cbn [map]. rewrite Ev2, Ev, V, Vl. reflexivity.
Qed.
(** appending within the capacity *)
Definition tail2 (h : heap2) (s : slc) : Prop := wfW (innerA h) s.
Lemma appendA_win h s b : wfW (innerA h) s -> s_len s + List.length b <= s_cap s ->
  let '(h', s') := appendA h s b in win (innerA h') s' = win (innerA h) s ++ b /\ wfW (innerA h') s' /\ s_arr s' = s_arr s /\ s_cap s' = s_cap s /\ s_len s' = s_len s + List.length b.
Proof.
  intros (L & A & B) C. unfold appendA. cbv zeta. rewrite (proj2 (Nat.leb_le _ _) C). cbn [innerA s_arr s_cap s_len].
  assert (E : nth (s_arr s) (pokeL (innerA h) s (s_len s) b) [] = putL (nth (s_arr s) (innerA h) []) (s_off s + s_len s) b) by (apply pokeL_same; exact L).
  split; [|split; [|auto]].
  - unfold win. cbn [s_len s_off s_arr]. rewrite E. unfold putL. set (a := nth (s_arr s) (innerA h) []) in *.
    rewrite skipn_app, skipn_firstn_comm, firstn_length. rewrite Nat.min_l by lia. replace (s_off s + s_len s - s_off s) with (s_len s) by lia. replace (s_off s - (s_off s + s_len s)) with 0 by lia. cbn [skipn].
    rewrite firstn_app, firstn_firstn, firstn_length, skipn_length. rewrite Nat.min_r by lia. f_equal. replace (s_len s + List.length b - Nat.min (s_len s) (List.length a - s_off s)) with (List.length b) by lia.
    rewrite firstn_app, firstn_all, Nat.sub_diag. cbn [firstn]. apply app_nil_r.
  - split; [cbn [s_arr]; rewrite pokeL_length; exact L|]. cbn [s_arr s_len s_cap s_off]. split; [exact C|]. rewrite E. unfold putL. rewrite !app_length, firstn_length, skipn_length. lia.
Qed.
Lemma appendNew_win sp exts : forall h s, wfW (innerA h) s -> s_len s + List.length exts <= s_cap s ->
  let '(h', s') := appendNew h sp s exts in
  win (innerA h') s' = win (innerA h) s ++ map (fun e => mkATVa (x_Id e) (VBytes (x_Value e))) (filter (fun e => negb (existsb (fun x => oid_eqb (aa_Type x) (x_Id e)) sp)) exts).
Proof.
  induction exts as [|e exts IH]; intros h s W C; cbn [appendNew filter map]; [symmetry; apply app_nil_r|]. cbn [List.length] in C.
  destruct (existsb _ sp); cbn [negb]; [apply IH; auto; lia|].
  pose proof (appendA_win h s [mkATVa (x_Id e) (VBytes (x_Value e))] W ltac:(cbn [List.length]; lia)) as A. destruct (appendA h s _) as [h1 s1]. destruct A as (E & W1 & _ & Ec & El).
  cbn [List.length] in El. specialize (IH h1 s1 W1 ltac:(lia)). destruct (appendNew h1 sp s1 exts) as [h2 s2]. rewrite IH, E, <- app_assoc. reflexivity.
Qed.
Lemma F2_in {X Y} (R : X -> Y -> Prop) l m : Forall2 R l m -> forall x, In x l -> exists y, In y m /\ R x y.
Proof. induction 1 as [|x y l m Hr F IH]; intros z Hz; [destruct Hz|]. destruct Hz as [<-|Hz]; [exists y; split; [left; reflexivity|exact Hr]|]. destruct (IH z Hz) as (w & Hw & Rw). exists w. split; [right; exact Hw|exact Rw]. Qed.
Lemma olist_opt {X} (arrays : list (list X)) c : olist arrays c = match option_map (win arrays) c with Some l => l | None => [] end.
Proof. destruct c; reflexivity. Qed.
Lemma appendToExisting_view blank exts : forall L ss h, Forall2 (own h) L ss -> NoDup (map s_arr ss) ->
  let '(h', b) := appendToExisting blank h L exts in
  (forall k, ~ In k (map s_arr ss) -> nth k (outerA h') [] = nth k (outerA h) []) /\ (exists i, innerA h' = innerA h ++ i) /\
  match appendExtensions (map (view h) L) exts with Some l => b = true /\ map (view h') L = l | None => b = false /\ h' = h end.
Proof.
  induction L as [|a L IH]; intros ss h F N; cbn [appendToExisting map appendExtensions].
  - split; [auto|]. split; [exists []; symmetry; apply app_nil_r|auto].
  - inversion F as [|? s ? ss' Oa FL]; subst. cbn [map] in N. apply NoDup_cons_iff in N as [Na N]. specialize (IH ss' h FL N).
    assert (Skip : (let '(h', b) := appendToExisting blank h L exts in
       (forall k, ~ In k (map s_arr (s :: ss')) -> nth k (outerA h') [] = nth k (outerA h) []) /\ (exists i, innerA h' = innerA h ++ i) /\
       match option_map (cons (view h a)) (appendExtensions (map (view h) L) exts) with Some l => b = true /\ map (view h') (a :: L) = l | None => b = false /\ h' = h end)).
    { destruct (appendToExisting blank h L exts) as [h' b]. destruct IH as (I1 & I2 & I3). split; [intros k Hk; apply I1; intros Hk'; apply Hk; right; exact Hk'|]. split; [exact I2|].
      destruct (appendExtensions (map (view h) L) exts) as [l|]; cbn [option_map]; [|exact I3]. destruct I3 as [-> I3]. split; [reflexivity|]. cbn [map]. rewrite I3. f_equal.
      destruct Oa as (V & (Ls & Off & Ln) & T). destruct I2 as [i I2]. unfold view. rewrite V. f_equal. f_equal.
      assert (Ew : win (outerA h') s = win (outerA h) s) by (unfold win; rewrite (I1 (s_arr s) Na); reflexivity).
      rewrite Ew. apply map_ext_in. intros [t|] Ht; [|reflexivity]. cbn [option_map]. rewrite I2, win_app by exact (T t Ht). reflexivity. }
    destruct Oa as (V & Wh & T). pose proof (whole_win _ _ Wh) as Ew. pose proof Wh as (Ls & Off & Ln). rewrite V. unfold view at 1. cbn [as_Value as_Type]. rewrite V.
    destruct (win (outerA h) s) as [|c0 cs] eqn:Ec.
    { assert (s_len s = 0) as -> by (rewrite Ln, <- Ew; reflexivity). rewrite orb_true_r. cbn [map]. exact Skip. }
    assert (s_len s =? 0 = false) as -> by (rewrite Ln, <- Ew; reflexivity). rewrite orb_false_r. cbn [map]. unfold view at 1. cbn [as_Type].
    destruct (oid_eqb (ma_Type a) oidExtensionRequest) eqn:Eq; cbn [negb]; [|exact Skip]. clear Skip IH. cbv zeta.
    cbn [nth]. set (v0 := olist (innerA h) c0). set (cap := List.length v0 + List.length exts). set (h1 := mkH2 (outerA h) _). set (nv := mkS _ 0 0 cap).
    assert (W1 : wfW (innerA h1) nv).
    { subst h1 nv. unfold wfW. cbn [innerA s_arr s_len s_cap s_off]. rewrite app_length. cbn [List.length]. split; [lia|]. split; [lia|]. rewrite app_nth2, Nat.sub_diag by lia. cbn [nth]. rewrite repeat_length. lia. }
    pose proof (appendA_win h1 nv v0 W1 ltac:(subst nv cap; cbn [s_len s_cap]; lia)) as A.
    pose proof (appendA_ext (List.length (innerA h)) h1 nv v0 ltac:(subst h1; cbn [innerA]; rewrite app_length; lia) ltac:(subst nv; cbn [s_arr]; lia)) as AX.
    destruct (appendA h1 nv v0) as [h2 nv2]. destruct A as (E2 & W2 & _ & C2 & L2). destruct AX as (O2 & (i2 & I2) & Le2 & A2).
    match goal with |- context [appendNew h2 ?x nv2 exts] => set (sp := x) end.
    pose proof (appendNew_win sp exts h2 nv2 W2 ltac:(rewrite C2, L2; subst nv cap; cbn [s_len s_cap]; lia)) as B.
    pose proof (appendNew_ext (List.length (innerA h)) sp exts h2 nv2 Le2 A2) as BX.
    destruct (appendNew h2 sp nv2 exts) as [h3 nv3]. destruct BX as (O3 & (i3 & I3) & _). cbn [outerA innerA].
    assert (Oh : outerA h3 = outerA h) by (rewrite O3, O2; reflexivity).
    assert (Ih : innerA h3 = innerA h ++ i3).
    { rewrite I3, I2. rewrite firstn_pre by (subst h1; cbn [innerA]; rewrite app_length; lia). subst h1. cbn [innerA]. rewrite firstn_app, Nat.sub_diag, firstn_all. cbn [firstn]. rewrite app_nil_r. reflexivity. }
    rewrite Oh. split; [intros k Hk; apply pokeL_other; intros ->; apply Hk; left; reflexivity|]. split; [eauto|]. split; [reflexivity|]. f_equal.
    + unfold view. rewrite V. cbn [outerA innerA]. f_equal. f_equal.
      assert (Wn : win (pokeL (outerA h) s 0 [Some nv3]) s = Some nv3 :: cs).
      { unfold win. rewrite pokeL_same by exact Ls. rewrite Off. cbn [Nat.add skipn]. rewrite <- Ew. unfold putL. cbn [firstn app List.length Nat.add skipn]. rewrite Ln, <- Ew. cbn [List.length firstn]. rewrite firstn_all. reflexivity. }
      rewrite Wn. cbn [map option_map]. f_equal.
      * f_equal. rewrite B, E2.
        assert (E0 : win (innerA h1) nv = []) by (subst nv; unfold win; reflexivity). rewrite E0. cbn [app].
        assert (Esp : sp = List.concat (map (fun v => match v with Some l => l | None => [] end) (map (option_map (win (innerA h))) (c0 :: cs)))).
        { rewrite map_map. unfold sp, v0. cbn [map]. rewrite olist_opt. f_equal. f_equal. apply map_ext. intros c. apply olist_opt. }
        rewrite Esp. unfold v0. rewrite olist_opt. reflexivity.
      * apply map_ext_in. intros [t|] Ht; [|reflexivity]. cbn [option_map]. rewrite Ih, win_app; [reflexivity|]. apply T. right. exact Ht.
    + apply map_ext_in. intros b Hb. destruct (F2_in _ _ _ FL b Hb) as (sb & Hsb & Vb & (Lb & _) & Tb). unfold view. rewrite Vb. cbn [outerA innerA]. f_equal. f_equal.
      assert (Wb : win (pokeL (outerA h) s 0 [Some nv3]) sb = win (outerA h) sb).
      { unfold win. rewrite pokeL_other; [reflexivity|]. intros E. apply Na. rewrite <- E. apply in_map. exact Hsb. }
      rewrite Wb. apply map_ext_in. intros [t|] Ht; [|reflexivity]. cbn [option_map]. rewrite Ih, win_app by exact (Tb t Ht). reflexivity.
Qed.
(** C122: what goes into the request is what the model over plain lists computes (C95, C96, C98 are about that) *)
Theorem C122_same_result : forall blank h attrs exts, Forall (wfA h) attrs ->
  snd (memCsrAttributes blank h attrs exts) = csrAttributes (map (view h) attrs) exts.
Proof.
  intros blank h attrs exts W. unfold memCsrAttributes, csrAttributes. pose proof (copyAttributes_view attrs h W) as C. destruct (copyAttributes h attrs) as [h1 m].
  destruct C as (ss & F & N & _ & V). destruct exts as [|e exts].
  - cbn [snd]. rewrite V, norm_raw. destruct (newRawAttributes _); reflexivity.
  - pose proof (appendToExisting_view blank (e :: exts) m ss h1 F N) as A. destruct (appendToExisting blank h1 m (e :: exts)) as [h2 b]. cbn [snd].
    destruct A as (_ & _ & A). rewrite V, norm_append in A. destruct (appendExtensions (map (view h) attrs) (e :: exts)) as [l|]; cbn [option_map] in A; destruct A as [-> A].
    + rewrite A, norm_raw. destruct (newRawAttributes l); reflexivity.
    + rewrite A, V, norm_raw. reflexivity.
Qed.
Print Assumptions C122_same_result.

(** not vacuous: two attributes that share all their memory, the first of which takes the extension in; the spare capacity
    of the caller's inner array is not used either *)
Definition atv0 : ATVa := mkATVa [2; 5; 29; 15]%Z (VBytes [3; 2; 5; 160]%Z).
Definition blank0 : ATVa := mkATVa [] (VBytes []).
Definition heap0 : heap2 := mkH2 [[Some (mkS 0 0 1 2); None]] [[atv0; blank0]].
Definition attrs0 : list mattr := [mkMA oidExtensionRequest (Some (mkS 0 0 1 2)); mkMA [2; 5; 4; 3]%Z (Some (mkS 0 0 1 2))].
Definition ext0 : Extension := mkExt [2; 5; 29; 17]%Z false [48; 0]%Z.
Example C122_instance : Forall (wfA heap0) attrs0 /\ (exists r, snd (memCsrAttributes blank0 heap0 attrs0 [ext0]) = Ret r) /\
  snd (memCsrAttributes blank0 heap0 attrs0 [ext0]) <> snd (memCsrAttributes blank0 heap0 attrs0 []) /\
  List.length (innerA (fst (memCsrAttributes blank0 heap0 attrs0 [ext0]))) = 2.
Proof.
  split.
  { assert (X : forall t, wfA heap0 (mkMA t (Some (mkS 0 0 1 2)))).
    { intros t s [= <-]. split; [repeat split; cbn; lia|]. cbn. intros u [[= <-]|[]]. repeat split; cbn; lia. }
    apply Forall_cons; [apply X|]. apply Forall_cons; [apply X|]. apply Forall_nil. }
  split; [eexists; vm_compute; reflexivity|]. split; [vm_compute; discriminate|vm_compute; reflexivity].
Qed.
