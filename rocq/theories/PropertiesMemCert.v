(** * C144: a parsed certificate shares the caller's bytes *)
From Coq Require Import String PeanoNat.
From Verif Require Import Base Words CryptoByte Asn1 KeysModel X509Model X509Proofs X509Reg Mem MemParse.
From Coq Require Import ZifyBool ZifyNat.
Local Open Scope nat_scope.

(** ** Windows on windows *)
Definition within (s a : slc) : Prop :=
  s_arr a = s_arr s /\ s_off s <= s_off a /\ s_off a + s_len a <= s_off s + s_len s /\ s_off a + s_cap a = s_off s + s_cap s.
Lemma within_refl s : within s s. Proof. unfold within; lia. Qed.
Lemma within_trans a b c : within a b -> within b c -> within a c. Proof. unfold within; lia. Qed.
Lemma within_wf h s a : wf h s -> within s a -> wf h a.
Proof. unfold wf, within. intros (A & B & C) (D & E & F & G). rewrite D. lia. Qed.
(** what a window within [s] shows is a range of what [s] shows *)
Lemma within_range h s a : wf h s -> within s a -> rd h a = firstn (s_len a) (skipn (s_off a - s_off s) (rd h s)).
Proof.
  intros (A & B & C) (D & E & F & G). unfold rd. rewrite D, skipn_firstn_comm, firstn_firstn, Nat.min_l, skipn_skipn by lia. do 3 f_equal. lia.
Qed.
Lemma cut_within s i j : i <= j <= s_len s -> s_len s <= s_cap s -> within s (cut s i j). Proof. unfold within, cut; cbn; lia. Qed.
Lemma cut_rd h s i j : wf h s -> i <= j <= s_len s -> rd h (cut s i j) = firstn (j - i) (skipn i (rd h s)).
Proof.
  intros W H. rewrite (within_range h s (cut s i j)); [|exact W|apply cut_within; [exact H|apply W]]. cbn [cut s_len s_off]. do 2 f_equal. lia.
Qed.

Section P.
Variables (h : heap) (D : slc).
Hypothesis HD : wf h D.
Definition g (a : slc) (v : bytes) : Prop := within D a /\ rd h a = v.
Lemma g_wf a v : g a v -> wf h a. Proof. intros [H _]. eapply within_wf; eauto. Qed.
Lemma g_len a v : g a v -> s_len a = List.length v. Proof. intros H. pose proof (rd_length h a (g_wf _ _ H)). destruct H as [_ <-]. auto. Qed.
Lemma g_cut a v i j : g a v -> i <= j <= List.length v -> g (cut a i j) (firstn (j - i) (skipn i v)).
Proof.
  intros H Hij. pose proof (g_wf _ _ H) as W. pose proof (g_len _ _ H) as L. destruct H as [H1 H2]. split.
  - eapply within_trans; [exact H1|]. apply cut_within; [lia|apply W].
  - rewrite cut_rd by (auto; lia). now rewrite H2.
Qed.
Lemma g_left a v p r : g a v -> v = p ++ r -> g (left_over a r) r.
Proof.
  intros H ->. pose proof (g_len _ _ H) as L. rewrite app_length in L. unfold left_over. rewrite L.
  pose proof (g_cut a _ (List.length p + List.length r - List.length r) (List.length p + List.length r) H) as Q. rewrite app_length in Q. specialize (Q ltac:(lia)).
  replace (List.length p + List.length r - List.length r) with (List.length p) in * by lia. rewrite skipn_app, skipn_all, Nat.sub_diag in Q. cbn [app skipn] in Q.
  rewrite firstn_all2 in Q by lia. exact Q.
Qed.
(** ** Correspondence of results *)
Definition same {A B} (R : A -> B -> Prop) (o : outcome A) (p : outcome B) : Prop :=
  match o, p with Ret a, Ret b => R a b | Err e, Err f => e = f | Panic, Panic => True | _, _ => False end.
Definition osame {A B} (R : A -> B -> Prop) (o : option A) (p : option B) : Prop :=
  match o, p with Some a, Some b => R a b | None, None => True | _, _ => False end.
Lemma need_same {A B} (R : A -> B -> Prop) o p e : osame R o p -> same R (need o e) (need p e).
Proof. destruct o, p; cbn; auto. Qed.
Lemma bind_same {A B A' B'} (R : A -> B -> Prop) (R' : A' -> B' -> Prop) m n f k : same R m n -> (forall a b, R a b -> same R' (f a) (k b)) -> same R' (bind m f) (bind n k).
Proof. intros H K. destruct m, n; cbn in *; try contradiction; auto. Qed.
Lemma bind_both {A A' B'} (R' : A' -> B' -> Prop) (m : outcome A) f k : (forall a, m = Ret a -> same R' (f a) (k a)) -> same R' (bind m f) (bind m k).
Proof. intros H. destruct m; cbn; auto. Qed.
Definition g2 (p : bytes * bytes) (q : slc * slc) : Prop := g (fst q) (fst p) /\ g (snd q) (snd p).
Definition gv {A} (p : A * bytes) (q : A * slc) : Prop := fst q = fst p /\ g (snd q) (snd p).

Lemma elt_shape v t e c r : readAnyElt v = Some (t, e, c, r) -> v = e ++ r /\ c = skipn (List.length e - List.length c) e.
Proof.
  unfold readAnyElt. destruct v as [|t0 [|lb v]]; try discriminate. set (w := t0 :: lb :: v). destruct (_ =? _)%Z; [discriminate|].
  cbv zeta. match goal with |- match ?x with Some _ => _ | None => _ end = _ -> _ => destruct x as [[n k]|]; [|discriminate] end. destruct (_ <? _)%Z; [discriminate|]. intros [= <- <- <- <-]. split; [symmetry; apply firstn_skipn|].
  set (e := firstn (Z.to_nat n) w). rewrite skipn_length. destruct (Nat.le_gt_cases (Z.to_nat k) (List.length e)).
  - f_equal. lia.
  - rewrite !skipn_all2 by lia. reflexivity.
Qed.
Lemma any_same s v : g s v -> osame (fun p q => fst (fst (fst q)) = fst (fst (fst p)) /\ g (snd (fst (fst q))) (snd (fst (fst p))) /\ g (snd (fst q)) (snd (fst p)) /\ g (snd q) (snd p)) (readAnyElt v) (sAnyElt h s).
Proof.
  intros H. unfold sAnyElt. rewrite (proj2 H). destruct (readAnyElt v) as [[[[t e] c] r]|] eqn:E; [|exact Logic.I]. apply elt_shape in E as [E1 E2]. cbn [osame fst snd].
  assert (L : List.length v = List.length e + List.length r) by (rewrite E1, app_length; reflexivity).
  assert (Lc : List.length c <= List.length e) by (rewrite E2 at 1; rewrite skipn_length; lia).
  split; [reflexivity|]. split; [|split].
  - pose proof (g_cut s v 0 (List.length e) H ltac:(lia)) as Q. rewrite Nat.sub_0_r in Q. cbn [skipn] in Q. rewrite E1 in Q. rewrite firstn_app, firstn_all, Nat.sub_diag in Q. cbn [firstn] in Q. rewrite app_nil_r in Q. exact Q.
  - pose proof (g_cut s v (List.length e - List.length c) (List.length e) H ltac:(lia)) as Q. rewrite E1 in Q. rewrite skipn_app in Q. rewrite <- E2 in Q.
    replace (List.length e - (List.length e - List.length c)) with (List.length c) in Q by lia. rewrite firstn_app, firstn_all, Nat.sub_diag in Q. cbn [firstn] in Q. rewrite app_nil_r in Q. exact Q.
  - apply (g_left s v e r H E1).
Qed.
Lemma asn1_same t s v : g s v -> osame g2 (readASN1 t v) (sASN1 h t s).
Proof.
  intros H. apply any_same in H. unfold readASN1, sASN1. destruct (readAnyElt v) as [[[[t' e] c] r]|], (sAnyElt h s) as [[[[t'' e'] c'] r']|]; cbn in H; try contradiction; [|exact Logic.I].
  destruct H as (-> & _ & H1 & H2). destruct (_ =? _)%Z; cbn; auto. split; assumption.
Qed.
Lemma element_same t s v : g s v -> osame g2 (readASN1Element t v) (sElement h t s).
Proof.
  intros H. apply any_same in H. unfold readASN1Element, sElement. destruct (readAnyElt v) as [[[[t' e] c] r]|], (sAnyElt h s) as [[[[t'' e'] c'] r']|]; cbn in H; try contradiction; [|exact Logic.I].
  destruct H as (-> & H1 & _ & H2). destruct (_ =? _)%Z; cbn; auto. split; assumption.
Qed.
Lemma readAny_same s v : g s v -> osame (fun p q => fst (fst q) = fst (fst p) /\ g (snd (fst q)) (snd (fst p)) /\ g (snd q) (snd p)) (readAny v) (sAny h s).
Proof.
  intros H. apply any_same in H. unfold readAny, sAny. destruct (readAnyElt v) as [[[[t' e] c] r]|], (sAnyElt h s) as [[[[t'' e'] c'] r']|]; cbn in H |- *; try contradiction; tauto.
Qed.
Definition tails {A} (f : bytes -> option (A * bytes)) : Prop := forall v a r, f v = Some (a, r) -> exists p, v = p ++ r.
Lemma rest_same {A} (f : bytes -> option (A * bytes)) s v : tails f -> g s v -> osame gv (f v) (sRest h f s).
Proof.
  intros F H. unfold sRest. rewrite (proj2 H). destruct (f v) as [[a r]|] eqn:E; [|exact Logic.I]. apply F in E as [p E]. split; [reflexivity|]. cbn [snd]. eapply g_left; eauto.
Qed.
Lemma asn1_tails t v c r : readASN1 t v = Some (c, r) -> exists p, v = p ++ r.
Proof. unfold readASN1. destruct (readAnyElt v) as [[[[t' e] c'] r']|] eqn:E; [|discriminate]. destruct (_ =? _)%Z; [|discriminate]. intros [= <- <-]. apply elt_shape in E as [E _]. eauto. Qed.
Lemma oid_tails : tails readOID.
Proof. intros v a r. unfold readOID. destruct (readASN1 T_OID v) as [[c r']|] eqn:E; [|discriminate]. destruct (cb_oid c); [|discriminate]. intros [= <- <-]. eapply asn1_tails; eauto. Qed.
Lemma bool_tails : tails readBool.
Proof. intros v a r. unfold readBool. destruct (readASN1 _ v) as [[[|b [|]] r']|] eqn:E; try discriminate. destruct (_ =? _)%Z; [|destruct (_ =? _)%Z; [|discriminate]]; intros [= <- <-]; eapply asn1_tails; eauto. Qed.
Lemma big_tails : tails readBigInt.
Proof. intros v a r. unfold readBigInt. destruct (readASN1 _ v) as [[c r']|] eqn:E; [|discriminate]. destruct (checkASN1Integer c); [|discriminate]. intros [= <- <-]. eapply asn1_tails; eauto. Qed.
Lemma optint_tails t : tails (readOptionalInt t).
Proof.
  intros v a r. unfold readOptionalInt, readOptional. destruct (peekTag t v).
  - destruct (readASN1 t v) as [[c r']|] eqn:E; [|discriminate]. destruct (readInt64 c) as [[n [|]]|]; try discriminate. intros [= <- <-]. eapply asn1_tails; eauto.
  - intros [= <- <-]. exists []. reflexivity.
Qed.
Lemma skip_same t s v : g s v -> osame (fun p q => g q p) (skipOptional t v) (sSkip h t s).
Proof.
  intros H. unfold skipOptional, sSkip. rewrite (proj2 H). destruct (peekTag t v); [|exact H]. pose proof (asn1_same t s v H) as Q. destruct (readASN1 t v) as [[c r]|], (sASN1 h t s) as [[c' r']|]; cbn in Q |- *; try contradiction; auto. apply Q.
Qed.
Definition g3 (p : bool * bytes * bytes) (q : bool * slc * slc) : Prop := fst (fst q) = fst (fst p) /\ g (snd (fst q)) (snd (fst p)) /\ g (snd q) (snd p).
Lemma optional_same t s v : g s v -> osame g3 (readOptional t v) (sOptional h t s).
Proof.
  intros H. unfold readOptional, sOptional. rewrite (proj2 H). destruct (peekTag t v).
  - pose proof (asn1_same t s v H) as Q. destruct (readASN1 t v) as [[c r]|], (sASN1 h t s) as [[c' r']|]; cbn in Q |- *; try contradiction; auto. split; [reflexivity|]. exact Q.
  - cbn. split; [reflexivity|]. cbn [fst snd]. split; [|exact H]. exact (g_cut s v 0 0 H ltac:(lia)).
Qed.
Lemma shift_right_len sh : forall b prev, List.length (shift_right sh prev b) = List.length b.
Proof. induction b; intros; cbn; auto. Qed.
(** C144_bits: the signature (and an Ed25519 key) stands in a BIT STRING whose contents are [w]: the number of unused bits, then
    the bytes.  Whole bytes are a window on it, anything else was shifted into a new array. *)
Definition bits_held (x : held) : Prop :=
  exists w, within D w /\ 0 < s_len w /\
    (nth 0 (rd h w) 0%Z = 0%Z -> x = Window (mkS (s_arr w) (s_off w + 1) (s_len w - 1) (s_cap w - 1))) /\
    ((0 < nth 0 (rd h w) 0)%Z -> 1 < s_len w -> exists b, x = Copy b /\ List.length b = s_len w - 1).
Lemma bits_held_ok s v b k sp r : g s v -> readBitString v = Some (b, r) -> sBits h s = Some (k, b, sp) -> bits_held (sRightAlign k b).
Proof.
  intros G E S. unfold sBits in S. rewrite (proj2 G) in S. pose proof (asn1_same T_BIT_STRING s v G) as Q. unfold readBitString in *.
  destruct (readASN1 T_BIT_STRING v) as [[c r']|]; [|discriminate]. destruct (sASN1 h T_BIT_STRING s) as [[c' s']|]; [|contradiction]. destruct Q as [Q _]. cbn [fst snd] in *.
  destruct c as [|pad c]; [discriminate|]. destruct (_ || _ || _) eqn:C; [discriminate|]. injection S as <- <- <-. injection E as _. pose proof (g_len _ _ Q) as L. cbn [List.length] in L.
  exists c'. split; [apply Q|]. split; [lia|]. rewrite (proj2 Q). cbn [nth]. unfold sRightAlign. cbn [bs_len bs_bytes sl cut s_len].
  split.
  - intros ->. replace (8 - Z.rem (8 * zlen c - 0) 8 =? 8)%Z with true; [cbn [orb]; unfold cut; f_equal|]. symmetry. rewrite Z.sub_0_r, Z.mul_comm, Z.rem_mul by lia. reflexivity.
  - intros N L1. replace (8 - Z.rem (8 * zlen c - pad) 8 =? 8)%Z with false; [|symmetry; unfold zlen in *; lia]. rewrite L. cbn [Nat.sub orb]. rewrite Nat.sub_0_r.
    destruct (List.length c =? 0) eqn:Z0; [lia|]. eexists. split; [reflexivity|]. unfold RightAlign. cbn [bs_len bs_bytes sl].
    match goal with |- context[if ?x then _ else _] => destruct x end; [reflexivity|]. apply shift_right_len.
Qed.
Definition gb (p : bitString * bytes) (q : slc * bitString * slc) : Prop := snd (fst q) = fst p /\ g (snd q) (snd p) /\ g (fst (fst q)) (sl (bs_bytes (fst p))) /\ bits_held (sRightAlign (fst (fst q)) (snd (fst q))).
Lemma bits_same s v : g s v -> osame gb (readBitString v) (sBits h s).
Proof.
  intros H. assert (B : forall k b sp, sBits h s = Some (k, b, sp) -> bits_held (sRightAlign k b)).
  { intros k b sp S. destruct (readBitString v) as [[b0 r0]|] eqn:E.
    - pose proof S as S'. unfold sBits in S'. rewrite (proj2 H), E in S'. destruct (sASN1 h T_BIT_STRING s) as [[c r']|]; [|discriminate]. assert (b0 = b) as -> by congruence. eapply bits_held_ok; eassumption.
    - unfold sBits in S. rewrite (proj2 H), E in S. discriminate. }
  revert B. unfold sBits. rewrite (proj2 H). pose proof (asn1_same T_BIT_STRING s v H) as Q. unfold readBitString in *. destruct (readASN1 T_BIT_STRING v) as [[c r]|]; [|intros _; exact Logic.I].
  destruct (sASN1 h T_BIT_STRING s) as [[c' r']|]; [|contradiction]. destruct Q as [Q1 Q2]. cbn [fst snd] in *. destruct c as [|pad c]; [intros _; exact Logic.I|]. destruct (_ || _ || _); [intros _; exact Logic.I|].
  intros B. split; [reflexivity|]. split; [exact Q2|]. split; [|eapply B; reflexivity]. cbn [fst bs_bytes sl]. rewrite (g_len _ _ Q1). pose proof (g_cut c' (pad :: c) 1 (List.length (pad :: c)) Q1 ltac:(cbn [List.length]; lia)) as K.
  cbn [List.length skipn Nat.sub] in *. rewrite Nat.sub_0_r, firstn_all in K. exact K.
Qed.
Definition hseen (x : held) : bytes := heldSeen h x.
Definition hin (x : held) : Prop := match x with Window s => within D s | Copy _ => True end.
Lemma align_same s b : g s (sl (bs_bytes b)) -> hseen (sRightAlign s b) = RightAlign b /\ hin (sRightAlign s b).
Proof.
  intros H. unfold sRightAlign, RightAlign. rewrite (g_len _ _ H). destruct (_ || _) eqn:E; [split; [apply H|apply H]|]. split; [reflexivity|exact Logic.I].
Qed.
Lemma many_same {A B} (R : A -> B -> Prop) (step : bytes -> outcome (A * bytes)) (stepS : slc -> outcome (B * slc)) :
  (forall s v, g s v -> same (fun p q => R (fst p) (fst q) /\ g (snd q) (snd p)) (step v) (stepS s)) ->
  forall s v, g s v -> same (Forall2 R) (many step v) (sMany stepS s).
Proof.
  intros HS. assert (F : forall n s v, g s v -> same (Forall2 R) (many_fuel step n v) (sMany_fuel stepS n s)).
  { induction n as [|n IH]; intros s v H; pose proof (g_len _ _ H) as L.
    - destruct v; cbn [many_fuel sMany_fuel]; rewrite L; cbn [List.length Nat.eqb]; cbn; auto.
    - destruct v as [|b v]; cbn [many_fuel sMany_fuel]; rewrite L; cbn [List.length Nat.eqb]; [constructor|]. eapply bind_same; [apply HS; exact H|]. intros [a r] [a' r'] [H1 H2]. cbn [fst snd] in *.
      eapply bind_same; [apply IH; exact H2|]. intros l l' Hl. constructor; assumption. }
  intros s v H. unfold many, sMany. rewrite (g_len _ _ H). apply F; exact H.
Qed.
(** ** The extensions *)
Lemma parseExtension_same s v : g s v -> same (fun e x => extSeen h x = e /\ within D (xs_Value x)) (parseExtension v) (parseExtensionS h s).
Proof.
  intros H. unfold parseExtension, parseExtensionS.
  eapply bind_same; [apply need_same, rest_same; [exact oid_tails|exact H]|]. intros [id v1] [id' s1] [H1 H2]. cbn [fst snd] in *. subst id'.
  eapply (bind_same gv).
  - rewrite (proj2 H2). destruct (peekTag T_BOOLEAN v1); [apply need_same, rest_same; [exact bool_tails|exact H2]|]. split; [reflexivity|exact H2].
  - intros [crit v2] [crit' s2] [H3 H4]. cbn [fst snd] in *. subst crit'. eapply bind_same; [apply need_same, asn1_same, H4|].
    intros [val v3] [val' s3] [H5 H6]. cbn [fst snd same] in *. split; [|apply H5]. unfold extSeen; cbn. now rewrite (proj2 H5).
Qed.
Lemma Forall2_flat {A B C E'} (R : A -> B -> Prop) (f : A -> list C) (k : B -> list E') (Q : C -> E' -> Prop) l l' :
  Forall2 R l l' -> (forall a b, R a b -> Forall2 Q (f a) (k b)) -> Forall2 Q (flat_map f l) (flat_map k l').
Proof. intros H K. induction H; cbn; [constructor|]. apply Forall2_app; auto. Qed.
Lemma san_same net s v S : g s v -> parseSANExtension net v = Ret S -> exists l, sanIPs h net s = Ret l /\ Forall2 (fun ip a => g a ip) (san_IP S) l.
Proof.
  intros H E. assert (K : same (fun S l => Forall2 (fun ip a => g a ip) (san_IP S) l) (parseSANExtension net v) (sanIPs h net s)).
  { unfold parseSANExtension, forEachSAN, sanIPs.
    pose proof (asn1_same T_SEQUENCE s v H) as Q. destruct (readASN1 T_SEQUENCE v) as [[c r]|], (sASN1 h T_SEQUENCE s) as [[c' r']|]; try contradiction; [|reflexivity].
    destruct Q as [Q _]. cbn [fst snd need bind] in *.
    eapply (bind_same (Forall2 (fun (x : genName) (p : genName * slc) => fst p = x /\ forall ip, x = GNip ip -> g (snd p) ip))).
    - refine (many_same _ _ _ _ c' c Q). intros s1 v1 G1. eapply bind_same; [apply need_same, readAny_same, G1|]. intros [[t a] r1] [[t' a'] r1'] (K1 & K2 & K3). cbn [fst snd] in *. subst t'.
      rewrite (proj2 K2). apply bind_both. intros x Ex. cbn [same fst snd]. split; [split; [reflexivity|]|exact K3]. intros ip ->.
      revert Ex. unfold sanCallback. repeat match goal with |- context[if ?b then _ else _] => destruct b | |- context[match url_Parse ?a ?b with _ => _ end] => destruct (url_Parse a b) end; intros Ex; try discriminate. injection Ex as <-. exact K2.
    - intros l l' F. cbn [same collect_san san_IP]. eapply Forall2_flat; [exact F|]. intros x [y w] [E1 E2]. cbn [fst snd] in *. subst y. destruct x; constructor; [apply E2; reflexivity|constructor]. }
  rewrite E in K. destruct (sanIPs h net s) as [l| |]; try contradiction. eauto.
Qed.
Definition gnet (n : IPNet) (p : slc * slc) : Prop := g (fst p) (ipn_IP n) /\ g (snd p) (ipn_Mask n).
Definition gc (c : constraint) (p : constraint * slc) : Prop := fst p = c /\ forall n, c = NCip n -> gnet n (cut (snd p) 0 (s_len (snd p) / 2), cut (snd p) (s_len (snd p) / 2) (s_len (snd p))).
Lemma subtree_same net s v : g s v -> same (fun p q => gc (fst p) (fst q) /\ g (snd q) (snd p)) (parseSubtree net v) (subtreeS h net s).
Proof.
  intros H. unfold subtreeS. rewrite (proj2 H). unfold parseSubtree.
  pose proof (asn1_same T_SEQUENCE s v H) as Q. destruct (readASN1 T_SEQUENCE v) as [[c r]|], (sASN1 h T_SEQUENCE s) as [[c' r']|]; try contradiction; [|reflexivity].
  destruct Q as [Q R]. cbn [fst snd need bind] in *.
  pose proof (readAny_same c' c Q) as K. destruct (readAny c) as [[[t a] r1]|], (sAny h c') as [[[t' a'] r1']|]; try contradiction; [|reflexivity].
  destruct K as (_ & K & _). cbn [fst snd need bind] in *.
  match goal with |- same _ (bind ?m _) _ => destruct m as [x| |] eqn:E end; cbn [bind same fst snd]; [|reflexivity|exact Logic.I]. split; [|exact R]. split; [reflexivity|]. cbn [fst snd]. intros n ->.
  revert E. repeat match goal with |- context[if ?b then _ else _] => let X := fresh "X" in destruct b eqn:X | |- context[match parseRFC2821Mailbox ?b with _ => _ end] => destruct (parseRFC2821Mailbox b) end; intros E; try discriminate. injection E as <-.
  unfold gnet; cbn [fst snd ipn_IP ipn_Mask]. rewrite (g_len _ _ K). assert (L : List.length a / 2 <= List.length a) by (apply Nat.div_le_upper_bound; lia).
  split.
  - pose proof (g_cut a' a 0 (List.length a / 2) K ltac:(lia)) as Z0. rewrite Nat.sub_0_r in Z0. exact Z0.
  - pose proof (g_cut a' a (List.length a / 2) (List.length a) K ltac:(lia)) as Z0. rewrite <- skipn_length, firstn_all in Z0. exact Z0.
Qed.
Lemma nets_same l l' : Forall2 gc l l' -> Forall2 gnet (nc_IP (collect_nc l)) (netsOf l').
Proof. intros F. eapply Forall2_flat; [exact F|]. intros x [y w] [E1 E2]. cbn [fst snd] in *. subst y. destruct x; constructor; [apply E2; reflexivity|constructor]. Qed.
Lemma nc_same net s v p x u : g s v -> parseNameConstraintsExtension net v = Ret (p, x, u) ->
  exists lp lx, ncNets h net s = Ret (lp, lx) /\ Forall2 gnet (nc_IP p) lp /\ Forall2 gnet (nc_IP x) lx.
Proof.
  intros H E. unfold parseNameConstraintsExtension, ncNets in *.
  pose proof (asn1_same T_SEQUENCE s v H) as Q. destruct (readASN1 T_SEQUENCE v) as [[c r]|], (sASN1 h T_SEQUENCE s) as [[c' r']|]; try contradiction; try discriminate E.
  destruct Q as [Q _]. cbn [fst snd need bind] in *. destruct r; [|discriminate E].
  pose proof (optional_same (ctxc 0) c' c Q) as K. destruct (readOptional (ctxc 0) c) as [[[b1 c1] r1]|], (sOptional h (ctxc 0) c') as [[[b1' c1'] r1']|]; try contradiction; try discriminate E.
  destruct K as (_ & K1 & K2). cbn [fst snd need bind] in *.
  pose proof (optional_same (ctxc 1) r1' r1 K2) as K. destruct (readOptional (ctxc 1) r1) as [[[b2 c2] r2]|], (sOptional h (ctxc 1) r1') as [[[b2' c2'] r2']|]; try contradiction; try discriminate E.
  destruct K as (_ & K3 & _). cbn [fst snd need bind] in *. destruct r2; [|discriminate E]. destruct (_ || _); [discriminate E|].
  pose proof (many_same gc (parseSubtree net) (subtreeS h net) (subtree_same net) c1' c1 K1) as M1. destruct (many (parseSubtree net) c1) as [l1| |], (sMany (subtreeS h net) c1') as [l1'| |]; try contradiction; try discriminate E.
  cbn [bind] in *.
  pose proof (many_same gc (parseSubtree net) (subtreeS h net) (subtree_same net) c2' c2 K3) as M2. destruct (many (parseSubtree net) c2) as [l2| |], (sMany (subtreeS h net) c2') as [l2'| |]; try contradiction; try discriminate E.
  cbn [bind] in *. injection E as <- <- _. exists (netsOf l1'), (netsOf l2'). split; [reflexivity|]. split; apply nets_same; assumption.
Qed.
Lemma aki_same s v : g s v -> match parseAKI v with Ret k => osame (fun id a => g a id) k (akiS h s) | _ => True end.
Proof.
  intros H. unfold parseAKI, akiS. pose proof (asn1_same T_SEQUENCE s v H) as Q. destruct (readASN1 T_SEQUENCE v) as [[c r]|], (sASN1 h T_SEQUENCE s) as [[c' r']|]; try contradiction; [|exact Logic.I].
  destruct Q as [Q _]. cbn [fst snd need bind] in *. rewrite (proj2 Q). destruct (peekTag (ctx 0) c); [|exact Logic.I].
  pose proof (asn1_same (ctx 0) c' c Q) as K. destruct (readASN1 (ctx 0) c) as [[c1 r1]|], (sASN1 h (ctx 0) c') as [[c1' r1']|]; try contradiction; [|exact Logic.I]. apply K.
Qed.
Definition agree (r : refs) (i : extInfo) : Prop :=
  i_SubjectKeyId i = refSeen h (rf_SKI r) /\ i_AuthorityKeyId i = refSeen h (rf_AKI r) /\
  (forall a, rf_SKI r = Some a -> within D a) /\ (forall a, rf_AKI r = Some a -> within D a) /\
  Forall2 (fun ip a => g a ip) (san_IP (i_SAN i)) (rf_IP r) /\
  Forall2 gnet (nc_IP (i_Permitted i)) (rf_Permitted r) /\ Forall2 gnet (nc_IP (i_Excluded i)) (rf_Excluded r).
Lemma process_agree net r i e i' u : within D (xs_Value e) -> processExtension net i (extSeen h e) = Ret (i', u) -> agree r i -> agree (processRefs h net r e) i'.
Proof.
  intros HV E A. assert (G : g (xs_Value e) (rd h (xs_Value e))) by (split; [exact HV|reflexivity]). unfold processRefs.
  destruct (oid_eqb (xs_Id e) [2; 5; 29; 14]%Z) eqn:E1; [|destruct (oid_eqb (xs_Id e) [2; 5; 29; 35]%Z) eqn:E2; [|destruct (oid_eqb (xs_Id e) [2; 5; 29; 17]%Z) eqn:E3; [|destruct (oid_eqb (xs_Id e) [2; 5; 29; 30]%Z) eqn:E4]]].
  - apply bytes_eqb_spec in E1. unfold processExtension in E. cbn [extSeen x_Id x_Value x_Critical] in E. rewrite E1 in E. cbn [List.length nth Nat.eqb Z.eqb Pos.eqb andb] in E.
    pose proof (asn1_same T_OCTET_STRING _ _ G) as Q. destruct (readASN1 T_OCTET_STRING (rd h (xs_Value e))) as [[c r1]|]; [|discriminate E]. destruct (sASN1 h T_OCTET_STRING (xs_Value e)) as [[c' r1']|]; [|contradiction].
    cbn [need bind] in E. injection E as <- _. destruct Q as [[Q1 Q2] _]. cbn [fst snd] in *. destruct i. cbn. destruct A as (A1 & A2 & A3 & A4 & A5 & A6 & A7). cbn in *. unfold agree; repeat (match goal with |- _ /\ _ => split end); cbn; auto; try (intros ? [= <-]; assumption).
  - apply bytes_eqb_spec in E2. unfold processExtension in E. cbn [extSeen x_Id x_Value x_Critical] in E. rewrite E2 in E. cbn [List.length nth Nat.eqb Z.eqb Pos.eqb andb] in E.
    pose proof (aki_same _ _ G) as Q. destruct (parseAKI (rd h (xs_Value e))) as [k| |]; [|discriminate E|discriminate E]. cbn [bind] in E. injection E as <- _.
    destruct k as [k|], (akiS h (xs_Value e)) as [k'|]; try contradiction; [|exact A]. destruct Q as [Q1 Q2]. destruct i. cbn. destruct A as (A1 & A2 & A3 & A4 & A5 & A6 & A7). cbn in *. unfold agree; repeat (match goal with |- _ /\ _ => split end); cbn; auto; try (intros ? [= <-]; assumption).
  - apply bytes_eqb_spec in E3. unfold processExtension in E. cbn [extSeen x_Id x_Value x_Critical] in E. rewrite E3 in E. cbn [List.length nth Nat.eqb Z.eqb Pos.eqb andb] in E.
    destruct (parseSANExtension net (rd h (xs_Value e))) as [S0| |] eqn:ES; [|discriminate E|discriminate E]. cbn [bind] in E. injection E as <- _.
    destruct (san_same net _ _ _ G ES) as (l & -> & F). destruct i. cbn. destruct A as (A1 & A2 & A3 & A4 & A5 & A6 & A7). cbn in *. unfold agree. repeat (match goal with |- _ /\ _ => split end); cbn; auto.
  - apply bytes_eqb_spec in E4. unfold processExtension in E. cbn [extSeen x_Id x_Value x_Critical] in E. rewrite E4 in E. cbn [List.length nth Nat.eqb Z.eqb Pos.eqb andb] in E.
    destruct (parseNameConstraintsExtension net (rd h (xs_Value e))) as [[[p x] w]| |] eqn:ES; [|discriminate E|discriminate E]. cbn [bind] in E. injection E as <- _.
    destruct (nc_same net _ _ _ _ _ G ES) as (lp & lx & -> & F1 & F2). destruct i. cbn. destruct A as (A1 & A2 & A3 & A4 & A5 & A6 & A7). cbn in *. unfold agree. repeat (match goal with |- _ /\ _ => split end); cbn; auto.
  - assert (K : forall n, xs_Id e = [2; 5; 29; n]%Z -> n <> 14%Z /\ n <> 35%Z /\ n <> 17%Z /\ n <> 30%Z).
    { intros n Hn. rewrite Hn in *. repeat split; intros ->; discriminate. }
    unfold processExtension in E. cbn [extSeen x_Id x_Value x_Critical] in E. destruct (_ && _) eqn:C.
    + destruct (xs_Id e) as [|a [|b [|c [|n [|]]]]]; try discriminate C. cbn [List.length nth Nat.eqb andb] in *. assert (a = 2 /\ b = 5 /\ c = 29)%Z as (-> & -> & ->) by lia. destruct (K n eq_refl) as (K1 & K2 & K3 & K4).
      replace (n =? 17)%Z with false in E by lia. replace (n =? 30)%Z with false in E by lia. replace (n =? 35)%Z with false in E by lia. replace (n =? 14)%Z with false in E by lia.
      repeat match type of E with (if ?b then _ else _) = _ => destruct b end; repeat (match type of E with bind ?m _ = _ => destruct m as [[? ?]| |] || destruct m as [?| |]; cbn [bind] in E; try discriminate E end); injection E as <- _; destruct i; exact A.
    + destruct (oid_eqb _ _).
      * destruct (parseAIA _) as [[o q]| |]; [|discriminate E|discriminate E]. cbn [bind] in E. injection E as <- _. destruct i; exact A.
      * injection E as <- _. exact A.
Qed.
Lemma processS_same net : forall l i r, agree r i -> Forall (fun e => within D (xs_Value e)) l ->
  same (fun i q => fst q = i /\ agree (snd q) i) (processExtensions net i (map (extSeen h) l)) (processS h net i r l).
Proof.
  induction l as [|e l IH]; intros i r A F; cbn [map processExtensions processS]; [split; [reflexivity|exact A]|]. inversion F; subst.
  apply bind_both. intros [i' u] E. apply IH; [|assumption]. cbn [extSeen x_Critical x_Id]. pose proof (process_agree net r i e i' u H1 E A) as K. destruct (xs_Critical e && u); [|exact K]. destruct i'. exact K.
Qed.
Lemma rd_map l ips : Forall2 (fun ip a => g a ip) ips l -> map (rd h) l = ips.
Proof. induction 1 as [|ip a ips l [_ H] _ IH]; cbn; congruence. Qed.
Lemma net_map l nets : Forall2 gnet nets l -> map (netSeen h) l = nets.
Proof. induction 1 as [|[ip m] [a b] ips l [[_ H1] [_ H2]] _ IH]; cbn in *; [reflexivity|]. rewrite IH; unfold netSeen; cbn; rewrite H1, H2. reflexivity. Qed.
Lemma agree_seen r i : agree r i -> infoSeen h r i = i.
Proof.
  intros (A1 & A2 & _ & _ & A3 & A4 & A5). apply rd_map in A3. apply net_map in A4, A5. destruct i as [? ? ? ? ? [? ? ? ?] [? ? ? ?] [? ? ? ?]]. unfold infoSeen. cbn in *. subst. reflexivity.
Qed.
(** every window a certificate holds *)
Definition heldWindows (x : held) : list slc := match x with Window s => [s] | Copy _ => [] end.
Definition optWindow (x : option slc) : list slc := match x with Some s => [s] | None => [] end.
Definition windows (c : CertS) : list slc :=
  [cs_Raw c; cs_RawTBS c; cs_RawSPKI c; cs_RawSubject c; cs_RawIssuer c] ++ heldWindows (cs_Signature c) ++
  match cs_Ed25519 c with Some k => heldWindows k | None => [] end ++ map xs_Value (cs_Extensions c) ++
  optWindow (rf_SKI (cs_Refs c)) ++ optWindow (rf_AKI (cs_Refs c)) ++ rf_IP (cs_Refs c) ++
  flat_map (fun p => [fst p; snd p]) (rf_Permitted (cs_Refs c) ++ rf_Excluded (cs_Refs c)).
Lemma held_in x : hin x -> Forall (within D) (heldWindows x).
Proof. destruct x; cbn; intros H; constructor; auto. Qed.
Lemma agree_in r i : agree r i -> Forall (within D) (optWindow (rf_SKI r) ++ optWindow (rf_AKI r) ++ rf_IP r ++ flat_map (fun p => [fst p; snd p]) (rf_Permitted r ++ rf_Excluded r)).
Proof.
  intros (_ & _ & A1 & A2 & A3 & A4 & A5). repeat (apply Forall_app; split).
  - destruct (rf_SKI r); cbn; constructor; auto.
  - destruct (rf_AKI r); cbn; constructor; auto.
  - clear - A3. induction A3; constructor; auto. apply H.
  - rewrite flat_map_app. apply Forall_app; split; [clear - A4; induction A4|clear - A5; induction A5]; cbn; repeat constructor; auto; apply H.
Qed.
Lemma tail_same net version s v : g s v ->
  same (fun p q => map (extSeen h) (fst q) = fst p /\ Forall (fun e => within D (xs_Value e)) (fst q) /\ fst (snd q) = snd p /\ agree (snd (snd q)) (snd p)) (parseTail net version v) (parseTailS h net version s).
Proof.
  intros H. assert (A0 : agree noRefs info0) by (repeat split; try constructor; discriminate).
  assert (N : (map (extSeen h) [] = [] /\ Forall (fun e => within D (xs_Value e)) [] /\ info0 = info0 /\ agree noRefs info0)) by (repeat split; try constructor; try discriminate).
  unfold parseTail, parseTailS. destruct (1 <? version)%Z; [|exact N].
  eapply bind_same; [apply need_same, skip_same, H|]. intros v1 s1 H1. cbn beta in H1. eapply bind_same; [apply need_same, skip_same, H1|]. intros v2 s2 H2. cbn beta in H2.
  destruct (version =? 3)%Z; [|exact N]. eapply bind_same; [apply need_same, optional_same, H2|]. intros [[b v3] v4] [[b' s3] s4] (E & H3 & _). cbn [fst snd] in *. subst b'. destruct b; [|exact N].
  eapply bind_same; [apply need_same, asn1_same, H3|]. intros [v5 v6] [s5 s6] [H5 _]. cbn [fst snd] in *.
  eapply bind_same.
  - refine (many_same (fun e x => extSeen h x = e /\ within D (xs_Value x)) _ _ _ s5 v5 H5). intros s7 v7 H7. unfold parseExtStep, parseExtStepS.
    eapply bind_same; [apply need_same, asn1_same, H7|]. intros [v8 v9] [s8 s9] [H8 H9]. cbn [fst snd] in *. eapply bind_same; [apply parseExtension_same, H8|]. intros e x Hx. split; [exact Hx|exact H9].
  - intros l l' F. assert (M : map (extSeen h) l' = l /\ Forall (fun e => within D (xs_Value e)) l') by (clear - F; induction F as [|e x l l' [E1 E2] _ [IH1 IH2]]; cbn; [split; constructor|split; [congruence|constructor; assumption]]).
    destruct M as [<- M]. eapply bind_same; [apply processS_same; [exact A0|exact M]|]. intros i [i' r] [E K]. cbn [fst snd] in *. cbn [same fst snd]. split; [reflexivity|]. split; [exact M|]. split; [exact E|exact K].
Qed.
Definition bits_good (cs : CertS) : Prop :=
  bits_held (cs_Signature cs) /\
  match c_PublicKey (seen h cs) with PKed25519 k => exists x, cs_Ed25519 cs = Some x /\ heldSeen h x = k /\ bits_held x | _ => cs_Ed25519 cs = None end.
Lemma cert_same net s v : g s v -> same (fun c cs => (seen h cs = c /\ Forall (within D) (windows cs)) /\ bits_good cs) (parseCertificate net v) (parseCertificateS h net s).
Proof.
  intros H. unfold parseCertificate, parseCertificateS.
  eapply bind_same; [apply need_same, element_same, H|]. intros [raw x1] [raw' y1] [Hraw _]. cbn [fst snd] in *.
  eapply bind_same; [apply need_same, asn1_same, Hraw|]. intros [input x2] [input' y2] [Hin _]. cbn [fst snd] in *.
  eapply bind_same; [apply need_same, element_same, Hin|]. intros [rt x3] [rt' y3] [Hrt Hin2]. cbn [fst snd] in *.
  eapply bind_same; [apply need_same, asn1_same, Hrt|]. intros [tbs x4] [tbs' y4] [Ht _]. cbn [fst snd] in *.
  eapply bind_same; [apply need_same, rest_same; [apply optint_tails|exact Ht]|]. intros [vn x5] [vn' y5] [Ev H5]. cbn [fst snd] in *. subst vn'.
  destruct (vn <? 0)%Z; [reflexivity|]. cbv zeta. destruct (3 <? wrap64 (vn + 1))%Z; [reflexivity|].
  eapply bind_same; [apply need_same, rest_same; [exact big_tails|exact H5]|]. intros [serial x6] [serial' y6] [Es H6]. cbn [fst snd] in *. subst serial'.
  eapply bind_same; [apply need_same, asn1_same, H6|]. intros [sai x7] [sai' y7] [Hsai H7]. cbn [fst snd] in *.
  eapply bind_same; [apply need_same, asn1_same, Hin2|]. intros [osai x8] [osai' y8] [Hosai H8]. cbn [fst snd] in *.
  rewrite (proj2 Hsai), (proj2 Hosai). destruct (negb (bytes_eqb osai sai)); [reflexivity|]. apply bind_both. intros sigAI _.
  eapply bind_same; [apply need_same, element_same, H7|]. intros [iss x9] [iss' y9] [Hiss H9]. cbn [fst snd] in *. rewrite (proj2 Hiss). apply bind_both. intros issuer _.
  eapply bind_same; [apply need_same, asn1_same, H9|]. intros [val x10] [val' y10] [Hval H10]. cbn [fst snd] in *. rewrite (proj2 Hval). apply bind_both. intros [nb na] _.
  eapply bind_same; [apply need_same, element_same, H10|]. intros [sub x11] [sub' y11] [Hsub H11]. cbn [fst snd] in *. rewrite (proj2 Hsub). apply bind_both. intros subject _.
  eapply bind_same; [apply need_same, element_same, H11|]. intros [rspki x12] [rspki' y12] [Hrspki H12]. cbn [fst snd] in *.
  eapply bind_same; [apply need_same, asn1_same, Hrspki|]. intros [spki x13] [spki' y13] [Hspki _]. cbn [fst snd] in *.
  eapply bind_same; [apply need_same, asn1_same, Hspki|]. intros [pkai x14] [pkai' y14] [Hpkai H14]. cbn [fst snd] in *. rewrite (proj2 Hpkai). apply bind_both. intros pkAI _.
  eapply bind_same; [apply need_same, bits_same, H14|]. intros [spk x15] [[kb spk'] y15] (Espk & _ & Hkb & Bk). cbn [fst snd] in *. subst spk'.
  apply bind_both. intros pub Hpub.
  eapply bind_same; [apply tail_same, H12|]. intros [exts info] [exts' ir] (Ex1 & Ex2 & Ei & Ag). cbn [fst snd] in *. subst exts.
  eapply bind_same; [apply need_same, bits_same, H8|]. intros [sg x16] [[sb sg'] y16] (Esg & _ & Hsb & Bs). cbn [fst snd] in *. subst sg'.
  cbn [same]. pose proof (align_same _ _ Hsb) as [S1 S2]. pose proof (align_same _ _ Hkb) as [K1 K2]. unfold hseen in *. split; [split|].
  - unfold seen. cbn. rewrite S1, (proj2 Hraw), (proj2 Hrt), (proj2 Hrspki), (proj2 Hsub), (proj2 Hiss), <- Ei, (agree_seen (snd ir) (fst ir)) by (rewrite Ei; exact Ag). f_equal.
    destruct pub; try reflexivity. rewrite K1. f_equal. revert Hpub. clear. set (pka := getPublicKeyAlgorithmFromOID _). unfold parsePublicKey. cbn [pki_PublicKey]. intros Hpub.
    destruct pka; try discriminate; repeat match type of Hpub with bind ?m _ = _ => destruct m as [?| |]; cbn [bind] in Hpub; try discriminate Hpub | (if ?b then _ else _) = _ => destruct b; try discriminate Hpub | match ?m with _ => _ end = _ => destruct m; try discriminate Hpub | (let x := _ in _) = _ => cbv zeta in Hpub end; now injection Hpub.
  - unfold windows. cbn. repeat (apply Forall_cons; [first [apply Hraw|apply Hrt|apply Hrspki|apply Hsub|apply Hiss]|]).
    apply Forall_app; split; [apply held_in, S2|]. apply Forall_app; split; [destruct pub; try constructor; apply held_in, K2|].
    apply Forall_app; split; [apply Forall_map; exact Ex2|]. exact (agree_in _ _ Ag).
  - split; [exact Bs|]. unfold seen; cbn. destruct pub; cbn; try reflexivity. eexists. split; [reflexivity|]. split; [reflexivity|exact Bk].
Qed.
End P.

(** ** The statements
    C144_parse: on any memory, the slice version does what the list model does on the bytes the slice shows, what the caller
    sees is the list model's certificate, and every window lies within the slice that was passed. *)
Theorem C144_parse : forall h net der, wf h der ->
  same (fun c cs => seen h cs = c /\ Forall (within der) (windows cs)) (ParseCertificate net (rd h der)) (ParseCertificateS h net der).
Proof.
  intros h net der W. assert (G : g h der der (rd h der)) by (split; [apply within_refl|reflexivity]). unfold ParseCertificate, ParseCertificateS.
  eapply bind_same; [apply (cert_same h der W net der _ G)|]. intros c cs [[E F] _]. rewrite (g_len h der W der _ G). assert (L : s_len (cs_Raw cs) = List.length (c_Raw c)).
  { rewrite <- E. unfold seen; cbn. rewrite rd_length; [reflexivity|]. eapply within_wf; [exact W|]. inversion F; subst; assumption. }
  rewrite L. destruct (negb _); [reflexivity|]. split; assumption.
Qed.
Theorem C144_parse_all : forall h net der, wf h der ->
  same (Forall2 (fun c cs => seen h cs = c /\ Forall (within der) (windows cs))) (ParseCertificates net (rd h der)) (ParseCertificatesS h net der).
Proof.
  intros h net der W. assert (G : g h der der (rd h der)) by (split; [apply within_refl|reflexivity]). unfold ParseCertificates, ParseCertificatesS.
  eapply many_same; [exact W| |exact G]. intros s v Hs. assert (Ws : wf h s) by (eapply g_wf; eauto). assert (Gs : g h s s v) by (split; [apply within_refl|apply Hs]).
  pose proof (cert_same h s Ws net s v Gs) as K. destruct (parseCertificate net v) as [c|e|], (parseCertificateS h net s) as [cs|e'|]; cbn in K |- *; try contradiction; auto.
  destruct K as [[E F] _]. assert (R : within s (cs_Raw cs)) by (inversion F; subst; assumption). assert (L : s_len (cs_Raw cs) = List.length (c_Raw c)).
  { rewrite <- E. unfold seen; cbn. rewrite rd_length; [reflexivity|]. eapply within_wf; eassumption. }
  split; [split; [exact E|]|].
  - eapply Forall_impl; [|exact F]. intros a Ha. eapply within_trans; [apply Hs|exact Ha].
  - pose proof (g_len h der W s v Hs) as Ls. rewrite L. pose proof (g_cut h der W s v (List.length (c_Raw c)) (List.length v) Hs) as Q. destruct R as (_ & R1 & R2 & _).
    specialize (Q ltac:(lia)). rewrite Ls. rewrite <- skipn_length, firstn_all in Q. exact Q.
Qed.
(** what a window shows later is a fixed range of what the caller's slice shows then *)
Definition range_of (der w : slc) (b : bytes) : bytes := firstn (s_len w) (skipn (s_off w - s_off der) b).
Lemma seen_same der cs h h' : wf h der -> wf h' der -> Forall (within der) (windows cs) -> rd h' der = rd h der -> seen h' cs = seen h cs.
Proof.
  intros W W' F E. assert (K : forall w, In w (windows cs) -> rd h' w = rd h w).
  { intros w Hw. rewrite Forall_forall in F. rewrite (within_range h der w W (F w Hw)), (within_range h' der w W' (F w Hw)), E. reflexivity. }
  clear F. unfold windows in K. cbn [app] in K.
  assert (Hh : forall x, (forall w, In w (heldWindows x) -> rd h' w = rd h w) -> heldSeen h' x = heldSeen h x) by (intros [s|b] Hx; cbn in *; auto).
  assert (Ho : forall x, (forall w, In w (optWindow x) -> rd h' w = rd h w) -> refSeen h' x = refSeen h x) by (intros [s|] Hx; cbn in *; auto).
  unfold seen. f_equal; try (apply K; cbn; tauto).
  - apply Hh. intros w Hw. apply K. cbn [In]. do 5 right. apply in_or_app. now left.
  - destruct (cs_Ed25519 cs) as [k|]; [|reflexivity]. f_equal. apply Hh. intros w Hw. apply K. cbn [In]. do 5 right. apply in_or_app. right. apply in_or_app. now left.
  - apply map_ext_in. intros e He. unfold extSeen. f_equal. apply K. cbn [In]. do 5 right. apply in_or_app. right. apply in_or_app. right. apply in_or_app. left. now apply in_map.
  - assert (K2 : forall w, In w (optWindow (rf_SKI (cs_Refs cs)) ++ optWindow (rf_AKI (cs_Refs cs)) ++ rf_IP (cs_Refs cs) ++ flat_map (fun p => [fst p; snd p]) (rf_Permitted (cs_Refs cs) ++ rf_Excluded (cs_Refs cs))) -> rd h' w = rd h w)
      by (intros w Hw; apply K; cbn [In]; do 5 right; do 3 (apply in_or_app; right); exact Hw).
    unfold infoSeen. rewrite (Ho (rf_SKI (cs_Refs cs))), (Ho (rf_AKI (cs_Refs cs))); [|intros w Hw; apply K2; apply in_or_app; right; apply in_or_app; now left|intros w Hw; apply K2; apply in_or_app; now left].
    assert (M : map (rd h') (rf_IP (cs_Refs cs)) = map (rd h) (rf_IP (cs_Refs cs))) by (apply map_ext_in; intros w Hw; apply K2; do 2 (apply in_or_app; right); apply in_or_app; now left).
    assert (N : forall p, In p (rf_Permitted (cs_Refs cs) ++ rf_Excluded (cs_Refs cs)) -> netSeen h' p = netSeen h p).
    { intros p Hp. unfold netSeen. f_equal; apply K2; do 3 (apply in_or_app; right); apply in_flat_map; exists p; cbn; tauto. }
    rewrite M, (map_ext_in (netSeen h') (netSeen h) (rf_Permitted (cs_Refs cs))) by (intros p Hp; apply N, in_or_app; now left).
    rewrite (map_ext_in (netSeen h') (netSeen h) (rf_Excluded (cs_Refs cs))) by (intros p Hp; apply N, in_or_app; now right). reflexivity.
Qed.
Lemma parsed_in h net der cs : wf h der -> ParseCertificateS h net der = Ret cs -> Forall (within der) (windows cs) /\ s_len (cs_Raw cs) = s_len der.
Proof.
  intros W E. pose proof (C144_parse h net der W) as K. rewrite E in K. destruct (ParseCertificate net (rd h der)) as [c| |]; try contradiction. split; [apply K|].
  unfold ParseCertificateS in E. destruct (parseCertificateS h net der) as [cs'| |]; cbn [bind] in E; try discriminate. destruct (negb _) eqn:N; [discriminate|]. injection E as <-. lia.
Qed.
(** C144_shared: [h'] is the memory at any later time, whatever was stored in between *)
Theorem C144_shared : forall h net der cs h', wf h der -> ParseCertificateS h net der = Ret cs -> wf h' der ->
  c_Raw (seen h' cs) = rd h' der /\
  c_RawTBSCertificate (seen h' cs) = range_of der (cs_RawTBS cs) (rd h' der) /\
  c_RawSubjectPublicKeyInfo (seen h' cs) = range_of der (cs_RawSPKI cs) (rd h' der) /\
  c_RawSubject (seen h' cs) = range_of der (cs_RawSubject cs) (rd h' der) /\
  c_RawIssuer (seen h' cs) = range_of der (cs_RawIssuer cs) (rd h' der) /\
  map x_Value (c_Extensions (seen h' cs)) = map (fun e => range_of der (xs_Value e) (rd h' der)) (cs_Extensions cs) /\
  (forall w, In w (windows cs) -> rd h' w = range_of der w (rd h' der)) /\
  c_SignatureAlgorithm (seen h' cs) = c_SignatureAlgorithm (seen h cs) /\ c_PublicKeyAlgorithm (seen h' cs) = c_PublicKeyAlgorithm (seen h cs) /\
  c_Version (seen h' cs) = c_Version (seen h cs) /\ c_SerialNumber (seen h' cs) = c_SerialNumber (seen h cs) /\
  c_Issuer (seen h' cs) = c_Issuer (seen h cs) /\ c_Subject (seen h' cs) = c_Subject (seen h cs) /\
  c_NotBefore (seen h' cs) = c_NotBefore (seen h cs) /\ c_NotAfter (seen h' cs) = c_NotAfter (seen h cs) /\
  map (fun e => (x_Id e, x_Critical e)) (c_Extensions (seen h' cs)) = map (fun e => (x_Id e, x_Critical e)) (c_Extensions (seen h cs)) /\
  (cs_Ed25519 cs = None -> c_PublicKey (seen h' cs) = c_PublicKey (seen h cs)) /\
  (rd h' der = rd h der -> seen h' cs = seen h cs).
Proof.
  intros h net der cs h' W E W'. destruct (parsed_in h net der cs W E) as [F L].
  assert (K : forall w, In w (windows cs) -> rd h' w = range_of der w (rd h' der)).
  { intros w Hw. rewrite Forall_forall in F. apply within_range; auto. }
  split.
  { cbn. rewrite (K (cs_Raw cs)) by (left; reflexivity). unfold range_of. assert (R : within der (cs_Raw cs)) by (inversion F; subst; assumption). destruct R as (_ & R1 & R2 & _). rewrite L in *.
    replace (s_off (cs_Raw cs) - s_off der) with 0 by lia. cbn [skipn]. rewrite <- (rd_length h' der W'). apply firstn_all. }
  do 4 (split; [cbn; apply K; unfold windows; cbn; tauto|]).
  split. { cbn. rewrite map_map. apply map_ext_in. intros e He. cbn. apply K. unfold windows. cbn [app In]. do 5 right. apply in_or_app. right. apply in_or_app. right. apply in_or_app. left. now apply in_map. }
  split; [exact K|]. do 8 (split; [reflexivity|]). split; [cbn; rewrite !map_map; reflexivity|].
  split. { intros N. cbn. rewrite N. reflexivity. }
  intros Q. eapply seen_same; eassumption.
Qed.
(** C144_extension_fields: the fields the extensions fill, in any later memory *)
Theorem C144_extension_fields : forall h net der cs h', wf h der -> ParseCertificateS h net der = Ret cs -> wf h' der ->
  let i := c_Info (seen h cs) in let i' := c_Info (seen h' cs) in let r := cs_Refs cs in
  let show w := range_of der w (rd h' der) in
  i_SubjectKeyId i' = match rf_SKI r with Some w => show w | None => [] end /\
  i_AuthorityKeyId i' = match rf_AKI r with Some w => show w | None => [] end /\
  san_IP (i_SAN i') = map show (rf_IP r) /\
  nc_IP (i_Permitted i') = map (fun p => mkIPNet (show (fst p)) (show (snd p))) (rf_Permitted r) /\
  nc_IP (i_Excluded i') = map (fun p => mkIPNet (show (fst p)) (show (snd p))) (rf_Excluded r) /\
  (rf_SKI r = None -> i_SubjectKeyId i = []) /\ (rf_AKI r = None -> i_AuthorityKeyId i = []) /\ List.length (rf_IP r) = List.length (san_IP (i_SAN i)) /\
  i_KeyUsage i' = i_KeyUsage i /\ i_BasicConstraintsValid i' = i_BasicConstraintsValid i /\ i_IsCA i' = i_IsCA i /\ i_MaxPathLen i' = i_MaxPathLen i /\
  san_DNS (i_SAN i') = san_DNS (i_SAN i) /\ san_Email (i_SAN i') = san_Email (i_SAN i) /\ san_URI (i_SAN i') = san_URI (i_SAN i) /\
  nc_DNS (i_Permitted i') = nc_DNS (i_Permitted i) /\ nc_Email (i_Permitted i') = nc_Email (i_Permitted i) /\ nc_URI (i_Permitted i') = nc_URI (i_Permitted i) /\
  nc_DNS (i_Excluded i') = nc_DNS (i_Excluded i) /\ nc_Email (i_Excluded i') = nc_Email (i_Excluded i) /\ nc_URI (i_Excluded i') = nc_URI (i_Excluded i) /\
  i_CRLDistributionPoints i' = i_CRLDistributionPoints i /\ i_ExtKeyUsage i' = i_ExtKeyUsage i /\ i_UnknownExtKeyUsage i' = i_UnknownExtKeyUsage i /\
  i_PolicyIdentifiers i' = i_PolicyIdentifiers i /\ i_OCSPServer i' = i_OCSPServer i /\ i_IssuingCertificateURL i' = i_IssuingCertificateURL i /\
  i_Unhandled i' = i_Unhandled i.
Proof.
  intros h net der cs h' W E W'. cbv zeta. destruct (parsed_in h net der cs W E) as [F _].
  assert (K : forall w, In w (optWindow (rf_SKI (cs_Refs cs)) ++ optWindow (rf_AKI (cs_Refs cs)) ++ rf_IP (cs_Refs cs) ++ flat_map (fun p => [fst p; snd p]) (rf_Permitted (cs_Refs cs) ++ rf_Excluded (cs_Refs cs))) -> rd h' w = range_of der w (rd h' der)).
  { intros w Hw. rewrite Forall_forall in F. apply within_range; [assumption|]. apply F. unfold windows. cbn [app In]. do 5 right. do 3 (apply in_or_app; right). exact Hw. }
  assert (Kp : forall p, In p (rf_Permitted (cs_Refs cs) ++ rf_Excluded (cs_Refs cs)) -> netSeen h' p = mkIPNet (range_of der (fst p) (rd h' der)) (range_of der (snd p) (rd h' der))).
  { intros p Hp. unfold netSeen. f_equal; apply K; do 3 (apply in_or_app; right); apply in_flat_map; exists p; cbn; tauto. }
  unfold seen, infoSeen. destruct (c_Info (cs_Value cs)) as [? ? ? ? ? [? ? ? ?] [? ? ? ?] [? ? ? ?]]. cbn.
  split. { destruct (rf_SKI (cs_Refs cs)) as [w|] eqn:Q; [|reflexivity]. cbn. apply K. now left. }
  split. { destruct (rf_AKI (cs_Refs cs)) as [w|] eqn:Q; [|reflexivity]. cbn. apply K. apply in_or_app; right. now left. }
  split. { apply map_ext_in. intros w Hw. apply K. do 2 (apply in_or_app; right). apply in_or_app; now left. }
  split. { apply map_ext_in. intros p Hp. apply Kp, in_or_app. now left. }
  split. { apply map_ext_in. intros p Hp. apply Kp, in_or_app. now right. }
  split; [intros ->; reflexivity|]. split; [intros ->; reflexivity|]. split; [now rewrite map_length|]. repeat split.
Qed.
Theorem C144_bits : forall h net der cs, wf h der -> ParseCertificateS h net der = Ret cs ->
  bits_held h der (cs_Signature cs) /\
  match c_PublicKey (seen h cs) with
  | PKed25519 k => exists x, cs_Ed25519 cs = Some x /\ heldSeen h x = k /\ bits_held h der x
  | _ => cs_Ed25519 cs = None
  end.
Proof.
  intros h net der cs W E. unfold ParseCertificateS in E. destruct (parseCertificateS h net der) as [c| |] eqn:P; cbn [bind] in E; try discriminate. destruct (negb _); [discriminate|]. injection E as <-.
  pose proof (cert_same h der W net der (rd h der) (conj (within_refl der) eq_refl)) as K. rewrite P in K. destruct (parseCertificate net (rd h der)); try contradiction. apply K.
Qed.
(** C144_equal: two certificates parsed at different times from one buffer are Equal ever after, whatever they were *)
Theorem C144_equal : forall h1 h2 net1 net2 der c1 c2 h', wf h1 der -> wf h2 der -> wf h' der ->
  ParseCertificateS h1 net1 der = Ret c1 -> ParseCertificateS h2 net2 der = Ret c2 ->
  Certificate_Equal (Some (seen h' c1)) (Some (seen h' c2)) = true.
Proof.
  intros h1 h2 net1 net2 der c1 c2 h' W1 W2 W' E1 E2. unfold Certificate_Equal. rewrite (proj1 (C144_shared _ _ _ _ h' W1 E1 W')), (proj1 (C144_shared _ _ _ _ h' W2 E2 W')). apply bytes_eqb_refl.
Qed.

(** ** A buffer that is used twice: the second read puts another certificate of the same size where the first one was *)
From Verif Require Import X509Sig X509Build PropertiesX509Sig X509Crl PropertiesX509Crl X509CsrProofs X509CreateProofs PropertiesX509Create.
Definition put1 (l : bytes) (i : nat) (b : Z) : bytes := firstn i l ++ [b] ++ skipn (i + 1) l.
Definition der3 : bytes := Eval vm_compute in der_of (CreateCertificate prims0 [] leaf0 ca0 (PKed25519 (List.repeat 3%Z 32)) (ASigner rsa_signer)).
(** the serial number, the first character of the DNS name, the issuer's last letter, the subject key identifier, the key and the signature changed *)
Definition der4 : bytes := Eval vm_compute in
  let at_ (p : bytes) := match List.find (fun i => bytes_eqb (firstn (List.length p) (skipn i der3)) p) (seq 0 (List.length der3)) with Some i => (i + List.length p)%nat | None => O end in
  put1 (put1 (put1 (put1 (put1 (put1 der3 14 7) (at_ [19; 2; 67]) 66) (at_ [85; 29; 14; 4; 3; 4; 1]) 6) (at_ [3; 33; 0]) 9) (at_ [130; 4]) 98) (List.length der3 - 1) 99.
Definition buf : slc := mkS 1 2 (List.length der3) (List.length der3 + 3).
Definition mem1 : heap := [[1; 2; 3]%Z; [7; 7]%Z ++ der3 ++ [0; 0; 0]%Z].
Definition mem2 : heap := [[1; 2; 3]%Z; [7; 7]%Z ++ der4 ++ [0; 0; 0]%Z].
Example C144_nonvacuous : wf mem1 buf /\ wf mem2 buf /\ rd mem1 buf = der3 /\ rd mem2 buf = der4 /\
  match ParseCertificateS mem1 noNet buf, ParseCertificateS mem2 noNet buf with
  | Ret c1, Ret c2 =>
      let before := seen mem1 c1 in let after := seen mem2 c1 in let other := seen mem2 c2 in
      c_SerialNumber before = (-300)%Z /\ c_SerialNumber after = (-300)%Z /\ c_SerialNumber other = (-505)%Z /\
      c_PublicKey before = PKed25519 (List.repeat 3%Z 32) /\ c_PublicKey after = PKed25519 (9%Z :: List.repeat 3%Z 31) /\
      i_SubjectKeyId (c_Info before) = [5]%Z /\ i_SubjectKeyId (c_Info after) = [6]%Z /\
      san_DNS (i_SAN (c_Info after)) = [[97; 46; 99; 110]]%Z /\ san_DNS (i_SAN (c_Info other)) = [[98; 46; 99; 110]]%Z /\
      c_Signature before = [1; 2; 3]%Z /\ c_Signature after = [1; 2; 99]%Z /\
      bytes_eqb (c_RawIssuer after) (c_RawIssuer before) = false /\ c_Issuer after = c_Issuer before /\
      Certificate_Equal (Some before) (Some other) = false /\ Certificate_Equal (Some after) (Some other) = true
  | _, _ => False
  end.
Proof.
  assert (W : forall x, List.length x = List.length der3 -> wf [[1; 2; 3]%Z; [7; 7]%Z ++ x ++ [0; 0; 0]%Z] buf).
  { intros x L. unfold wf, buf, arr. cbn [s_arr s_len s_cap s_off List.length nth]. rewrite !app_length, L. cbn [List.length]. lia. }
  split; [apply W; reflexivity|]. split; [apply W; reflexivity|]. split; [reflexivity|]. split; [reflexivity|]. vm_compute. repeat split.
Qed.
Print Assumptions C144_parse.
Print Assumptions C144_parse_all.
Print Assumptions C144_shared.
Print Assumptions C144_equal.
Print Assumptions C144_extension_fields.
Print Assumptions C144_bits.
