(** * Facts about encoding/base64 and encoding/pem (Pem.v) *)
From Coq Require Import String Ascii Permutation ZifyBool ZifyNat.
From Verif Require Import Base X509Reg Pem.
Open Scope Z_scope.

(** ** base64 *)
Lemma index_of_spec c l : forall i j, index_of c l i = Some j -> i <= j < i + zlen l /\ nth (Z.to_nat (j - i)) l 0 = c.
Proof.
  induction l as [|x l IH]; intros i j E; cbn [index_of] in E; [discriminate|]. rewrite zlen_cons. pose proof (zlen_nonneg l). destruct (x =? c) eqn:Ex.
  - injection E as <-. split; [lia|]. replace (i - i) with 0 by lia. change (nth (Z.to_nat 0) (x :: l) 0) with x. lia.
  - apply IH in E as [A B]. split; [lia|]. replace (Z.to_nat (j - i)) with (S (Z.to_nat (j - (i + 1)))) by lia. exact B.
Qed.
Lemma b64_val_char c v : b64_val c = Some v -> 0 <= v < 64 /\ b64_char v = c.
Proof. intros E. apply index_of_spec in E as [A B]. replace (v - 0) with v in B by lia. split; [|exact B]. change (zlen b64_alphabet) with 64 in A. lia. Qed.
Lemma b64_char_table : forallb (fun i => match b64_val (b64_char (Z.of_nat i)) with Some v => v =? Z.of_nat i | None => false end
    && forallb (fun c => negb (b64_char (Z.of_nat i) =? c)) [9; 10; 13; 32; 45; 58; 61] && byte_okb (b64_char (Z.of_nat i))) (seq 0 64) = true.
Proof. vm_compute. reflexivity. Qed.
Lemma b64_char_facts v : 0 <= v < 64 -> b64_val (b64_char v) = Some v /\ (forall c, In c [9; 10; 13; 32; 45; 58; 61] -> b64_char v <> c) /\ byte_ok (b64_char v).
Proof.
  intros H. pose proof b64_char_table as T. rewrite forallb_forall in T. specialize (T (Z.to_nat v) ltac:(apply in_seq; lia)). replace (Z.of_nat (Z.to_nat v)) with v in T by lia.
  apply andb_true_iff in T as [T T3]. apply andb_true_iff in T as [T1 T2]. split; [destruct (b64_val (b64_char v)); [f_equal; lia|discriminate]|]. split.
  - rewrite forallb_forall in T2. intros c Hc E. specialize (T2 c Hc). lia.
  - unfold byte_okb in T3. unfold byte_ok. lia.
Qed.
Lemma b64_val_pad : b64_val PAD = None. Proof. reflexivity. Qed.

(** value of a list of six-bit digits *)
Definition sextets (l : list Z) : Z := fold_left (fun acc v => acc * 64 + v) l 0.
(** [t] is base64 text for [d]: six-bit digits, then at most two '=', a multiple of four characters; d is their bits, less the two bits that every '=' makes superfluous *)
Definition base64_of (t d : bytes) : Prop := exists digits pad,
  t = map b64_char digits ++ repeat 61 pad /\ Forall (fun v => 0 <= v < 64) digits /\ (pad <= 2)%nat /\ zlen t mod 4 = 0
  /\ bytes_ok d /\ 8 * zlen d = 6 * zlen digits - 2 * Z.of_nat pad /\ be_to_Z d = sextets digits / 4 ^ Z.of_nat pad.

Lemma sext_acc l : forall acc, fold_left (fun acc v => acc * 64 + v) l acc = acc * 64 ^ zlen l + sextets l.
Proof.
  unfold sextets. induction l as [|v l IH]; intros acc; cbn [fold_left]; [rewrite zlen_nil; lia|]. rewrite IH, (IH (0 * 64 + v)), zlen_cons, Z.pow_add_r by (pose proof (zlen_nonneg l); lia). lia.
Qed.
Lemma sextets_cons v l : sextets (v :: l) = v * 64 ^ zlen l + sextets l.
Proof. unfold sextets at 1. cbn [fold_left]. rewrite sext_acc. lia. Qed.
Lemma sextets_bound l : Forall (fun v => 0 <= v < 64) l -> 0 <= sextets l < 64 ^ zlen l.
Proof.
  induction 1 as [|v l Hv Hl IH]; [change (0 <= 0 < 1); lia|]. rewrite sextets_cons, zlen_cons, Z.pow_add_r by (pose proof (zlen_nonneg l); lia). change (64 ^ 1) with 64. nia.
Qed.

Lemma groups_sound : forall n t d, (List.length t <= n)%nat -> b64_groups t = Some d -> base64_of t d.
Proof.
  induction n as [|n IH]; intros t d Hn E.
  - destruct t; [|cbn in Hn; lia]. injection E as <-. exists [], 0%nat. repeat split; try constructor; cbn; lia.
  - destruct t as [|a [|b [|c [|e r]]]]; try discriminate E.
    { injection E as <-. exists [], 0%nat. repeat split; try constructor; cbn; lia. }
    cbn [b64_groups] in E. destruct (b64_val a) as [x|] eqn:Ea; [|discriminate]. destruct (b64_val b) as [y|] eqn:Eb; [|discriminate]. apply b64_val_char in Ea as [Hx <-]. apply b64_val_char in Eb as [Hy <-]. cbv zeta in E.
    destruct (c =? PAD) eqn:Ec.
    { destruct (e =? PAD) eqn:Ee; [|discriminate]. destruct (bytes_eqb r []) eqn:Er; [|discriminate]. cbn [andb] in E. injection E as <-. apply bytes_eqb_spec in Er. subst r. assert (c = 61) by (unfold PAD in *; lia). assert (e = 61) by (unfold PAD in *; lia). subst c e.
      exists [x; y], 2%nat. split; [reflexivity|]. split; [repeat constructor; lia|]. split; [lia|]. split; [reflexivity|]. split; [repeat constructor; unfold byte_ok; lia|]. split; [reflexivity|].
      change (be_to_Z [x * 4 + y / 16]) with (0 * 256 + (x * 4 + y / 16)). change (sextets [x; y]) with ((0 * 64 + x) * 64 + y). change (4 ^ Z.of_nat 2) with 16. lia. }
    destruct (b64_val c) as [z|] eqn:Ez; [|discriminate]. apply b64_val_char in Ez as [Hz <-]. destruct (e =? PAD) eqn:Ee.
    { destruct (bytes_eqb r []) eqn:Er; [|discriminate]. injection E as <-. apply bytes_eqb_spec in Er. subst r. assert (e = 61) by (unfold PAD in *; lia). subst e.
      exists [x; y; z], 1%nat. split; [reflexivity|]. split; [repeat constructor; lia|]. split; [lia|]. split; [reflexivity|]. split; [repeat constructor; unfold byte_ok; lia|]. split; [reflexivity|].
      change (be_to_Z [x * 4 + y / 16; y mod 16 * 16 + z / 4]) with ((0 * 256 + (x * 4 + y / 16)) * 256 + (y mod 16 * 16 + z / 4)). change (sextets [x; y; z]) with (((0 * 64 + x) * 64 + y) * 64 + z). change (4 ^ Z.of_nat 1) with 4. lia. }
    destruct (b64_val e) as [w|] eqn:Ew; [|discriminate]. apply b64_val_char in Ew as [Hw <-]. destruct (b64_groups r) as [q|] eqn:Er; [|discriminate]. injection E as <-.
    apply IH in Er; [|cbn in Hn; lia]. destruct Er as (ds & pad & -> & F & Hp & L & B & L8 & V).
    exists (x :: y :: z :: w :: ds), pad. split; [reflexivity|]. split; [repeat (constructor; [lia|]); exact F|]. split; [exact Hp|]. rewrite !zlen_cons. split; [lia|]. split; [repeat (constructor; [unfold byte_ok; lia|]); exact B|]. split; [lia|].
    rewrite !be_to_Z_cons, !sextets_cons, !zlen_cons, V. pose proof (zlen_nonneg q) as Q0. pose proof (zlen_nonneg ds) as D0.
    assert (P64 : 64 ^ zlen ds = 256 ^ zlen q * 4 ^ Z.of_nat pad). { change 64 with (2 ^ 6). change 256 with (2 ^ 8). change 4 with (2 ^ 2). rewrite <- !Z.pow_mul_r, <- Z.pow_add_r by lia. f_equal. lia. }
    rewrite !Z.pow_add_r, P64 by lia. change (64 ^ 1) with 64. change (256 ^ 1) with 256. set (p := 4 ^ Z.of_nat pad). assert (Hp0 : 0 < p) by (apply Z.pow_pos_nonneg; lia). set (u := 256 ^ zlen q).
    replace (x * (64 * (64 * (64 * (u * p)))) + (y * (64 * (64 * (u * p))) + (z * (64 * (u * p)) + (w * (u * p) + sextets ds)))) with (sextets ds + ((x * 64 + y) * 4096 + z * 64 + w) * u * p) by ring.
    rewrite Z.div_add by lia. rewrite (Z.add_comm (sextets ds / p)). replace ((x * 64 + y) * 4096 + z * 64 + w) with ((x * 4 + y / 16) * 65536 + (y mod 16 * 16 + z / 4) * 256 + (z mod 4 * 64 + w)) by lia. ring.
Qed.
Lemma groups_shape : forall n digits pad, (List.length digits <= n)%nat -> Forall (fun v => 0 <= v < 64) digits -> (pad <= 2)%nat -> zlen (map b64_char digits ++ repeat 61 pad) mod 4 = 0 ->
  exists d, b64_groups (map b64_char digits ++ repeat 61 pad) = Some d.
Proof.
  induction n as [|n IH]; intros digits pad Hn F Hp L.
  - destruct digits; [|cbn in Hn; lia]. destruct pad as [|[|[|]]]; try lia; cbn in L; try discriminate L. exists []. reflexivity.
  - assert (N : forall v, 0 <= v < 64 -> (b64_char v =? PAD) = false). { intros v Hv. apply b64_char_facts in Hv as (_ & H & _). specialize (H 61 ltac:(cbn; tauto)). unfold PAD. lia. }
    destruct digits as [|x [|y [|z [|w ds]]]].
    + destruct pad as [|[|[|]]]; try lia; cbn in L; try discriminate L. exists []. reflexivity.
    + exfalso. cbn [map app] in L. rewrite zlen_cons in L. unfold zlen in L. rewrite repeat_length in L. lia.
    + assert (pad = 2%nat) by (cbn [map app] in L; rewrite !zlen_cons in L; unfold zlen in L; rewrite repeat_length in L; lia). subst pad. inversion F as [|? ? Fx F1]; subst. inversion F1 as [|? ? Fy F2]; subst.
      cbn [map app repeat b64_groups]. destruct (b64_char_facts x Fx) as (-> & _). destruct (b64_char_facts y Fy) as (-> & _). cbn. eauto.
    + assert (pad = 1%nat) by (cbn [map app] in L; rewrite !zlen_cons in L; unfold zlen in L; rewrite repeat_length in L; lia). subst pad. inversion F as [|? ? Fx F1]; subst. inversion F1 as [|? ? Fy F2]; subst. inversion F2 as [|? ? Fz F3]; subst.
      cbn [map app repeat b64_groups]. destruct (b64_char_facts x Fx) as (-> & _). destruct (b64_char_facts y Fy) as (-> & _). rewrite (N z Fz). destruct (b64_char_facts z Fz) as (-> & _). cbn. eauto.
    + inversion F as [|? ? Fx F1]; subst. inversion F1 as [|? ? Fy F2]; subst. inversion F2 as [|? ? Fz F3]; subst. inversion F3 as [|? ? Fw F4]; subst.
      cbn [map app]. cbn [b64_groups]. destruct (b64_char_facts x Fx) as (-> & _). destruct (b64_char_facts y Fy) as (-> & _). rewrite (N z Fz). destruct (b64_char_facts z Fz) as (-> & _). rewrite (N w Fw). destruct (b64_char_facts w Fw) as (-> & _).
      destruct (IH ds pad) as [d ->]; [cbn in Hn; lia|exact F4|exact Hp| |eauto]. cbn [map app] in L. rewrite !zlen_cons in L. lia.
Qed.
Lemma digits_inj : forall a b p q, Forall (fun v => 0 <= v < 64) a -> Forall (fun v => 0 <= v < 64) b -> map b64_char a ++ repeat 61 p = map b64_char b ++ repeat 61 q -> a = b /\ p = q.
Proof.
  induction a as [|x a IH]; intros b p q Fa Fb E.
  - destruct b as [|y b]; [split; [reflexivity|]; cbn [map app] in E; apply (f_equal (@List.length Z)) in E; rewrite !repeat_length in E; exact E|]. exfalso. inversion Fb as [|? ? Fy Fb0]; subst. apply b64_char_facts in Fy as (_ & H & _). destruct p as [|p]; [discriminate|]. injection E as E _. exact (H 61 ltac:(cbn; tauto) (eq_sym E)).
  - inversion Fa as [|? ? Fx Fa']; subst. destruct b as [|y b].
    + exfalso. apply b64_char_facts in Fx as (_ & H & _). destruct q as [|q]; [discriminate|]. injection E as E _. exact (H 61 ltac:(cbn; tauto) E).
    + inversion Fb as [|? ? Fy Fb']; subst. cbn [map app] in E. injection E as E1 E2. apply (IH b p q Fa' Fb') in E2 as [-> ->]. apply b64_char_facts in Fx as (Vx & _). apply b64_char_facts in Fy as (Vy & _). rewrite E1, Vy in Vx. injection Vx as ->. auto.
Qed.
Lemma base64_fun t d d' : base64_of t d -> base64_of t d' -> d = d'.
Proof.
  intros (a & p & -> & Fa & Hp & L & B & L8 & V) (b & q & E & Fb & _ & _ & B' & L8' & V'). apply digits_inj in E as [<- <-]; [|assumption|assumption]. apply be_to_Z_inj; try assumption; unfold zlen in *; lia.
Qed.
(** the decoder accepts exactly base64 text *)
Lemma groups_iff t d : b64_groups t = Some d <-> base64_of t d.
Proof.
  split; [apply (groups_sound (List.length t)); lia|]. intros H. destruct H as (ds & pad & -> & F & Hp & L & B & L8 & V). destruct (groups_shape (List.length ds) ds pad) as [d' E]; try assumption; [lia|].
  rewrite E. f_equal. apply (groups_sound _ _ _ (Nat.le_refl _)) in E. apply (base64_fun _ _ _ E). exists ds, pad. repeat split; assumption.
Qed.
Lemma groups_encode : forall n l, (List.length l <= n)%nat -> bytes_ok l -> b64_groups (b64_encode l) = Some l.
Proof.
  assert (N : forall v, 0 <= v < 64 -> (b64_char v =? PAD) = false). { intros v Hv. apply b64_char_facts in Hv as (_ & H & _). specialize (H 61 ltac:(cbn; tauto)). unfold PAD. lia. }
  assert (V : forall v, 0 <= v < 64 -> b64_val (b64_char v) = Some v) by (intros v Hv; apply b64_char_facts; exact Hv).
  induction n as [|n IH]; intros l Hn B; [destruct l; [reflexivity|cbn in Hn; lia]|].
  destruct l as [|a [|b [|c r]]]; [reflexivity| | |]; repeat (match goal with H : bytes_ok (_ :: _) |- _ => apply bytes_ok_cons in H as [? H] end); unfold byte_ok in *.
  - cbn [b64_encode b64_groups]. rewrite !V by lia. cbn. f_equal. f_equal. lia.
  - cbn [b64_encode b64_groups]. rewrite !V, N by lia. cbn [bytes_eqb PAD Z.eqb Pos.eqb]. f_equal. f_equal; [lia|]. f_equal. lia.
  - cbn [b64_encode b64_groups]. rewrite !V, !N by lia. rewrite IH by (try assumption; cbn in Hn; lia). f_equal. f_equal; [lia|]. f_equal; [lia|]. f_equal. lia.
Qed.
(** no character of an encoding is a blank, a newline, a dash or a colon *)
Definition plain (c : Z) : Prop := c <> 9 /\ c <> 10 /\ c <> 13 /\ c <> 32 /\ c <> 45 /\ c <> 58.
Lemma encode_plain : forall n l, (List.length l <= n)%nat -> bytes_ok l -> Forall plain (b64_encode l).
Proof.
  assert (N : forall v, 0 <= v < 64 -> plain (b64_char v)). { intros v Hv. apply b64_char_facts in Hv as (_ & H & _). unfold plain. repeat split; apply H; cbn; tauto. }
  assert (Pp : plain PAD) by (unfold plain, PAD; lia).
  induction n as [|n IH]; intros l Hn B; [destruct l; [constructor|cbn in Hn; lia]|].
  destruct l as [|a [|b [|c r]]]; [constructor| | |]; repeat (match goal with H : bytes_ok (_ :: _) |- _ => apply bytes_ok_cons in H as [? H] end); unfold byte_ok in *; cbn [b64_encode].
  - repeat (constructor; [first [exact Pp|apply N; lia]|]); constructor.
  - repeat (constructor; [first [exact Pp|apply N; lia]|]); constructor.
  - repeat (constructor; [first [exact Pp|apply N; lia]|]). apply IH; [cbn in Hn; lia|assumption].
Qed.

(** ** lines *)
Lemma HasPrefix_app p r : HasPrefix (p ++ r) p = true.
Proof. unfold HasPrefix. rewrite firstn_app_exact by reflexivity. apply bytes_eqb_refl. Qed.
Lemma HasPrefix_iff s p : HasPrefix s p = true <-> exists r, s = p ++ r.
Proof.
  split; [|intros [r ->]; apply HasPrefix_app]. unfold HasPrefix. rewrite bytes_eqb_spec. intros E. exists (skipn (List.length p) s). rewrite <- E at 1. symmetry. apply firstn_skipn.
Qed.
Lemma skip_app {A} (p r : list A) : skipn (List.length p) (p ++ r) = r.
Proof. apply skipn_app_exact. reflexivity. Qed.
Lemma Cut_some s sep a b : Cut s sep = Some (a, b) -> s = a ++ sep ++ b.
Proof.
  revert a b. induction s as [|x s IH]; intros a b E.
  - cbn [Cut] in E. destruct (HasPrefix [] sep) eqn:H; [|discriminate]. injection E as <- <-. apply HasPrefix_iff in H as [r H]. destruct sep; [reflexivity|discriminate].
  - cbn [Cut] in E. destruct (HasPrefix (x :: s) sep) eqn:H.
    + injection E as <- <-. apply HasPrefix_iff in H as [r H]. rewrite H, skip_app. reflexivity.
    + destruct (Cut s sep) as [[a' b']|]; [|discriminate]. injection E as <- <-. rewrite (IH a' b' eq_refl). reflexivity.
Qed.
Lemma Cut_eq s sep : Cut s sep = (if HasPrefix s sep then Some ([], skipn (List.length sep) s)
  else match s with [] => None | x :: r => match Cut r sep with Some (a, b) => Some (x :: a, b) | None => None end end).
Proof. destruct s; reflexivity. Qed.
Lemma Cut_char c a r : ~ In c a -> Cut (a ++ c :: r) [c] = Some (a, r).
Proof.
  intros H. induction a as [|x a IH]; rewrite Cut_eq.
  - cbn [app]. unfold HasPrefix. cbn [List.length firstn bytes_eqb]. rewrite Z.eqb_refl. reflexivity.
  - cbn [app]. assert (E : HasPrefix (x :: a ++ c :: r) [c] = false). { unfold HasPrefix. cbn [List.length firstn bytes_eqb]. cbn in H. assert (x <> c) by tauto. lia. }
    rewrite E, IH by (cbn in H; tauto). reflexivity.
Qed.
Lemma Cut_char_none c a : ~ In c a -> Cut a [c] = None.
Proof.
  intros H. induction a as [|x a IH]; rewrite Cut_eq; [reflexivity|]. assert (E : HasPrefix (x :: a) [c] = false). { unfold HasPrefix. cbn [List.length firstn bytes_eqb]. cbn in H. assert (x <> c) by tauto. lia. }
  rewrite E, IH by (cbn in H; tauto). reflexivity.
Qed.
Lemma Cut_mark c e m a r : ~ In e a -> c <> e -> Cut (a ++ (c :: e :: m) ++ r) (c :: e :: m) = Some (a, r).
Proof.
  intros H Hc. induction a as [|x a IH]; rewrite Cut_eq.
  - cbn [app]. pose proof (HasPrefix_app (c :: e :: m) r) as E. cbn [app] in E. rewrite E. f_equal. f_equal. exact (skip_app (c :: e :: m) r).
  - assert (E : HasPrefix ((x :: a) ++ (c :: e :: m) ++ r) (c :: e :: m) = false).
    { destruct (HasPrefix _ _) eqn:E; [|reflexivity]. apply HasPrefix_iff in E as [q E]. exfalso. destruct a as [|y a]; cbn [app] in E; injection E; intros; subst; cbn in H; tauto. }
    rewrite E. cbn [app] in *. rewrite IH by (cbn in H; tauto). reflexivity.
Qed.
Lemma getLine_line a r : ~ In 10 a -> getLine (a ++ 10 :: r) = (TrimRightBlanks (drop_cr a), r).
Proof. intros H. unfold getLine. rewrite Cut_char by exact H. reflexivity. Qed.
Lemma getLine_app line r r' : ~ In 10 line -> r = 10 :: r' -> getLine (line ++ r) = (TrimRightBlanks (drop_cr line), r').
Proof. intros H ->. apply getLine_line, H. Qed.
(** a line that does not end in a blank or '\r' is left alone *)
Definition solid (a : bytes) : Prop := forall b x, a = b ++ [x] -> x <> 9 /\ x <> 13 /\ x <> 32.
Lemma solid_snoc a x : x <> 9 -> x <> 13 -> x <> 32 -> solid (a ++ [x]).
Proof. intros H1 H2 H3 b y E. apply app_inj_tail in E as [_ <-]. auto. Qed.
Lemma solid_line a : solid a -> TrimRightBlanks (drop_cr a) = a.
Proof.
  intros H. destruct a as [|x b] using rev_ind; [reflexivity|]. clear IHb. destruct (H b x eq_refl) as (H1 & H2 & H3).
  assert (D : drop_cr (b ++ [x]) = b ++ [x]). { unfold drop_cr. rewrite rev_app_distr. cbn [rev app]. repeat (match goal with |- context [match ?z with _ => _ end] => destruct z; try reflexivity; try lia end). }
  rewrite D. unfold TrimRightBlanks. rewrite rev_app_distr. cbn [rev app drop_blanks]. replace ((x =? 32) || (x =? 9)) with false by lia. cbn [rev]. rewrite rev_involutive. reflexivity.
Qed.

(** ** TrimSpace *)
(** [v] neither begins nor ends with a (Unicode) space *)
Definition clean (v : bytes) : Prop := forall sp r, In sp space_encodings -> v <> sp ++ r /\ v <> r ++ sp.
Lemma strip_none sps n s : (forall sp, In sp sps -> HasPrefix s sp = false) -> strip sps n s = s.
Proof. intros H. destruct n as [|n]; [reflexivity|]. cbn [strip]. destruct (find (HasPrefix s) sps) as [sp|] eqn:E; [|reflexivity]. apply find_some in E as [I E]. rewrite (H sp I) in E. discriminate. Qed.
Lemma clean_left v : clean v -> TrimLeft v = v.
Proof. intros C. apply strip_none. intros sp I. destruct (HasPrefix v sp) eqn:E; [|reflexivity]. apply HasPrefix_iff in E as [r E]. destruct (C sp r I) as [H _]. contradiction. Qed.
Lemma clean_right v : clean v -> TrimRight v = v.
Proof.
  intros C. unfold TrimRight. rewrite strip_none; [apply rev_involutive|]. intros sp I. destruct (HasPrefix (rev v) sp) eqn:E; [|reflexivity]. apply HasPrefix_iff in E as [r E].
  apply in_map_iff in I as (s & <- & I). destruct (C s (rev r) I) as [_ H]. exfalso. apply H. apply (f_equal (@rev Z)) in E. rewrite rev_involutive, rev_app_distr, rev_involutive in E. exact E.
Qed.
Lemma clean_trim v : clean v -> TrimSpace v = v.
Proof. intros C. unfold TrimSpace. rewrite (clean_left v C). apply clean_right, C. Qed.
Lemma clean_trim_blank v : clean v -> TrimSpace (32 :: v) = v.
Proof.
  intros C. unfold TrimSpace. replace (TrimLeft (32 :: v)) with v; [apply clean_right, C|]. unfold TrimLeft. cbn [List.length strip].
  replace (find (HasPrefix (32 :: v)) space_encodings) with (Some [32]) by reflexivity. cbn [List.length skipn]. symmetry. exact (clean_left v C).
Qed.
Lemma clean_solid v : clean v -> solid v.
Proof. intros C b x E. repeat split; intros ->; [destruct (C [9] b)|destruct (C [13] b)|destruct (C [32] b)]; try (cbn; tauto). Qed.

(** ** headers *)
(** an entry that survives: neither part has a newline or surrounding space, and the key has no colon *)
Definition good_entry (e : bytes * bytes) : Prop := ~ In 58 (fst e) /\ ~ In 10 (fst e) /\ ~ In 10 (snd e) /\ clean (fst e) /\ clean (snd e).
Lemma entry_line e r : good_entry e -> exists line, getLine (writeHeader e ++ r) = (line, r) /\ exists v, Cut line [58] = Some (fst e, v) /\ TrimSpace v = snd e.
Proof.
  destruct e as [k v]. intros (K58 & K10 & V10 & Ck & Cv). cbn [fst snd] in *. unfold writeHeader. cbn [fst snd].
  replace ((k ++ [58; 32] ++ v ++ [10]) ++ r) with ((k ++ [58; 32] ++ v) ++ 10 :: r) by (rewrite <- !app_assoc; reflexivity).
  rewrite getLine_line by (rewrite !in_app_iff; cbn; intuition lia).
  destruct v as [|x v'] eqn:Ev.
  - exists (k ++ [58]). split.
    + f_equal. change (k ++ [58; 32] ++ []) with (k ++ [58] ++ [32]). unfold drop_cr. rewrite app_assoc, rev_app_distr. cbn [rev app]. unfold TrimRightBlanks. rewrite rev_app_distr. cbn [rev app drop_blanks Z.eqb Pos.eqb orb].
      rewrite rev_app_distr. cbn [rev app drop_blanks Z.eqb Pos.eqb orb]. rewrite rev_involutive. reflexivity.
    + exists []. split; [exact (Cut_char 58 k [] K58)|reflexivity].
  - exists (k ++ [58; 32] ++ x :: v'). split.
    + f_equal. apply solid_line. rewrite <- Ev in *. pose proof (clean_solid v Cv) as Sv. intros b y E. destruct (exists_last (l := v)) as (v0 & w & Ev0); [rewrite Ev; discriminate|]. rewrite Ev0, !app_assoc in E. apply app_inj_tail in E as [_ <-]. exact (Sv v0 w Ev0).
    + exists (32 :: x :: v'). split; [exact (Cut_char 58 k (32 :: x :: v') K58)|exact (clean_trim_blank _ Cv)].
Qed.
Lemma set_key_fresh h k v : ~ In k (map fst h) -> set_key h k v = h ++ [(k, v)].
Proof.
  intros H. unfold set_key. f_equal. induction h as [|[k' v'] h IH]; [reflexivity|]. cbn [filter fst map In] in *. assert (E : bytes_eqb k' k = false) by (apply bytes_eqb_neq; tauto). rewrite E. cbn [negb]. f_equal. apply IH. tauto.
Qed.
Lemma header_lines : forall l h rest fuel line, Forall good_entry l -> NoDup (map fst (h ++ l)) -> (List.length (flat_map writeHeader l ++ rest) < fuel)%nat -> rest <> [] ->
  fst (getLine rest) = line -> ~ In 58 line -> headerLoop fuel (flat_map writeHeader l ++ rest) h = Some (h ++ l, rest).
Proof.
  induction l as [|e l IH]; intros h rest fuel line F N Hf Hr El H58.
  - cbn [flat_map app] in *. rewrite app_nil_r. destruct fuel as [|n]; [lia|]. cbn [headerLoop]. destruct rest as [|x rest']; [congruence|]. destruct (getLine (x :: rest')) as [ln nx]. cbn [fst] in El. subst ln. rewrite (Cut_char_none 58 line H58). reflexivity.
  - inversion F as [|? ? Fe Fl]; subst. destruct fuel as [|n]; [lia|]. cbn [flat_map]. rewrite <- app_assoc. destruct (entry_line e (flat_map writeHeader l ++ rest) Fe) as (line' & E1 & v & E2 & E3).
    destruct e as [k v0]. cbn [fst snd] in *. destruct Fe as (_ & _ & _ & Ck & _). cbn [fst] in Ck.
    assert (W : (0 < List.length (writeHeader (k, v0)))%nat) by (unfold writeHeader; rewrite !app_length; cbn; lia). cbn [flat_map] in Hf. rewrite !app_length in Hf.
    cbn [headerLoop]. destruct (writeHeader (k, v0) ++ flat_map writeHeader l ++ rest) as [|x t] eqn:Et; [apply (f_equal (@List.length Z)) in Et; rewrite !app_length in Et; cbn [List.length] in Et; lia|]. rewrite E1, E2, E3, (clean_trim k Ck).
    assert (Nk : ~ In k (map fst h)). { rewrite map_app in N. cbn [map fst] in N. apply NoDup_remove_2 in N. rewrite in_app_iff in N. tauto. }
    rewrite (set_key_fresh h k v0 Nk). rewrite (IH (h ++ [(k, v0)]) rest n (fst (getLine rest)) Fl).
    + rewrite <- app_assoc. reflexivity.
    + rewrite <- app_assoc. exact N.
    + rewrite app_length. lia.
    + exact Hr.
    + reflexivity.
    + exact H58.
Qed.
Lemma insert_perm e l : Permutation (e :: l) (insert_key e l).
Proof. induction l as [|f l IH]; cbn [insert_key]; [reflexivity|]. destruct (bytes_leb _ _); [reflexivity|]. rewrite perm_swap. now constructor. Qed.
Lemma sort_perm l : Permutation l (sort_keys l).
Proof. induction l as [|e l IH]; cbn [sort_keys]; [constructor|]. rewrite IH at 1. apply insert_perm. Qed.
Lemma order_perm h : Permutation h (header_order h).
Proof.
  unfold header_order. rewrite <- sort_perm. induction h as [|e h IH]; [constructor|]. cbn [filter]. destruct (bytes_eqb (fst e) procType); cbn [negb app]; [now constructor|]. rewrite IH at 1. apply Permutation_middle.
Qed.

(** ** the body *)
Lemma break_nil n : breakLines n [] = []. Proof. destruct n; reflexivity. Qed.
Lemma break_filter : forall n t, (List.length t <= n)%nat -> Forall plain t -> filter (fun c => negb ((c =? 10) || (c =? 13))) (breakLines n t) = t.
Proof.
  induction n as [|n IH]; intros t Hn F; [destruct t; [reflexivity|cbn in Hn; lia]|]. cbn [breakLines]. destruct t as [|x t']; [reflexivity|]. set (t := x :: t') in *. rewrite !filter_app.
  assert (K : forall l, Forall plain l -> filter (fun c => negb ((c =? 10) || (c =? 13))) l = l).
  { induction 1 as [|y l Hy Hl IHl]; [reflexivity|]. cbn [filter]. unfold plain in Hy. replace ((y =? 10) || (y =? 13)) with false by lia. cbn [negb]. f_equal. exact IHl. }
  rewrite K by (apply Forall_firstn; exact F). cbn [filter Z.eqb Pos.eqb orb negb app]. rewrite IH; [apply firstn_skipn| |apply Forall_skipn; exact F]. rewrite skipn_length. unfold t in *. cbn [List.length] in *. lia.
Qed.
(** what is written for the contents: nothing, or lines without dashes, blanks and colons, the last one ended by a newline *)
Lemma break_shape : forall n t, (List.length t <= n)%nat -> Forall plain t -> t <> [] ->
  exists body, breakLines n t = body ++ [10] /\ body <> [] /\ Forall (fun c => c = 10 \/ plain c) body /\ exists line more, breakLines n t = line ++ 10 :: more /\ Forall plain line.
Proof.
  induction n as [|n IH]; intros t Hn F Ht; [destruct t; [congruence|cbn in Hn; lia]|]. cbn [breakLines]. destruct t as [|x t'] eqn:Et; [congruence|]. rewrite <- Et in *.
  assert (F1 : Forall plain (firstn 64 t)) by (apply Forall_firstn; exact F). assert (F1' : Forall (fun c => c = 10 \/ plain c) (firstn 64 t)) by (eapply Forall_impl; [|exact F1]; auto).
  assert (N1 : firstn 64 t <> []) by (rewrite Et; discriminate).
  destruct (skipn 64 t) as [|y r] eqn:Er.
  - rewrite break_nil, app_nil_r. exists (firstn 64 t). split; [reflexivity|]. split; [exact N1|]. split; [exact F1'|]. exists (firstn 64 t), []. auto.
  - rewrite <- Er. destruct (IH (skipn 64 t)) as (body & E & Nb & Fb & _).
    + rewrite skipn_length. rewrite Et in *. cbn [List.length] in *. lia.
    + apply Forall_skipn, F.
    + rewrite Er. discriminate.
    + rewrite E. exists (firstn 64 t ++ 10 :: body). split; [rewrite <- app_assoc; reflexivity|]. split; [destruct (firstn 64 t); discriminate|]. split; [apply Forall_app; split; [exact F1'|]; constructor; [auto|exact Fb]|]. exists (firstn 64 t), (body ++ [10]). split; [reflexivity|exact F1].
Qed.
Lemma plain_not c l : Forall plain l -> In c [9; 10; 13; 32; 45; 58] -> ~ In c l.
Proof. intros F Hc I. rewrite Forall_forall in F. apply F in I. unfold plain in I. cbn in Hc. lia. Qed.
Lemma remove_id l : Forall (fun c => c = 10 \/ plain c) l -> removeSpacesAndTabs l = l.
Proof. unfold removeSpacesAndTabs. induction 1 as [|c l Hc Hl IH]; [reflexivity|]. cbn [filter]. unfold plain in Hc. replace ((c =? 32) || (c =? 9)) with false by lia. cbn [negb]. f_equal. exact IH. Qed.
Lemma encode_nonempty d : d <> [] -> b64_encode d <> [].
Proof. destruct d as [|a [|b [|c r]]]; cbn; congruence. Qed.

(** ** one block *)
Lemma HasSuffix_app a s : HasSuffix (a ++ s) s = true.
Proof. unfold HasSuffix. rewrite app_length. replace (List.length a + List.length s - List.length s)%nat with (List.length a) by lia. rewrite skip_app, bytes_eqb_refl, andb_true_r. apply Nat.leb_le. lia. Qed.
Lemma type_line ty r : ~ In 10 ty -> getLine (ty ++ pemEndOfLine ++ 10 :: r) = (ty ++ pemEndOfLine, r).
Proof.
  intros H. rewrite app_assoc. rewrite getLine_line. 2:{ rewrite in_app_iff. intros [I|I]; [contradiction|]. cbn in I. intuition lia. }
  f_equal. apply solid_line. change pemEndOfLine with ([45; 45; 45; 45] ++ [45]). rewrite app_assoc. apply solid_snoc; lia.
Qed.
Definition good_block (b : block) : Prop := bytes_ok (b_Bytes b) /\ ~ In 10 (b_Type b) /\ ~ In 58 (b_Type b) /\ NoDup (map fst (b_Headers b)) /\ Forall good_entry (b_Headers b).
(** the part of a block after its first line *)
Definition inside (b : block) : bytes :=
  (match b_Headers b with [] => [] | _ => flat_map writeHeader (header_order (b_Headers b)) ++ [10] end) ++ (let t := b64_encode (b_Bytes b) in breakLines (List.length t) t).
Lemma finish_trailer ty rest' : ~ In 10 ty -> let trailer := ty ++ pemEndOfLine ++ 10 :: rest' in
  let n := (List.length ty + List.length pemEndOfLine)%nat in
  (List.length trailer <? n)%nat = false /\ skipn n trailer = 10 :: rest' /\ HasPrefix (firstn n trailer) ty = true /\ HasSuffix (firstn n trailer) pemEndOfLine = true /\ snd (getLine (32 :: trailer)) = rest'.
Proof.
  intros H trailer n. assert (En : n = List.length (ty ++ pemEndOfLine)) by (unfold n; rewrite app_length; reflexivity). assert (Et : trailer = (ty ++ pemEndOfLine) ++ 10 :: rest') by (unfold trailer; rewrite <- app_assoc; reflexivity).
  rewrite En, Et. split; [apply Nat.ltb_ge; rewrite (app_length (ty ++ pemEndOfLine)); lia|]. rewrite skip_app, firstn_app_exact by reflexivity. split; [reflexivity|]. split; [apply HasPrefix_app|]. split; [apply HasSuffix_app|].
  rewrite app_comm_cons. rewrite getLine_line; [reflexivity|]. cbn [app In]. rewrite in_app_iff. intros [I|[I|I]]; [lia|contradiction|]. cbn in I. intuition lia.
Qed.
Lemma decode_one b rest : good_block b ->
  decodeOne (b_Type b ++ pemEndOfLine ++ 10 :: inside b ++ pemEndMark ++ b_Type b ++ pemEndOfLine ++ 10 :: rest) = inr (Some (mkBlock (b_Type b) (header_order (b_Headers b)) (b_Bytes b), rest)).
Proof.
  intros (B & T & T58 & N & F). destruct b as [ty hs d]. cbn [b_Type b_Headers b_Bytes] in *. unfold decodeOne. rewrite type_line by exact T. rewrite HasSuffix_app. cbn [negb].
  replace (firstn (List.length (ty ++ pemEndOfLine) - List.length pemEndOfLine) (ty ++ pemEndOfLine)) with ty by (rewrite app_length; replace (List.length ty + List.length pemEndOfLine - List.length pemEndOfLine)%nat with (List.length ty) by lia; symmetry; apply firstn_app_exact; reflexivity).
  pose proof (order_perm hs) as Po. assert (F' : Forall good_entry (header_order hs)) by (eapply Permutation_Forall; eassumption). assert (N' : NoDup (map fst ([] ++ header_order hs))) by (cbn [app]; eapply Permutation_NoDup; [apply Permutation_map; exact Po|exact N]).
  set (trailer := ty ++ pemEndOfLine ++ 10 :: rest). destruct (finish_trailer ty rest T) as (L1 & L2 & L3 & L4 & L5). fold trailer in L1, L2, L3, L4, L5.
  set (t := b64_encode d). assert (Pt : Forall plain t) by (apply (encode_plain (List.length d)); [lia|exact B]).
  assert (Bd : forall body, filter (fun c => negb ((c =? 10) || (c =? 13))) body = t -> Forall (fun c => c = 10 \/ plain c) body -> b64_decode (removeSpacesAndTabs body) = Some d).
  { intros body E Fb. rewrite (remove_id body Fb). unfold b64_decode. rewrite E. apply (groups_encode (List.length d)); [lia|exact B]. }
  assert (S1 : exists mid, headerLoop (S (List.length (inside (mkBlock ty hs d) ++ pemEndMark ++ trailer))) (inside (mkBlock ty hs d) ++ pemEndMark ++ trailer) [] = Some (header_order hs, mid ++ pemEndMark ++ trailer)
    /\ ((mid = [] /\ hs = [] /\ d = []) \/ exists body, mid = body ++ [10] /\ filter (fun c => negb ((c =? 10) || (c =? 13))) body = t /\ Forall (fun c => c = 10 \/ plain c) body /\ HasPrefix (mid ++ pemEndMark ++ trailer) pemEndMark = false)).
  { assert (Fl : forall body, filter (fun c => negb ((c =? 10) || (c =? 13))) (body ++ [10]) = filter (fun c => negb ((c =? 10) || (c =? 13))) body) by (intros body; rewrite filter_app; cbn; apply app_nil_r).
    assert (Pf : forall x r, x <> 45 -> HasPrefix (x :: r) pemEndMark = false). { intros x r Hx. destruct (HasPrefix (x :: r) pemEndMark) eqn:E; [|reflexivity]. apply HasPrefix_iff in E as [q E]. injection E as E _. contradiction. }
    unfold inside. cbn [b_Headers b_Bytes]. cbv zeta. fold t. set (BL := breakLines (List.length t) t). pose proof (break_filter (List.length t) t (Nat.le_refl _) Pt) as FB. fold BL in FB. destruct hs as [|e0 hs0] eqn:Eh.
    - cbn [app]. change (header_order []) with (@nil (bytes * bytes)) in *. exists BL. destruct d as [|d0 d'] eqn:Ed.
      + split; [|left; auto]. unfold BL, t. cbn [b64_encode List.length breakLines app].
        pose proof (header_lines [] [] (pemEndMark ++ trailer) (S (List.length (pemEndMark ++ trailer)))) as HL. cbn [flat_map app] in HL. eapply HL; [constructor|constructor|lia|discriminate|reflexivity|].
        unfold trailer. rewrite app_assoc, type_line by (rewrite in_app_iff; intros [I|I]; [cbn in I; intuition lia|contradiction]). cbn [fst]. rewrite !in_app_iff. intros [[I|I]|I]; [cbn in I; intuition lia|contradiction|cbn in I; intuition lia].
      + destruct (break_shape (List.length t) t (Nat.le_refl _) Pt) as (body & E & Nb & Fb & line & more & E2 & Fl2); [apply encode_nonempty; discriminate|]. fold BL in E, E2. split.
        * pose proof (header_lines [] [] (BL ++ pemEndMark ++ trailer) (S (List.length (BL ++ pemEndMark ++ trailer))) line) as HL. cbn [flat_map app] in HL. eapply HL; [constructor|constructor|lia| | |].
          -- rewrite E. destruct body; discriminate.
          -- rewrite E2, <- app_assoc. cbn [app]. rewrite getLine_line by (apply (plain_not 10 line Fl2); cbn; tauto). cbn [fst]. apply solid_line. intros a x Ex. rewrite Ex in Fl2. apply Forall_app in Fl2 as [_ Fl2]. apply Forall_inv in Fl2. unfold plain in Fl2. lia.
          -- apply (plain_not 58 line Fl2). cbn. tauto.
        * right. exists body. split; [exact E|]. split; [rewrite <- (Fl body), <- E; exact FB|]. split; [exact Fb|]. rewrite E. destruct body as [|x body]; [congruence|]. cbn [app]. apply Pf. apply Forall_inv in Fb. unfold plain in Fb. lia.
    - rewrite <- Eh in *. exists (10 :: BL). split.
      + replace ((flat_map writeHeader (header_order hs) ++ [10]) ++ BL) with (flat_map writeHeader (header_order hs) ++ 10 :: BL) by (rewrite <- app_assoc; reflexivity). rewrite <- app_assoc. cbn [app].
        eapply (header_lines (header_order hs) [] (10 :: BL ++ pemEndMark ++ trailer)); [exact F'|exact N'|lia|discriminate|exact (f_equal fst (getLine_line [] _ (fun H => H)))|]. cbn. tauto.
      + right. assert (H10 : forall r, HasPrefix (10 :: r) pemEndMark = false) by (intros r; apply Pf; lia). destruct d as [|d0 d'] eqn:Ed.
        * exists []. split; [reflexivity|]. split; [reflexivity|]. split; [constructor|]. apply H10.
        * destruct (break_shape (List.length t) t (Nat.le_refl _) Pt) as (body & E & Nb & Fb & _); [apply encode_nonempty; discriminate|]. fold BL in E. exists (10 :: body). split; [rewrite E; reflexivity|]. split; [cbn [filter Z.eqb Pos.eqb orb negb]; rewrite <- (Fl body), <- E; exact FB|]. split; [constructor; [auto|exact Fb]|]. apply H10. }
  destruct S1 as (mid & E1 & Cs). fold trailer. rewrite E1. destruct Cs as [(-> & -> & ->)|(body & -> & Fb & Pb & Hp)].
  - change (header_order []) with (@nil (bytes * bytes)). cbn [app andb]. rewrite HasPrefix_app, skip_app. cbv zeta. rewrite L1, L3, L4, L2. cbn [negb orb]. change (fst (getLine (10 :: rest))) with (fst (getLine ([] ++ 10 :: rest))). rewrite getLine_line by (intros []). cbn [fst]. change (TrimRightBlanks (drop_cr [])) with (@nil Z). cbv iota.
    change (removeSpacesAndTabs []) with (@nil Z). change (b64_decode []) with (Some (@nil Z)). cbv iota. rewrite L5. reflexivity.
  - rewrite Hp, andb_false_r. rewrite <- app_assoc. change ([10] ++ pemEndMark ++ trailer) with ((10 :: pemEndMark) ++ trailer). change (10 :: pemEndMark) with (10 :: 45 :: str_bytes "----END "). rewrite Cut_mark; [|intros I; rewrite Forall_forall in Pb; apply Pb in I; unfold plain in I; lia|lia].
    cbv zeta. rewrite L1, L3, L4, L2. cbn [negb orb]. change (fst (getLine (10 :: rest))) with (fst (getLine ([] ++ 10 :: rest))). rewrite getLine_line by (intros []). cbn [fst]. change (TrimRightBlanks (drop_cr [])) with (@nil Z). cbv iota. rewrite (Bd body Fb Pb), L5. reflexivity.
Qed.
(** Encode, then Decode: the block again, its headers in some order, and what follows the block *)
Lemma encode_decode b text rest : good_block b -> Encode b = Some text -> Decode (text ++ rest) = Some (mkBlock (b_Type b) (header_order (b_Headers b)) (b_Bytes b), rest).
Proof.
  intros G E. unfold Encode in E. destruct (existsb _ _); [discriminate|]. apply (f_equal (fun o => match o with Some x => x | None => [] end)) in E. cbv beta iota in E. fold (inside b) in E.
  assert (Ed : text ++ rest = pemBegin ++ b_Type b ++ pemEndOfLine ++ 10 :: inside b ++ pemEndMark ++ b_Type b ++ pemEndOfLine ++ 10 :: rest) by (rewrite <- E; unfold inside; rewrite <- !app_assoc; reflexivity).
  unfold Decode. rewrite Ed. generalize (List.length (pemBegin ++ b_Type b ++ pemEndOfLine ++ 10 :: inside b ++ pemEndMark ++ b_Type b ++ pemEndOfLine ++ 10 :: rest)). intros n. cbn [decodeLoop].
  rewrite HasPrefix_app, skip_app. rewrite (decode_one b rest G). reflexivity.
Qed.
Lemma good_encodes b : good_block b -> exists text, Encode b = Some text.
Proof.
  intros (_ & _ & _ & _ & F). unfold Encode. match goal with |- context [if ?c then _ else _] => destruct c eqn:E end; [|eauto]. apply existsb_exists in E as (e & I & E). apply existsb_exists in E as (c & I2 & E). rewrite Forall_forall in F. destruct (F e I) as (H & _). apply Z.eqb_eq in E. subst c. contradiction.
Qed.

(** ** soundness: what an accepted text looks like *)
Lemma drop_blanks_spec l : exists b, l = b ++ drop_blanks l /\ Forall (fun c => c = 32 \/ c = 9) b.
Proof. induction l as [|x l (b & E & F)]; cbn [drop_blanks]; [exists []; auto|]. destruct ((x =? 32) || (x =? 9)) eqn:H; [|exists []; auto]. exists (x :: b). split; [cbn [app]; f_equal; exact E|constructor; [lia|exact F]]. Qed.
Lemma trim_blanks_spec l : exists b, l = TrimRightBlanks l ++ b /\ Forall (fun c => c = 32 \/ c = 9) b.
Proof.
  unfold TrimRightBlanks. destruct (drop_blanks_spec (rev l)) as (b & E & F). exists (rev b). split; [|apply Forall_rev; exact F]. apply (f_equal (@rev Z)) in E. rewrite rev_involutive, rev_app_distr in E. exact E.
Qed.
(** a white tail: blanks, then perhaps '\r' *)
Lemma drop_cr_spec l : l = drop_cr l \/ l = drop_cr l ++ [13].
Proof.
  unfold drop_cr. destruct (rev l) as [|x r] eqn:E; [auto|]. assert (El : l = rev r ++ [x]) by (rewrite <- (rev_involutive l), E; reflexivity).
  destruct (Z.eq_dec x 13) as [->|N]; [right; exact El|]. left. repeat (match goal with |- context [match ?z with _ => _ end] => destruct z; try reflexivity; try lia end).
Qed.
Definition white (w : bytes) : Prop := Forall (fun c => c = 32 \/ c = 9 \/ c = 13) w.
Lemma getLine_spec data line rest : getLine data = (line, rest) -> exists w, white w /\ ((data = line ++ w ++ 10 :: rest /\ ~ In 10 (line ++ w)) \/ (data = line ++ w /\ rest = [] /\ ~ In 10 data)).
Proof.
  assert (CN : forall s a b, Cut s [10] = Some (a, b) -> ~ In 10 a).
  { induction s as [|x s IH]; intros a b E; rewrite Cut_eq in E; [discriminate|]. destruct (HasPrefix (x :: s) [10]) eqn:H; [injection E as <- <-; intros []|]. destruct (Cut s [10]) as [[a' b']|]; [|discriminate]. injection E as <- <-. unfold HasPrefix in H. cbn [List.length firstn bytes_eqb] in H.
    cbn [In]. intros [->|I]; [discriminate H|exact (IH a' b' eq_refl I)]. }
  assert (CZ : forall s, Cut s [10] = None -> ~ In 10 s).
  { induction s as [|x s IH]; intros E; rewrite Cut_eq in E; [intros []|]. destruct (HasPrefix (x :: s) [10]) eqn:H; [discriminate|]. destruct (Cut s [10]) as [[a' b']|]; [discriminate|]. unfold HasPrefix in H. cbn [List.length firstn bytes_eqb] in H.
    cbn [In]. intros [->|I]; [discriminate H|exact (IH eq_refl I)]. }
  assert (W : forall b, Forall (fun c => c = 32 \/ c = 9) b -> white b) by (intros b; apply Forall_impl; tauto).
  unfold getLine. destruct (Cut data [10]) as [[a b]|] eqn:E; intros Q; injection Q as <- <-.
  - pose proof (CN _ _ _ E) as Na. apply Cut_some in E. destruct (trim_blanks_spec (drop_cr a)) as (w & Ew & Fw).
    assert (X : exists w', white w' /\ a = TrimRightBlanks (drop_cr a) ++ w').
    { destruct (drop_cr_spec a) as [Ea|Ea]; [exists w; split; [auto|congruence]|]. exists (w ++ [13]). split; [apply Forall_app; split; [apply W; exact Fw|]; constructor; [auto|constructor]|]. rewrite app_assoc, <- Ew. exact Ea. }
    destruct X as (w' & Hw & Ea). exists w'. split; [exact Hw|]. left. rewrite app_assoc, <- Ea. auto.
  - apply CZ in E. destruct (trim_blanks_spec data) as (w & Ew & Fw). exists w. split; [auto|]. right. auto.
Qed.
(** what the header loop skips: whole lines, every one with a colon; there are headers exactly if there are such lines *)
Lemma set_key_nonempty h k v : set_key h k v <> [].
Proof. unfold set_key. destruct (filter _ h); discriminate. Qed.
Lemma header_sound : forall fuel rest h h' rest', headerLoop fuel rest h = Some (h', rest') ->
  exists lines, rest = flat_map (fun l => l ++ [10]) lines ++ rest' /\ Forall (In 58) lines /\ rest' <> [] /\ (h' = [] <-> h = [] /\ lines = []).
Proof.
  induction fuel as [|n IH]; intros rest h h' rest' E; [discriminate|]. cbn [headerLoop] in E. destruct rest as [|x r] eqn:Er; [discriminate|]. rewrite <- Er in *. destruct (getLine rest) as [line next] eqn:El.
  destruct (Cut line [58]) as [[k v]|] eqn:Ec.
  - destruct (IH _ _ _ _ E) as (lines & E1 & F & N & HH). apply getLine_spec in El as (w & Hw & [[E2 _]|(_ & E2 & _)]).
    + exists ((line ++ w) :: lines). split; [cbn [flat_map]; rewrite E2, E1, <- !app_assoc; reflexivity|]. split; [constructor; [|exact F]; apply Cut_some in Ec; rewrite Ec, !in_app_iff; cbn; tauto|]. split; [exact N|]. split; [intros ->|intros [_ Q]; discriminate Q]. apply proj1 in HH. destruct (HH eq_refl) as [Q _]. destruct (set_key_nonempty _ _ _ Q).
    + exfalso. subst next. destruct n; discriminate E.
  - injection E as <- <-. exists []. split; [reflexivity|]. split; [constructor|]. split; [rewrite Er; discriminate|]. tauto.
Qed.
(** [t] is a PEM text from just behind a BEGIN marker, for the type ty and the contents d, with rest behind it.  hdr: are there header lines *)
Definition pem_body (data ty : bytes) (hdr : bool) (d rest : bytes) : Prop := exists w1 lines body nl w2 eol,
  data = ty ++ str_bytes "-----" ++ w1 ++ [10] ++ flat_map (fun l => l ++ [10]) lines ++ body ++ nl ++ str_bytes "-----END " ++ ty ++ str_bytes "-----" ++ w2 ++ eol
  /\ ~ In 10 ty /\ white w1 /\ white w2 /\ Forall (In 58) lines /\ (lines = [] <-> hdr = false)
  /\ (nl = [10] \/ (nl = [] /\ body = [] /\ lines = []))
  /\ (eol = 10 :: rest \/ (eol = [] /\ rest = []))
  /\ base64_of (filter (fun c => negb (existsb (Z.eqb c) [9; 10; 13; 32])) body) d.
Lemma filter_both body : filter (fun c => negb ((c =? 10) || (c =? 13))) (removeSpacesAndTabs body) = filter (fun c => negb (existsb (Z.eqb c) [9; 10; 13; 32])) body.
Proof.
  unfold removeSpacesAndTabs. induction body as [|c l IH]; [reflexivity|]. cbn [filter existsb]. destruct ((c =? 32) || (c =? 9)) eqn:A; cbn [negb].
  - replace (negb ((c =? 9) || ((c =? 10) || ((c =? 13) || ((c =? 32) || false))))) with false by lia. exact IH.
  - cbn [filter]. replace (negb ((c =? 9) || ((c =? 10) || ((c =? 13) || ((c =? 32) || false))))) with (negb ((c =? 10) || (c =? 13))) by lia. rewrite IH. reflexivity.
Qed.
Lemma HasSuffix_inv s f : HasSuffix s f = true -> s = firstn (List.length s - List.length f) s ++ f.
Proof. unfold HasSuffix. intros H. apply andb_true_iff in H as [_ H]. apply bytes_eqb_spec in H. rewrite <- H at 2. symmetry. apply firstn_skipn. Qed.
Lemma trailer_inv ty trailer : let n := (List.length ty + List.length pemEndOfLine)%nat in
  (List.length trailer <? n)%nat = false -> negb (HasPrefix (firstn n trailer) ty) || negb (HasSuffix (firstn n trailer) pemEndOfLine) = false -> trailer = ty ++ pemEndOfLine ++ skipn n trailer.
Proof.
  intros n H1 H2. apply orb_false_iff in H2 as [H2 H3]. apply negb_false_iff in H2, H3. apply Nat.ltb_ge in H1. apply HasPrefix_iff in H2 as [r Hr]. apply HasSuffix_inv in H3.
  assert (Ln : List.length (firstn n trailer) = n) by (rewrite firstn_length; lia). rewrite Ln in H3.
  assert (E : firstn n trailer = ty ++ pemEndOfLine). { rewrite H3. f_equal. rewrite Hr. apply firstn_app_exact. unfold n. lia. }
  rewrite app_assoc, <- E. symmetry. apply firstn_skipn.
Qed.
Lemma white_line s : fst (getLine s) = [] -> exists w, white w /\ (s = w ++ 10 :: snd (getLine s) \/ (s = w /\ snd (getLine s) = [])).
Proof. intros H. destruct (getLine s) as [l r] eqn:E. cbn [fst snd] in *. subst l. apply getLine_spec in E as (w & Hw & [[E _]|(E & Er & _)]); exists w; split; auto. Qed.
Lemma one_sound data b rest : decodeOne data = inr (Some (b, rest)) -> pem_body data (b_Type b) (match b_Headers b with [] => false | _ => true end) (b_Bytes b) rest.
Proof.
  unfold decodeOne. destruct (getLine data) as [tl r0] eqn:Eg. destruct (HasSuffix tl pemEndOfLine) eqn:Hs; cbn [negb]; [|discriminate]. apply HasSuffix_inv in Hs. set (ty := firstn (List.length tl - List.length pemEndOfLine) tl) in *. clearbody ty. subst tl.
  destruct (headerLoop _ r0 []) as [[h r1]|] eqn:Eh; [|discriminate]. apply header_sound in Eh as (lines & E1 & F & N1 & HH).
  match goal with |- context [match (if ?c then ?u else ?v) with _ => _ end] => set (cut := if c then u else v) end. cbv zeta. destruct cut as [[body trailer]|] eqn:Ec; [|discriminate].
  destruct (List.length trailer <? _)%nat eqn:E2; [discriminate|]. match goal with |- context [negb ?a || negb ?b] => destruct (negb a || negb b) eqn:E3 end; [discriminate|]. destruct (fst (getLine (skipn _ trailer))) as [|? ?] eqn:E4; [|discriminate].
  destruct (b64_decode (removeSpacesAndTabs body)) as [d|] eqn:Ed; [|discriminate]. intros Q. injection Q as <- Er. cbn [b_Type b_Headers b_Bytes]. pose proof (trailer_inv ty trailer E2 E3) as Et. set (s := skipn _ trailer) in *. clearbody s.
  apply white_line in E4 as (w2 & Hw2 & Ew2). apply getLine_spec in Eg as (w1 & Hw1 & [[Eg T10]|(Eg & E0 & T10)]).
  2:{ exfalso. subst r0. destruct (flat_map _ lines); [|discriminate E1]. cbn [app] in E1. subst r1. exact (N1 eq_refl). }
  assert (Ty10 : ~ In 10 ty) by (intros I; apply T10; rewrite !in_app_iff; tauto).
  assert (K : exists nl, r1 = body ++ nl ++ pemEndMark ++ trailer /\ (nl = [10] \/ (nl = [] /\ body = [] /\ lines = []))).
  { unfold cut in Ec. clear cut. destruct h as [|e h']; cbn [andb] in Ec.
    - destruct (HasPrefix r1 pemEndMark) eqn:Hp; [|apply Cut_some in Ec; exists [10]; auto]. assert (Eb : body = []) by congruence. assert (Etr : trailer = skipn (List.length pemEndMark) r1) by congruence. exists []. apply HasPrefix_iff in Hp as [q Hq]. rewrite Hq in Etr. rewrite skip_app in Etr. split; [rewrite Eb, Etr; exact Hq|]. right. apply proj1 in HH. destruct (HH eq_refl) as [_ ->]. auto.
    - apply Cut_some in Ec. exists [10]. auto. }
  destruct K as (nl & E5 & Hnl). exists w1, lines, body, nl, w2.
  assert (Er' : exists eol, s = w2 ++ eol /\ (eol = 10 :: rest \/ (eol = [] /\ rest = []))).
  { assert (W10 : forall w, white w -> ~ In 10 w) by (intros w Hw I; unfold white in Hw; rewrite Forall_forall in Hw; apply Hw in I; lia).
    assert (Eo : ~ In 10 pemEndOfLine) by (cbn; intuition lia).
    destruct Ew2 as [Es|[Es Es2]].
    - remember (snd (getLine s)) as q eqn:Eq0. clear Eq0. exists (10 :: q). split; [exact Es|]. left. f_equal. rewrite <- Er, Et, Es. replace (32 :: ty ++ pemEndOfLine ++ w2 ++ 10 :: q) with ((32 :: ty ++ pemEndOfLine ++ w2) ++ 10 :: q) by (cbn [app]; rewrite <- !app_assoc; reflexivity).
      rewrite getLine_line; [reflexivity|]. cbn [In]. rewrite !in_app_iff. pose proof (W10 w2 Hw2). intuition lia.
    - exists []. rewrite app_nil_r. split; [exact Es|]. right. split; [reflexivity|]. rewrite <- Er, Et, Es. unfold getLine. rewrite Cut_char_none; [reflexivity|]. cbn [In]. rewrite !in_app_iff. pose proof (W10 w2 Hw2). intuition lia. }
  destruct Er' as (eol & Es & He). exists eol. split.
  - rewrite Eg, E1, E5, Et, Es. unfold pemEndOfLine, pemEndMark. rewrite <- !app_assoc. reflexivity.
  - split; [exact Ty10|]. split; [exact Hw1|]. split; [exact Hw2|]. split; [exact F|]. split; [destruct h; [split; [auto|]; intros _; apply proj1 in HH; apply (HH eq_refl)|split; [intros ->; apply proj2 in HH; specialize (HH (conj eq_refl eq_refl)); discriminate HH|discriminate]]|].
    split; [exact Hnl|]. split; [exact He|]. apply groups_iff. unfold b64_decode in Ed. rewrite filter_both in Ed. exact Ed.
Qed.
(** a failed attempt leaves the search at the beginning of a later line *)
Lemma one_restart data rest : decodeOne data = inl rest -> rest = [] \/ exists p, data = p ++ 10 :: rest.
Proof.
  unfold decodeOne. destruct (getLine data) as [tl r0] eqn:Eg. apply getLine_spec in Eg as (w1 & _ & Eg).
  assert (S0 : forall r1 lines, r0 = flat_map (fun l => l ++ [10]) lines ++ r1 -> r1 = [] \/ exists p, data = p ++ 10 :: r1).
  { intros r1 lines E1. destruct Eg as [[Eg _]|(Eg & E0 & _)].
    - right. destruct lines as [|l0 lines] using rev_ind; [cbn in E1; subst r1; exists (tl ++ w1); rewrite Eg, <- app_assoc; reflexivity|]. clear IHlines. rewrite flat_map_app in E1. cbn [flat_map] in E1. rewrite app_nil_r in E1.
      exists (tl ++ w1 ++ 10 :: flat_map (fun l => l ++ [10]) lines ++ l0). rewrite Eg, E1, <- !app_assoc. cbn [app]. rewrite <- !app_assoc. reflexivity.
    - left. subst r0. symmetry in E1. apply app_eq_nil in E1. apply E1. }
  destruct (HasSuffix tl pemEndOfLine) eqn:Hs; cbn [negb]; [|intros E; injection E as <-; exact (S0 r0 [] eq_refl)].
  destruct (headerLoop _ r0 []) as [[h r1]|] eqn:Eh; [|discriminate]. apply header_sound in Eh as (lines & E1 & _). specialize (S0 r1 lines E1). cbv zeta.
  repeat (match goal with |- (match ?m with _ => _ end) = _ -> _ => match m with context [match ?q with _ => _ end] => fail 1 | _ => destruct m end | |- (if ?m then _ else _) = _ -> _ => destruct m | |- context [match (if ?c then _ else _) with _ => _ end] => destruct c | |- (let (_, _) := ?m in _) = _ -> _ => destruct m end; try (intros E; injection E as <-; exact S0); try discriminate).
Qed.
Lemma loop_sound : forall fuel data b rest, decodeLoop fuel data = Some (b, rest) -> exists pre text, data = pre ++ str_bytes "-----BEGIN " ++ text /\ (pre = [] \/ exists p, pre = p ++ [10]) /\ pem_body text (b_Type b) (match b_Headers b with [] => false | _ => true end) (b_Bytes b) rest.
Proof.
  induction fuel as [|n IH]; intros data b rest E; [discriminate|]. cbn [decodeLoop] in E.
  match type of E with match ?m with _ => _ end = _ => destruct m as [after|] eqn:Ea end; [|discriminate].
  assert (P : exists pre, data = pre ++ pemBegin ++ after /\ (pre = [] \/ exists p, pre = p ++ [10])).
  { destruct (HasPrefix data pemBegin) eqn:H; [assert (Ea' : after = skipn (List.length pemBegin) data) by congruence; apply HasPrefix_iff in H as [r Hr]; rewrite Hr, skip_app in Ea'; subst r; exists []; auto|]. destruct (Cut data (10 :: pemBegin)) as [[p a]|] eqn:Ec; [|discriminate]. injection Ea as <-. apply Cut_some in Ec. exists (p ++ [10]). split; [rewrite Ec, <- app_assoc; reflexivity|eauto]. }
  destruct P as (pre & Ed & Hpre). destruct (decodeOne after) as [r|[[b' r]|]] eqn:Eo; [|injection E as <- <-|discriminate].
  - destruct (IH r b rest E) as (pre' & text & E1 & H1 & HB). apply one_restart in Eo as [->|[p Eo]]; [destruct n; [discriminate|]; cbn in E; discriminate|].
    exists (pre ++ pemBegin ++ p ++ 10 :: pre'), text. split; [rewrite Ed, Eo, E1, <- !app_assoc; reflexivity|]. split; [|exact HB]. right. destruct H1 as [->|[q ->]]; [exists (pre ++ pemBegin ++ p)|exists (pre ++ pemBegin ++ p ++ 10 :: q)]; rewrite <- !app_assoc; reflexivity.
  - exists pre, after. split; [exact Ed|]. split; [exact Hpre|]. exact (one_sound after b' r Eo).
Qed.
Lemma Decode_sound data b rest : Decode data = Some (b, rest) -> exists pre text, data = pre ++ str_bytes "-----BEGIN " ++ text /\ (pre = [] \/ exists p, pre = p ++ [10]) /\ pem_body text (b_Type b) (match b_Headers b with [] => false | _ => true end) (b_Bytes b) rest.
Proof. apply loop_sound. Qed.

(** ** the fuel is enough *)
Lemma getLine_shorter data : data <> [] -> (List.length (snd (getLine data)) < List.length data)%nat.
Proof. intros H. destruct (getLine data) as [l r] eqn:E. apply getLine_spec in E as (w & _ & [[E _]|(E & -> & _)]); cbn [snd]; [rewrite E, !app_length; cbn [List.length]; lia|destruct data; [congruence|cbn; lia]]. Qed.
Lemma header_fuel : forall n m rest h, (List.length rest < n)%nat -> (List.length rest < m)%nat -> headerLoop n rest h = headerLoop m rest h.
Proof.
  induction n as [|n IH]; intros m rest h Hn Hm; [lia|]. destruct m as [|m]; [lia|]. cbn [headerLoop]. destruct rest as [|x r] eqn:Er; [reflexivity|]. rewrite <- Er in *. assert (Nr : rest <> []) by (rewrite Er; discriminate). pose proof (getLine_shorter rest Nr) as L. destruct (getLine rest) as [line next]. cbn [snd] in L.
  destruct (Cut line [58]) as [[k v]|]; [|reflexivity]. apply IH; lia.
Qed.
Lemma loop_fuel : forall n m data, (List.length data < n)%nat -> (List.length data < m)%nat -> decodeLoop n data = decodeLoop m data.
Proof.
  induction n as [|n IH]; intros m data Hn Hm; [lia|]. destruct m as [|m]; [lia|]. cbn [decodeLoop].
  match goal with |- match ?x with _ => _ end = _ => destruct x as [after|] eqn:Ea end; [|reflexivity].
  assert (L : (List.length after < List.length data)%nat).
  { destruct (HasPrefix data pemBegin) eqn:H; [assert (Ea' : after = skipn (List.length pemBegin) data) by congruence; apply HasPrefix_iff in H as [r Hr]; rewrite Hr, skip_app in Ea'; subst; rewrite app_length; cbn; lia|].
    destruct (Cut data (10 :: pemBegin)) as [[p a]|] eqn:Ec; [|discriminate]. injection Ea as <-. apply Cut_some in Ec. rewrite Ec, !app_length. cbn. lia. }
  destruct (decodeOne after) as [r|r] eqn:Eo; [|reflexivity]. apply one_restart in Eo. apply IH; (destruct Eo as [->|[p ->]]; [cbn; lia|rewrite app_length in L; cbn [List.length] in L; lia]).
Qed.
(** Decode without fuel *)
Lemma Decode_step data : Decode data = match (if HasPrefix data pemBegin then Some (skipn (List.length pemBegin) data) else match Cut data (10 :: pemBegin) with Some (_, a) => Some a | None => None end) with
  | None => None
  | Some after => match decodeOne after with inl rest => Decode rest | inr r => r end
  end.
Proof.
  unfold Decode at 1. cbn [decodeLoop].
  match goal with |- match ?x with _ => _ end = _ => destruct x as [after|] eqn:Ea end; [|reflexivity].
  assert (L : (List.length after < List.length data)%nat).
  { destruct (HasPrefix data pemBegin) eqn:H; [assert (Ea' : after = skipn (List.length pemBegin) data) by congruence; apply HasPrefix_iff in H as [r Hr]; rewrite Hr, skip_app in Ea'; subst; rewrite app_length; cbn; lia|].
    destruct (Cut data (10 :: pemBegin)) as [[p a]|] eqn:Ec; [|discriminate]. injection Ea as <-. apply Cut_some in Ec. rewrite Ec, !app_length. cbn. lia. }
  destruct (decodeOne after) as [r|r] eqn:Eo; [|reflexivity]. apply one_restart in Eo. unfold Decode. apply loop_fuel; [|lia]. destruct Eo as [->|[p ->]]; [cbn; lia|rewrite app_length in L; cbn [List.length] in L; lia].
Qed.
