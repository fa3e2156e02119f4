(** * Facts about strings, labels, mailboxes, masks and bit strings of the X.509 code *)
From Coq Require Import String Ascii ZifyBool ZifyNat.
From Verif Require Import Base Words Utf8 BMPModel ECModel SM2Model CryptoByte Asn1 Asn1Proofs KeysModel X509Model X509Sig X509Build X509Proofs.
Open Scope Z_scope.

(** ** ASCII and runes *)
Lemma decode_ascii b0 tl : b0 < 128 -> decode_rune b0 tl = (b0, 1%nat).
Proof. intros H. unfold decode_rune. rewrite (proj2 (Z.ltb_lt _ _)) by lia. reflexivity. Qed.
Lemma decode_big b0 tl : 128 <= b0 < 256 -> bytes_ok tl -> 128 <= fst (decode_rune b0 tl).
Proof.
  intros H Hok. unfold decode_rune, second_ok, cont, rune_error.
  rewrite (proj2 (Z.ltb_ge _ _)) by lia.
  destruct (Z.ltb_spec b0 0xC2); [cbn; lia|].
  destruct (Z.ltb_spec b0 0xE0).
  { destruct tl as [|b1 tl]; [cbn; lia|].
    repeat match goal with |- context[if ?a =? ?b then _ else _] => destruct (Z.eqb_spec a b); [lia|] end.
    destruct (_ && _) eqn:C; cbn [fst]; lia. }
  destruct (Z.ltb_spec b0 0xF0).
  { destruct tl as [|b1 [|b2 tl]]; try (cbn; lia).
    destruct (Z.eqb_spec b0 0xE0); [|destruct (Z.eqb_spec b0 0xED); [|repeat match goal with |- context[if ?a =? ?b then _ else _] => destruct (Z.eqb_spec a b); [lia|] end]];
    (match goal with |- context[if ?c then _ else _] => destruct c eqn:C end; cbn [fst]; lia). }
  destruct (Z.ltb_spec b0 0xF5); [|cbn; lia].
  destruct tl as [|b1 [|b2 [|b3 tl]]]; try (cbn; lia).
  do 2 (match goal with |- context[if ?a =? ?b then _ else _] => destruct (Z.eqb_spec a b); [lia|] end).
  destruct (Z.eqb_spec b0 0xF0); [|destruct (Z.eqb_spec b0 0xF4)];
    (match goal with |- context[if ?c then _ else _] => destruct c eqn:C end; cbn [fst]; lia).
Qed.
Lemma runes_ascii s : Forall (fun b => b < 128) s -> runes s = s.
Proof.
  induction 1 as [|b0 s H0 _ IH]; [reflexivity|]. rewrite runes_cons, decode_ascii by auto. cbn [fst snd Nat.sub skipn]. now rewrite IH.
Qed.
Lemma runes_nil_iff s : runes s = [] <-> s = [].
Proof. destruct s; [split; reflexivity|]. rewrite runes_cons. split; discriminate. Qed.
(** a property of runes that only ASCII characters have is a property of the bytes *)
Lemma runes_forallb (f : Z -> bool) s : bytes_ok s -> (forall r, f r = true -> r < 128) -> forallb f (runes s) = forallb f s.
Proof.
  intros Hs Hf. induction s as [|b0 s IH]; [reflexivity|]. apply bytes_ok_cons in Hs. destruct Hs as [H0 Hs].
  rewrite runes_cons. cbn [forallb]. destruct (Z.lt_ge_cases b0 128) as [L|L].
  - rewrite decode_ascii by auto. cbn [fst snd Nat.sub skipn]. rewrite IH by auto. reflexivity.
  - pose proof (decode_big b0 s ltac:(unfold byte_ok in H0; lia) Hs) as B.
    destruct (f (fst (decode_rune b0 s))) eqn:E; [apply Hf in E; lia|].
    destruct (f b0) eqn:E'; [apply Hf in E'; lia|]. reflexivity.
Qed.
Lemma isIA5_iff s : bytes_ok s -> isIA5String s = true <-> Forall (fun b => b < 128) s.
Proof.
  intros Hs. unfold isIA5String. rewrite runes_forallb by (auto; intros; lia). rewrite forallb_forall, Forall_forall.
  split; intros H x Hx; specialize (H x Hx); lia.
Qed.

(** ** Labels *)
Lemma lastDot_none s : lastDot s = None <-> ~ In 46 s.
Proof.
  induction s as [|c r IH]; cbn [lastDot In]; [intuition discriminate|].
  destruct (lastDot r) as [i|]; [split; [discriminate|]|].
  - intros H. exfalso. assert (A : Some i = None) by (apply IH; tauto). discriminate.
  - destruct (Z.eqb_spec c 46) as [->|N]; [split; [discriminate|tauto]|]. split; [|reflexivity]. intros _ [->|H]; [congruence|]. revert H. apply IH. reflexivity.
Qed.
Lemma lastDot_some s i : lastDot s = Some i -> s = firstn i s ++ 46 :: skipn (i + 1) s /\ ~ In 46 (skipn (i + 1) s) /\ (i < List.length s)%nat.
Proof.
  revert i. induction s as [|c r IH]; intros i; cbn [lastDot]; [discriminate|].
  destruct (lastDot r) as [j|] eqn:E.
  - intros [= <-]. destruct (IH _ eq_refl) as (A & B & C). cbn [firstn skipn Nat.add app List.length]. repeat split; auto; [|lia]. f_equal. exact A.
  - destruct (Z.eqb_spec c 46) as [->|]; [|discriminate]. intros [= <-]. cbn [firstn skipn Nat.add app List.length]. apply lastDot_none in E.
    repeat split; auto. lia.
Qed.
Lemma lastDot_app a x : ~ In 46 x -> lastDot (a ++ 46 :: x) = Some (List.length a).
Proof.
  intros H. induction a as [|c a IH]; cbn [app lastDot List.length].
  - apply lastDot_none in H. rewrite H. reflexivity.
  - rewrite IH. reflexivity.
Qed.
(** joining with dots, the labels given in reverse order *)
Fixpoint rjoin (ls : list bytes) : bytes :=
  match ls with [] => [] | [x] => x | x :: r => rjoin r ++ 46 :: x end.
Lemma labels_loop_out f : forall d, (List.length d <= f)%nat -> d <> [] ->
  let ls := labels_loop f d in ls <> [] /\ Forall (fun l => ~ In 46 l) ls /\ (d = rjoin ls \/ d = 46 :: rjoin ls).
Proof.
  induction f as [|f IH]; intros d Hf Hd; [destruct d; [congruence|cbn in Hf; lia]|].
  cbv zeta. cbn [labels_loop]. destruct d as [|c d]; [congruence|].
  destruct (lastDot (c :: d)) as [i|] eqn:E.
  - destruct (lastDot_some _ _ E) as (A & B & C). remember (c :: d) as s eqn:Es. remember (firstn i s) as p eqn:Ep.
    split; [discriminate|]. destruct p as [|c' p'].
    + assert (L : labels_loop f [] = []) by (destruct f; reflexivity). rewrite L. split; [auto|]. right. exact A.
    + destruct (IH (c' :: p')) as (I1 & I2 & I3).
      { rewrite Ep, firstn_length. lia. } { discriminate. }
      cbv zeta in *. split; [auto|].
      destruct (labels_loop f (c' :: p')) as [|y r] eqn:El; [congruence|].
      change (rjoin (skipn (i + 1) s :: y :: r)) with (rjoin (y :: r) ++ 46 :: skipn (i + 1) s).
      destruct I3 as [I3|I3]; rewrite I3 in A; [left|right]; exact A.
  - apply lastDot_none in E. repeat split; [discriminate|auto|]. left. reflexivity.
Qed.
Lemma labels_loop_in ls : ls <> [] -> Forall (fun l => ~ In 46 l /\ l <> []) ls -> forall f d,
  (d = rjoin ls \/ d = 46 :: rjoin ls) -> (List.length d <= f)%nat -> labels_loop f d = ls.
Proof.
  induction ls as [|x r IH]; [congruence|]. intros _ H f d Hd Hf. inversion H as [|? ? [Hx1 Hx2] Hr]; subst.
  destruct r as [|y r].
  - cbn [rjoin] in Hd. destruct Hd as [->| ->].
    + destruct x as [|c x]; [congruence|]. destruct f; [cbn in Hf; lia|]. cbn [labels_loop].
      rewrite (proj2 (lastDot_none _) Hx1). reflexivity.
    + destruct f; [cbn in Hf; lia|]. cbn [labels_loop]. pose proof (lastDot_app [] x Hx1) as E. cbn [app List.length] in E. rewrite E.
      cbn [Nat.add skipn firstn]. destruct f; reflexivity.
  - change (rjoin (x :: y :: r)) with (rjoin (y :: r) ++ 46 :: x) in Hd. remember (rjoin (y :: r)) as p eqn:Ep.
    assert (Hp : exists q, d = q ++ 46 :: x /\ (q = p \/ q = 46 :: p)).
    { destruct Hd as [->| ->]; [exists p|exists (46 :: p)]; auto. }
    destruct Hp as (q & -> & Hq). destruct f; [rewrite app_length in Hf; cbn in Hf; lia|].
    cbn [labels_loop]. rewrite lastDot_app by auto.
    destruct (q ++ 46 :: x) as [|c0 t0] eqn:Et; [destruct q; discriminate|]. rewrite <- Et in *.
    rewrite (firstn_app_exact q (46 :: x) _ eq_refl).
    assert (S1 : skipn (List.length q + 1) (q ++ 46 :: x) = x).
    { change (46 :: x) with ([46] ++ x). rewrite app_assoc. apply skipn_app_exact. rewrite app_length. reflexivity. }
    rewrite S1. f_equal. apply IH; auto; [discriminate|]. rewrite app_length in Hf. cbn [List.length] in Hf. lia.
Qed.

(** ** Mailboxes *)
Inductive quoted : bytes -> bytes -> Prop :=
| q_nil : quoted [] []
| q_text c e l : is_qtext c = true -> c <> 34 -> c <> 92 -> quoted e l -> quoted (c :: e) (c :: l)
| q_pair d e l : is_quoted_text d = true -> quoted e l -> quoted (92 :: d :: e) (d :: l).
Inductive atoms : bytes -> bytes -> Prop :=
| a_nil : atoms [] []
| a_text c e l : is_atext c = true -> atoms e l -> atoms (c :: e) (c :: l)
| a_pair d e l : atoms e l -> atoms (92 :: d :: e) (d :: l).
Lemma len_ind (P : bytes -> Prop) : (forall s, (forall t, (List.length t < List.length s)%nat -> P t) -> P s) -> forall s, P s.
Proof. intros H s. assert (A : forall n s, (List.length s < n)%nat -> P s) by (induction n; intros; [lia|]; apply H; intros; apply IHn; lia). apply (A (S (List.length s))). lia. Qed.
Lemma quoted_loop_inv s : forall l t, quoted_loop s = Some (l, t) -> exists e, s = e ++ 34 :: t /\ quoted e l.
Proof.
  induction s as [s IH] using len_ind. intros l t E. destruct s as [|c r]; [discriminate|]. cbn [quoted_loop] in E.
  destruct (Z.eqb_spec c 34) as [->|N1].
  { injection E as <- <-. exists []. split; [reflexivity|constructor]. }
  destruct (Z.eqb_spec c 92) as [->|N2].
  { destruct r as [|d r]; [discriminate|]. destruct (is_quoted_text d) eqn:Eq; [|discriminate].
    destruct (quoted_loop r) as [[l' t']|] eqn:El; [|discriminate]. injection E as <- <-.
    destruct (IH r ltac:(cbn [List.length]; lia) _ _ El) as (e & -> & Q). exists (92 :: d :: e). split; [reflexivity|]. constructor; auto. }
  destruct (is_qtext c) eqn:Eq; [|discriminate]. destruct (quoted_loop r) as [[l' t']|] eqn:El; [|discriminate]. injection E as <- <-.
  destruct (IH r ltac:(cbn [List.length]; lia) _ _ El) as (e & -> & Q). exists (c :: e). split; [reflexivity|]. constructor; auto.
Qed.
Lemma quoted_loop_app e l : quoted e l -> forall t, quoted_loop (e ++ 34 :: t) = Some (l, t).
Proof.
  induction 1 as [|c e l Hc N1 N2 _ IH|d e l Hd _ IH]; intros t; cbn [app quoted_loop]; [reflexivity| |].
  - rewrite (proj2 (Z.eqb_neq c 34) N1), (proj2 (Z.eqb_neq c 92) N2), Hc, IH. reflexivity.
  - change (92 =? 34) with false. change (92 =? 92) with true. cbv iota. rewrite Hd, IH. reflexivity.
Qed.
Lemma atom_loop_inv s : forall l t, atom_loop s = Some (l, t) -> exists e, s = e ++ t /\ atoms e l /\ match t with c :: _ => is_atext c = false /\ c <> 92 | [] => True end.
Proof.
  induction s as [s IH] using len_ind. intros l t E. destruct s as [|c r].
  { injection E as <- <-. exists []. repeat split. constructor. }
  cbn [atom_loop] in E.
  destruct (Z.eqb_spec c 92) as [->|N2].
  { destruct r as [|d r]; [discriminate|]. 
    destruct (atom_loop r) as [[l' t']|] eqn:El; [|discriminate]. injection E as <- <-.
    destruct (IH r ltac:(cbn [List.length]; lia) _ _ El) as (e & -> & Q & T). exists (92 :: d :: e). split; [reflexivity|]. split; auto. constructor; auto. }
  destruct (is_atext c) eqn:Eq.
  - destruct (atom_loop r) as [[l' t']|] eqn:El; [|discriminate]. injection E as <- <-.
    destruct (IH r ltac:(cbn [List.length]; lia) _ _ El) as (e & -> & Q & T). exists (c :: e). split; [reflexivity|]. split; auto. constructor; auto.
  - injection E as <- <-. exists []. repeat split; auto. constructor.
Qed.
Lemma atext_not_bs : is_atext 92 = false. Proof. reflexivity. Qed.
Lemma atom_loop_app e l : atoms e l -> forall t, match t with c :: _ => is_atext c = false /\ c <> 92 | [] => True end -> atom_loop (e ++ t) = Some (l, t).
Proof.
  induction 1 as [|c e l Hc _ IH|d e l _ IH]; intros t Ht; cbn [app atom_loop].
  - destruct t as [|c t]; [reflexivity|]. destruct Ht as [H1 H2]. cbn [atom_loop]. rewrite (proj2 (Z.eqb_neq c 92) H2), H1. reflexivity.
  - assert (N : c <> 92) by (intros ->; discriminate Hc). rewrite (proj2 (Z.eqb_neq c 92) N), Hc, IH by auto. reflexivity.
  - change (92 =? 92) with true. cbv iota. rewrite IH by auto. reflexivity.
Qed.
Lemma two_dots_iff l : two_dots l = true <-> exists a b, l = a ++ 46 :: 46 :: b.
Proof.
  induction l as [|x l IH]; [split; [discriminate|intros ([|? ?] & ? & ?); discriminate]|].
  destruct l as [|y l].
  - split; [discriminate|]. intros ([|? [|? ?]] & ? & E); discriminate.
  - change (two_dots (x :: y :: l)) with (((x =? 46) && (y =? 46)) || two_dots (y :: l)). rewrite orb_true_iff, IH, andb_true_iff, !Z.eqb_eq. split.
    + intros [[-> ->]|(a & b & E)]; [exists [], l; reflexivity|]. exists (x :: a), b. rewrite E. reflexivity.
    + intros ([|z a] & b & E); [injection E as -> -> ->; left; auto|]. injection E as -> E. right. eauto.
Qed.

(** ** Bits, most significant first *)
Definition bits8 (b : Z) : list bool := map (Z.testbit b) [7; 6; 5; 4; 3; 2; 1; 0].
Definition bits (s : bytes) : list bool := flat_map bits8 s.
Lemma bits_length s : zlen (bits s) = 8 * zlen s.
Proof. induction s as [|b s IH]; [reflexivity|]. unfold bits in *. cbn [flat_map]. rewrite zlen_app, IH, zlen_cons. change (zlen (bits8 b)) with 8. lia. Qed.
(** every byte is a number below 256: a property of all bytes is checked on the 256 of them *)
Lemma all_bytes (P : Z -> bool) : forallb P (map Z.of_nat (seq 0 256)) = true -> forall b, byte_ok b -> P b = true.
Proof.
  intros H b Hb. rewrite forallb_forall in H. apply H. rewrite in_map_iff. exists (Z.to_nat b). unfold byte_ok in Hb. split; [lia|]. apply in_seq. lia.
Qed.
(** ones then zeros *)
Fixpoint otz (l : list bool) : bool := match l with [] => true | true :: r => otz r | false :: r => forallb negb r end.
Lemma forallb_negb l : forallb negb l = true <-> exists n, l = repeat false n.
Proof.
  split.
  - induction l as [|[] l IH]; cbn; [exists 0%nat; reflexivity|discriminate|]. intros H. destruct (IH H) as [n ->]. exists (S n). reflexivity.
  - intros [n ->]. induction n; auto.
Qed.
Lemma otz_iff l : otz l = true <-> exists k n, l = repeat true k ++ repeat false n.
Proof.
  induction l as [|[] l IH]; cbn [otz].
  - split; [exists 0%nat, 0%nat; reflexivity|auto].
  - rewrite IH. split.
    + intros (k & n & ->). exists (S k), n. reflexivity.
    + intros ([|k] & n & E); [destruct n; discriminate|]. injection E as E. eauto.
  - rewrite forallb_negb. split.
    + intros [n ->]. exists 0%nat, (S n). reflexivity.
    + intros ([|k] & n & E); [|discriminate]. destruct n; [discriminate|]. injection E as E. eauto.
Qed.
Lemma otz_app a r : otz (a ++ r) = if forallb (fun x => x) a then otz r else otz a && forallb negb r.
Proof.
  induction a as [|[] a IH]; cbn [app otz forallb andb]; auto. rewrite forallb_app. reflexivity.
Qed.
Definition mask_bytes : bytes := [0x00; 0x80; 0xc0; 0xe0; 0xf0; 0xf8; 0xfc; 0xfe].
Lemma mask_true l : bytes_ok l -> mask_loop true l = forallb negb (bits l).
Proof.
  induction l as [|b l IH]; intros H; [reflexivity|]. apply bytes_ok_cons in H. destruct H as [Hb H]. cbn [mask_loop].
  unfold bits in *. cbn [flat_map]. rewrite forallb_app, <- IH by auto.
  assert (E : Bool.eqb (b =? 0) (forallb negb (bits8 b)) = true) by (revert b Hb; apply all_bytes; reflexivity).
  apply eqb_prop in E. rewrite <- E. destruct (b =? 0); reflexivity.
Qed.
Lemma mask_false l : bytes_ok l -> mask_loop false l = otz (bits l).
Proof.
  induction l as [|b l IH]; intros H; [reflexivity|]. apply bytes_ok_cons in H. destruct H as [Hb H]. cbn [mask_loop].
  unfold bits in *. cbn [flat_map]. rewrite otz_app, <- IH by auto. rewrite mask_true by auto.
  assert (E : (Bool.eqb (b =? 0xff) (forallb (fun x => x) (bits8 b)) && Bool.eqb (existsb (Z.eqb b) mask_bytes) (otz (bits8 b) && negb (b =? 0xff))) = true) by (revert b Hb; apply all_bytes; vm_compute; reflexivity).
  apply andb_true_iff in E. destruct E as [E1 E2]. apply eqb_prop in E1, E2. rewrite <- E1. fold mask_bytes. rewrite E2.
  unfold bits. destruct (b =? 255); cbn [negb]; [rewrite andb_false_r; reflexivity|]. rewrite andb_true_r. destruct (otz (bits8 b)); reflexivity.
Qed.

(** ** asn1BitLength *)
(** the length without trailing false *)
Fixpoint trimmed (l : list bool) : Z := match l with [] => 0 | b :: r => if b || (0 <? trimmed r) then 1 + trimmed r else 0 end.
Lemma trimmed_range l : 0 <= trimmed l <= zlen l.
Proof. induction l as [|b l IH]; cbn [trimmed]; [change (zlen (@nil bool)) with 0; lia|]. rewrite zlen_cons. destruct (_ || _); lia. Qed.
Lemma trimmed_app a r : trimmed (a ++ r) = if 0 <? trimmed r then zlen a + trimmed r else trimmed a.
Proof.
  induction a as [|b a IH]; cbn [app trimmed].
  - pose proof (trimmed_range r). change (zlen (@nil bool)) with 0. destruct (Z.ltb_spec 0 (trimmed r)); lia.
  - rewrite IH, zlen_cons. pose proof (zlen_nonneg a). destruct (Z.ltb_spec 0 (trimmed r)) as [L|L].
    + rewrite (proj2 (Z.ltb_lt _ _)) by lia. rewrite orb_true_r. lia.
    + reflexivity.
Qed.
Lemma trimmed_spec l : let n := trimmed l in 0 <= n <= zlen l /\ (forall i, n <= i < zlen l -> nth (Z.to_nat i) l false = false) /\ (0 < n -> nth (Z.to_nat (n - 1)) l false = true).
Proof.
  induction l as [|b l IH]; cbv zeta in *; cbn [trimmed].
  - change (zlen (@nil bool)) with 0. repeat split; try lia.
  - destruct IH as (A & B & C). rewrite zlen_cons.
    destruct (Z.ltb_spec 0 (trimmed l)) as [L|L].
    + rewrite orb_true_r. split; [lia|]. split.
      * intros i Hi. replace (Z.to_nat i) with (S (Z.to_nat (i - 1))) by lia. cbn [nth]. apply B. lia.
      * intros _. replace (Z.to_nat (1 + trimmed l - 1)) with (S (Z.to_nat (trimmed l - 1))) by lia. cbn [nth]. apply C. lia.
    + assert (Z0 : trimmed l = 0) by lia. rewrite Z0 in *. rewrite orb_false_r. destruct b.
      * split; [lia|]. split; [|intros _; reflexivity]. intros i Hi. replace (Z.to_nat i) with (S (Z.to_nat (i - 1))) by lia. cbn [nth]. apply B. lia.
      * split; [lia|]. split; [|lia]. intros i Hi. destruct (Z.eq_dec i 0) as [->|]; [reflexivity|].
        replace (Z.to_nat i) with (S (Z.to_nat (i - 1))) by lia. cbn [nth]. apply B. lia.
Qed.
Definition low8 (b : Z) : option Z :=
  if Z.testbit b 0 then Some 8 else if Z.testbit b 1 then Some 7 else if Z.testbit b 2 then Some 6 else if Z.testbit b 3 then Some 5
  else if Z.testbit b 4 then Some 4 else if Z.testbit b 5 then Some 3 else if Z.testbit b 6 then Some 2 else if Z.testbit b 7 then Some 1 else None.
Lemma land1 b i : 0 <= i -> (Z.land (Z.shiftr b i) 1 =? 1) = Z.testbit b i.
Proof.
  intros H. change 1 with (Z.ones 1) at 1. rewrite Z.land_ones by lia. change (2 ^ 1) with 2. rewrite <- Z.bit0_mod, Z.shiftr_spec, Z.add_0_l by lia.
  destruct (Z.testbit b i); reflexivity.
Qed.
Lemma low_bit_loop_spec b L : low_bit_loop 8 b 0 L = match low8 b with Some k => (Some (L - 8 + k), L - 8 + k) | None => (None, L - 8) end.
Proof.
  cbn [low_bit_loop]. rewrite !land1 by lia. unfold low8.
  change (0 + 1 + 1 + 1 + 1 + 1 + 1 + 1) with 7. change (0 + 1 + 1 + 1 + 1 + 1 + 1) with 6. change (0 + 1 + 1 + 1 + 1 + 1) with 5. change (0 + 1 + 1 + 1 + 1) with 4.
  change (0 + 1 + 1 + 1) with 3. change (0 + 1 + 1) with 2. change (0 + 1) with 1.
  repeat match goal with |- context[Z.testbit b ?i] => destruct (Z.testbit b i); [apply f_equal2; [apply f_equal; lia|lia]|] end. apply f_equal2; [reflexivity|lia].
Qed.
Lemma low8_trimmed b : low8 b = if 0 <? trimmed (bits8 b) then Some (trimmed (bits8 b)) else None.
Proof.
  unfold low8, bits8. cbn [map trimmed]. destruct (Z.testbit b 0), (Z.testbit b 1), (Z.testbit b 2), (Z.testbit b 3), (Z.testbit b 4), (Z.testbit b 5), (Z.testbit b 6), (Z.testbit b 7); reflexivity.
Qed.
Lemma bitlen_loop_spec s : bitlen_loop (rev s) (zlen s * 8) = trimmed (bits s).
Proof.
  induction s as [|x s IH] using rev_ind; [reflexivity|]. rewrite rev_app_distr. cbn [rev app bitlen_loop]. rewrite low_bit_loop_spec, low8_trimmed.
  unfold bits in *. rewrite flat_map_app. cbn [flat_map]. rewrite app_nil_r, trimmed_app, zlen_app. change (zlen [x]) with 1.
  fold (bits s) in *. rewrite bits_length. destruct (0 <? trimmed (bits8 x)); [lia|]. replace ((zlen s + 1) * 8 - 8) with (zlen s * 8) by lia. exact IH.
Qed.
