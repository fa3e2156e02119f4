(** * Memory: arrays, slices with capacities, aliasing

    The other models treat a Go slice as the list of its bytes.  Here the bytes live in arrays, a slice is a window
    (array, offset, length, capacity) on one, several slices may share an array, [append] writes in place when the
    capacity allows it and [s\[i:j\]] may reach beyond the length.  The functions whose code mutates, appends to or
    re-slices byte slices are modelled a second time on top of this memory (MemSM, MemP12) and shown to compute what
    the list models compute, to leave every array of the caller alone and to return memory of their own. *)
From Coq Require Import PeanoNat.
From Verif Require Import Base.
Local Open Scope nat_scope.

Definition heap := list bytes.
Record slc := mkS { s_arr : nat; s_off : nat; s_len : nat; s_cap : nat }.
(** the array of a slice, and the bytes a slice shows *)
Definition arr (h : heap) (i : nat) : bytes := nth i h [].
Definition rd (h : heap) (s : slc) : bytes := firstn (s_len s) (skipn (s_off s) (arr h (s_arr s))).
(** a slice that Go could have built in this memory *)
Definition wf (h : heap) (s : slc) : Prop :=
  s_arr s < List.length h /\ s_len s <= s_cap s /\ s_off s + s_cap s <= List.length (arr h (s_arr s)).

(** ** Computations: the memory is there after an error or a panic, too *)
Definition M (A : Type) := heap -> heap * outcome A.
Definition mret {A} (a : A) : M A := fun h => (h, Ret a).
Definition merr {A} (e : string) : M A := fun h => (h, Err e).
Definition mpanic {A} : M A := fun h => (h, Panic).
Definition mlift {A} (o : outcome A) : M A := fun h => (h, o).
Definition mbind {A B} (m : M A) (f : A -> M B) : M B :=
  fun h => match m h with (h', Ret a) => f a h' | (h', Err e) => (h', Err e) | (h', Panic) => (h', Panic) end.
Notation "'mdo' x <- m ; k" := (mbind m (fun x => k)) (at level 200, x pattern, m at level 100, k at level 200).

(** [l] with the bytes from [i] on overwritten by [b] *)
Definition put (l : bytes) (i : nat) (b : bytes) : bytes := firstn i l ++ b ++ skipn (i + List.length b) l.
Fixpoint set_arr (h : heap) (i : nat) (a : bytes) : heap :=
  match h, i with
  | [], _ => []
  | _ :: r, O => a :: r
  | x :: r, S i' => x :: set_arr r i' a
  end.
(** make / composite literal: a new array with these bytes, all of them visible up to [n] *)
Definition alloc (b : bytes) (n : nat) : M slc := fun h => (h ++ [b], Ret (mkS (List.length h) 0 n (List.length b))).
Definition new (b : bytes) : M slc := alloc b (List.length b).
(** nil and []byte{}: a window on an empty array.  (Nothing but a comparison with nil tells them apart; where the code
    compares, the model has an option.) *)
Definition emptyS : M slc := new [].
Definition load (s : slc) : M bytes := fun h => (h, Ret (rd h s)).
(** write bytes at position i of the window, without any check *)
Definition poke (s : slc) (i : nat) (b : bytes) : M unit :=
  fun h => (set_arr h (s_arr s) (put (arr h (s_arr s)) (s_off s + i) b), Ret tt).
(** s[i] and s[i] = b *)
Definition getB (s : slc) (i : nat) : M Z := if i <? s_len s then fun h => (h, Ret (nth i (rd h s) 0%Z)) else mpanic.
Definition setB (s : slc) (i : nat) (b : Z) : M unit := if i <? s_len s then poke s i [b] else mpanic.
(** s[i:j]: Go checks 0 <= i <= j <= cap(s); s[i:] is s[i:len(s)] *)
Definition sub (s : slc) (i j : nat) : M slc :=
  if (i <=? j) && (j <=? s_cap s) then mret (mkS (s_arr s) (s_off s + i) (j - i) (s_cap s - i)) else mpanic.
Definition from (s : slc) (i : nat) : M slc := sub s i (s_len s).
(** copy(dst, src), which behaves as if src were read completely before the first byte is written *)
Definition copyS (dst src : slc) : M nat :=
  fun h => let n := Nat.min (s_len dst) (s_len src) in
           match poke dst 0 (firstn n (rd h src)) h with (h', _) => (h', Ret n) end.
(** append(s, b...).  When the capacity does not suffice, a new array is made; [extra] stands for the growth policy of the
    runtime: any number of spare bytes, depending on the old capacity and the new length. *)
Section Append.
Variable extra : nat -> nat -> nat.
Definition appendB (s : slc) (b : bytes) : M slc :=
  let n := s_len s + List.length b in
  if n <=? s_cap s then mdo _ <- poke s (s_len s) b; mret (mkS (s_arr s) (s_off s) n (s_cap s))
  else fun h => alloc (rd h s ++ b ++ repeat 0%Z (extra (s_cap s) n)) n h.
Definition appendS (s t : slc) : M slc := mdo b <- load t; appendB s b.
End Append.

(** ** Lemmas *)
Lemma set_arr_length h i a : List.length (set_arr h i a) = List.length h.
Proof. revert i; induction h; intros [|i]; cbn; auto. Qed.
Lemma arr_set_same h i a : i < List.length h -> arr (set_arr h i a) i = a.
Proof. revert i; induction h; intros [|i] H; cbn in *; try lia; auto. apply IHh; lia. Qed.
Lemma arr_set_other h i j a : i <> j -> arr (set_arr h i a) j = arr h j.
Proof. revert i j; induction h; intros [|i] [|j] H; cbn; auto; try lia. apply (IHh i j); lia. Qed.
Lemma set_arr_app h l i a : List.length h <= i -> set_arr (h ++ l) i a = h ++ set_arr l (i - List.length h) a.
Proof.
  revert i; induction h; intros i H; cbn [app List.length] in *.
  - now rewrite Nat.sub_0_r.
  - destruct i; [lia|]. cbn. f_equal. apply IHh; lia.
Qed.
Lemma arr_app_l h l i : i < List.length h -> arr (h ++ l) i = arr h i.
Proof. intros; unfold arr; now apply app_nth1. Qed.
Lemma arr_app_new h b : arr (h ++ [b]) (List.length h) = b.
Proof. unfold arr. rewrite app_nth2 by lia. now rewrite Nat.sub_diag. Qed.

Lemma skipn_skipn {A} (i j : nat) (l : list A) : skipn i (skipn j l) = skipn (j + i) l.
Proof. revert l; induction j; intros [|x l]; cbn; auto. now rewrite skipn_nil. Qed.
Lemma put_length l i b : i + List.length b <= List.length l -> List.length (put l i b) = List.length l.
Proof. intros; unfold put. rewrite !app_length, firstn_length, skipn_length. lia. Qed.
Lemma put_firstn l i b n : n <= i -> i <= List.length l -> firstn n (put l i b) = firstn n l.
Proof.
  intros H H'. unfold put. rewrite firstn_app, firstn_length, Nat.min_l by lia.
  replace (n - i) with 0 by lia. cbn. rewrite app_nil_r, firstn_firstn. now rewrite Nat.min_l by lia.
Qed.
Lemma put_skipn l i b n : i + List.length b <= n -> i <= List.length l -> skipn n (put l i b) = skipn n l.
Proof.
  intros H H'. unfold put. rewrite skipn_app, firstn_length, Nat.min_l by lia.
  rewrite skipn_all2 by (rewrite firstn_length; lia). rewrite skipn_app, skipn_all2 by lia. cbn.
  rewrite skipn_skipn. f_equal. lia.
Qed.
Lemma put_read l i b : i <= List.length l -> firstn (List.length b) (skipn i (put l i b)) = b.
Proof.
  intros H. unfold put. rewrite skipn_app, firstn_length, Nat.min_l by lia. rewrite skipn_all2 by (rewrite firstn_length; lia).
  rewrite Nat.sub_diag. cbn [app skipn]. rewrite firstn_app, firstn_all, Nat.sub_diag. cbn. apply app_nil_r.
Qed.
Lemma put_all (l b : bytes) : List.length b = List.length l -> put l 0 b = b.
Proof. intros H. unfold put. cbn [firstn app]. rewrite skipn_all2 by lia. apply app_nil_r. Qed.
Lemma put_nil l i : put l i [] = l.
Proof. unfold put. cbn. rewrite Nat.add_0_r. apply firstn_skipn. Qed.

Lemma rd_length h s : wf h s -> List.length (rd h s) = s_len s.
Proof. intros (A & B & C). unfold rd. rewrite firstn_length, skipn_length. lia. Qed.
Lemma rd_nil h s : s_len s = 0 -> rd h s = [].
Proof. intros H; unfold rd; now rewrite H. Qed.

(** the window of a slice after its own bytes from [i] on were overwritten *)
Lemma window_put a off n cap i b : n <= cap -> off + cap <= List.length a -> i + List.length b <= n ->
  firstn n (skipn off (put a (off + i) b)) = put (firstn n (skipn off a)) i b.
Proof.
  intros H1 H2 H3. set (x := firstn n (skipn off a)).
  assert (Lx : List.length x = n) by (unfold x; rewrite firstn_length, skipn_length; lia).
  assert (Ea : a = firstn off a ++ x ++ skipn (off + n) a).
  { unfold x. rewrite <- (firstn_skipn off a) at 1. f_equal. rewrite <- (firstn_skipn n (skipn off a)) at 1. f_equal.
    rewrite skipn_skipn. f_equal; lia. }
  set (p := firstn off a) in *. set (t := skipn (off + n) a) in *.
  assert (Lp : List.length p = off) by (unfold p; rewrite firstn_length; lia).
  assert (Ep : put a (off + i) b = p ++ put x i b ++ t).
  { unfold put. rewrite Ea at 1 2. rewrite firstn_app, Lp. rewrite (firstn_all2 p) by lia.
    replace (off + i - off) with i by lia. rewrite firstn_app, Lx.
    replace (i - n) with 0 by lia. cbn [firstn]. rewrite app_nil_r.
    rewrite skipn_app, Lp. rewrite (skipn_all2 p) by lia. cbn [app].
    replace (off + i + List.length b - off) with (i + List.length b) by lia.
    rewrite skipn_app, Lx. replace (i + List.length b - n) with 0 by lia. cbn [skipn].
    rewrite <- !app_assoc. reflexivity. }
  rewrite Ep. rewrite skipn_app, Lp, (skipn_all2 p) by lia. rewrite Nat.sub_diag. cbn [app skipn].
  rewrite firstn_app. rewrite put_length by lia. rewrite Lx, Nat.sub_diag. cbn. rewrite app_nil_r.
  apply firstn_all2. rewrite put_length; lia.
Qed.

(** *** What one write does *)
Definition poked (h : heap) (s : slc) (i : nat) (b : bytes) : heap :=
  set_arr h (s_arr s) (put (arr h (s_arr s)) (s_off s + i) b).
Lemma poked_length h s i b : List.length (poked h s i b) = List.length h.
Proof. apply set_arr_length. Qed.
Lemma poked_arr_len h s i b j : wf h s -> i + List.length b <= s_cap s -> List.length (arr (poked h s i b) j) = List.length (arr h j).
Proof.
  intros (A & B & C) H. unfold poked. destruct (Nat.eq_dec (s_arr s) j) as [<-|N].
  - rewrite arr_set_same by auto. apply put_length. lia.
  - now rewrite arr_set_other.
Qed.
Lemma poked_wf h s i b t : wf h s -> i + List.length b <= s_cap s -> wf h t -> wf (poked h s i b) t.
Proof.
  intros Ws H (A & B & C). split; [now rewrite poked_length|]. split; [auto|]. now rewrite poked_arr_len.
Qed.
Lemma poked_rd h s i b : wf h s -> i + List.length b <= s_len s -> rd (poked h s i b) s = put (rd h s) i b.
Proof.
  intros (A & B & C) H. unfold rd, poked. rewrite arr_set_same by auto. eapply window_put; eauto.
Qed.
Lemma poked_other h s i b t : s_arr s <> s_arr t -> rd (poked h s i b) t = rd h t.
Proof. intros N. unfold rd, poked. now rewrite arr_set_other. Qed.
Lemma poked_arr_other h s i b j : s_arr s <> j -> arr (poked h s i b) j = arr h j.
Proof. intros N. unfold poked. now rewrite arr_set_other. Qed.
(** a window in front of or behind the written bytes, in the same array *)
Lemma poked_before h s i b t : wf h s -> i + List.length b <= s_cap s -> wf h t -> s_off t + s_len t <= s_off s + i -> rd (poked h s i b) t = rd h t.
Proof.
  intros (A & B & C) H (A' & B' & C') D. unfold rd, poked. destruct (Nat.eq_dec (s_arr s) (s_arr t)) as [E|N]; [|now rewrite arr_set_other].
  rewrite <- E in *. rewrite arr_set_same by auto.
  rewrite !firstn_skipn_comm. f_equal. apply put_firstn; lia.
Qed.
Lemma poked_behind h s i b t : wf h s -> i + List.length b <= s_cap s -> wf h t -> s_off s + i + List.length b <= s_off t -> rd (poked h s i b) t = rd h t.
Proof.
  intros (A & B & C) H (A' & B' & C') D. unfold rd, poked. destruct (Nat.eq_dec (s_arr s) (s_arr t)) as [E|N]; [|now rewrite arr_set_other].
  rewrite <- E in *. rewrite arr_set_same by auto. f_equal. apply put_skipn; lia.
Qed.

(** *** Allocation *)
Lemma alloc_wf h b t : wf h t -> wf (h ++ [b]) t.
Proof. intros (A & B & C). split; [rewrite app_length; cbn; lia|]. split; [auto|]. now rewrite arr_app_l. Qed.
Lemma alloc_rd h l t : s_arr t < List.length h -> rd (h ++ l) t = rd h t.
Proof. intros H. unfold rd. now rewrite arr_app_l. Qed.
Lemma wf_app h l t : wf h t -> wf (h ++ l) t.
Proof. intros (A & B & C). split; [rewrite app_length; lia|]. split; [auto|]. now rewrite arr_app_l. Qed.
Lemma new_wf h b n : n <= List.length b -> wf (h ++ [b]) (mkS (List.length h) 0 n (List.length b)).
Proof. intros H. split; [|split]; cbn; rewrite ?app_length; cbn; try lia. rewrite arr_app_new. lia. Qed.
Lemma new_rd h b n : rd (h ++ [b]) (mkS (List.length h) 0 n (List.length b)) = firstn n b.
Proof. unfold rd. cbn. now rewrite arr_app_new. Qed.

(** *** Re-slicing *)
Definition subS (s : slc) (i j : nat) : slc := mkS (s_arr s) (s_off s + i) (j - i) (s_cap s - i).
Lemma sub_ok s i j h : i <= j -> j <= s_cap s -> sub s i j h = (h, Ret (subS s i j)).
Proof. intros A B. unfold sub. rewrite (proj2 (Nat.leb_le _ _) A), (proj2 (Nat.leb_le _ _) B). reflexivity. Qed.
Lemma sub_wf h s i j : wf h s -> i <= j -> j <= s_cap s -> wf h (subS s i j).
Proof. intros (A & B & C) D E. split; [|split]; cbn; auto; lia. Qed.
Lemma sub_rd h s i j : j <= s_len s -> rd h (subS s i j) = firstn (j - i) (skipn i (rd h s)).
Proof.
  intros D. unfold rd, subS. cbn [s_len s_off s_arr]. rewrite <- skipn_skipn. generalize (skipn (s_off s) (arr h (s_arr s))) as a.
  intros a. rewrite <- (firstn_skipn (s_len s) a) at 1. rewrite skipn_app, firstn_app.
  rewrite firstn_length, skipn_length, firstn_length.
  destruct (Nat.le_gt_cases (s_len s) (List.length a)) as [L|L].
  - rewrite Nat.min_l by lia. replace (j - i - (s_len s - i)) with 0 by lia. cbn. apply app_nil_r.
  - rewrite (skipn_all2 a) by lia. rewrite skipn_nil, firstn_nil. apply app_nil_r.
Qed.

(** ** Memory of the caller
    [ext h0 h]: since [h0] memory was only added, no array of [h0] was changed.
    [own h0 h s b]: the slice s lies in an array that did not exist in h0 and shows the bytes b. *)
Definition ext (h0 h : heap) : Prop := exists l, h = h0 ++ l.
Definition own (h0 h : heap) (s : slc) (b : bytes) : Prop := List.length h0 <= s_arr s /\ wf h s /\ rd h s = b.

Lemma ext_refl h : ext h h.
Proof. exists []. now rewrite app_nil_r. Qed.
Lemma ext_trans a b c : ext a b -> ext b c -> ext a c.
Proof. intros [l ->] [m ->]. exists (l ++ m). now rewrite app_assoc. Qed.
Lemma ext_alloc h0 h b : ext h0 h -> ext h0 (h ++ [b]).
Proof. intros [l ->]. exists (l ++ [b]). now rewrite app_assoc. Qed.
Lemma ext_length h0 h : ext h0 h -> List.length h0 <= List.length h.
Proof. intros [l ->]. rewrite app_length. lia. Qed.
Lemma ext_poked h0 h s i b : ext h0 h -> List.length h0 <= s_arr s -> ext h0 (poked h s i b).
Proof. intros [l ->] H. unfold poked. rewrite set_arr_app by auto. eexists; reflexivity. Qed.
Lemma ext_wf h0 h s : ext h0 h -> wf h0 s -> wf h s.
Proof. intros [l ->]. apply wf_app. Qed.
Lemma ext_rd h0 h s : ext h0 h -> wf h0 s -> rd h s = rd h0 s.
Proof. intros [l ->] (A & _). now apply alloc_rd. Qed.

(** [keeps h h' A]: what was there is still there, as long as before, and the same except in the arrays A *)
Definition keeps (h h' : heap) (A : list nat) : Prop :=
  List.length h <= List.length h' /\
  forall j, j < List.length h -> List.length (arr h' j) = List.length (arr h j) /\ (~ In j A -> arr h' j = arr h j).
Lemma keeps_refl h A : keeps h h A.
Proof. split; auto. Qed.
Lemma keeps_trans h1 h2 h3 A B C : keeps h1 h2 A -> keeps h2 h3 B ->
  (forall a, In a A -> In a C \/ List.length h1 <= a) -> (forall b, In b B -> In b C \/ List.length h1 <= b) -> keeps h1 h3 C.
Proof.
  intros [L1 K1] [L2 K2] HA HB. split; [lia|]. intros j Hj. destruct (K1 j Hj) as [E1 F1]. destruct (K2 j ltac:(lia)) as [E2 F2].
  split; [congruence|]. intros N. rewrite F2, F1; auto.
  - intros I. destruct (HA _ I); [auto|lia].
  - intros I. destruct (HB _ I); [auto|lia].
Qed.
Lemma keeps_poked h s i b : wf h s -> i + List.length b <= s_cap s -> keeps h (poked h s i b) [s_arr s].
Proof.
  intros W H. split; [now rewrite poked_length|]. intros j Hj. split; [now apply poked_arr_len|]. intros N. apply poked_arr_other.
  intros E. apply N. now left.
Qed.
Lemma keeps_alloc h b A : keeps h (h ++ [b]) A.
Proof. split; [rewrite app_length; lia|]. intros j Hj. rewrite arr_app_l by auto. auto. Qed.
Lemma keeps_wf h h' A t : keeps h h' A -> wf h t -> wf h' t.
Proof. intros [L K] (W1 & W2 & W3). split; [lia|]. split; [auto|]. destruct (K _ W1) as [E _]. lia. Qed.
Lemma keeps_rd h h' A t : keeps h h' A -> wf h t -> ~ In (s_arr t) A -> rd h' t = rd h t.
Proof. intros [L K] (W1 & _) N. unfold rd. destruct (K _ W1) as [_ E]. now rewrite E. Qed.
Lemma keeps_arr h h' A j : keeps h h' A -> j < List.length h -> ~ In j A -> arr h' j = arr h j.
Proof. intros [L K] H N. now apply K. Qed.
Lemma keeps_ext h h' : keeps h h' [] -> ext h h'.
Proof.
  intros [L K]. exists (skipn (List.length h) h'). transitivity (firstn (List.length h) h' ++ skipn (List.length h) h'); [symmetry; apply firstn_skipn|].
  f_equal. assert (Lf : List.length (firstn (List.length h) h') = List.length h) by (rewrite firstn_length; lia).
  apply (nth_ext _ _ [] []); [exact Lf|]. intros n Hn0. assert (Hn : n < List.length h) by (rewrite <- Lf; exact Hn0).
  destruct (K n Hn) as [_ E]. specialize (E (fun x => x)). unfold arr in E. etransitivity; [|exact E].
  transitivity (nth n (firstn (List.length h) h' ++ skipn (List.length h) h') []); [|now rewrite firstn_skipn].
  rewrite app_nth1; [reflexivity|exact Hn0].
Qed.
Lemma ext_keeps h0 h h' A : ext h0 h -> keeps h h' A -> (forall a, In a A -> List.length h0 <= a) -> ext h0 h'.
Proof.
  intros E K H. apply keeps_ext. apply (keeps_trans h0 h h' [] A []); auto.
  destruct E as [l ->]. split; [rewrite app_length; lia|]. intros j Hj. rewrite arr_app_l by auto. auto.
Qed.
Lemma keeps_nil_any h h' A : keeps h h' [] -> keeps h h' A.
Proof. intros [L K]. split; [auto|]. intros j Hj. destruct (K j Hj) as [E F]. split; auto. Qed.
Lemma ext_is_keeps h h' A : ext h h' -> keeps h h' A.
Proof. intros [l ->]. split; [rewrite app_length; lia|]. intros j Hj. rewrite arr_app_l by auto. auto. Qed.
Lemma keeps_own h h' A h0 t b : keeps h h' A -> own h0 h t b -> ~ In (s_arr t) A -> own h0 h' t b.
Proof. intros K (X & Y & Z) N. split; [auto|]. split; [eapply keeps_wf; eauto|]. erewrite keeps_rd; eauto. Qed.

Section AppendSpec.
Variable extra : nat -> nat -> nat.
(** append shows the old bytes followed by the new ones; it touches no other array; in the array of s it writes behind the
    length of s only *)
Lemma appendB_spec h s b : wf h s ->
  exists h' s', appendB extra s b h = (h', Ret s') /\ wf h' s' /\ rd h' s' = rd h s ++ b /\ rd h' s = rd h s /\
    keeps h h' [s_arr s] /\ (s_arr s' = s_arr s \/ s_arr s' = List.length h).
Proof.
  intros W. pose proof W as (A & B & C). unfold appendB. destruct (Nat.leb_spec (s_len s + List.length b) (s_cap s)) as [L|L].
  - unfold mbind, poke, mret. fold (poked h s (s_len s) b). eexists _, _. split; [reflexivity|].
    set (s' := mkS (s_arr s) (s_off s) (s_len s + List.length b) (s_cap s)).
    assert (W' : wf h s') by (split; [|split]; cbn; auto; lia).
    assert (Ws' : wf (poked h s (s_len s) b) s') by (apply poked_wf; auto; lia).
    split; [exact Ws'|]. split; [|split; [|split]].
    + change (poked h s (s_len s) b) with (poked h s' (s_len s) b). rewrite poked_rd by (auto; cbn; lia).
      unfold put. assert (E : firstn (s_len s) (rd h s') = rd h s).
      { unfold rd. cbn. rewrite firstn_firstn. f_equal. lia. }
      rewrite E, skipn_all2; [now rewrite app_nil_r|]. rewrite rd_length by auto. cbn. lia.
    + apply poked_before; auto; lia.
    + apply keeps_poked; auto; lia.
    + now left.
  - unfold alloc. set (x := rd h s ++ b ++ repeat 0%Z (extra (s_cap s) (s_len s + List.length b))).
    assert (Lx : s_len s + List.length b <= List.length x) by (unfold x; rewrite !app_length, rd_length by auto; lia).
    eexists _, _. split; [reflexivity|]. split; [now apply new_wf|]. split; [|split; [|split]].
    + rewrite new_rd. unfold x. rewrite app_assoc, firstn_app, firstn_all2 by (rewrite app_length, rd_length by auto; lia).
      rewrite app_length, rd_length by auto. rewrite Nat.sub_diag. cbn. now rewrite app_nil_r.
    + now apply alloc_rd.
    + apply keeps_alloc.
    + now right.
Qed.
Lemma appendS_spec h s t : wf h s ->
  exists h' s', appendS extra s t h = (h', Ret s') /\ wf h' s' /\ rd h' s' = rd h s ++ rd h t /\ rd h' s = rd h s /\
    keeps h h' [s_arr s] /\ (s_arr s' = s_arr s \/ s_arr s' = List.length h).
Proof. intros W. unfold appendS, mbind, load. now apply appendB_spec. Qed.
End AppendSpec.

Lemma copyS_spec h dst src : wf h dst -> wf h src ->
  let n := Nat.min (s_len dst) (s_len src) in
  copyS dst src h = (poked h dst 0 (firstn n (rd h src)), Ret n) /\
  rd (poked h dst 0 (firstn n (rd h src))) dst = firstn n (rd h src) ++ skipn n (rd h dst) /\
  keeps h (poked h dst 0 (firstn n (rd h src))) [s_arr dst].
Proof.
  intros W V n. pose proof W as (A & B & C).
  assert (L : List.length (firstn n (rd h src)) = n) by (rewrite firstn_length, rd_length by auto; unfold n; lia).
  split; [reflexivity|]. split.
  - rewrite poked_rd by (auto; rewrite L; unfold n; lia). unfold put. cbn [firstn app]. now rewrite Nat.add_0_l, L.
  - apply keeps_poked; auto. rewrite L. unfold n. lia.
Qed.

(** ** Simulation of a list-model computation *)
Definition sim {A B} (h0 : heap) (x : heap * outcome A) (o : outcome B) (Q : heap -> A -> B -> Prop) : Prop :=
  ext h0 (fst x) /\
  match snd x, o with
  | Ret a, Ret b => Q (fst x) a b
  | Err e, Err e' => e = e'
  | Panic, Panic => True
  | _, _ => False
  end.
Lemma sim_ret {A B} h0 h (a : A) (b : B) (Q : heap -> A -> B -> Prop) : ext h0 h -> Q h a b -> sim h0 (mret a h) (Ret b) Q.
Proof. intros E H. split; auto. Qed.
Lemma sim_lift {A} h0 h (o : outcome A) (Q : heap -> A -> A -> Prop) :
  ext h0 h -> (forall a, o = Ret a -> Q h a a) -> sim h0 (mlift o h) o Q.
Proof. intros E H. split; [exact E|]. cbn. destruct o; auto. Qed.
Lemma sim_bind {A B A' B'} h0 h (m : M A) (f : A -> M A') (o : outcome B) (g : B -> outcome B') Q R :
  sim h0 (m h) o Q -> (forall h' a b, ext h0 h' -> Q h' a b -> sim h0 (f a h') (g b) R) -> sim h0 (mbind m f h) (bind o g) R.
Proof.
  unfold sim at 1, mbind. destruct (m h) as [h' [a|e|]]; destruct o as [b|e'|]; cbn; intros [E H] F; try easy.
  now apply F.
Qed.
Lemma sim_weaken {A B} h0 x (o : outcome B) (Q R : heap -> A -> B -> Prop) :
  sim h0 x o Q -> (forall a b, ext h0 (fst x) -> Q (fst x) a b -> R (fst x) a b) -> sim h0 x o R.
Proof. intros [E H] W. split; [auto|]. destruct (snd x), o; auto. Qed.
(** steps that cannot fail *)
Lemma sim_step {A A' B'} h0 h (m : M A) (f : A -> M A') (o : outcome B') R h' a :
  m h = (h', Ret a) -> sim h0 (f a h') o R -> sim h0 (mbind m f h) o R.
Proof. intros E H. unfold mbind. now rewrite E. Qed.
