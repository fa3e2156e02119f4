(** * SM3: the model of sm3.go computes the SM3 of the specification *)
From Verif Require Import Base Words SM3Spec SM3Model.
From Coq Require Import ZifyBool ZifyNat.
Ltac Zify.zify_post_hook ::= Z.div_mod_to_equations.

Notation w32 := (word 32).

Lemma u32_word x : w32 (u32 x).
Proof. apply word_mod; lia. Qed.
Lemma add32_word x y : w32 (add32 x y).
Proof. apply u32_word. Qed.

(** ** rotations *)
Lemma rotl_spec x k : 0 <= k -> w32 x -> RotateLeft32 x k = spec_rotl x k.
Proof.
  intros Hk Hx. unfold RotateLeft32, spec_rotl, u32, W32.
  change 31 with (2 ^ 5 - 1). rewrite land_ones_low by lia. change (2 ^ 5) with 32.
  assert (0 <= k mod 32 < 32) as Hs by (apply Z.mod_pos_bound; lia).
  set (s := k mod 32) in *. clearbody s.
  rewrite shiftl_mul, shiftr_div by lia.
  apply (lor_add s); [lia| |].
  - replace (2 ^ 32) with (2 ^ s * 2 ^ (32 - s)) by (rewrite <- Z.pow_add_r by lia; f_equal; lia).
    rewrite Z.mul_comm. assert (0 < 2 ^ s) by (apply Z.pow_pos_nonneg; lia).
    assert (0 < 2 ^ (32 - s)) by (apply Z.pow_pos_nonneg; lia).
    rewrite Z.mul_mod_distr_l by lia. rewrite Z.mul_comm. apply Z.mod_mul; lia.
  - unfold word in Hx. split; [apply Z.div_pos; [lia| apply Z.pow_pos_nonneg; lia]|].
    apply Z.div_lt_upper_bound; [apply Z.pow_pos_nonneg; lia|].
    rewrite <- Z.pow_add_r by lia. replace (32 - s + s) with 32 by lia. lia.
Qed.

Lemma rotl_word x k : 0 <= k -> w32 x -> w32 (RotateLeft32 x k).
Proof.
  intros Hk Hx. unfold RotateLeft32.
  change 31 with (2 ^ 5 - 1). rewrite land_ones_low by lia. change (2 ^ 5) with 32.
  assert (0 <= k mod 32 < 32) as Hs by (apply Z.mod_pos_bound; lia).
  apply word_lor; [lia|apply u32_word|].
  set (s := k mod 32) in *. clearbody s.
  unfold word in *. rewrite shiftr_div by lia.
  split; [apply Z.div_pos; [lia| apply Z.pow_pos_nonneg; lia]|].
  apply Z.div_lt_upper_bound; [apply Z.pow_pos_nonneg; lia|].
  assert (0 < 2 ^ (32 - s)) by (apply Z.pow_pos_nonneg; lia). nia.
Qed.

Lemma not32_spec x : w32 x -> not32 x = spec_not x.
Proof. intros. unfold not32, spec_not, W32. apply lxor_ones_sub; auto; lia. Qed.
Lemma not32_word x : w32 x -> w32 (not32 x).
Proof. intros. unfold not32. apply word_lxor; auto; try lia. unfold word; lia. Qed.

#[local] Hint Resolve u32_word add32_word rotl_word not32_word word_lxor word_lor word_land : wd.
Ltac wd := repeat first [ assumption | lia 
                        | apply rotl_word | apply add32_word | apply u32_word | apply not32_word
                        | apply word_lxor | apply word_lor | apply word_land ].

Lemma p1_spec x : w32 x -> p1 x = spec_P1 x.
Proof. intros. unfold p1, spec_P1. rewrite !rotl_spec by (auto; lia). reflexivity. Qed.
Lemma p1_word x : w32 x -> w32 (p1 x).
Proof. intros. unfold p1. wd. Qed.

(** ** loading words *)
Lemma nth_byte_ok l i : bytes_ok l -> byte_ok (nth i l 0).
Proof.
  intros H. destruct (Nat.lt_ge_cases i (List.length l)).
  - unfold bytes_ok in H. rewrite Forall_forall in H. apply H. now apply nth_In.
  - rewrite nth_overflow by lia. unfold byte_ok; lia.
Qed.

Lemma four_bytes l : List.length l = 4%nat -> l = [nth 0 l 0; nth 1 l 0; nth 2 l 0; nth 3 l 0].
Proof. destruct l as [|a [|b [|c [|d [|]]]]]; try discriminate. reflexivity. Qed.

Lemma nth_firstn_lt {A} (l : list A) n i d : (i < n)%nat -> nth i (firstn n l) d = nth i l d.
Proof.
  revert n i; induction l; intros [|n] [|i] H; cbn; auto; try lia. apply IHl; lia.
Qed.
Lemma nth_skipn_add {A} (l : list A) n i d : nth i (skipn n l) d = nth (n + i) l d.
Proof.
  revert n; induction l; intros [|n]; cbn; auto. destruct i; reflexivity.
Qed.

Lemma load_word_arith a b c d : byte_ok a -> byte_ok b -> byte_ok c -> byte_ok d ->
  Z.lor (Z.lor (Z.lor (Z.shiftl a 24) (Z.shiftl b 16)) (Z.shiftl c 8)) d
  = be_to_Z [a; b; c; d].
Proof.
  unfold byte_ok; intros. rewrite !shiftl_mul by lia.
  change (2 ^ 24) with 16777216. change (2 ^ 16) with 65536. change (2 ^ 8) with 256.
  rewrite (lor_add 24 (a * 16777216)) by (change (2 ^ 24) with 16777216; lia).
  rewrite (lor_add 16 (a * 16777216 + b * 65536)) by (change (2 ^ 16) with 65536; lia).
  rewrite (lor_add 8) by (change (2 ^ 8) with 256; lia).
  unfold be_to_Z; cbn [fold_left]. lia.
Qed.

Lemma load_word_spec p i : bytes_ok p -> (4 * i + 4 <= List.length p)%nat -> load_word p i = spec_word p i.
Proof.
  intros Hp Hl. unfold load_word, spec_word.
  set (q := firstn 4 (skipn (4 * i) p)).
  assert (List.length q = 4%nat) by (unfold q; rewrite firstn_length, skipn_length; lia).
  rewrite load_word_arith by (apply nth_byte_ok; auto).
  rewrite (four_bytes q) by auto. unfold q.
  rewrite !nth_firstn_lt by lia. rewrite !nth_skipn_add.
  replace (i * 4)%nat with (4 * i + 0)%nat by lia.
  rewrite <- !Nat.add_assoc. reflexivity.
Qed.

Lemma spec_word_word p i : bytes_ok p -> w32 (spec_word p i).
Proof.
  intros Hp. unfold spec_word. set (q := firstn 4 (skipn (4 * i) p)).
  assert (bytes_ok q) as Hq by (unfold q; auto).
  pose proof (be_to_Z_bound q Hq). unfold word.
  assert (zlen q <= 4) by (unfold q, zlen; rewrite firstn_length; lia).
  split; [lia|]. eapply Z.lt_le_trans; [apply H|].
  change (2 ^ 32) with (256 ^ 4). apply Z.pow_le_mono_r; lia.
Qed.

Lemma firstn_firstn_skipn {A} (l : list A) a b n : (a + b <= n)%nat ->
  firstn b (skipn a (firstn n l)) = firstn b (skipn a l).
Proof.
  intros H. rewrite skipn_firstn_comm, firstn_firstn. f_equal. lia.
Qed.
Lemma spec_word_firstn p i : (i < 16)%nat -> spec_word (firstn 64 p) i = spec_word p i.
Proof. intros. unfold spec_word. rewrite firstn_firstn_skipn by lia. reflexivity. Qed.

(** ** message expansion *)
Lemma firstn_S_upd {A} (w : list A) i v : (i < List.length w)%nat ->
  firstn (S i) (upd w i v) = firstn i w ++ [v].
Proof.
  revert i; induction w; intros [|i] H; cbn in *; try lia; auto.
  f_equal. apply IHw; lia.
Qed.

Lemma fill1_spec p w : bytes_ok p -> (64 <= List.length p)%nat -> List.length w = 68%nat ->
  List.length (fill1 p w) = 68%nat /\ firstn 16 (fill1 p w) = map (spec_word (firstn 64 p)) (seq 0 16).
Proof.
  intros Hp Hlen Hw. unfold fill1.
  assert (G : forall n, (n <= 16)%nat ->
     let w' := fold_left (fun w i => upd w i (load_word p i)) (seq 0 n) w in
     List.length w' = 68%nat /\ firstn n w' = map (spec_word (firstn 64 p)) (seq 0 n)).
  { induction n as [|n IH]; intros Hn; cbn zeta.
    - split; [exact Hw|reflexivity].
    - rewrite seq_S, fold_left_app, map_app. cbn [fold_left map Nat.add].
      destruct IH as [IH1 IH2]; [lia|]. split; [now rewrite upd_length|].
      rewrite firstn_S_upd by lia. rewrite IH2. f_equal. f_equal.
      rewrite load_word_spec by (auto; lia). rewrite spec_word_firstn by lia. reflexivity. }
  apply (G 16%nat). lia.
Qed.

Lemma spec_W_length B n : List.length (spec_W B n) = (16 + n)%nat.
Proof. induction n; cbn [spec_W]; [reflexivity|]. rewrite app_length, IHn. cbn [List.length]. lia. Qed.

Lemma w32_rotl x k : 0 <= k -> w32 x -> w32 (spec_rotl x k).
Proof. intros. rewrite <- rotl_spec by auto. wd. Qed.
Lemma w32_P1 x : w32 x -> w32 (spec_P1 x).
Proof. intros. rewrite <- p1_spec by auto. now apply p1_word. Qed.

Lemma nth_word l i : Forall w32 l -> w32 (nth i l 0).
Proof.
  intros H. destruct (Nat.lt_ge_cases i (List.length l)).
  - rewrite Forall_forall in H. apply H. now apply nth_In.
  - rewrite nth_overflow by lia. unfold word; lia.
Qed.

Lemma spec_W_words B n : bytes_ok B -> Forall w32 (spec_W B n).
Proof.
  intros HB. induction n; cbn [spec_W].
  - apply Forall_forall. intros x Hx. apply in_map_iff in Hx. destruct Hx as (j & <- & _).
    now apply spec_word_word.
  - apply Forall_app. split; auto. constructor; [|constructor].
    repeat first [ apply word_lxor; [lia| |] | apply w32_P1 | apply w32_rotl; [lia|] | apply nth_word; auto ].
Qed.

Lemma fill2_spec B w : bytes_ok B -> List.length w = 68%nat ->
  firstn 16 w = map (spec_word B) (seq 0 16) -> fill2 w = spec_W68 B.
Proof.
  intros HB Hw H16. unfold fill2, spec_W68.
  assert (G : forall n, (n <= 52)%nat ->
     let w' := fold_left (fun w i => upd w i (expand_word w i)) (seq 16 n) w in
     List.length w' = 68%nat /\ firstn (16 + n) w' = spec_W B n).
  { induction n as [|n IH]; intros Hn; cbn zeta.
    - split; [exact Hw|exact H16].
    - rewrite seq_S, fold_left_app. cbn [fold_left].
      destruct IH as [IH1 IH2]; [lia|].
      set (w' := fold_left _ (seq 16 n) w) in *.
      split; [now rewrite upd_length|].
      replace (16 + S n)%nat with (S (16 + n)) by lia.
      rewrite firstn_S_upd by lia. rewrite IH2. cbn [spec_W]. f_equal. f_equal.
      unfold expand_word.
      assert (Hnth : forall k, (1 <= k <= 16)%nat -> nth (16 + n - k) w' 0 = nth (16 + n - k) (spec_W B n) 0).
      { intros k Hk. rewrite <- IH2. rewrite nth_firstn_lt by lia. reflexivity. }
      rewrite !Hnth by lia.
      pose proof (spec_W_words B n HB) as HW.
      rewrite (rotl_spec _ 15), (rotl_spec _ 7) by (try lia; apply nth_word; auto).
      rewrite p1_spec; [reflexivity|].
      repeat first [ apply word_lxor; [lia| |] | apply w32_rotl; [lia|] | apply nth_word; auto ]. }
  destruct (G 52%nat (le_n _)) as [G1 G2].
  rewrite <- G2. symmetry. apply firstn_all2. rewrite G1. lia.
Qed.

(** ** rounds *)
Definition regs_list (r : regs) : list Z := [rA r; rB r; rC r; rD r; rE r; rF r; rG r; rH r].
Definition regs_ok (r : regs) : Prop := Forall w32 (regs_list r).

Lemma u32_idem_l x y : u32 (u32 x + y) = u32 (x + y).
Proof. unfold u32. rewrite Zplus_mod_idemp_l. reflexivity. Qed.

Lemma add32_3 x y z : add32 (add32 x y) z = (x + y + z) mod 2 ^ 32.
Proof. unfold add32. rewrite u32_idem_l. reflexivity. Qed.
Lemma add32_4 x y z t : add32 (add32 (add32 x y) z) t = (x + y + z + t) mod 2 ^ 32.
Proof. rewrite (add32_3 (add32 x y)). unfold add32, u32. rewrite <- Z.add_assoc, Zplus_mod_idemp_l. f_equal; ring. Qed.

Lemma round1_spec w r i : Forall w32 w -> regs_ok r -> (i < 16)%nat ->
  regs_list (round1 w r i) = spec_round w (regs_list r) i /\ regs_ok (round1 w r i).
Proof.
  intros Hw Hr Hi. destruct r as [a b c d e f g h].
  unfold regs_ok, regs_list in *. cbn [rA rB rC rD rE rF rG rH] in *.
  repeat match goal with H : Forall _ (_ :: _) |- _ => inversion H; subst; clear H end.
  pose proof (nth_word w i Hw). pose proof (nth_word w (i + 4) Hw).
  assert (w32 0x79CC4519) by (unfold word; lia).
  cbn [round1 rA rB rC rD rE rF rG rH]. split.
  - cbn [spec_round]. unfold spec_FF, spec_GG, spec_T, spec_W', spec_P0, W32.
    replace (i <=? 15)%nat with true by (symmetry; apply Nat.leb_le; lia).
    rewrite !add32_4, !add32_3.
    rewrite !rotl_spec by first [lia | assumption | apply word_mod; lia].
    reflexivity.
  - repeat (apply Forall_cons); cbn [rA rB rC rD rE rF rG rH]; try apply Forall_nil; wd.
Qed.

Lemma round2_spec w r i : Forall w32 w -> regs_ok r -> (16 <= i)%nat ->
  regs_list (round2 w r i) = spec_round w (regs_list r) i /\ regs_ok (round2 w r i).
Proof.
  intros Hw Hr Hi. destruct r as [a b c d e f g h].
  unfold regs_ok, regs_list in *. cbn [rA rB rC rD rE rF rG rH] in *.
  repeat match goal with H : Forall _ (_ :: _) |- _ => inversion H; subst; clear H end.
  pose proof (nth_word w i Hw). pose proof (nth_word w (i + 4) Hw).
  assert (w32 0x7a879d8a) by (unfold word; lia).
  cbn [round2 rA rB rC rD rE rF rG rH]. split.
  - cbn [spec_round]. unfold spec_FF, spec_GG, spec_T, spec_W', spec_P0, W32.
    replace (i <=? 15)%nat with false by (symmetry; apply Nat.leb_gt; lia).
    rewrite !add32_4, !add32_3.
    rewrite not32_spec by auto.
    rewrite !rotl_spec by first [lia | assumption | apply word_mod; lia].
    reflexivity.
  - repeat (apply Forall_cons); cbn [rA rB rC rD rE rF rG rH]; try apply Forall_nil; wd.
Qed.

Lemma rounds_gen (rd : list Z -> regs -> nat -> regs) w (P : nat -> Prop) :
  (forall r i, P i -> regs_ok r -> regs_list (rd w r i) = spec_round w (regs_list r) i /\ regs_ok (rd w r i)) ->
  forall l r, Forall P l -> regs_ok r ->
  regs_list (fold_left (rd w) l r) = fold_left (spec_round w) l (regs_list r) /\ regs_ok (fold_left (rd w) l r).
Proof.
  intros Hstep. induction l as [|i l IH]; intros r Hl Hr; cbn [fold_left]; [auto|].
  inversion Hl; subst. destruct (Hstep r i) as [E O]; auto.
  rewrite <- E. apply IH; auto.
Qed.

Lemma xor_regs_spec R r : regs_list (xor_regs R r) = xor_words (regs_list r) (regs_list R).
Proof.
  destruct R as [a1 a2 a3 a4 a5 a6 a7 a8], r as [b1 b2 b3 b4 b5 b6 b7 b8]. unfold xor_regs, regs_list, xor_words.
  cbn [rA rB rC rD rE rF rG rH combine map fst snd].
  rewrite (Z.lxor_comm a1), (Z.lxor_comm a2), (Z.lxor_comm a3), (Z.lxor_comm a4), (Z.lxor_comm a5),
    (Z.lxor_comm a6), (Z.lxor_comm a7), (Z.lxor_comm a8). reflexivity.
Qed.

Lemma xor_regs_ok R r : regs_ok R -> regs_ok r -> regs_ok (xor_regs R r).
Proof.
  destruct R as [a1 a2 a3 a4 a5 a6 a7 a8], r as [b1 b2 b3 b4 b5 b6 b7 b8]. unfold regs_ok, regs_list. cbn [xor_regs rA rB rC rD rE rF rG rH].
  intros H1 H2.
  repeat match goal with H : Forall _ (_ :: _) |- _ => inversion H; subst; clear H end.
  repeat (apply Forall_cons); try apply Forall_nil; wd.
Qed.

Lemma one_block w R p : bytes_ok p -> (64 <= List.length p)%nat -> List.length w = 68%nat -> regs_ok R ->
  let '(w', R') := block_one w R p in
  List.length w' = 68%nat /\ regs_ok R' /\ regs_list R' = spec_CF (regs_list R) (firstn 64 p).
Proof.
  intros Hp Hl Hw HR. unfold block_one.
  destruct (fill1_spec p w Hp Hl Hw) as [F1 F2].
  rewrite (fill2_spec (firstn 64 p) (fill1 p w)); auto.
  assert (HW : Forall w32 (spec_W68 (firstn 64 p))) by (apply spec_W_words; auto).
  set (W := spec_W68 (firstn 64 p)) in *.
  assert (List.length W = 68%nat) by (unfold W, spec_W68; rewrite spec_W_length; reflexivity).
  destruct (rounds_gen round1 W (fun i => (i < 16)%nat)) with (l := seq 0 16) (r := R) as [E1 O1]; auto.
  { intros; apply round1_spec; auto. }
  { apply Forall_forall. intros x Hx. apply in_seq in Hx. lia. }
  set (r1 := fold_left (round1 W) (seq 0 16) R) in *.
  destruct (rounds_gen round2 W (fun i => (16 <= i)%nat)) with (l := seq 16 48) (r := r1) as [E2 O2]; auto.
  { intros; apply round2_spec; auto. }
  { apply Forall_forall. intros x Hx. apply in_seq in Hx. lia. }
  split; [auto|]. split; [apply xor_regs_ok; auto|].
  rewrite xor_regs_spec, E2, E1. unfold spec_CF.
  rewrite <- fold_left_app. fold W.
  replace (seq 0 16 ++ seq 16 48) with (seq 0 64) by reflexivity. reflexivity.
Qed.

(** ** blocks *)
Lemma div_add_64 n : ((64 + n) / 64)%nat = S (n / 64).
Proof. replace (64 + n)%nat with (n + 1 * 64)%nat by lia. rewrite Nat.div_add by lia. lia. Qed.

Lemma blocks64_cons l : (64 <= List.length l)%nat ->
  blocks64 l = firstn 64 l :: blocks64 (skipn 64 l).
Proof.
  intros H. unfold blocks64. rewrite skipn_length.
  replace (List.length l) with (64 + (List.length l - 64))%nat at 1 by lia.
  rewrite div_add_64. rewrite <- cons_seq, map_cons. f_equal.
  rewrite <- seq_shift, map_map. apply map_ext. intros i.
  f_equal. rewrite <- (firstn_skipn 64 l) at 1.
  rewrite skipn_app. rewrite firstn_length.
  replace (64 * S i - Nat.min 64 (List.length l))%nat with (64 * i)%nat by lia.
  rewrite skipn_all2; [reflexivity|]. rewrite firstn_length. lia.
Qed.
Lemma blocks64_short l : (List.length l < 64)%nat -> blocks64 l = [].
Proof. intros. unfold blocks64. rewrite Nat.div_small by auto. reflexivity. Qed.

Lemma blocks64_app a b k : List.length a = (64 * k)%nat -> blocks64 (a ++ b) = blocks64 a ++ blocks64 b.
Proof.
  revert a; induction k as [|k IH]; intros a Ha.
  - destruct a; [|cbn in Ha; lia]. reflexivity.
  - rewrite (blocks64_cons a) by lia. rewrite blocks64_cons by (rewrite app_length; lia).
    rewrite firstn_app. replace (64 - List.length a)%nat with 0%nat by lia. rewrite firstn_O, app_nil_r.
    rewrite skipn_app. replace (64 - List.length a)%nat with 0%nat by lia. rewrite skipn_O.
    rewrite IH by (rewrite skipn_length; lia). reflexivity.
Qed.

Lemma block_loop_cons fuel w R p : 
  block_loop (S fuel) w R p = if (64 <=? List.length p)%nat then
        let '(w, R) := block_one w R p in
        block_loop fuel w R (skipn 64 p) else R.
Proof. reflexivity. Qed.
Lemma iter_cons V B bs : spec_iter V (B :: bs) = spec_iter (spec_CF V B) bs.
Proof. reflexivity. Qed.
Lemma iter_app V a b : spec_iter V (a ++ b) = spec_iter (spec_iter V a) b.
Proof. apply fold_left_app. Qed.

Lemma block_loop_spec fuel w R p : bytes_ok p -> List.length w = 68%nat -> regs_ok R ->
  (List.length p / 64 < fuel)%nat ->
  regs_list (block_loop fuel w R p) = spec_iter (regs_list R) (blocks64 p) /\ regs_ok (block_loop fuel w R p).
Proof.
  revert w R p; induction fuel as [|fuel IH]; intros w R p Hp Hw HR Hf; [lia|].
  rewrite block_loop_cons. destruct (Nat.leb_spec 64 (List.length p)) as [Hl|Hl].
  - pose proof (one_block w R p Hp Hl Hw HR) as H1.
    destruct (block_one w R p) as [w' R']. destruct H1 as (H1 & H2 & H3).
    destruct (IH w' R' (skipn 64 p) (bytes_ok_skipn _ _ Hp) H1 H2) as [E O].
    { rewrite skipn_length;
      replace (List.length p) with (64 + (List.length p - 64))%nat in Hf by lia;
      rewrite div_add_64 in Hf; lia. }
    split; [|exact O]. rewrite E. rewrite (blocks64_cons p) by auto.
    rewrite iter_cons, H3. reflexivity.
  - rewrite blocks64_short by auto; split; [reflexivity|auto].
Qed.

Lemma block_spec d p : bytes_ok p -> regs_ok (d_h d) ->
  regs_list (d_h (block d p)) = spec_iter (regs_list (d_h d)) (blocks64 p) /\ regs_ok (d_h (block d p)).
Proof. intros. unfold block; cbn [d_h]. apply block_loop_spec; auto. Qed.

(** ** The representation invariant: the digest [d] has absorbed the message [m] *)
Record Rep (d : digest) (m : bytes) : Prop := {
  rep_m : bytes_ok m;
  rep_x : bytes_ok (d_x d);
  rep_xlen : List.length (d_x d) = 64%nat;
  rep_nx : d_nx d = (List.length m mod 64)%nat;
  rep_buf : firstn (d_nx d) (d_x d) = skipn (64 * (List.length m / 64)) m;
  rep_len : d_len d = zlen m mod 2 ^ 64;
  rep_regs : regs_ok (d_h d);
  rep_h : regs_list (d_h d) = spec_iter spec_IV (blocks64 m)
}.

Lemma init_regs_ok : regs_ok init_regs.
Proof.
  unfold regs_ok, regs_list, init_regs. cbn [rA rB rC rD rE rF rG rH].
  repeat apply Forall_cons; try apply Forall_nil; unfold word; lia.
Qed.

Lemma reset_rep d : bytes_ok (d_x d) -> List.length (d_x d) = 64%nat -> Rep (sm3_Reset d) [].
Proof.
  intros H1 H2. split; cbn [sm3_Reset d_h d_x d_nx d_len]; auto.
  - apply init_regs_ok.
Qed.
Lemma rep_reset d m : Rep d m -> Rep (sm3_Reset d) [].
Proof. intros []. now apply reset_rep. Qed.
Lemma new_rep : Rep sm3_New [].
Proof. apply reset_rep; [|reflexivity]. apply bytes_ok_repeat. unfold byte_ok; lia. Qed.

Lemma go_copy_spec dst off src : (off <= List.length dst)%nat ->
  let '(n, x) := go_copy dst off src in
  n = Nat.min (List.length dst - off) (List.length src) /\ List.length x = List.length dst /\
  firstn (off + n) x = firstn off dst ++ firstn n src /\
  (bytes_ok dst -> bytes_ok src -> bytes_ok x).
Proof.
  intros H. unfold go_copy. set (n := Nat.min _ _). split; [reflexivity|].
  assert (n <= List.length dst - off)%nat by (unfold n; lia).
  assert (n <= List.length src)%nat by (unfold n; lia).
  split; [rewrite !app_length, !firstn_length, skipn_length; lia|]. split.
  - rewrite app_assoc. apply firstn_app_exact. rewrite app_length, !firstn_length. lia.
  - intros. apply bytes_ok_app; split; [auto|]. apply bytes_ok_app; split; auto.
Qed.

(** the block-aligned prefix of a message and its tail *)
Lemma split64 (m : bytes) : let k := (List.length m / 64)%nat in
  m = firstn (64 * k) m ++ skipn (64 * k) m /\ List.length (firstn (64 * k) m) = (64 * k)%nat /\
  List.length (skipn (64 * k) m) = (List.length m mod 64)%nat.
Proof.
  cbn zeta. split; [symmetry; apply firstn_skipn|].
  rewrite firstn_length, skipn_length. lia.
Qed.

(** a convenient way to establish the invariant: exhibit the split *)
Lemma rep_intro d A B k x nx len :
  bytes_ok A -> bytes_ok B -> List.length A = (64 * k)%nat -> (List.length B < 64)%nat ->
  bytes_ok x -> List.length x = 64%nat -> nx = List.length B -> firstn nx x = B ->
  len = zlen (A ++ B) mod 2 ^ 64 -> regs_ok d -> regs_list d = spec_iter spec_IV (blocks64 A) ->
  Rep (mkDigest d x nx len) (A ++ B).
Proof.
  intros HA HB HlA HlB Hx Hlx Hnx Hbuf Hlen Hok Hh.
  assert (Hd : (List.length (A ++ B) / 64 = k)%nat) by (rewrite app_length; lia).
  split; cbn [d_h d_x d_nx d_len]; auto.
  - apply bytes_ok_app; auto.
  - rewrite app_length. lia.
  - rewrite Hd. rewrite skipn_app_exact by lia. auto.
  - rewrite (blocks64_app A B k) by auto. rewrite (blocks64_short B), app_nil_r by auto. auto.
Qed.

Lemma zlen_mod_add a b : (zlen a mod 2 ^ 64 + zlen b) mod 2 ^ 64 = zlen (a ++ b : bytes) mod 2 ^ 64.
Proof. rewrite zlen_app, Zplus_mod_idemp_l. reflexivity. Qed.

Lemma write_tail_spec R x len A p k :
  bytes_ok A -> List.length A = (64 * k)%nat -> bytes_ok p ->
  bytes_ok x -> List.length x = 64%nat -> len = zlen (A ++ p) mod 2 ^ 64 ->
  regs_ok R -> regs_list R = spec_iter spec_IV (blocks64 A) ->
  Rep (write_tail (mkDigest R x 0 len) p) (A ++ p).
Proof.
  intros HA HlA Hp Hx Hlx Hlen HR Hh. unfold write_tail.
  assert (G : forall R A p k, bytes_ok A -> List.length A = (64 * k)%nat -> bytes_ok p ->
             (List.length p < 64)%nat -> len = zlen (A ++ p) mod 2 ^ 64 -> regs_ok R ->
             regs_list R = spec_iter spec_IV (blocks64 A) ->
             Rep (if (0 <? List.length p)%nat then
                    let '(n, x0) := go_copy x 0 p in mkDigest R x0 n len
                  else mkDigest R x 0 len) (A ++ p)).
  { clear - Hx Hlx. intros R A p k HA HlA Hp Hlp Hlen HR Hh.
    destruct (Nat.ltb_spec 0 (List.length p)) as [H|H].
    - pose proof (go_copy_spec x 0 p ltac:(lia)) as HC.
      destruct (go_copy x 0 p) as [n x']. destruct HC as (Hn & Hl & Hf & Hok).
      replace n with (List.length p) in * by lia. clear Hn.
      apply (rep_intro R A p k); auto; try lia.
      rewrite Nat.add_0_l in Hf. rewrite Hf. cbn [firstn app]. apply firstn_all.
    - destruct p; [|cbn in H; lia].
      apply (rep_intro R A [] k); auto; cbn; lia. }
  destruct (Nat.leb_spec chunk (List.length p)) as [Hl|Hl]; unfold chunk in *.
  - set (n := (List.length p / 64 * 64)%nat).
    assert (Hn : (n <= List.length p)%nat) by (unfold n; lia).
    assert (Hok : bytes_ok (firstn n p)) by auto.
    destruct (block_spec (mkDigest R x 0 len) (firstn n p) Hok HR) as [E O].
    cbn [d_h] in E. unfold block in *. cbn [d_x d_h d_nx d_len] in *.
    set (R' := block_loop _ _ _ _) in *.
    replace (A ++ p) with ((A ++ firstn n p) ++ skipn n p) by (rewrite <- app_assoc, firstn_skipn; reflexivity).
    eapply (G R' (A ++ firstn n p) (skipn n p) (k + List.length p / 64)%nat); auto.
    + apply bytes_ok_app; auto.
    + rewrite app_length, firstn_length. lia.
    + rewrite skipn_length. lia.
    + rewrite <- app_assoc, firstn_skipn. auto.
    + rewrite (blocks64_app A _ k) by auto. rewrite iter_app, <- Hh. exact E.
  - cbn [d_h d_x d_len]. eapply G; eauto.
Qed.

Theorem write_rep d m p : Rep d m -> bytes_ok p ->
  exists d', sm3_Write d p = Ret (d', zlen p) /\ Rep d' (m ++ p).
Proof.
  intros HR Hp. destruct d as [R x nx len]. destruct HR as [Hm Hx Hlx Hnx Hbuf Hlen Hok Hh].
  cbn [d_h d_x d_nx d_len] in *.
  set (k := (List.length m / 64)%nat) in *.
  destruct (split64 m) as (Hsplit & HlA & HlB). fold k in Hsplit, HlA, HlB.
  set (A := firstn (64 * k) m) in *. set (B := skipn (64 * k) m) in *.
  assert (HA : bytes_ok A) by (unfold A; auto).
  assert (HB : bytes_ok B) by (unfold B; auto).
  assert (HlB' : (List.length B < 64)%nat) by lia.
  assert (HhA : regs_list R = spec_iter spec_IV (blocks64 A)).
  { rewrite Hh, Hsplit. rewrite (blocks64_app A B k) by auto.
    rewrite (blocks64_short B), app_nil_r by auto. reflexivity. }
  assert (Hlen' : (len + zlen p) mod 2 ^ 64 = zlen (A ++ B ++ p) mod 2 ^ 64).
  { rewrite Hlen, zlen_mod_add, Hsplit at 1. now rewrite app_assoc. }
  unfold sm3_Write. cbn [d_h d_x d_nx d_len bind].
  set (len' := (len + zlen p) mod 2 ^ 64) in *.
  destruct (Nat.ltb_spec 0 nx) as [Hpos|Hzero].
  - replace (nx <=? chunk)%nat with true by (symmetry; apply Nat.leb_le; unfold chunk; lia).
    pose proof (go_copy_spec x nx p ltac:(lia)) as HC.
    destruct (go_copy x nx p) as [n x'] eqn:Hgc. destruct HC as (Hn & Hl & Hf & Hok').
    specialize (Hok' Hx Hp).
    assert (Hf' : firstn (nx + n) x' = B ++ firstn n p) by (rewrite Hf, Hbuf; reflexivity).
    cbn [d_h d_x d_nx d_len bind].
    destruct (Nat.eqb_spec (nx + n) chunk) as [He|Hne]; unfold chunk in *.
    + (* the buffer fills up *)
      assert (Hx' : x' = B ++ firstn n p) by (rewrite <- Hf'; symmetry; apply firstn_all2; lia).
      destruct (block_spec (mkDigest R x' (nx + n) len') x' Hok' Hok) as [E O].
      unfold block in *. cbn [d_h d_x d_nx d_len] in *.
      set (R' := block_loop _ _ _ _) in *.
      eexists. split; [reflexivity|].
      replace (m ++ p) with ((A ++ B ++ firstn n p) ++ skipn n p)
        by (rewrite Hsplit, <- !app_assoc, firstn_skipn; reflexivity).
      apply (write_tail_spec _ _ _ _ _ (k + 1)); auto.
      * repeat (apply bytes_ok_app; split; auto).
      * rewrite !app_length, firstn_length. lia.
      * lia.
      * rewrite Hlen'. rewrite <- !app_assoc. rewrite firstn_skipn. reflexivity.
      * rewrite E. rewrite (blocks64_app A _ k) by auto. rewrite iter_app, <- HhA, Hx'. reflexivity.
    + (* everything fits in the buffer *)
      assert (Hnp : n = List.length p) by lia.
      assert (Hlt : (nx + n < 64)%nat) by lia. clear Hn Hgc. subst n.
      rewrite skipn_all. eexists. split; [reflexivity|]. rewrite firstn_all in Hf'.
      rewrite Hsplit, <- app_assoc.
      apply (rep_intro R A (B ++ p) k); auto; try lia; rewrite ?app_length; try lia.
      apply bytes_ok_app; auto.
  - assert (Hnx0 : nx = 0%nat) by lia. rewrite Hnx0 in *. cbn [bind].
    assert (HB0 : B = []) by (apply length_zero_iff_nil; lia).
    eexists. split; [reflexivity|].
    rewrite HB0, app_nil_r in Hsplit. rewrite Hsplit. apply (write_tail_spec _ _ _ _ _ k); auto.
    rewrite Hlen', HB0. reflexivity.
Qed.

(** ** checkSum *)
Lemma PutUint32_be x : w32 x -> PutUint32 x = Z_to_be 4 x.
Proof.
  intros Hx. unfold PutUint32. cbn [Z_to_be app]. rewrite !shiftr_div by lia.
  change (2 ^ 24) with (256 * 256 * 256). change (2 ^ 16) with (256 * 256). change (2 ^ 8) with 256.
  rewrite <- !Z.div_div by lia. reflexivity.
Qed.

Lemma flat_regs h : regs_ok h ->
  PutUint32 (rA h) ++ PutUint32 (rB h) ++ PutUint32 (rC h) ++ PutUint32 (rD h) ++
  PutUint32 (rE h) ++ PutUint32 (rF h) ++ PutUint32 (rG h) ++ PutUint32 (rH h)
  = flat_map (Z_to_be 4) (regs_list h).
Proof.
  intros Hok. unfold regs_ok, regs_list in *.
  repeat match goal with H : Forall _ (_ :: _) |- _ => inversion H; subst; clear H end.
  rewrite !PutUint32_be by auto. cbn [flat_map]. rewrite app_nil_r. reflexivity.
Qed.

Lemma firstn_repeat {A} (a : A) n k : (k <= n)%nat -> firstn k (repeat a n) = repeat a k.
Proof. revert k; induction n; intros [|k] H; cbn; auto; try lia. rewrite IHn by lia. reflexivity. Qed.

Theorem checkSum_spec d m : Rep d m -> sm3_checkSum d = Ret (SM3 m).
Proof.
  intros HR. unfold sm3_checkSum.
  assert (Hlen : d_len d mod 64 = zlen m mod 64).
  { rewrite (rep_len _ _ HR). change (2 ^ 64) with (64 * 2 ^ 58).
    rewrite Z.rem_mul_r by lia. rewrite Z.mul_comm, Z.mod_add by lia. apply Z.mod_mod; lia. }
  rewrite Hlen.
  set (k := if zlen m mod 64 <? 56 then 56 - zlen m mod 64 else 64 + 56 - zlen m mod 64).
  assert (Hk : k = 1 + spec_zeros (zlen m) /\ 1 <= k <= 64).
  { unfold k, spec_zeros. destruct (Z.ltb_spec (zlen m mod 64) 56); lia. }
  destruct Hk as [Hk Hkb].
  replace (negb ((0 <=? k) && (k <=? 64))) with false by lia.
  set (pad := firstn (Z.to_nat k) (128 :: repeat 0 63)).
  assert (Hpad : pad = [128] ++ repeat 0 (Z.to_nat (spec_zeros (zlen m)))).
  { unfold pad. rewrite Hk. replace (Z.to_nat (1 + spec_zeros (zlen m))) with (S (Z.to_nat (spec_zeros (zlen m)))) by lia.
    cbn [firstn app]. f_equal. apply firstn_repeat. lia. }
  assert (Hpok : bytes_ok pad).
  { rewrite Hpad. apply bytes_ok_app. split; [repeat constructor; unfold byte_ok; lia|].
    apply bytes_ok_repeat. unfold byte_ok; lia. }
  destruct (write_rep d m pad HR Hpok) as (d1 & E1 & R1). rewrite E1. cbn [bind].
  set (lenb := Z.shiftl (d_len d) 3 mod 2 ^ 64).
  assert (Hlb : PutUint64 lenb = Z_to_be 8 (8 * zlen m)).
  { unfold PutUint64, lenb. rewrite shiftl_mul by lia. change (2 ^ 3) with 8.
    rewrite (rep_len _ _ HR).
    apply be_to_Z_inj; [apply Z_to_be_ok|apply Z_to_be_ok|now rewrite !Z_to_be_length|].
    rewrite !be_to_Z_to_be. change (256 ^ Z.of_nat 8) with (2 ^ 64). rewrite Z.mod_mod by lia.
    rewrite Zmult_mod_idemp_l. f_equal. ring. }
  destruct (write_rep d1 (m ++ pad) (PutUint64 lenb) R1) as (d2 & E2 & R2).
  { rewrite Hlb. auto. }
  rewrite E2. cbn [bind].
  assert (Hfull : (m ++ pad) ++ PutUint64 lenb = spec_pad m).
  { rewrite Hlb, Hpad. unfold spec_pad. rewrite <- !app_assoc. reflexivity. }
  rewrite Hfull in R2.
  assert (Hnx : d_nx d2 = 0%nat).
  { rewrite (rep_nx _ _ R2).
    assert (zlen (spec_pad m) mod 64 = 0).
    { unfold spec_pad. rewrite !zlen_app. change (zlen [128]) with 1.
      replace (zlen (repeat 0 (Z.to_nat (spec_zeros (zlen m))))) with (spec_zeros (zlen m))
        by (unfold zlen; rewrite repeat_length; unfold spec_zeros; lia).
      rewrite Z_to_be_zlen. unfold spec_zeros. lia. }
    unfold zlen in *. lia. }
  rewrite Hnx. change (negb (0 =? 0)%nat) with false. cbn iota. cbv zeta.
  rewrite (flat_regs (d_h d2)) by apply (rep_regs _ _ R2).
  rewrite (rep_h _ _ R2). reflexivity.
Qed.

Theorem sm3_Sum_correct data : bytes_ok data -> sm3_Sum data = Ret (SM3 data).
Proof.
  intros H. unfold sm3_Sum. change (sm3_Reset zero_digest) with sm3_New.
  destruct (write_rep sm3_New [] data new_rep H) as (d & E & R). rewrite E. cbn [bind].
  apply checkSum_spec. exact R.
Qed.

(** ** histories *)
Theorem sm3_run_refines ops d m : Rep d m -> Forall op_ok ops -> sm3_run d ops = sm3_history_spec m ops.
Proof.
  revert d m; induction ops as [|op ops IH]; intros d m HR Hops; [reflexivity|].
  inversion Hops as [|? ? Hop Hops']; subst.
  cbn [sm3_run sm3_history_spec]. destruct op as [p|i|]; cbn [sm3_step].
  - destruct (write_rep d m p HR Hop) as (d' & E & R'). rewrite E. f_equal. now apply IH.
  - unfold sm3_Sum_method. rewrite (checkSum_spec d m HR). cbn [bind]. f_equal. now apply IH.
  - f_equal. apply IH; auto. eapply rep_reset; eauto.
Qed.

Lemma spec_iter_regs_ok d m : Rep d m -> Forall w32 (spec_iter spec_IV (blocks64 m)).
Proof. intros []. rewrite <- rep_h0. auto. Qed.

Lemma spec_round_length W V j : List.length V = 8%nat -> List.length (spec_round W V j) = 8%nat.
Proof.
  intros H. destruct V as [|a [|b [|c [|d [|e [|f [|g [|h [|]]]]]]]]]; try discriminate. reflexivity.
Qed.
Lemma fold_round_length W l V : List.length V = 8%nat -> List.length (fold_left (spec_round W) l V) = 8%nat.
Proof. revert V; induction l; intros V H; cbn [fold_left]; auto. apply IHl. now apply spec_round_length. Qed.
Lemma spec_CF_length V B : List.length V = 8%nat -> List.length (spec_CF V B) = 8%nat.
Proof.
  intros H. unfold spec_CF, xor_words. rewrite map_length, combine_length, fold_round_length, H by auto. reflexivity.
Qed.
Lemma spec_iter_length V l : List.length V = 8%nat -> List.length (spec_iter V l) = 8%nat.
Proof.
  revert V; induction l; intros V H; [exact H|]. rewrite iter_cons. apply IHl. now apply spec_CF_length.
Qed.
Lemma flat_be4_length l : List.length (flat_map (Z_to_be 4) l) = (4 * List.length l)%nat.
Proof. induction l; [reflexivity|]. cbn [flat_map]. rewrite app_length, Z_to_be_length, IHl. cbn [List.length]. lia. Qed.
Lemma flat_be4_ok l : bytes_ok (flat_map (Z_to_be 4) l).
Proof. induction l; [constructor|]. cbn [flat_map]. apply bytes_ok_app; auto. Qed.

Theorem SM3_length m : List.length (SM3 m) = 32%nat.
Proof. unfold SM3. rewrite flat_be4_length, spec_iter_length; reflexivity. Qed.
Theorem SM3_ok m : bytes_ok (SM3 m).
Proof. apply flat_be4_ok. Qed.
#[global] Hint Resolve SM3_ok : core.

(** ** corollaries used as property theorems *)
Lemma sm3_history ops : Forall op_ok ops -> sm3_run sm3_New ops = sm3_history_spec [] ops.
Proof. apply sm3_run_refines. exact new_rep. Qed.

Lemma history_writes chunks m rest :
  sm3_history_spec m (map OpWrite chunks ++ rest)
  = map (fun p => OutCount (zlen p)) chunks ++ sm3_history_spec (m ++ List.concat chunks) rest.
Proof.
  revert m; induction chunks as [|c cs IH]; intros m; cbn [map app List.concat sm3_history_spec].
  - now rewrite app_nil_r.
  - rewrite IH, app_assoc. reflexivity.
Qed.

Lemma sm3_chunking (chunks : list bytes) (inp : bytes) :
  Forall bytes_ok chunks ->
  sm3_run sm3_New (map OpWrite chunks ++ [OpSum inp])
  = map (fun p => OutCount (zlen p)) chunks ++ [OutBytes (inp ++ SM3 (List.concat chunks))].
Proof.
  intros H. rewrite sm3_history.
  - rewrite history_writes. reflexivity.
  - apply Forall_app. split; [|repeat constructor].
    apply Forall_map. eapply Forall_impl; [|exact H]. auto.
Qed.

Lemma sm3_sizes ops : Forall op_ok ops ->
  Forall2 (fun op out =>
    match op, out with
    | OpWrite p, OutCount n => n = zlen p
    | OpSum i, OutBytes b => exists h, b = i ++ h /\ List.length h = 32%nat /\ bytes_ok h
    | OpReset, OutUnit => True
    | _, _ => False
    end) ops (sm3_run sm3_New ops).
Proof.
  intros H. rewrite sm3_history by auto. generalize (@nil Z) as m.
  induction ops as [|op ops IH]; intros m; [constructor|].
  inversion H; subst.
  destruct op; cbn [sm3_history_spec]; constructor; auto.
  exists (SM3 m). repeat split; auto. apply SM3_length.
Qed.
