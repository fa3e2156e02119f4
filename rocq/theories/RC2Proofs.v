(** * RC2: the model of rc2.go computes RFC 2268, and Decrypt inverts Encrypt *)
From Verif Require Import Base Words RC2Spec RC2Model.
From Coq Require Import ZifyBool ZifyNat.
Ltac Zify.zify_post_hook ::= Z.div_mod_to_equations.

Definition word16 (x : Z) : Prop := 0 <= x < 2 ^ 16.
Lemma w16_word x : word16 (w16 x). Proof. apply Z.mod_pos_bound. lia. Qed.
Lemma w16_id x : word16 x -> w16 x = x. Proof. apply Z.mod_small. Qed.
Lemma rotl16_rol x b : word16 x -> 0 < b < 16 -> rotl16 x b = rol x b.
Proof.
  intros Hx Hb. unfold rotl16, rol, w16. rewrite shiftr_div, shiftl_mul by lia. rewrite Z.lor_comm.
  unfold word16 in Hx.
  assert (E16 : 2 ^ 16 = 2 ^ b * 2 ^ (16 - b)) by (rewrite <- Z.pow_add_r by lia; f_equal; lia).
  pose proof (Z.pow_pos_nonneg 2 b ltac:(lia) ltac:(lia)). pose proof (Z.pow_pos_nonneg 2 (16 - b) ltac:(lia) ltac:(lia)).
  apply (lor_add b); [lia| |].
  - rewrite E16. rewrite (Z.mul_comm x). rewrite Z.mul_mod_distr_l by lia. rewrite Z.mul_comm. apply Z_mod_mult.
  - split; [apply Z.div_pos; lia|]. apply Z.div_lt_upper_bound; [lia|]. rewrite Z.mul_comm, <- E16. lia.
Qed.
(** rotation as arithmetic: rol x s = hi + lo form *)
Lemma rol_word x b : word16 x -> 0 < b < 16 -> word16 (rol x b).
Proof.
  intros Hx Hb. unfold rol, word16 in *.
  assert (E16 : 2 ^ 16 = 2 ^ b * 2 ^ (16 - b)) by (rewrite <- Z.pow_add_r by lia; f_equal; lia).
  pose proof (Z.pow_pos_nonneg 2 b ltac:(lia) ltac:(lia)). pose proof (Z.pow_pos_nonneg 2 (16 - b) ltac:(lia) ltac:(lia)).
  assert (0 <= x / 2 ^ (16 - b) < 2 ^ b).
  { split; [apply Z.div_pos; lia|]. apply Z.div_lt_upper_bound; [lia|]. rewrite Z.mul_comm, <- E16. lia. }
  assert (E : (x * 2 ^ b) mod 2 ^ 16 = 2 ^ b * (x mod 2 ^ (16 - b))).
  { rewrite E16. rewrite (Z.mul_comm x). rewrite Z.mul_mod_distr_l by lia. reflexivity. }
  rewrite E. pose proof (Z.mod_pos_bound x (2 ^ (16 - b)) ltac:(lia)). rewrite E16. nia.
Qed.
Lemma rol_rol x b : word16 x -> 0 < b < 16 -> rol (rol x b) (16 - b) = x.
Proof.
  intros Hx Hb. unfold word16 in Hx. unfold rol. replace (16 - (16 - b)) with b by lia.
  assert (E16 : 2 ^ 16 = 2 ^ b * 2 ^ (16 - b)) by (rewrite <- Z.pow_add_r by lia; f_equal; lia).
  pose proof (Z.pow_pos_nonneg 2 b ltac:(lia) ltac:(lia)) as Pb. pose proof (Z.pow_pos_nonneg 2 (16 - b) ltac:(lia) ltac:(lia)) as Pc.
  assert (E : (x * 2 ^ b) mod 2 ^ 16 = 2 ^ b * (x mod 2 ^ (16 - b))).
  { rewrite E16. rewrite (Z.mul_comm x). rewrite Z.mul_mod_distr_l by lia. reflexivity. }
  rewrite E. set (lo := x mod 2 ^ (16 - b)) in *. set (hi := x / 2 ^ (16 - b)) in *.
  assert (Hhi : 0 <= hi < 2 ^ b).
  { unfold hi. split; [apply Z.div_pos; lia|]. apply Z.div_lt_upper_bound; [lia|]. rewrite Z.mul_comm, <- E16. lia. }
  assert (Ex : x = 2 ^ (16 - b) * hi + lo) by (apply Z.div_mod; lia).
  assert (D : (2 ^ b * lo + hi) / 2 ^ b = lo).
  { rewrite Z.add_comm, Z.mul_comm, Z.div_add by lia. rewrite Z.div_small by lia. lia. }
  rewrite D.
  assert (M : ((2 ^ b * lo + hi) * 2 ^ (16 - b)) mod 2 ^ 16 = 2 ^ (16 - b) * hi).
  { rewrite E16. rewrite Z.mul_mod_distr_r by lia. rewrite Z.add_comm, Z.mul_comm, (Z.mul_comm (2 ^ b)), Z.mod_add by lia. rewrite Z.mod_small by lia. reflexivity. }
  rewrite M. lia.
Qed.
Lemma rotl_rotl x b : word16 x -> 0 < b < 16 -> rotl16 (rotl16 x b) (16 - b) = x.
Proof. intros Hx Hb. rewrite (rotl16_rol x b) by auto. rewrite rotl16_rol by (try apply rol_word; auto; lia). apply rol_rol; auto. Qed.
Lemma rotl_word x b : word16 x -> 0 < b < 16 -> word16 (rotl16 x b).
Proof. intros. rewrite rotl16_rol by auto. apply rol_word; auto. Qed.
Lemma not16_sub x : word16 x -> not16 x = 2 ^ 16 - 1 - x.
Proof. intros H. unfold not16. change 65535 with (2 ^ 16 - 1). apply lxor_ones_sub; [lia|exact H]. Qed.
Lemma land63 x : Z.land x 63 = x mod 64.
Proof. change 63 with (2 ^ 6 - 1). change 64 with (2 ^ 6). apply land_ones_low. lia. Qed.

Definition regs_ok (s : regs4) : Prop := word16 (q0 s) /\ word16 (q1 s) /\ word16 (q2 s) /\ word16 (q3 s).
Definition to_list (s : regs4) : list Z := [q0 s; q1 s; q2 s; q3 s].

Lemma enc_mix_ok k j s : regs_ok s -> regs_ok (enc_mix k j s).
Proof.
  destruct s as [r0 r1 r2 r3]. unfold regs_ok, enc_mix. cbn [q0 q1 q2 q3]. intros _.
  repeat split; try (apply rotl_word; [apply w16_word|lia]).
Qed.
Lemma enc_mash_ok k s : regs_ok (enc_mash k s).
Proof. destruct s as [r0 r1 r2 r3]. unfold regs_ok, enc_mash. cbn [q0 q1 q2 q3]. repeat split; apply w16_word. Qed.
Lemma dec_mix_ok k j s : regs_ok (dec_mix k j s).
Proof. destruct s as [r0 r1 r2 r3]. unfold regs_ok, dec_mix. cbn [q0 q1 q2 q3]. repeat split; apply w16_word. Qed.
Lemma dec_mash_ok k s : regs_ok (dec_mash k s).
Proof. destruct s as [r0 r1 r2 r3]. unfold regs_ok, dec_mash. cbn [q0 q1 q2 q3]. repeat split; apply w16_word. Qed.

(** *** equality with the specification *)
Lemma enc_mix_spec k j s : regs_ok s -> mix_round k (to_list s, j) = (to_list (enc_mix k j s), (j + 4)%nat).
Proof.
  destruct s as [r0 r1 r2 r3]. unfold regs_ok, to_list. cbn [q0 q1 q2 q3]. intros (H0 & H1 & H2 & H3).
  unfold mix_round, enc_mix. cbn [fold_left]. unfold mix_up, Rn, rot_amount.
  cbn [Nat.add Nat.modulo Nat.divmod Nat.sub fst snd nth upd q0 q1 q2 q3].
  change (2 ^ 16 - 1) with 65535.
  assert (N : forall x, word16 x -> not16 x = 65535 - x) by (intros; rewrite not16_sub; auto).
  set (a0 := w16 (r0 + nth j k 0 + Z.land r3 r2 + Z.land (not16 r3) r1)).
  assert (E0 : (r0 + nth j k 0 + Z.land r3 r2 + Z.land (65535 - r3) r1) mod 2 ^ 16 = a0) by (unfold a0; rewrite N; auto).
  rewrite !E0. rewrite <- !(rotl16_rol a0 1) by (try apply w16_word; lia).
  assert (W0 : word16 (rotl16 a0 1)) by (apply rotl_word; [apply w16_word|lia]). clearbody a0. clear E0.
  set (s0 := rotl16 a0 1) in *. clearbody s0. clear a0.
  replace (S j) with (j + 1)%nat by lia. replace (S (j + 1)) with (j + 2)%nat by lia.
  replace (S (j + 2)) with (j + 3)%nat by lia. replace (S (j + 3)) with (j + 4)%nat by lia.
  set (a1 := w16 (r1 + nth (j + 1) k 0 + Z.land s0 r3 + Z.land (not16 s0) r2)).
  assert (E1 : (r1 + nth (j + 1) k 0 + Z.land s0 r3 + Z.land (65535 - s0) r2) mod 2 ^ 16 = a1) by (unfold a1; rewrite N; auto).
  rewrite !E1. rewrite <- !(rotl16_rol a1 2) by (try apply w16_word; lia).
  assert (W1 : word16 (rotl16 a1 2)) by (apply rotl_word; [apply w16_word|lia]). clearbody a1. clear E1.
  set (s1 := rotl16 a1 2) in *. clearbody s1. clear a1.
  set (a2 := w16 (r2 + nth (j + 2) k 0 + Z.land s1 s0 + Z.land (not16 s1) r3)).
  assert (E2 : (r2 + nth (j + 2) k 0 + Z.land s1 s0 + Z.land (65535 - s1) r3) mod 2 ^ 16 = a2) by (unfold a2; rewrite N; auto).
  rewrite !E2. rewrite <- !(rotl16_rol a2 3) by (try apply w16_word; lia).
  assert (W2 : word16 (rotl16 a2 3)) by (apply rotl_word; [apply w16_word|lia]). clearbody a2. clear E2.
  set (s2 := rotl16 a2 3) in *. clearbody s2. clear a2.
  set (a3 := w16 (r3 + nth (j + 3) k 0 + Z.land s2 s1 + Z.land (not16 s2) s0)).
  assert (E3 : (r3 + nth (j + 3) k 0 + Z.land s2 s1 + Z.land (65535 - s2) s0) mod 2 ^ 16 = a3) by (unfold a3; rewrite N; auto).
  rewrite !E3. rewrite <- !(rotl16_rol a3 5) by (try apply w16_word; lia). reflexivity.
Qed.
Lemma enc_mash_spec k j s : regs_ok s -> mash_round k (to_list s, j) = (to_list (enc_mash k s), j).
Proof.
  destruct s as [r0 r1 r2 r3]. unfold regs_ok, to_list. cbn [q0 q1 q2 q3]. intros (H0 & H1 & H2 & H3).
  unfold mash_round, enc_mash. cbn [fold_left fst snd]. unfold mash_up, Rn.
  cbn [Nat.add Nat.modulo Nat.divmod Nat.sub fst snd nth upd q0 q1 q2 q3].
  rewrite !land63. reflexivity.
Qed.
Lemma get16_le b i : byte_ok (nth i b 0) -> get16 b i = le16 (nth i b 0) (nth (i + 1) b 0).
Proof.
  intros H. unfold get16, le16. rewrite shiftl_mul by lia. rewrite Z.lor_comm. rewrite (lor_add 8); [lia|lia|apply Z_mod_mult|exact H].
Qed.
Lemma put16_le w : word16 w -> put16 w = [w mod 256; w / 256].
Proof. intros H. unfold put16, word16 in *. rewrite shiftr_div by lia. change (2 ^ 8) with 256. rewrite (Z.mod_small (w / 256)); [reflexivity|lia]. Qed.
Lemma block8 (b : bytes) : List.length b = 8%nat -> exists b0 b1 b2 b3 b4 b5 b6 b7, b = [b0; b1; b2; b3; b4; b5; b6; b7].
Proof. intros H. destruct b as [|b0 [|b1 [|b2 [|b3 [|b4 [|b5 [|b6 [|b7 [|]]]]]]]]]; try discriminate H. repeat eexists. Qed.
Definition mix5 k j s := enc_mix k (j + 16) (enc_mix k (j + 12) (enc_mix k (j + 8) (enc_mix k (j + 4) (enc_mix k j s)))).
Definition mix6 k j s := enc_mix k (j + 20) (mix5 k j s).
Definition enc_regs k s := mix5 k 44 (enc_mash k (mix6 k 20 (enc_mash k (mix5 k 0 s)))).
Lemma rc2_Encrypt_eq k b : List.length b = 8%nat ->
  rc2_Encrypt k b = let s := enc_regs k (mk4 (get16 b 0) (get16 b 2) (get16 b 4) (get16 b 6)) in
    Ret (put16 (q0 s) ++ put16 (q1 s) ++ put16 (q2 s) ++ put16 (q3 s)).
Proof.
  intros H. unfold rc2_Encrypt. unfold zlen. rewrite H. change (Z.of_nat 8 <? 8) with false. cbn iota.
  generalize (mk4 (get16 b 0) (get16 b 2) (get16 b 4) (get16 b 6)). intros s.
  unfold enc_regs, mix6, mix5. cbn [enc_while Nat.leb Nat.add]. reflexivity.
Qed.
Definition unmix5 k j s := dec_mix k (j - 16) (dec_mix k (j - 12) (dec_mix k (j - 8) (dec_mix k (j - 4) (dec_mix k j s)))).
Definition dec_regs k s := unmix5 k 19 (dec_mash k (dec_mix k 23 (unmix5 k 43 (dec_mash k (unmix5 k 63 s))))).
Lemma rc2_Decrypt_eq k b : List.length b = 8%nat ->
  rc2_Decrypt k b = let s := dec_regs k (mk4 (get16 b 0) (get16 b 2) (get16 b 4) (get16 b 6)) in
    Ret (put16 (q0 s) ++ put16 (q1 s) ++ put16 (q2 s) ++ put16 (q3 s)).
Proof.
  intros H. unfold rc2_Decrypt. unfold zlen. rewrite H. change (Z.of_nat 8 <? 8) with false. cbn iota.
  generalize (mk4 (get16 b 0) (get16 b 2) (get16 b 4) (get16 b 6)). intros s.
  unfold dec_regs, unmix5. cbn [dec_while]. reflexivity.
Qed.
Lemma mix5_spec k j s : regs_ok s -> times 5 (mix_round k) (to_list s, j) = (to_list (mix5 k j s), (j + 20)%nat) /\ regs_ok (mix5 k j s).
Proof.
  intros H. cbn [times]. unfold mix5. rewrite !enc_mix_spec by (repeat apply enc_mix_ok; auto).
  replace (j + 4 + 4)%nat with (j + 8)%nat by lia. replace (j + 8 + 4)%nat with (j + 12)%nat by lia.
  replace (j + 12 + 4)%nat with (j + 16)%nat by lia. replace (j + 16 + 4)%nat with (j + 20)%nat by lia.
  split; [reflexivity|]. repeat apply enc_mix_ok; auto.
Qed.
Lemma times_S' {A} n (f : A -> A) : forall x, times (S n) f x = f (times n f x).
Proof. induction n; intros; [reflexivity|]. cbn [times]. cbn [times] in IHn. rewrite <- IHn. reflexivity. Qed.
Lemma enc_regs_spec k s : regs_ok s -> rc2_words k (to_list s) = to_list (enc_regs k s) /\ regs_ok (enc_regs k s).
Proof.
  intros H. unfold rc2_words, enc_regs. destruct (mix5_spec k 0 s H) as [E1 O1]. rewrite E1. clear E1.
  rewrite enc_mash_spec by auto. set (s1 := enc_mash k (mix5 k 0 s)). assert (O2 : regs_ok s1) by apply enc_mash_ok. clearbody s1.
  assert (E6 : times 6 (mix_round k) (to_list s1, (0 + 20)%nat) = (to_list (mix6 k 20 s1), 44%nat)).
  { rewrite times_S'. change (0 + 20)%nat with 20%nat.
    destruct (mix5_spec k 20 s1 O2) as [E5 O5]. rewrite E5. rewrite enc_mix_spec by auto. reflexivity. }
  rewrite E6. assert (O6 : regs_ok (mix6 k 20 s1)) by (unfold mix6; apply enc_mix_ok; apply mix5_spec; auto).
  rewrite enc_mash_spec by auto. set (s2 := enc_mash k (mix6 k 20 s1)). assert (O7 : regs_ok s2) by apply enc_mash_ok. clearbody s2.
  destruct (mix5_spec k 44 s2 O7) as [E8 O8]. rewrite E8. split; [reflexivity|exact O8].
Qed.
Lemma get_ok b i : bytes_ok b -> word16 (get16 b i).
Proof.
  intros H. assert (B : forall i, byte_ok (nth i b 0)).
  { intros n. destruct (Nat.lt_ge_cases n (List.length b)); [apply Forall_nth; auto|rewrite nth_overflow by auto; unfold byte_ok; lia]. }
  rewrite get16_le by auto. unfold le16, word16. pose proof (B i). pose proof (B (i + 1)%nat). unfold byte_ok in *. lia.
Qed.
Lemma load_ok b : bytes_ok b -> regs_ok (mk4 (get16 b 0) (get16 b 2) (get16 b 4) (get16 b 6)).
Proof. intros. repeat split; apply get_ok; auto. Qed.
Theorem rc2_Encrypt_spec k b : bytes_ok b -> List.length b = 8%nat -> rc2_Encrypt k b = Ret (rc2_block k b).
Proof.
  intros Hb Hl. rewrite rc2_Encrypt_eq by auto. cbv zeta. pose proof (load_ok b Hb) as LO.
  destruct (enc_regs_spec k _ LO) as [E O]. unfold to_list at 1 in E. cbn [q0 q1 q2 q3] in E.
  destruct O as (O0 & O1 & O2 & O3). rewrite !put16_le by auto.
  destruct (block8 b Hl) as (b0 & b1 & b2 & b3 & b4 & b5 & b6 & b7 & ->). unfold rc2_block.
  apply bytes_ok_cons in Hb as [B0 Hb]. apply bytes_ok_cons in Hb as [B1 Hb]. apply bytes_ok_cons in Hb as [B2 Hb].
  apply bytes_ok_cons in Hb as [B3 Hb]. apply bytes_ok_cons in Hb as [B4 Hb]. apply bytes_ok_cons in Hb as [B5 Hb].
  apply bytes_ok_cons in Hb as [B6 Hb].
  set (l := [b0; b1; b2; b3; b4; b5; b6; b7]) in *.
  assert (G0 : le16 b0 b1 = get16 l 0) by (symmetry; apply (get16_le l 0); exact B0).
  assert (G2 : le16 b2 b3 = get16 l 2) by (symmetry; apply (get16_le l 2); exact B2).
  assert (G4 : le16 b4 b5 = get16 l 4) by (symmetry; apply (get16_le l 4); exact B4).
  assert (G6 : le16 b6 b7 = get16 l 6) by (symmetry; apply (get16_le l 6); exact B6).
  rewrite G0, G2, G4, G6. rewrite E. reflexivity.
Qed.

(** *** inverses *)
Lemma w16_add_sub r a b c : word16 r -> w16 (w16 (r + a + b + c) - a - b - c) = r.
Proof.
  intros H. unfold w16. replace ((r + a + b + c) mod 2 ^ 16 - a - b - c) with ((r + a + b + c) mod 2 ^ 16 - (a + b + c)) by ring.
  rewrite Zminus_mod_idemp_l. replace (r + a + b + c - (a + b + c)) with r by ring. apply Z.mod_small. exact H.
Qed.
Lemma w16_sub_add r a b c : word16 r -> w16 (w16 (r - a - b - c) + a + b + c) = r.
Proof.
  intros H. unfold w16. replace ((r - a - b - c) mod 2 ^ 16 + a + b + c) with ((r - a - b - c) mod 2 ^ 16 + (a + b + c)) by ring.
  rewrite Zplus_mod_idemp_l. replace (r - a - b - c + (a + b + c)) with r by ring. apply Z.mod_small. exact H.
Qed.
Lemma w16_add_sub1 r a : word16 r -> w16 (w16 (r + a) - a) = r.
Proof. intros H. unfold w16. rewrite Zminus_mod_idemp_l. replace (r + a - a) with r by ring. apply Z.mod_small. exact H. Qed.
Lemma w16_sub_add1 r a : word16 r -> w16 (w16 (r - a) + a) = r.
Proof. intros H. unfold w16. rewrite Zplus_mod_idemp_l. replace (r - a + a) with r by ring. apply Z.mod_small. exact H. Qed.
Lemma rotl_rotl' x b : word16 x -> 0 < b < 16 -> rotl16 (rotl16 x (16 - b)) b = x.
Proof. intros Hx Hb. replace b with (16 - (16 - b)) at 2 by lia. apply rotl_rotl; auto. lia. Qed.

Lemma dec_enc_mix k j s : regs_ok s -> dec_mix k (Z.of_nat j + 3) (enc_mix k j s) = s.
Proof.
  destruct s as [r0 r1 r2 r3]. unfold regs_ok. cbn [q0 q1 q2 q3]. intros (H0 & H1 & H2 & H3).
  unfold enc_mix, dec_mix.
  replace (Z.to_nat (Z.of_nat j + 3)) with (j + 3)%nat by lia. replace (Z.to_nat (Z.of_nat j + 3 - 1)) with (j + 2)%nat by lia.
  replace (Z.to_nat (Z.of_nat j + 3 - 2)) with (j + 1)%nat by lia. replace (Z.to_nat (Z.of_nat j + 3 - 3)) with j by lia.
  rewrite !rotl_rotl by (try apply w16_word; lia).
  rewrite !w16_add_sub by auto. reflexivity.
Qed.
Lemma enc_dec_mix k j s : regs_ok s -> enc_mix k j (dec_mix k (Z.of_nat j + 3) s) = s.
Proof.
  destruct s as [r0 r1 r2 r3]. unfold regs_ok. cbn [q0 q1 q2 q3]. intros (H0 & H1 & H2 & H3).
  unfold enc_mix, dec_mix.
  replace (Z.to_nat (Z.of_nat j + 3)) with (j + 3)%nat by lia. replace (Z.to_nat (Z.of_nat j + 3 - 1)) with (j + 2)%nat by lia.
  replace (Z.to_nat (Z.of_nat j + 3 - 2)) with (j + 1)%nat by lia. replace (Z.to_nat (Z.of_nat j + 3 - 3)) with j by lia.
  rewrite w16_sub_add by (apply rotl_word; auto; lia). rewrite rotl_rotl' by (auto; lia).
  rewrite w16_sub_add by (apply rotl_word; auto; lia). rewrite rotl_rotl' by (auto; lia).
  rewrite w16_sub_add by (apply rotl_word; auto; lia). rewrite rotl_rotl' by (auto; lia).
  rewrite w16_sub_add by (apply rotl_word; auto; lia). rewrite rotl_rotl' by (auto; lia). reflexivity.
Qed.
Lemma dec_enc_mash k s : regs_ok s -> dec_mash k (enc_mash k s) = s.
Proof.
  destruct s as [r0 r1 r2 r3]. unfold regs_ok. cbn [q0 q1 q2 q3]. intros (H0 & H1 & H2 & H3).
  unfold enc_mash, dec_mash. rewrite !w16_add_sub1 by auto. reflexivity.
Qed.
Lemma enc_dec_mash k s : regs_ok s -> enc_mash k (dec_mash k s) = s.
Proof.
  destruct s as [r0 r1 r2 r3]. unfold regs_ok. cbn [q0 q1 q2 q3]. intros (H0 & H1 & H2 & H3).
  unfold enc_mash, dec_mash. rewrite !w16_sub_add1 by auto. reflexivity.
Qed.
Ltac okk := repeat first [apply enc_mix_ok | apply enc_mash_ok | apply dec_mix_ok | apply dec_mash_ok | assumption].
Lemma dec_enc_regs k s : regs_ok s -> dec_regs k (enc_regs k s) = s.
Proof.
  intros H. unfold dec_regs, enc_regs, mix6, mix5, unmix5. cbn [Nat.add].
  change 63 with (Z.of_nat 60 + 3). change (Z.of_nat 60 + 3 - 4) with (Z.of_nat 56 + 3). change (Z.of_nat 60 + 3 - 8) with (Z.of_nat 52 + 3).
  change (Z.of_nat 60 + 3 - 12) with (Z.of_nat 48 + 3). change (Z.of_nat 60 + 3 - 16) with (Z.of_nat 44 + 3).
  rewrite !dec_enc_mix by okk. rewrite dec_enc_mash by okk.
  change 43 with (Z.of_nat 40 + 3). change (Z.of_nat 40 + 3 - 4) with (Z.of_nat 36 + 3). change (Z.of_nat 40 + 3 - 8) with (Z.of_nat 32 + 3).
  change (Z.of_nat 40 + 3 - 12) with (Z.of_nat 28 + 3). change (Z.of_nat 40 + 3 - 16) with (Z.of_nat 24 + 3). change 23 with (Z.of_nat 20 + 3).
  rewrite !dec_enc_mix by okk. rewrite dec_enc_mash by okk.
  change 19 with (Z.of_nat 16 + 3). change (Z.of_nat 16 + 3 - 4) with (Z.of_nat 12 + 3). change (Z.of_nat 16 + 3 - 8) with (Z.of_nat 8 + 3).
  change (Z.of_nat 16 + 3 - 12) with (Z.of_nat 4 + 3). change (Z.of_nat 16 + 3 - 16) with (Z.of_nat 0 + 3).
  rewrite !dec_enc_mix by okk. reflexivity.
Qed.
Lemma enc_dec_regs k s : regs_ok s -> enc_regs k (dec_regs k s) = s.
Proof.
  intros H. unfold dec_regs, enc_regs, mix6, mix5, unmix5. cbn [Nat.add].
  change 19 with (Z.of_nat 16 + 3). change (Z.of_nat 16 + 3 - 4) with (Z.of_nat 12 + 3). change (Z.of_nat 16 + 3 - 8) with (Z.of_nat 8 + 3).
  change (Z.of_nat 16 + 3 - 12) with (Z.of_nat 4 + 3). change (Z.of_nat 16 + 3 - 16) with (Z.of_nat 0 + 3).
  rewrite !enc_dec_mix by okk. rewrite enc_dec_mash by okk.
  change 43 with (Z.of_nat 40 + 3). change (Z.of_nat 40 + 3 - 4) with (Z.of_nat 36 + 3). change (Z.of_nat 40 + 3 - 8) with (Z.of_nat 32 + 3).
  change (Z.of_nat 40 + 3 - 12) with (Z.of_nat 28 + 3). change (Z.of_nat 40 + 3 - 16) with (Z.of_nat 24 + 3). change 23 with (Z.of_nat 20 + 3).
  rewrite !enc_dec_mix by okk. rewrite enc_dec_mash by okk.
  change 63 with (Z.of_nat 60 + 3). change (Z.of_nat 60 + 3 - 4) with (Z.of_nat 56 + 3). change (Z.of_nat 60 + 3 - 8) with (Z.of_nat 52 + 3).
  change (Z.of_nat 60 + 3 - 12) with (Z.of_nat 48 + 3). change (Z.of_nat 60 + 3 - 16) with (Z.of_nat 44 + 3).
  rewrite !enc_dec_mix by okk. reflexivity.
Qed.
Lemma get_put s (P : regs_ok s) : let b := put16 (q0 s) ++ put16 (q1 s) ++ put16 (q2 s) ++ put16 (q3 s) in
  List.length b = 8%nat /\ bytes_ok b /\ mk4 (get16 b 0) (get16 b 2) (get16 b 4) (get16 b 6) = s.
Proof.
  destruct s as [r0 r1 r2 r3]. destruct P as (H0 & H1 & H2 & H3). cbn [q0 q1 q2 q3] in *. cbv zeta.
  rewrite !put16_le by auto. unfold word16 in *. change (2 ^ 16) with 65536 in *. cbn [app]. split; [reflexivity|]. split.
  - repeat (apply bytes_ok_cons; split; [unfold byte_ok; lia|]). auto.
  - rewrite !get16_le by (cbn [nth Nat.add]; unfold byte_ok; lia). cbn [nth Nat.add]. unfold le16. f_equal; lia.
Qed.
Lemma put_get b : bytes_ok b -> List.length b = 8%nat ->
  put16 (get16 b 0) ++ put16 (get16 b 2) ++ put16 (get16 b 4) ++ put16 (get16 b 6) = b.
Proof.
  intros Hb Hl. rewrite !put16_le by (apply get_ok; auto).
  destruct (block8 b Hl) as (b0 & b1 & b2 & b3 & b4 & b5 & b6 & b7 & ->).
  apply bytes_ok_cons in Hb as [B0 Hb]. apply bytes_ok_cons in Hb as [B1 Hb]. apply bytes_ok_cons in Hb as [B2 Hb].
  apply bytes_ok_cons in Hb as [B3 Hb]. apply bytes_ok_cons in Hb as [B4 Hb]. apply bytes_ok_cons in Hb as [B5 Hb].
  apply bytes_ok_cons in Hb as [B6 Hb]. apply bytes_ok_cons in Hb as [B7 Hb].
  rewrite !get16_le by (cbn [nth Nat.add]; assumption). cbn [nth Nat.add app]. unfold le16, byte_ok in *.
  repeat (f_equal; [lia|]); f_equal; lia.
Qed.
Theorem rc2_dec_enc k b : bytes_ok b -> List.length b = 8%nat ->
  exists c, rc2_Encrypt k b = Ret c /\ bytes_ok c /\ List.length c = 8%nat /\ rc2_Decrypt k c = Ret b.
Proof.
  intros Hb Hl. rewrite rc2_Encrypt_eq by auto. cbv zeta. pose proof (load_ok b Hb) as LO.
  destruct (enc_regs_spec k _ LO) as [_ O]. pose proof (get_put _ O) as (L & B & G). eexists. split; [reflexivity|].
  split; [exact B|]. split; [exact L|]. rewrite rc2_Decrypt_eq by auto. cbv zeta. rewrite G, dec_enc_regs by auto.
  cbn [q0 q1 q2 q3]. rewrite put_get; auto.
Qed.
Theorem rc2_enc_dec k b : bytes_ok b -> List.length b = 8%nat ->
  exists c, rc2_Decrypt k b = Ret c /\ bytes_ok c /\ List.length c = 8%nat /\ rc2_Encrypt k c = Ret b.
Proof.
  intros Hb Hl. rewrite rc2_Decrypt_eq by auto. cbv zeta. pose proof (load_ok b Hb) as LO.
  assert (O : regs_ok (dec_regs k (mk4 (get16 b 0) (get16 b 2) (get16 b 4) (get16 b 6)))) by (unfold dec_regs, unmix5; apply dec_mix_ok).
  pose proof (get_put _ O) as (L & B & G). eexists. split; [reflexivity|].
  split; [exact B|]. split; [exact L|]. rewrite rc2_Encrypt_eq by auto. cbv zeta. rewrite G, enc_dec_regs by auto.
  cbn [q0 q1 q2 q3]. rewrite put_get; auto.
Qed.

(** *** key expansion *)
Notation nz := (fun (l : bytes) (i : Z) => nth (Z.to_nat i) l 0).
Lemma piTable_eq : piTable = PITABLE. Proof. reflexivity. Qed.
Lemma PI_eq i : nth (Z.to_nat i) piTable 0 = PI i. Proof. reflexivity. Qed.
Lemma PI_ok i : byte_ok (PI i).
Proof.
  unfold PI. assert (H : bytes_ok PITABLE) by (apply bytes_okb_spec; vm_compute; reflexivity).
  destruct (Nat.lt_ge_cases (Z.to_nat i) (List.length PITABLE)); [apply Forall_nth; auto|rewrite nth_overflow by auto; unfold byte_ok; lia].
Qed.
Lemma nth_byte_ok l i : bytes_ok l -> byte_ok (nth i l 0).
Proof. intros H. destruct (Nat.lt_ge_cases i (List.length l)); [apply Forall_nth; auto|rewrite nth_overflow by auto; unfold byte_ok; lia]. Qed.
Lemma bytes_ok_upd l i v : bytes_ok l -> byte_ok v -> bytes_ok (upd l i v).
Proof. intros H Hv. revert i. induction H; intros i; cbn [upd]; [destruct i; constructor|]. destruct i; constructor; auto. apply IHForall. Qed.
Lemma expand_up_spec t : forall n i l, 1 <= t <= i -> i + Z.of_nat n = 128 -> List.length l = 128%nat -> bytes_ok l ->
  exists l', expand_up n i t l = Ret l' /\ List.length l' = 128%nat /\ bytes_ok l' /\
    (forall j, 0 <= j < i -> nz l' j = nz l j) /\
    (forall j, i <= j < 128 -> nz l' j = PI ((nz l' (j - 1) + nz l' (j - t)) mod 256)).
Proof.
  induction n as [|n IH]; intros i l Ht Hi Hl Hb; cbn [expand_up].
  - exists l. repeat split; auto. intros; lia.
  - replace ((i - 1 <? 0) || (127 <? i - 1)) with false by lia.
    rewrite PI_eq. rewrite (Z.mod_small (i - t)) by lia.
    set (v := PI ((nth (Z.to_nat (i - 1)) l 0 + nth (Z.to_nat (i - t)) l 0) mod 256)).
    destruct (IH (i + 1) (upd l (Z.to_nat i) v)) as (l' & E & L & B & Lo & Hi'); [lia|lia|rewrite upd_length; auto| |].
    { apply bytes_ok_upd; auto. apply PI_ok. }
    exists l'. split; [exact E|]. split; [exact L|]. split; [exact B|]. cbn beta in *.
    assert (Lo' : forall j, 0 <= j < i -> nth (Z.to_nat j) l' 0 = nth (Z.to_nat j) l 0).
    { intros j Hj. rewrite Lo by lia. apply nth_upd_other. lia. }
    split; [exact Lo'|]. intros j Hj. destruct (Z.eq_dec j i) as [->|Hne]; [|apply Hi'; lia].
    rewrite Lo by lia. rewrite nth_upd_same by lia. unfold v. rewrite !Lo' by lia. reflexivity.
Qed.
Lemma expand_down_spec t8 : forall n l, 1 <= t8 -> Z.of_nat n + t8 <= 128 -> List.length l = 128%nat ->
  exists l', expand_down n t8 l = l' /\ List.length l' = 128%nat /\ (bytes_ok l -> bytes_ok l') /\
    (forall j, Z.of_nat n <= j -> nz l' j = nz l j) /\
    (forall j, 0 <= j < Z.of_nat n -> nz l' j = PI (Z.lxor (nz l' (j + 1)) (nz l' (j + t8)))).
Proof.
  induction n as [|n IH]; intros l Ht Hn Hl; cbn [expand_down].
  - exists l. repeat split; auto. intros; lia.
  - rewrite PI_eq. set (v := PI (Z.lxor (nth (n + 1) l 0) (nth (Z.to_nat (Z.of_nat n + t8)) l 0))).
    destruct (IH (upd l n v)) as (l' & E & L & B & Hi & Lo); [lia|lia|rewrite upd_length; auto|].
    exists l'. split; [exact E|]. split; [exact L|]. split; [intros Hb; apply B, bytes_ok_upd; auto; apply PI_ok|]. cbn beta in *.
    assert (Hi' : forall j, Z.of_nat (S n) <= j -> nth (Z.to_nat j) l' 0 = nth (Z.to_nat j) l 0).
    { intros j Hj. rewrite Hi by lia. apply nth_upd_other. lia. }
    split; [exact Hi'|]. intros j Hj. destruct (Z.eq_dec j (Z.of_nat n)) as [->|Hne]; [|apply Lo; lia].
    rewrite Hi by lia. rewrite Nat2Z.id, nth_upd_same by lia. unfold v. rewrite !Hi' by lia.
    do 3 f_equal. lia.
Qed.
(** a schedule is determined by its equations *)
Lemma schedule_unique key T1 K K' : 1 <= zlen key -> 1 <= T1 -> (T1 + 7) / 8 <= 128 -> key_schedule key T1 K -> key_schedule key T1 K' -> K = K'.
Proof.
  intros Hk H1 H8 (L & M & A1 & A2 & A3 & A4 & A5 & A6 & A7) (L' & M' & B1 & B2 & B3 & B4 & B5 & B6 & B7). cbv zeta in *.
  set (T8 := (T1 + 7) / 8) in *. assert (1 <= T8) by (unfold T8; lia). set (TM := 255 mod _) in *. clearbody TM. clearbody T8. clear H1. pose proof (zlen_nonneg key) as Zk. set (t := zlen key) in *. clearbody t.
  assert (EL : forall n i, i = Z.of_nat n -> i < 128 -> L i = L' i).
  { induction n as [n IH] using lt_wf_ind. intros i Ei Hi.
    destruct (Z_lt_ge_dec i t). { rewrite A1, B1 by lia. reflexivity. }
    rewrite A2, B2 by lia.
    assert (Q1 : L (i - 1) = L' (i - 1)) by (apply (IH (Z.to_nat (i - 1))); lia).
    assert (Q2 : L (i - t) = L' (i - t)) by (apply (IH (Z.to_nat (i - t))); lia). rewrite Q1, Q2. reflexivity. }
  assert (EL' : forall i, 0 <= i < 128 -> L i = L' i) by (intros i Hi; apply (EL (Z.to_nat i)); lia).
  assert (EM : forall n i, i = 127 - Z.of_nat n -> 0 <= i -> M i = M' i).
  { induction n as [n IH] using lt_wf_ind. intros i Ei Hi.
    destruct (Z_lt_ge_dec i (128 - T8)).
    - rewrite A5, B5 by lia.
      assert (Q1 : M (i + 1) = M' (i + 1)) by (apply (IH (n - 1)%nat); clear - Ei Hi l H; lia).
      assert (Q2 : M (i + T8) = M' (i + T8)) by (apply (IH (Z.to_nat (127 - (i + T8)))); clear - Ei Hi l H; lia). rewrite Q1, Q2. reflexivity.
    - destruct (Z.eq_dec i (128 - T8)) as [->|]; [rewrite A4, B4, EL' by lia; reflexivity|].
      rewrite A3, B3, EL' by lia. reflexivity. }
  apply (nth_ext _ _ 0 0); [congruence|]. rewrite A6. intros n Hn.
  specialize (A7 (Z.of_nat n) ltac:(lia)). specialize (B7 (Z.of_nat n) ltac:(lia)). rewrite Nat2Z.id in *. rewrite A7, B7.
  assert (Hn' : (n < 64)%nat) by exact Hn.
  rewrite (EM (Z.to_nat (127 - 2 * Z.of_nat n))) by (clear - Hn'; lia). rewrite (EM (Z.to_nat (127 - (2 * Z.of_nat n + 1))) (2 * Z.of_nat n + 1)) by (clear - Hn'; lia). reflexivity.
Qed.
Theorem expandKey_schedule key T1 : bytes_ok key -> 1 <= zlen key <= 128 -> 1 <= T1 <= 1024 ->
  exists K, expandKey key T1 = Ret K /\ key_schedule key T1 K.
Proof.
  intros Hb Hk H1. unfold expandKey. set (t := zlen key) in *.
  assert (Q : Z.quot (T1 + 7) 8 = (T1 + 7) / 8) by (apply Z.quot_div_nonneg; lia). rewrite Q.
  set (t8 := (T1 + 7) / 8) in *. assert (R8 : 1 <= t8 <= 128) by (unfold t8; lia).
  assert (E8 : 1 <= 8 + T1 - 8 * t8 <= 8) by (unfold t8; lia).
  assert (TM : Z.rem 255 (2 ^ (8 + T1 - 8 * t8)) mod 256 = 255 mod 2 ^ (8 + T1 - 8 * t8)).
  { pose proof (Z.pow_pos_nonneg 2 (8 + T1 - 8 * t8) ltac:(lia) ltac:(lia)). rewrite Z.rem_mod_nonneg by lia.
    apply Z.mod_small. pose proof (Z.mod_le 255 (2 ^ (8 + T1 - 8 * t8)) ltac:(lia) ltac:(lia)).
    pose proof (Z.mod_pos_bound 255 (2 ^ (8 + T1 - 8 * t8)) ltac:(lia)). lia. }
  rewrite TM. set (tm := 255 mod _).
  set (l0 := firstn 128 (key ++ repeat 0 128)).
  assert (L0 : List.length l0 = 128%nat) by (unfold l0; rewrite firstn_length, app_length, repeat_length; lia).
  assert (B0 : bytes_ok l0) by (apply bytes_ok_firstn, bytes_ok_app; split; auto; apply bytes_ok_repeat; unfold byte_ok; lia).
  assert (K0 : forall i, 0 <= i < t -> nth (Z.to_nat i) l0 0 = nth (Z.to_nat i) key 0).
  { intros i Hi. unfold l0. unfold t, zlen in *.
    transitivity (nth (Z.to_nat i) (key ++ repeat 0 128) 0).
    - rewrite <- (firstn_skipn 128 (key ++ repeat 0 128)) at 2. rewrite (app_nth1 (firstn 128 _)); [reflexivity|].
      rewrite firstn_length, app_length, repeat_length. lia.
    - apply app_nth1. lia. }
  destruct (expand_up_spec t (Z.to_nat (128 - t)) t l0 ltac:(lia) ltac:(lia) L0 B0) as (l1 & E1 & L1 & B1 & Lo1 & Hi1).
  rewrite E1. cbn [bind]. replace ((128 - t8 <? 0) || (127 <? 128 - t8)) with false by lia.
  rewrite PI_eq. set (v := PI (Z.land (nth (Z.to_nat (128 - t8)) l1 0) tm)).
  destruct (expand_down_spec t8 (Z.to_nat (128 - t8)) (upd l1 (Z.to_nat (128 - t8)) v) ltac:(lia) ltac:(lia) ltac:(rewrite upd_length; auto))
    as (l2 & E2 & L2 & B2 & Hi2 & Lo2).
  rewrite E2. cbn beta in *. eexists. split; [reflexivity|].
  assert (B2' : bytes_ok l2) by (apply B2, bytes_ok_upd; auto; apply PI_ok).
  exists (fun i => nth (Z.to_nat i) l1 0), (fun i => nth (Z.to_nat i) l2 0). fold t. fold t8. fold tm. cbn beta.
  clear TM. clearbody tm.
  split; [intros i Hi; rewrite Lo1 by lia; apply K0; lia|]. split; [exact Hi1|].
  split; [intros i Hi; rewrite Hi2 by lia; apply nth_upd_other; lia|].
  split; [rewrite Hi2 by lia; rewrite nth_upd_same by lia; reflexivity|].
  split; [intros i Hi; apply Lo2; lia|].
  split; [rewrite map_length, seq_length; reflexivity|].
  intros i Hi. set (f := fun i0 => w16 _). rewrite (nth_indep _ 0 (f 0%nat)) by (rewrite map_length, seq_length; lia).
  rewrite map_nth, seq_nth by lia. unfold f. cbn [Nat.add].
  replace (Z.to_nat (2 * i)) with (2 * Z.to_nat i)%nat by lia. replace (Z.to_nat (2 * i + 1)) with (2 * Z.to_nat i + 1)%nat by lia.
  pose proof (nth_byte_ok l2 (2 * Z.to_nat i) B2') as X1. pose proof (nth_byte_ok l2 (2 * Z.to_nat i + 1) B2') as X2. unfold byte_ok in *.
  unfold w16. rewrite (Z.mod_small (_ * 256)) by lia. rewrite Z.mod_small by lia. lia.
Qed.
Lemma expand_up_0 n t l : expand_up (S n) 0 t l = Panic. Proof. reflexivity. Qed.
(** outside those ranges (t1 >= 0) it panics when the key is empty or the effective length is 0 or above 1024 *)
Lemma expandKey_panics key T1 : bytes_ok key -> zlen key <= 128 -> 0 <= T1 -> (zlen key = 0 \/ T1 = 0 \/ 1024 < T1) -> expandKey key T1 = Panic.
Proof.
  intros Hb Hk H1 H. unfold expandKey.
  assert (Q : Z.quot (T1 + 7) 8 = (T1 + 7) / 8) by (apply Z.quot_div_nonneg; lia). rewrite Q.
  destruct (Z.eq_dec (zlen key) 0) as [->|Hne].
  - change (Z.to_nat (128 - 0)) with (S 127). rewrite expand_up_0. reflexivity.
  - set (l0 := firstn 128 (key ++ repeat 0 128)).
    assert (L0 : List.length l0 = 128%nat) by (unfold l0; rewrite firstn_length, app_length, repeat_length; lia).
    assert (B0 : bytes_ok l0) by (apply bytes_ok_firstn, bytes_ok_app; split; auto; apply bytes_ok_repeat; unfold byte_ok; lia).
    pose proof (zlen_nonneg key).
    destruct (expand_up_spec (zlen key) (Z.to_nat (128 - zlen key)) (zlen key) l0 ltac:(lia) ltac:(lia) L0 B0) as (l1 & E1 & L1 & _).
    rewrite E1. cbn [bind]. replace ((128 - (T1 + 7) / 8 <? 0) || (127 <? 128 - (T1 + 7) / 8)) with true by lia. reflexivity.
Qed.
