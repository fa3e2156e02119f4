(** * pbkdf.go computes RFC 7292 B.2 *)
From Verif Require Import Base PbkdfModel PbkdfSpec.
From Coq Require Import ZifyBool ZifyNat.
Ltac Zify.zify_post_hook ::= Z.div_mod_to_equations.

Lemma nth_map_seq (f : nat -> Z) s n k : (k < n)%nat -> nth k (map f (seq s n)) 0 = f (s + k)%nat.
Proof. intros H. rewrite (nth_indep _ 0 (f 0%nat)) by (rewrite map_length, seq_length; lia). rewrite map_nth, seq_nth by lia. reflexivity. Qed.
Lemma seq_shift_n a n : seq a n = map (fun i => a + i)%nat (seq 0 n).
Proof.
  apply (nth_ext _ _ 0%nat 0%nat); [rewrite map_length, !seq_length; reflexivity|]. rewrite seq_length. intros k Hk.
  rewrite seq_nth by lia. rewrite (nth_indep _ 0%nat (a + 0)%nat) by (rewrite map_length, seq_length; lia).
  rewrite (map_nth (fun i => a + i)%nat), seq_nth by lia. reflexivity.
Qed.
Lemma cyc_app p n m : (0 < List.length p)%nat -> (n <= m * List.length p)%nat ->
  firstn n (List.concat (repeat p m)) = map (fun i => nth (i mod List.length p) p 0) (seq 0 n).
Proof.
  intros Hp. revert n. induction m as [|m IH]; intros n Hn.
  - replace n with 0%nat by lia. reflexivity.
  - cbn [repeat List.concat]. destruct (Nat.le_gt_cases n (List.length p)) as [Hle|Hgt].
    + rewrite firstn_app. replace (n - List.length p)%nat with 0%nat by lia. cbn [firstn]. rewrite app_nil_r.
      apply (nth_ext _ _ 0 0). { rewrite firstn_length, map_length, seq_length. lia. }
      rewrite firstn_length. intros k Hk. rewrite nth_map_seq by lia. cbn [Nat.add]. rewrite Nat.mod_small by lia.
      rewrite <- (firstn_skipn n p) at 2. rewrite app_nth1 by (rewrite firstn_length; lia). reflexivity.
    + rewrite firstn_app. rewrite firstn_all2 by lia. rewrite IH by lia.
      replace n with (List.length p + (n - List.length p))%nat at 2 by lia. rewrite seq_app, map_app. f_equal.
      * apply (nth_ext _ _ 0 0). { rewrite map_length, seq_length. reflexivity. }
        intros k Hk. rewrite nth_map_seq by lia. cbn [Nat.add]. rewrite Nat.mod_small by lia. reflexivity.
      * cbn [Nat.add]. rewrite (seq_shift_n (List.length p)). rewrite map_map. apply map_ext. intros a.
        f_equal. rewrite <- (Nat.mul_1_l (List.length p)) at 2. rewrite Nat.add_comm, Nat.mod_add by lia. reflexivity.
Qed.
Lemma fill_eq p v : (0 < v)%nat -> fillWithRepeats p (Z.of_nat v) = fill v p.
Proof.
  intros Hv. unfold fillWithRepeats, fill, ceil_div. destruct p as [|x p'].
  - cbn [List.length]. replace ((0 + v - 1) / v)%nat with 0%nat by (rewrite Nat.div_small; lia). rewrite Nat.mul_0_r. reflexivity.
  - set (p := x :: p'). assert (Hp : (0 < List.length p)%nat) by (cbn; lia). clearbody p. unfold zlen.
    set (L := (v * ((List.length p + v - 1) / v))%nat).
    assert (EL : Z.of_nat v * ((Z.of_nat (List.length p) + Z.of_nat v - 1) / Z.of_nat v) = Z.of_nat L).
    { unfold L. rewrite Nat2Z.inj_mul, Nat2Z.inj_div. do 2 f_equal. lia. }
    rewrite EL, Nat2Z.id. clearbody L. clear EL. unfold bytes_Repeat. apply cyc_app; auto.
    assert (EQ : Z.to_nat ((Z.of_nat L + Z.of_nat (List.length p) - 1) / Z.of_nat (List.length p)) = ((L + List.length p - 1) / List.length p)%nat).
    { rewrite <- (Nat2Z.id ((L + List.length p - 1) / List.length p)). f_equal. rewrite Nat2Z.inj_div. f_equal. lia. }
    rewrite EQ. pose proof (Nat.div_mod (L + List.length p - 1) (List.length p) ltac:(lia)) as DM.
    pose proof (Nat.mod_upper_bound (L + List.length p - 1) (List.length p) ltac:(lia)). nia.
Qed.
Lemma hash_loop_iter H n x : hash_loop H n (H x) = H_iter H (S n) x.
Proof.
  assert (G : forall n x, hash_loop H n x = H_iter H n x).
  { clear. induction n as [|n IH]; intros x; cbn [hash_loop H_iter]; auto. rewrite IH. clear IH.
    induction n; cbn [H_iter]; auto. rewrite IHn. reflexivity. }
  rewrite G. clear G. induction n; cbn [H_iter] in *; auto. rewrite IHn. reflexivity.
Qed.
Lemma repeat_to_concat v A : (0 < List.length A)%nat -> forall fuel m, (v <= m * List.length A + fuel)%nat ->
  exists m', repeat_to fuel v A (List.concat (repeat A m)) = List.concat (repeat A m') /\ (v <= m' * List.length A)%nat.
Proof.
  intros HA. assert (LC : forall m, List.length (List.concat (repeat A m)) = (m * List.length A)%nat).
  { induction m; cbn [repeat List.concat]; auto. rewrite app_length, IHm. lia. }
  assert (SC : forall m, List.concat (repeat A m) ++ A = List.concat (repeat A (S m))).
  { induction m; cbn [repeat List.concat] in *; [rewrite app_nil_r; reflexivity|]. rewrite <- app_assoc, IHm. reflexivity. }
  induction fuel as [|f IH]; intros m Hm; cbn [repeat_to].
  - exists m. split; auto. lia.
  - rewrite LC. destruct (Nat.ltb_spec (m * List.length A) v).
    + rewrite SC. apply IH. lia.
    + exists m. split; auto.
Qed.
Lemma B_eq v A : (0 < List.length A)%nat -> firstn v (repeat_to v v A []) = B_of v A.
Proof.
  intros HA. destruct (repeat_to_concat v A HA v 0 ltac:(lia)) as (m & E & Hm). cbn [repeat List.concat] in E. rewrite E.
  apply cyc_app; auto.
Qed.
Lemma pow256_2 v : 256 ^ Z.of_nat v = 2 ^ (8 * Z.of_nat v).
Proof. rewrite Z.pow_mul_r by lia. reflexivity. Qed.
Lemma skipn_to_be n m z : (m <= n)%nat -> skipn (n - m) (Z_to_be n z) = Z_to_be m z.
Proof.
  revert n z. induction m as [|m IH]; intros n z H.
  - rewrite Nat.sub_0_r, skipn_all2 by (rewrite Z_to_be_length; lia). reflexivity.
  - destruct n as [|n]; [lia|]. cbn [Z_to_be]. replace (S n - S m)%nat with (n - m)%nat by lia.
    rewrite skipn_app, Z_to_be_length. replace (n - m - n)%nat with 0%nat by lia. rewrite IH by lia. reflexivity.
Qed.
Lemma Z_to_be_mod n z : Z_to_be n (z mod 256 ^ Z.of_nat n) = Z_to_be n z.
Proof.
  rewrite <- (Z_to_be_be_to_Z (Z_to_be n z)) by apply Z_to_be_ok. rewrite Z_to_be_length, be_to_Z_to_be. reflexivity.
Qed.
Lemma add_block_eq v I B : bytes_ok I -> bytes_ok B ->
  add_block v I B = Z_to_be v ((be_to_Z I + be_to_Z B + 1) mod 2 ^ (8 * Z.of_nat v)).
Proof.
  intros HI HB. unfold add_block. rewrite <- pow256_2, Z_to_be_mod. set (z := be_to_Z I + be_to_Z B + 1).
  assert (Hz : 0 <= z) by (unfold z; pose proof (be_to_Z_nonneg I HI); pose proof (be_to_Z_nonneg B HB); lia). clearbody z.
  unfold big_bytes. rewrite Z.abs_eq by lia. rewrite !Z_to_be_length. pose proof (nbytes_upper z Hz) as Up.
  destruct (Nat.ltb_spec v (nbytes z)).
  - rewrite skipn_to_be by lia. rewrite Z_to_be_length. replace (v <? v)%nat with false by lia. reflexivity.
  - rewrite Z_to_be_length. destruct (Nat.ltb_spec (nbytes z) v).
    + replace v with (v - nbytes z + nbytes z)%nat at 2 by lia. rewrite Z_to_be_pad by lia. reflexivity.
    + replace v with (nbytes z) by lia. reflexivity.
Qed.
(** the block loop: blocks before j done, the rest untouched *)
Lemma blocks_loop_spec v B : (0 < v)%nat -> bytes_ok B -> forall n j pre rest,
  List.length pre = (j * v)%nat -> List.length rest = (n * v)%nat -> bytes_ok rest ->
  blocks_loop n j v B (pre ++ rest) =
  pre ++ flat_map (fun k => Z_to_be v ((be_to_Z (block v rest k) + be_to_Z B + 1) mod 2 ^ (8 * Z.of_nat v))) (seq 0 n).
Proof.
  intros Hv HB. induction n as [|n IH]; intros j pre rest Hp Hr Ho; cbn [blocks_loop].
  - cbn [seq flat_map]. destruct rest; [reflexivity|]. discriminate Hr.
  - assert (Hs : skipn (j * v) (pre ++ rest) = rest) by (apply skipn_app_exact; auto). rewrite Hs.
    assert (Hf : firstn (j * v) (pre ++ rest) = pre) by (apply firstn_app_exact; auto). rewrite Hf.
    assert (Hk : skipn ((j + 1) * v) (pre ++ rest) = skipn v rest).
    { rewrite skipn_app. rewrite skipn_all2 by lia. cbn [app]. f_equal. lia. }
    rewrite Hk. rewrite add_block_eq by (auto; apply bytes_ok_firstn; auto). rewrite app_assoc.
    rewrite IH.
    + rewrite <- app_assoc. f_equal. cbn [seq flat_map]. unfold block at 2. cbn [Nat.mul skipn]. f_equal.
      rewrite <- seq_shift. rewrite !flat_map_concat_map, map_map. f_equal. apply map_ext. intros k.
      unfold block. cbn [Nat.mul]. do 6 f_equal. clear. revert rest. generalize (k * v)%nat. intros m rest.
      revert rest. induction v as [|w IHw]; intros rest; [reflexivity|]. destruct rest; cbn [skipn Nat.add]; [destruct m; reflexivity|]. apply IHw.
    + rewrite app_length, Z_to_be_length. lia.
    + rewrite skipn_length. lia.
    + apply bytes_ok_skipn; auto.
Qed.
Lemma next_I_length v I B : (0 < v)%nat -> List.length (next_I v I B) = (List.length I / v * v)%nat.
Proof.
  intros Hv. unfold next_I. generalize (List.length I / v)%nat. intros n. rewrite flat_map_concat_map.
  rewrite <- (seq_length n 0) at 2. induction (seq 0 n) as [|a l IH]; cbn [map List.concat List.length]; auto.
  rewrite app_length, Z_to_be_length, IH. lia.
Qed.
Lemma next_I_ok v I B : bytes_ok (next_I v I B).
Proof. unfold next_I. induction (seq 0 _); cbn [flat_map]; [constructor|]. apply bytes_ok_app. split; [apply Z_to_be_ok|auto]. Qed.
Lemma blocks_eq v I B : (0 < v)%nat -> bytes_ok I -> bytes_ok B -> (List.length I mod v = 0)%nat ->
  blocks_loop (List.length I / v) 0 v B I = next_I v I B.
Proof.
  intros Hv HI HB Hm. rewrite <- (app_nil_l I) at 2. rewrite blocks_loop_spec; auto. pose proof (Nat.div_mod (List.length I) v ltac:(lia)). nia.
Qed.
Lemma copy_at_exact (A1 A2 src : bytes) off : off = List.length A1 -> (List.length src <= List.length A2)%nat ->
  copy_at (A1 ++ A2) off src = A1 ++ src ++ skipn (List.length src) A2.
Proof.
  intros -> H. unfold copy_at. rewrite app_length. replace (List.length A1 + List.length A2 - List.length A1)%nat with (List.length A2) by lia.
  rewrite Nat.min_r by lia. rewrite firstn_app_exact by auto. rewrite firstn_all. f_equal. f_equal.
  rewrite skipn_app, skipn_all2 by lia. cbn [app]. f_equal. lia.
Qed.
Lemma fill_mod v p : (0 < v)%nat -> (List.length (fill v p) mod v = 0)%nat.
Proof. intros H. unfold fill. rewrite map_length, seq_length, Nat.mul_comm. apply Nat.mod_mul. lia. Qed.
Lemma fill_ok v p : bytes_ok p -> bytes_ok (fill v p).
Proof.
  intros H. unfold fill. apply Forall_forall. intros x Hx. apply in_map_iff in Hx as (i & <- & _).
  destruct (Nat.lt_ge_cases (i mod List.length p) (List.length p)); [apply Forall_nth; auto|rewrite nth_overflow by auto; unfold byte_ok; lia].
Qed.
Section Main.
Variable H : bytes -> bytes.
Hypothesis H_len : forall x, List.length (H x) = 20%nat.
Hypothesis H_ok : forall x, bytes_ok (H x).
Variable v : nat.
Hypothesis Hv : (0 < v)%nat.
Variables (salt pwd : bytes) (r ID : Z).
Hypothesis Hs : bytes_ok salt.
Hypothesis Hp : bytes_ok pwd.
Let R := S (Z.to_nat (r - 1)).
Lemma H_iter_len n x : List.length (H_iter H (S n) x) = 20%nat. Proof. cbn [H_iter]. apply H_len. Qed.
Lemma H_iter_ok n x : bytes_ok (H_iter H (S n) x). Proof. cbn [H_iter]. apply H_ok. Qed.
Lemma B_of_ok A : bytes_ok A -> bytes_ok (B_of v A).
Proof.
  intros HA. unfold B_of. apply Forall_forall. intros x Hx. apply in_map_iff in Hx as (i & <- & _).
  destruct (Nat.lt_ge_cases (i mod List.length A) (List.length A)); [apply Forall_nth; auto|rewrite nth_overflow by auto; unfold byte_ok; lia].
Qed.
Lemma I_at_inv i : bytes_ok (I_at H v salt pwd R ID i) /\ (List.length (I_at H v salt pwd R ID i) mod v = 0)%nat.
Proof.
  induction i as [|i IH]; cbn [I_at].
  - split; [apply bytes_ok_app; split; apply fill_ok; auto|]. rewrite app_length. rewrite Nat.add_mod by lia. rewrite !fill_mod by auto. apply Nat.mod_0_l. lia.
  - split; [apply next_I_ok|]. rewrite next_I_length by auto. apply Nat.mod_mul. lia.
Qed.
Lemma A_at_len i : List.length (A_at H v salt pwd R ID i) = 20%nat. Proof. apply H_iter_len. Qed.
Lemma A_run_len i n : List.length (flat_map (A_at H v salt pwd R ID) (seq i n)) = (n * 20)%nat.
Proof. revert i. induction n; intros i; cbn [seq flat_map]; auto. rewrite app_length, A_at_len, IHn. lia. Qed.
Lemma loop_spec : forall n i c Apre, (i + n = c)%nat -> List.length Apre = (i * 20)%nat ->
  pbkdf_loop H n i c v r (repeat ID v) (I_at H v salt pwd R ID i) (Apre ++ repeat 0 (n * 20)) = Apre ++ flat_map (A_at H v salt pwd R ID) (seq i n).
Proof.
  induction n as [|n IH]; intros i c Apre Hc Ha; cbn [pbkdf_loop].
  - cbn [seq flat_map repeat Nat.mul]. reflexivity.
  - rewrite hash_loop_iter. fold R. change (H_iter H R (repeat ID v ++ I_at H v salt pwd R ID i)) with (A_at H v salt pwd R ID i).
    rewrite copy_at_exact; [|auto|rewrite A_at_len, repeat_length; lia]. rewrite A_at_len.
    replace (skipn 20 (repeat 0 (S n * 20))) with (repeat 0 (n * 20)).
    2:{ replace (S n * 20)%nat with (20 + n * 20)%nat by lia. rewrite repeat_app. rewrite skipn_app_exact by (rewrite repeat_length; reflexivity). reflexivity. }
    destruct n as [|n].
    + cbn [pbkdf_loop]. cbn [Nat.mul repeat]. rewrite app_nil_r. cbn [seq flat_map]. rewrite app_nil_r. reflexivity.
    + replace (i <? c - 1)%nat with true by lia. rewrite B_eq by (rewrite A_at_len; lia).
      destruct (I_at_inv i) as [Io Im]. rewrite blocks_eq; auto; [|apply B_of_ok; apply H_iter_ok].
      change (next_I v (I_at H v salt pwd R ID i) (B_of v (A_at H v salt pwd R ID i))) with (I_at H v salt pwd R ID (S i)).
      replace (i + 1)%nat with (S i) by lia. rewrite app_assoc. rewrite IH; [|lia|rewrite app_length, A_at_len; lia].
      rewrite <- app_assoc. f_equal.
Qed.
Theorem pbkdf_kdf size : 0 <= size -> pbkdf H 20 (Z.of_nat v) salt pwd r ID size = Ret (kdf H 20 v salt pwd (Z.to_nat (Z.max r 1)) ID (Z.to_nat size)).
Proof.
  intros Hz. unfold pbkdf. rewrite !fill_eq by auto. rewrite Nat2Z.id.
  replace (Z.to_nat (Z.quot (size + 20 - 1) 20)) with (ceil_div (Z.to_nat size) 20).
  2:{ unfold ceil_div. rewrite Z.quot_div_nonneg by lia. lia. }
  set (c := ceil_div (Z.to_nat size) 20).
  pose proof (loop_spec c 0 c [] ltac:(lia) eq_refl) as E. cbn [app I_at] in E. rewrite E.
  replace (Z.to_nat (Z.max r 1)) with R by (unfold R; lia).
  assert (Hc : (Z.to_nat size <= c * 20)%nat) by (unfold c, ceil_div; lia).
  unfold zlen. rewrite A_run_len. replace ((size <? 0) || (Z.of_nat (c * 20) <? size)) with false by lia. reflexivity.
Qed.
Lemma pbkdf_neg size : size < 0 -> pbkdf H 20 (Z.of_nat v) salt pwd r ID size = Panic.
Proof. intros Hz. unfold pbkdf. replace (size <? 0) with true by lia. reflexivity. Qed.
Lemma kdf_length n R' : (0 < R')%nat -> List.length (kdf H 20 v salt pwd R' ID n) = n.
Proof.
  intros HR. unfold kdf. rewrite firstn_length. assert (L : forall i m, List.length (flat_map (A_at H v salt pwd R' ID) (seq i m)) = (m * 20)%nat).
  { intros i m. revert i. induction m; intros i; cbn [seq flat_map]; auto. rewrite app_length, IHm. unfold A_at. destruct R'; [lia|]. cbn [H_iter]. rewrite H_len. lia. }
  rewrite L. unfold ceil_div. lia.
Qed.
End Main.
