(** * The curve arithmetic model computes the group; order of the SM2 base point. *)
From Coq Require Import Znumtheory.
From Verif Require Import Base ECSpec ECModel NumTheory FastMod Primes ECBridge.
Open Scope Z_scope.

Section Generic.
Variables p a b : Z.
Hypothesis Hp : prime p.
Hypothesis Hp3 : 3 < p.
Hypothesis Hdisc : (4 * (a * a * a) + 27 * (b * b)) mod p <> 0.
Notation oc := (on_curve p a b).
Notation add := (padd p a).
Notation mul := (pmul p a).

Lemma padd_0_l A : add PO A = A. Proof. reflexivity. Qed.
Lemma padd_0_r A : add A PO = A. Proof. destruct A; reflexivity. Qed.
Lemma pmul_0 A : mul 0 A = PO. Proof. reflexivity. Qed.
Lemma pmul_1 A : mul 1 A = A. Proof. unfold pmul. simpl. apply padd_0_r. Qed.
Lemma pmul_succ k A : 0 <= k -> mul (k + 1) A = add A (mul k A).
Proof. intros. unfold pmul. rewrite Z2Nat.inj_add by lia. rewrite Nat.add_comm. reflexivity. Qed.
Lemma pmul_closed k A : oc A -> oc (mul k A).
Proof.
  intros HA. unfold pmul. induction (Z.to_nat k); simpl; auto.
  apply padd_closed; auto.
Qed.
Lemma pmul_add i j A : oc A -> 0 <= i -> 0 <= j -> mul (i + j) A = add (mul i A) (mul j A).
Proof.
  intros HA Hi Hj. pattern i. apply natlike_ind; auto; clear i Hi.
  intros i Hi IH. unfold Z.succ. replace (i + 1 + j) with ((i + j) + 1) by lia.
  rewrite !pmul_succ by lia. rewrite IH. apply padd_assoc with (b := b); auto using pmul_closed.
Qed.
Lemma pmul_O k : mul k PO = PO.
Proof. unfold pmul. induction (Z.to_nat k); simpl; auto. Qed.
Lemma pmul_mul i j A : oc A -> 0 <= i -> 0 <= j -> mul (i * j) A = mul i (mul j A).
Proof.
  intros HA Hi Hj. pattern i. apply natlike_ind; auto; clear i Hi.
  intros i Hi IH. unfold Z.succ. rewrite Z.mul_add_distr_r, Z.mul_1_l, pmul_succ by lia.
  rewrite Z.add_comm. rewrite pmul_add by (auto; nia). rewrite IH. reflexivity.
Qed.
Lemma pmul_padd i A B : oc A -> oc B -> mul i (add A B) = add (mul i A) (mul i B).
Proof.
  intros HA HB. unfold pmul. induction (Z.to_nat i) as [|n IH]; simpl; auto.
  assert (HC : forall m C, oc C -> oc (Nat.iter m (add C) PO)).
  { intros m C HC'. induction m; simpl; auto. apply padd_closed; auto. }
  pose proof (HC n A HA) as H1. pose proof (HC n B HB) as H2.
  rewrite IH.
  assert (Hs : oc (add (Nat.iter n (add A) PO) (Nat.iter n (add B) PO))) by (apply padd_closed; auto).
  rewrite <- (padd_assoc p a b Hp Hp3 Hdisc A B) by auto.
  rewrite <- (padd_assoc p a b Hp Hp3 Hdisc A) by (auto using padd_closed).
  f_equal. rewrite (padd_assoc p a b Hp Hp3 Hdisc B) by auto.
  rewrite (padd_comm p a b Hp Hp3 Hdisc B) by auto.
  rewrite <- (padd_assoc p a b Hp Hp3 Hdisc) by auto. reflexivity.
Qed.

Section Order.
Variables (n : Z) (G : pt).
Hypothesis Hn : prime n.
Hypothesis HG : oc G.
Hypothesis HG0 : G <> PO.
Hypothesis HnG : mul n G = PO.

Lemma pmul_order_mod k : 0 <= k -> mul k G = mul (k mod n) G.
Proof.
  intros Hk. pose proof (prime_ge_2 _ Hn). pose proof (Z.mod_pos_bound k n ltac:(lia)).
  assert (0 <= k / n) by (apply Z.div_pos; lia).
  rewrite (Z.div_mod k n) at 1 by lia. rewrite pmul_add; auto; try lia.
  rewrite Z.mul_comm, pmul_mul, HnG, pmul_O by (auto; lia). reflexivity.
Qed.
Lemma pmul_nonzero k : 0 < k < n -> mul k G <> PO.
Proof.
  intros Hk E. pose proof (prime_ge_2 _ Hn).
  destruct (ModInverse_prime k n Hn) as [u [_ [Bu Hu]]]. { rewrite Z.mod_small; lia. }
  apply HG0. rewrite <- (pmul_1 G). rewrite <- Hu. rewrite <- pmul_order_mod by nia.
  rewrite pmul_mul by (auto; lia). rewrite E. apply pmul_O.
Qed.
Lemma pmul_zero_iff k : 0 <= k -> (mul k G = PO <-> k mod n = 0).
Proof.
  intros Hk. pose proof (prime_ge_2 _ Hn). rewrite pmul_order_mod by auto.
  pose proof (Z.mod_pos_bound k n ltac:(lia)). split; intro E.
  - destruct (Z.eq_dec (k mod n) 0); auto. exfalso. apply (pmul_nonzero (k mod n)); auto; lia.
  - rewrite E. apply pmul_0.
Qed.
Lemma pmul_inj i j : 0 <= i < n -> 0 <= j < n -> mul i G = mul j G -> i = j.
Proof.
  assert (W : forall i j, 0 <= i < n -> 0 <= j < n -> i <= j -> mul i G = mul j G -> i = j).
  { intros i' j' Hi Hj Hle E.
    assert (E2 : mul (j' + (n - i')) G = PO).
    { rewrite pmul_add by (auto; lia). rewrite <- E. rewrite <- pmul_add by (auto; lia).
      replace (i' + (n - i')) with n by lia. exact HnG. }
    apply pmul_zero_iff in E2; [|lia].
    replace (j' + (n - i')) with ((j' - i') + 1 * n) in E2 by lia.
    rewrite Z.mod_add in E2 by lia. rewrite Z.mod_small in E2; lia. }
  intros Hi Hj E. destruct (Z_le_gt_dec i j). { apply W; auto. } symmetry. apply W; auto; lia.
Qed.
Lemma pmul_cong i j : 0 <= i -> 0 <= j -> (mul i G = mul j G <-> i mod n = j mod n).
Proof.
  intros Hi Hj. pose proof (prime_ge_2 _ Hn). rewrite (pmul_order_mod i), (pmul_order_mod j) by auto.
  split; intro E; [|congruence]. apply pmul_inj; auto; apply Z.mod_pos_bound; lia.
Qed.
End Order.

(** ** model functions *)
Section Model.
Hypothesis Ha : a mod p = (-3) mod p.
Hypothesis Hb : b mod p <> 0.
Notation jac := (jac p a b).

Lemma enc_zForAffine A : oc A -> jac (fst (enc A), snd (enc A), zForAffine (fst (enc A)) (snd (enc A))) A.
Proof.
  intros HA. destruct A as [|x y]; cbn [enc fst snd].
  - apply jac_inf; auto.
  - assert (E : zForAffine x y = 1).
    { unfold zForAffine. destruct (Z.eqb_spec x 0); destruct (Z.eqb_spec y 0); auto. exfalso.
      subst. destruct HA as [_ [_ H]]. apply Hb. rewrite !Z.mul_0_r, !Z.add_0_l in H. rewrite <- H. apply Z.mod_0_l. lia. }
    rewrite E. apply jac_aff; auto.
Qed.
Theorem Add_correct A B : oc A -> oc B ->
  Add p (fst (enc A)) (snd (enc A)) (fst (enc B)) (snd (enc B)) = Ret (enc (add A B)).
Proof.
  intros HA HB. unfold Add. eapply jac_affine; eauto. apply jac_add; auto using enc_zForAffine.
Qed.

Lemma sm_bit_jac j A acc k (bit : bool) : jac j A -> 0 <= k -> jac acc (mul k A) ->
  jac (sm_bit p j acc bit) (mul (2 * k + (if bit then 1 else 0)) A).
Proof.
  intros HJ Hk Hacc. pose proof HJ as [_ [HA _]].
  assert (Hd : jac (doubleJacobian p acc) (mul (2 * k) A)).
  { replace (2 * k) with (k + k) by lia. rewrite pmul_add by auto. apply jac_dbl; auto. }
  unfold sm_bit. cbv zeta. destruct bit.
  - rewrite pmul_succ by lia. apply jac_add; auto.
  - rewrite Z.add_0_r. exact Hd.
Qed.

Lemma byte_bits_value byte : 0 <= byte < 256 ->
  forall k, fold_left (fun acc (bit : bool) => 2 * acc + (if bit then 1 else 0)) (byte_bits byte) k = 256 * k + byte.
Proof.
  intros Hb0 k. unfold byte_bits. cbn [map seq fold_left Z.of_nat].
  assert (H : forall i, 0 <= i -> (if Z.testbit byte i then 1 else 0) = byte / 2 ^ i mod 2).
  { intros i Hi. rewrite <- Z.testbit_spec' by auto. destruct (Z.testbit byte i); reflexivity. }
  rewrite !H by (cbn; lia). clear H. 
  change (2 ^ (7 - 0)) with 128. change (2 ^ (7 - Z.of_nat 1)) with 64. change (2 ^ (7 - Z.of_nat 2)) with 32.
  change (2 ^ (7 - Z.of_nat 3)) with 16. change (2 ^ (7 - Z.of_nat 4)) with 8. change (2 ^ (7 - Z.of_nat 5)) with 4.
  change (2 ^ (7 - Z.of_nat 6)) with 2. change (2 ^ (7 - Z.of_nat 7)) with 1.
  Ltac Zify.zify_post_hook ::= Z.div_mod_to_equations. 
  lia.
Qed.

Lemma fold_bits_jac j A : jac j A -> forall bits acc k, 0 <= k -> jac acc (mul k A) ->
  jac (fold_left (sm_bit p j) bits acc)
      (mul (fold_left (fun acc (bit : bool) => 2 * acc + (if bit then 1 else 0)) bits k) A).
Proof.
  intros HJ bits. induction bits as [|bt bits IH]; intros acc k Hk H; cbn [fold_left]; auto.
  apply IH. { destruct bt; lia. } apply sm_bit_jac; auto.
Qed.

Lemma ScalarMultJ_jac j A : jac j A -> forall ks acc k, bytes_ok ks -> 0 <= k -> jac acc (mul k A) ->
  jac (fold_left (sm_byte p j) ks acc) (mul (256 ^ zlen ks * k + be_to_Z ks) A).
Proof.
  intros HJ ks. induction ks as [|x ks IH]; intros acc k Hok Hk H; cbn [fold_left].
  - unfold zlen. cbn. replace (1 * k + 0) with k by lia. destruct k; auto.
  - inversion Hok; subst. 
    pose proof (fold_bits_jac j A HJ (byte_bits x) acc k Hk H) as H1.
    rewrite byte_bits_value in H1 by auto.
    specialize (IH (sm_byte p j acc x) (256 * k + x) H3 ltac:(unfold byte_ok in *; lia) H1).
    rewrite be_to_Z_cons. unfold zlen in *. cbn [Datatypes.length]. rewrite Nat2Z.inj_succ, Z.pow_succ_r by lia.
    match type of IH with jac _ (mul ?u A) => match goal with |- jac _ (mul ?v A) => replace v with u by ring end end.
    exact IH.
Qed.

Theorem ScalarMult_correct x y k : oc (PA x y) -> bytes_ok k ->
  ScalarMult p x y k = Ret (enc (mul (be_to_Z k) (PA x y))).
Proof.
  intros HA Hk. unfold ScalarMult, ScalarMultJ. eapply jac_affine; eauto.
  pose proof (ScalarMultJ_jac (x, y, 1) (PA x y) (jac_aff p a b Hp Hp3 x y HA) k (0, 0, 0) 0 Hk ltac:(lia)
                (jac_inf p a b Hp Hp3 0 0)) as H.
  rewrite Z.mul_0_r, Z.add_0_l in H. exact H.
Qed.
End Model.

(** the operations never panic, whatever the coordinates *)
Lemma ScalarMult_returns x y k : exists A, ScalarMult p x y k = Ret (enc A) /\ valid p A.
Proof.
  unfold ScalarMult. apply affine_returns; auto.
  assert (G : forall bits acc, zred p acc -> zred p (fold_left (sm_bit p (x, y, 1)) bits acc)).
  { induction bits; intros; cbn [fold_left]; auto. apply IHbits. unfold sm_bit. cbv zeta.
    destruct a0; [apply add_zred; auto; [simpl; lia|]|]; apply dbl_zred; auto. }
  unfold ScalarMultJ. assert (Hz : zred p (0, 0, 0)) by (simpl; lia). revert Hz. generalize (0, 0, 0).
  induction k; intros acc Hz; cbn [fold_left]; auto. apply IHk. apply G. exact Hz.
Qed.
Lemma zForAffine_range x y : 0 <= zForAffine x y <= 1.
Proof. unfold zForAffine. destruct (_ || _); lia. Qed.
Lemma Add_returns x1 y1 x2 y2 : exists A, Add p x1 y1 x2 y2 = Ret (enc A) /\ valid p A.
Proof.
  unfold Add. apply affine_returns; auto. apply add_zred; auto; simpl; pose proof (zForAffine_range x1 y1);
  pose proof (zForAffine_range x2 y2); lia.
Qed.
End Generic.

Lemma IsOnCurve_spec p a b x y : 1 < p -> a mod p = (-3) mod p ->
  IsOnCurve p b x y = true <-> on_curve p a b (PA x y).
Proof.
  intros Hp Ha. unfold IsOnCurve, on_curve, polynomial.
  assert (E : (x * x * x - (x + x + x) + b) mod p = (x * x * x + a * x + b) mod p).
  { apply cong_add; [|reflexivity]. replace (x * x * x - (x + x + x)) with (x * x * x + (-3) * x) by ring.
    apply cong_add; [reflexivity|]. apply cong_mul; [|reflexivity]. unfold cong. auto. }
  rewrite E.
  destruct (Z.ltb_spec x 0), (Z.leb_spec p x), (Z.ltb_spec y 0), (Z.leb_spec p y); cbn [orb];
    rewrite ?Z.eqb_eq; split; intros; try discriminate; try lia; intuition lia.
Qed.

(** ** The SM2 instance *)
Definition sm2_on_curve := on_curve sm2_P sm2_A sm2_B.
Definition sm2_padd := padd sm2_P sm2_A.
Definition sm2_pmul := pmul sm2_P sm2_A.
Definition sm2_G : pt := PA sm2_Gx sm2_Gy.

Lemma sm2_P_gt3 : 3 < sm2_P. Proof. reflexivity. Qed.
Lemma sm2_A_m3 : sm2_A mod sm2_P = (-3) mod sm2_P. Proof. reflexivity. Qed.
Lemma sm2_disc : (4 * (sm2_A * sm2_A * sm2_A) + 27 * (sm2_B * sm2_B)) mod sm2_P <> 0.
Proof. vm_compute. discriminate. Qed.
Lemma sm2_B_nz : sm2_B mod sm2_P <> 0. Proof. vm_compute. discriminate. Qed.
Lemma sm2_G_on : sm2_on_curve sm2_G.
Proof. repeat split; vm_compute; congruence. Qed.
