(** * [n]G = O for the SM2 base point, by computation with the fast reductions of FastMod.v
    (proved equal to the model's functions), and the consequences for the cyclic group of G. *)
From Coq Require Import Znumtheory.
From Verif Require Import Base ECSpec ECModel NumTheory FastMod Primes ECBridge ECProofs.
Open Scope Z_scope.

Definition fsubP (x y : Z) : Z := let h := x - y in if h <? 0 then h + sm2_P else h.
Definition fdouble (j : Z * Z * Z) : Z * Z * Z :=
  let '(x, y, z) := j in
  let delta := redp (zmul z z) in
  let gamma := redp (zmul y y) in
  let alpha := fsubP x delta in
  let alpha2 := x + delta in
  let alpha := zmul alpha alpha2 in
  let alpha := alpha + alpha + alpha in
  let alphar := redp alpha in
  let beta := redp (zmul x gamma) in
  let x3 := zmul alphar alphar in
  let beta8 := 8 * beta in
  let x3 := redp (x3 - beta8) in
  let z3 := y + z in
  let z3 := zmul z3 z3 in
  let z3 := redp (z3 - gamma - delta) in
  let beta := 4 * beta in
  let beta := redp (beta - x3) in
  let y3 := zmul alphar beta in
  let gamma := 8 * zmul gamma gamma in
  let y3 := redp (y3 - gamma) in
  (x3, y3, z3).
Definition fadd (j1 j2 : Z * Z * Z) : Z * Z * Z :=
  let '(x1, y1, z1) := j1 in
  let '(x2, y2, z2) := j2 in
  if z1 =? 0 then (x2, y2, z2) else
  if z2 =? 0 then (x1, y1, z1) else
  let z1z1 := redp (zmul z1 z1) in
  let z2z2 := redp (zmul z2 z2) in
  let u1 := redp (zmul x1 z2z2) in
  let u2 := redp (zmul x2 z1z1) in
  let h := fsubP u2 u1 in
  let xEqual := h =? 0 in
  let s1 := redp (zmul (redp (zmul y1 z2)) z2z2) in
  let s2 := redp (zmul (redp (zmul y2 z1)) z1z1) in
  let r := fsubP s2 s1 in
  let yEqual := r =? 0 in
  if xEqual && yEqual then fdouble (x1, y1, z1) else
  let i := 2 * h in
  let i := redp (zmul i i) in
  let jj := redp (zmul h i) in
  let r := 2 * r in
  let v := redp (zmul u1 i) in
  let x3 := redp (zmul r r - jj - v - v) in
  let y3 := zmul r (redp (v - x3)) in
  let s1 := 2 * zmul s1 jj in
  let y3 := redp (y3 - s1) in
  let z3 := z1 + z2 in
  let z3 := zmul z3 z3 in
  let z3 := redp (z3 - z1z1 - z2z2) in
  let z3 := redp (zmul z3 h) in
  (x3, y3, z3).

Lemma mod_cong x y : cong sm2_P x y -> x mod sm2_P = y mod sm2_P. Proof. auto. Qed.
Lemma cong_red x : cong sm2_P (x mod sm2_P) x.
Proof. apply cong_mod. discriminate. Qed.
Lemma cong_subP x y : cong sm2_P (subP sm2_P x y) (x - y).
Proof.
  unfold subP. cbv zeta. destruct (_ <? _); [|reflexivity]. unfold cong.
  replace (x - y + sm2_P) with ((x - y) + 1 * sm2_P) by ring. apply Z.mod_add. discriminate.
Qed.
Lemma cong_opp n x y : cong n x y -> cong n (- x) (- y).
Proof. intros H. replace (-x) with (0 - x) by ring. replace (-y) with (0 - y) by ring. apply cong_sub; auto. reflexivity. Qed.
Lemma fdouble_eq j : fdouble j = doubleJacobian sm2_P j.
Proof.
  destruct j as [[x y] z]. unfold fdouble, doubleJacobian. cbv zeta. 
  rewrite !zmul_spec, !redp_spec. change fsubP with (subP sm2_P). rewrite !Z.shiftl_mul_pow2 by lia.
  change (2 ^ 1) with 2. change (2 ^ 2) with 4. change (2 ^ 3) with 8.
  set (D := (z * z) mod sm2_P). set (Ga := (y * y) mod sm2_P).
  set (al := subP sm2_P x D * (x + D)).
  assert (E1 : cong sm2_P ((al + al + al) mod sm2_P) (al * 2 + al)).
  { eapply cong_trans; [apply cong_red|]. replace (al * 2 + al) with (al + al + al) by ring. reflexivity. }
  assert (E2 : cong sm2_P ((x * Ga) mod sm2_P) (x * Ga)) by apply cong_red.
  assert (X3 : ((al + al + al) mod sm2_P * ((al + al + al) mod sm2_P) - 8 * ((x * Ga) mod sm2_P)) mod sm2_P =
               subP sm2_P ((al * 2 + al) * (al * 2 + al)) ((x * Ga * 8) mod sm2_P) mod sm2_P).
  { apply mod_cong. apply cong_sym. eapply cong_trans; [apply cong_subP|]. apply cong_sym. apply cong_sub.
    - apply cong_mul; auto.
    - apply cong_sym. eapply cong_trans; [apply cong_red|]. rewrite (Z.mul_comm _ 8). apply cong_mul; [reflexivity|].
      apply cong_sym. auto. }
  rewrite X3. set (x3 := subP sm2_P _ _ mod sm2_P). clearbody x3. clear X3.
  f_equal; [f_equal|].
  - apply mod_cong. apply cong_sym. eapply cong_trans; [apply cong_subP|]. apply cong_sym. apply cong_sub.
    + apply cong_mul; auto. eapply cong_trans; [apply cong_red|]. apply cong_sym. eapply cong_trans; [apply cong_subP|].
      apply cong_sub; [|reflexivity]. rewrite (Z.mul_comm _ 4). apply cong_mul; [reflexivity|]. apply cong_sym; auto.
    + apply cong_sym. eapply cong_trans; [apply cong_red|]. rewrite (Z.mul_comm _ 8). reflexivity.
  - apply mod_cong. apply cong_sym. eapply cong_trans; [apply cong_subP|]. apply cong_sub; [|reflexivity]. apply cong_subP.
Qed.

Lemma fadd_eq j1 j2 : fadd j1 j2 = addJacobian sm2_P j1 j2.
Proof.
  destruct j1 as [[x1 y1] z1], j2 as [[x2 y2] z2]. unfold fadd, addJacobian.
  destruct (z1 =? 0); auto. destruct (z2 =? 0); auto. cbv zeta.
  rewrite !zmul_spec, !redp_spec. change fsubP with (subP sm2_P).
  rewrite (Zmult_mod_idemp_l (y1 * z2)), (Zmult_mod_idemp_l (y2 * z1)).
  set (Z1 := (z1 * z1) mod sm2_P). set (Z2 := (z2 * z2) mod sm2_P).
  set (u1 := (x1 * Z2) mod sm2_P). set (u2 := (x2 * Z1) mod sm2_P). set (h := subP sm2_P u2 u1).
  set (s1 := (y1 * z2 * Z2) mod sm2_P). set (s2 := (y2 * z1 * Z1) mod sm2_P). set (r := subP sm2_P s2 s1).
  destruct ((h =? 0) && (r =? 0)). { apply fdouble_eq. }
  rewrite !Z.shiftl_mul_pow2 by lia. change (2 ^ 1) with 2.
  assert (EI : cong sm2_P ((2 * h * (2 * h)) mod sm2_P) (h * 2 * (h * 2))).
  { eapply cong_trans; [apply cong_red|]. replace (2 * h * (2 * h)) with (h * 2 * (h * 2)) by ring. reflexivity. }
  set (i := (2 * h * (2 * h)) mod sm2_P) in *. clearbody i.
  assert (EJ : cong sm2_P ((h * i) mod sm2_P) (h * (h * 2 * (h * 2)))).
  { eapply cong_trans; [apply cong_red|]. apply cong_mul; auto. reflexivity. }
  set (jj := (h * i) mod sm2_P) in *. clearbody jj.
  assert (EV : cong sm2_P ((u1 * i) mod sm2_P) (u1 * (h * 2 * (h * 2)))).
  { eapply cong_trans; [apply cong_red|]. apply cong_mul; auto. reflexivity. }
  set (v := (u1 * i) mod sm2_P) in *. clearbody v.
  assert (X3 : (2 * r * (2 * r) - jj - v - v) mod sm2_P =
     (r * 2 * (r * 2) - h * (h * 2 * (h * 2)) - u1 * (h * 2 * (h * 2)) - u1 * (h * 2 * (h * 2))) mod sm2_P).
  { apply mod_cong. repeat (apply cong_sub; auto). replace (2 * r * (2 * r)) with (r * 2 * (r * 2)) by ring. reflexivity. }
  rewrite X3. set (x3 := (r * 2 * (r * 2) - _ - _ - _) mod sm2_P). clearbody x3. clear X3.
  f_equal; [f_equal|].
  - apply mod_cong. apply cong_sub.
    + rewrite (Z.mul_comm 2 r). apply cong_mul; [reflexivity|]. eapply cong_trans; [apply cong_red|]. apply cong_sub; auto. reflexivity.
    + rewrite (Z.mul_comm 2). apply cong_mul; [|reflexivity]. apply cong_mul; auto. reflexivity.
  - apply mod_cong. apply cong_mul; [|reflexivity]. apply cong_red.
Qed.

Definition fbit (acc : Z * Z * Z) (bit : bool) : Z * Z * Z :=
  let acc := fdouble acc in if bit then fadd (sm2_Gx, sm2_Gy, 1) acc else acc.
Definition sm2_N_bytes : bytes := Eval vm_compute in big_bytes sm2_N.
Definition sm2_N_bits : list bool := Eval vm_compute in List.concat (map byte_bits sm2_N_bytes).
Definition jz (j : Z * Z * Z) : Z := let '(_, _, z) := j in z.
Lemma nG_check_ok : (jz (fold_left fbit sm2_N_bits (0, 0, 0)) =? 0) = true.
Proof. vm_cast_no_check (eq_refl true). Qed.

Lemma fold_bits_bytes {A} (f : A -> bool -> A) l : forall acc,
  fold_left f (List.concat (map byte_bits l)) acc = fold_left (fun acc x => fold_left f (byte_bits x) acc) l acc.
Proof. induction l; intros; auto. cbn [map List.concat]. rewrite fold_left_app. cbn [fold_left]. apply IHl. Qed.

Lemma sm2_N_bits_eq : sm2_N_bits = List.concat (map byte_bits sm2_N_bytes).
Proof. reflexivity. Qed.
Lemma sm2_N_bytes_value : 256 ^ zlen sm2_N_bytes * 0 + be_to_Z sm2_N_bytes = sm2_N.
Proof. vm_cast_no_check (eq_refl sm2_N). Qed.
Lemma fold_fast l acc : fold_left (sm_byte sm2_P (sm2_Gx, sm2_Gy, 1)) l acc =
  fold_left fbit (List.concat (map byte_bits l)) acc.
Proof.
  rewrite fold_bits_bytes. revert acc. induction l; intros acc; auto. cbn [fold_left].
  rewrite IHl. f_equal. unfold sm_byte. generalize (byte_bits a). intros bits. revert acc.
  induction bits; intros acc; auto. cbn [fold_left]. rewrite IHbits. f_equal.
  unfold sm_bit, fbit. cbv zeta. rewrite fdouble_eq. destruct a0; auto. symmetry; apply fadd_eq.
Qed.
Lemma sm2_nG : sm2_pmul sm2_N sm2_G = PO.
Proof.
  pose proof (ScalarMultJ_jac sm2_P sm2_A sm2_B sm2_P_prime sm2_P_gt3 sm2_disc sm2_A_m3 sm2_B_nz (sm2_Gx, sm2_Gy, 1) sm2_G
     (jac_aff _ _ _ sm2_P_prime sm2_P_gt3 _ _ sm2_G_on) sm2_N_bytes (0,0,0) 0) as H.
  rewrite fold_fast, <- sm2_N_bits_eq in H.
  assert (Hbytes : bytes_ok sm2_N_bytes) by (apply bytes_okb_spec; reflexivity).
  specialize (H Hbytes ltac:(lia) (jac_inf _ _ _ sm2_P_prime sm2_P_gt3 0 0)).
  rewrite sm2_N_bytes_value in H.
  apply jac_affine in H; [|exact sm2_P_prime|exact sm2_P_gt3].
  pose proof nG_check_ok as C.
  pose proof (pmul_closed sm2_P sm2_A sm2_B sm2_P_prime sm2_P_gt3 sm2_N sm2_G sm2_G_on) as Hc.
  unfold sm2_pmul. revert H C Hc.
  generalize (pmul sm2_P sm2_A sm2_N sm2_G) as Q. generalize (fold_left fbit sm2_N_bits (0, 0, 0)) as j.
  intros [[x y] z] Q H C Hc. unfold affineFromJacobian in H. cbn [jz] in C. rewrite C in H.
  destruct Q as [|x' y']; auto. exfalso.
  cbn [enc] in H. injection H as <- <-. destruct Hc as [_ [_ Hc]]. vm_compute in Hc. discriminate.
Qed.

(** ** The SM2 group, packaged *)
Opaque pmul padd Add ScalarMult.
Lemma sm2_G_neq_O : sm2_G <> PO. Proof. discriminate. Qed.
Lemma sm2_padd_closed A B : sm2_on_curve A -> sm2_on_curve B -> sm2_on_curve (sm2_padd A B).
Proof. exact (padd_closed sm2_P sm2_A sm2_B sm2_P_prime sm2_P_gt3 A B). Qed.
Lemma sm2_padd_assoc A B C : sm2_on_curve A -> sm2_on_curve B -> sm2_on_curve C ->
  sm2_padd A (sm2_padd B C) = sm2_padd (sm2_padd A B) C.
Proof. exact (padd_assoc sm2_P sm2_A sm2_B sm2_P_prime sm2_P_gt3 sm2_disc A B C). Qed.
Lemma sm2_padd_comm A B : sm2_on_curve A -> sm2_on_curve B -> sm2_padd A B = sm2_padd B A.
Proof. exact (padd_comm sm2_P sm2_A sm2_B sm2_P_prime sm2_P_gt3 sm2_disc A B). Qed.
Lemma sm2_padd_neg A : sm2_on_curve A -> sm2_padd A (pneg sm2_P A) = PO.
Proof. exact (padd_neg sm2_P sm2_A sm2_B sm2_P_prime sm2_P_gt3 A). Qed.
Lemma sm2_pneg_closed A : sm2_on_curve A -> sm2_on_curve (pneg sm2_P A).
Proof. exact (pneg_closed sm2_P sm2_A sm2_B sm2_P_prime sm2_P_gt3 A). Qed.
Lemma sm2_pmul_closed k A : sm2_on_curve A -> sm2_on_curve (sm2_pmul k A).
Proof. exact (pmul_closed sm2_P sm2_A sm2_B sm2_P_prime sm2_P_gt3 k A). Qed.
Lemma sm2_pmul_add i j A : sm2_on_curve A -> 0 <= i -> 0 <= j ->
  sm2_pmul (i + j) A = sm2_padd (sm2_pmul i A) (sm2_pmul j A).
Proof. exact (pmul_add sm2_P sm2_A sm2_B sm2_P_prime sm2_P_gt3 sm2_disc i j A). Qed.
Lemma sm2_pmul_mul i j A : sm2_on_curve A -> 0 <= i -> 0 <= j -> sm2_pmul (i * j) A = sm2_pmul i (sm2_pmul j A).
Proof. exact (pmul_mul sm2_P sm2_A sm2_B sm2_P_prime sm2_P_gt3 sm2_disc i j A). Qed.
Lemma sm2_pmul_1 A : sm2_pmul 1 A = A.
Proof. exact (pmul_1 sm2_P sm2_A A). Qed.
Lemma sm2_pmul_O k : sm2_pmul k PO = PO.
Proof. exact (pmul_O sm2_P sm2_A k). Qed.
Lemma sm2_pmul_mod k : 0 <= k -> sm2_pmul k sm2_G = sm2_pmul (k mod sm2_N) sm2_G.
Proof. exact (pmul_order_mod sm2_P sm2_A sm2_B sm2_P_prime sm2_P_gt3 sm2_disc sm2_N sm2_G sm2_N_prime sm2_G_on sm2_nG k). Qed.
Lemma sm2_pmul_zero_iff k : 0 <= k -> (sm2_pmul k sm2_G = PO <-> k mod sm2_N = 0).
Proof. exact (pmul_zero_iff sm2_P sm2_A sm2_B sm2_P_prime sm2_P_gt3 sm2_disc sm2_N sm2_G sm2_N_prime sm2_G_on sm2_G_neq_O sm2_nG k). Qed.
Lemma sm2_pmul_cong i j : 0 <= i -> 0 <= j -> (sm2_pmul i sm2_G = sm2_pmul j sm2_G <-> i mod sm2_N = j mod sm2_N).
Proof. exact (pmul_cong sm2_P sm2_A sm2_B sm2_P_prime sm2_P_gt3 sm2_disc sm2_N sm2_G sm2_N_prime sm2_G_on sm2_G_neq_O sm2_nG i j). Qed.
Lemma sm2_pmul_inj i j : 0 <= i < sm2_N -> 0 <= j < sm2_N -> sm2_pmul i sm2_G = sm2_pmul j sm2_G -> i = j.
Proof. exact (pmul_inj sm2_P sm2_A sm2_B sm2_P_prime sm2_P_gt3 sm2_disc sm2_N sm2_G sm2_N_prime sm2_G_on sm2_G_neq_O sm2_nG i j). Qed.

Lemma sm2_Add_correct A B : sm2_on_curve A -> sm2_on_curve B ->
  sm2_Add (fst (enc A)) (snd (enc A)) (fst (enc B)) (snd (enc B)) = Ret (enc (sm2_padd A B)).
Proof. exact (Add_correct sm2_P sm2_A sm2_B sm2_P_prime sm2_P_gt3 sm2_A_m3 sm2_B_nz A B). Qed.
Lemma sm2_ScalarMult_correct x y k : sm2_on_curve (PA x y) -> bytes_ok k ->
  sm2_ScalarMult x y k = Ret (enc (sm2_pmul (be_to_Z k) (PA x y))).
Proof. exact (ScalarMult_correct sm2_P sm2_A sm2_B sm2_P_prime sm2_P_gt3 sm2_disc sm2_A_m3 sm2_B_nz x y k). Qed.
Lemma sm2_ScalarBaseMult_correct k : bytes_ok k ->
  sm2_ScalarBaseMult k = Ret (enc (sm2_pmul (be_to_Z k) sm2_G)).
Proof. intros. apply sm2_ScalarMult_correct; auto. exact sm2_G_on. Qed.
Lemma sm2_IsOnCurve_spec x y : sm2_IsOnCurve x y = true <-> sm2_on_curve (PA x y).
Proof. apply IsOnCurve_spec; reflexivity. Qed.
Lemma sm2_ScalarMult_returns x y k : exists A, sm2_ScalarMult x y k = Ret (enc A) /\ valid sm2_P A.
Proof. exact (ScalarMult_returns sm2_P sm2_A sm2_B sm2_P_prime sm2_P_gt3 x y k). Qed.
Lemma sm2_Add_returns x1 y1 x2 y2 : exists A, sm2_Add x1 y1 x2 y2 = Ret (enc A) /\ valid sm2_P A.
Proof. exact (Add_returns sm2_P sm2_A sm2_B sm2_P_prime sm2_P_gt3 sm2_disc x1 y1 x2 y2). Qed.
Global Opaque pmul padd Add ScalarMult.
