#[global] Set Warnings "-notation-overridden,-ambiguous-paths".
(** * From integers modulo a prime to a mathcomp field: the specification's group law is a group,
    and the Jacobian model computes it. *)
From Coq Require Import ZArith Znumtheory Zpow_facts Lia.
From mathcomp Require Import all_ssreflect all_fingroup all_algebra.
From Verif Require Import Base ECSpec ECModel NumTheory Fermat GroupLaw JacField.
Set Implicit Arguments.
Unset Strict Implicit.
Unset Printing Implicit Defensive.
Import GRing.Theory.
Local Open Scope ring_scope.

Section Bridge.
Variable p : Z.
Hypothesis Hp : Znumtheory.prime p.
Hypothesis Hp3 : (3 < p)%Z.
Variable F : fieldType.
Hypothesis Hc : Z.to_nat p \in [char F].

Definition phi (z : Z) : F := (Z.to_nat (z mod p))%:R.

Let p_pos : (0 < p)%Z. Proof. lia. Qed.

Lemma phi_nat (n : nat) : phi (Z.of_nat n) = n%:R.
Proof.
rewrite /phi -(GRing.natr_mod_char Hc n). congr (_ %:R). apply: Nat2Z.inj.
have B := Z.mod_pos_bound (Z.of_nat n) p p_pos.
rewrite modn_Zmod !Z2Nat.id //; lia.
Qed.
Lemma phi_mod z : phi (z mod p) = phi z.
Proof. by rewrite /phi Z.mod_mod //; lia. Qed.
Lemma phi_norm z : phi z = (Z.to_nat (z mod p))%:R. Proof. by []. Qed.
Lemma phiD x y : phi (x + y)%Z = phi x + phi y.
Proof.
rewrite -(phi_mod (x+y)) Zplus_mod phi_mod.
have Bx := Z.mod_pos_bound x p p_pos. have By := Z.mod_pos_bound y p p_pos.
rewrite -[in LHS](Z2Nat.id (x mod p)); last lia. rewrite -[in LHS](Z2Nat.id (y mod p)); last lia.
by rewrite -Nat2Z.inj_add plusE phi_nat natrD.
Qed.
Lemma phiM x y : phi (x * y)%Z = phi x * phi y.
Proof.
rewrite -(phi_mod (x*y)) Zmult_mod phi_mod.
have Bx := Z.mod_pos_bound x p p_pos. have By := Z.mod_pos_bound y p p_pos.
rewrite -[in LHS](Z2Nat.id (x mod p)); last lia. rewrite -[in LHS](Z2Nat.id (y mod p)); last lia.
by rewrite -Nat2Z.inj_mul multE phi_nat natrM.
Qed.
Lemma phi0 : phi 0 = 0. Proof. by rewrite -[0%Z]/(Z.of_nat 0) phi_nat. Qed.
Lemma phi1 : phi 1 = 1. Proof. by rewrite -[1%Z]/(Z.of_nat 1) phi_nat. Qed.
Lemma phiN x : phi (- x)%Z = - phi x.
Proof. apply/eqP. rewrite -addr_eq0 -phiD. apply/eqP. have -> : (-x + x)%Z = 0%Z by lia. exact: phi0. Qed.
Lemma phiB x y : phi (x - y)%Z = phi x - phi y.
Proof. have -> : (x - y)%Z = (x + - y)%Z by lia. by rewrite phiD phiN. Qed.

Lemma phi_eq0 z : (phi z == 0) = (z mod p =? 0)%Z.
Proof.
rewrite /phi -(dvdn_charf Hc).
have B := Z.mod_pos_bound z p p_pos.
apply/idP/idP.
- move/dvdn_Zdivide. rewrite !Z2Nat.id; try lia. move/(Z.mod_divide _ _). 
  rewrite Z.mod_mod; try lia. by move=> H; apply/Z.eqb_eq; apply: H; lia.
- move/Z.eqb_eq => ->. exact: dvdn0.
Qed.
Lemma phi_eq x y : (phi x == phi y) = (x mod p =? y mod p)%Z.
Proof.
rewrite -subr_eq0 -phiB phi_eq0. apply/idP/idP; move/Z.eqb_eq => H; apply/Z.eqb_eq.
- have D : Z.divide p (x - y) by apply/Z.mod_divide; lia.
  by apply/(cong_divide _ _ _); [lia|].
- by rewrite Zminus_mod H Z.sub_diag Z.mod_0_l; lia.
Qed.
Lemma phi_inj x y : (0 <= x < p)%Z -> (0 <= y < p)%Z -> phi x = phi y -> x = y.
Proof.
move=> Bx By /eqP. rewrite phi_eq => /Z.eqb_eq. rewrite !Z.mod_small; lia.
Qed.
Lemma phi_small_eq0 x : (0 <= x < p)%Z -> (phi x == 0) = (x =? 0)%Z.
Proof. by move=> Bx; rewrite phi_eq0 Z.mod_small. Qed.

Lemma phi_inv x u : (u * x) mod p = 1%Z -> phi u = (phi x)^-1.
Proof.
move=> H. have E : phi u * phi x = 1.
  by rewrite -phiM -phi_mod H phi1.
have nx : phi x != 0.
  apply/negP => /eqP Z0. move: E. rewrite Z0 mulr0 => /eqP. by rewrite eq_sym oner_eq0.
by apply: (mulIf nx); rewrite mulVf.
Qed.
Lemma phi_finv x : phi x != 0 -> phi (finv p x) = (phi x)^-1.
Proof.
move=> nx. apply: phi_inv. rewrite /finv Zmult_mod_idemp_l.
have -> : (x ^ (p - 2) * x)%Z = (x ^ (p - 1))%Z.
  have -> : (p - 1 = Z.succ (p - 2))%Z by lia. rewrite Z.pow_succ_r; lia.
apply: fermat => // D. move: nx. rewrite phi_eq0. move/Z.mod_divide: D => -> //; lia.
Qed.

Lemma two_neq0 : (1 + 1 : F) != 0.
Proof. have -> : (1 + 1 : F) = phi 2 by rewrite -phi1 -phiD. rewrite phi_eq0 Z.mod_small //; lia. Qed.
Lemma phi2 : phi 2 = 1 + 1. Proof. by rewrite -phi1 -phiD. Qed.
Lemma phi3 : phi 3 = 1 + 1 + 1. Proof. by rewrite -phi1 -!phiD. Qed.

(** ** points *)
Definition psi (A : pt) : point F := match A with PO => Inf | PA x y => Aff (phi x) (phi y) end.
Definition valid (A : pt) : Prop :=
  match A with PO => True | PA x y => (0 <= x < p)%Z /\ (0 <= y < p)%Z end.
Lemma psi_inj A B : valid A -> valid B -> psi A = psi B -> A = B.
Proof.
case: A => [|x y]; case: B => [|x' y'] //= [Bx By] [Bx' By'] [E1 E2].
by rewrite (phi_inj Bx Bx' E1) (phi_inj By By' E2).
Qed.

Section Coef.
Variables a b : Z.
Lemma psi_oncurve A : on_curve p a b A -> oncurve (phi a) (phi b) (psi A).
Proof.
case: A => [//|x y] /= [_ [_ H]]. apply/eqP.
by rewrite -!phiM -!phiD -phi_mod H phi_mod.
Qed.
Lemma on_curve_valid A : on_curve p a b A -> valid A.
Proof. by case: A => [//|x y] /= [? [? _]]. Qed.
Lemma oncurve_psi A : valid A -> oncurve (phi a) (phi b) (psi A) -> on_curve p a b A.
Proof.
case: A => [//|x y] /= [Bx By] H. split => //. split => //.
move: H. by rewrite -!phiM -!phiD phi_eq => /Z.eqb_eq.
Qed.
Lemma padd_valid A B : valid A -> valid B -> valid (padd p a A B).
Proof.
case: A => [//|x y]; case: B => [//|x' y'] H1 H2. rewrite /padd.
case: (_ && _) => //. split; apply: Z.mod_pos_bound; lia.
Qed.
Lemma psi_padd A B : on_curve p a b A -> on_curve p a b B ->
  psi (padd p a A B) = ec_add (phi a) (psi A) (psi B).
Proof.
move=> HA HB. have OA := psi_oncurve HA. have OB := psi_oncurve HB.
move: HA HB OA OB. case: A => [//|x1 y1]; case: B => [//|x2 y2] HA HB OA OB.
have [Bx1 By1] := on_curve_valid HA. have [Bx2 By2] := on_curve_valid HB.
rewrite /padd [psi (PA x1 y1)]/= [psi (PA x2 y2)]/= /ec_add.
have Ex : (phi x1 == phi x2) = (x1 =? x2)%Z by rewrite phi_eq !Z.mod_small.
have Ey : (phi y1 == - phi y2) = ((y1 + y2) mod p =? 0)%Z by rewrite -addr_eq0 -phiD phi_eq0.
rewrite Ex -Ey. case: (Z.eqb_spec x1 x2) => E.
- case: (altP (phi y1 =P - phi y2)) => [//|ny] /=.
  subst x2.
  have Hiv : phi (finv p (2 * y1)) = ((1 + 1) * phi y1)^-1.
    rewrite phi_finv phiM phi2 // mulf_neq0 ?two_neq0 //.
    case: (same_x OA OB) => E2; first by move: ny; rewrite E2 eqxx.
    apply: neg_neq. by rewrite {2}E2.
  move: Hiv. set iv := finv _ _. move: iv => iv Hiv.
  by rewrite !(phi_mod, phiB, phiM, phiD, Hiv, phi3).
- have Hiv : phi (finv p (x2 - x1)) = (phi x2 - phi x1)^-1.
    rewrite phi_finv phiB // -phiB phi_eq0. apply/negP => /Z.eqb_eq H.
    apply: E. have D : Z.divide p (x2 - x1) by apply/Z.mod_divide; lia.
    have : (x2 mod p = x1 mod p)%Z by apply/(cong_divide _ _ _); [lia|].
    rewrite !Z.mod_small; lia.
  move: Hiv. set iv := finv _ _. move: iv => iv Hiv.
  by rewrite /= !(phi_mod, phiB, phiM, phiD, Hiv).
Qed.
Lemma pneg_valid A : valid A -> valid (pneg p A).
Proof. case: A => [//|x y] /= [? ?]. split => //. apply: Z.mod_pos_bound; lia. Qed.
Lemma psi_pneg A : psi (pneg p A) = ec_neg (psi A).
Proof. by case: A => [//|x y] /=; rewrite phi_mod phiN. Qed.

Section Group.
Hypothesis Hdisc : ((4 * (a * a * a) + 27 * (b * b)) mod p <> 0)%Z.
Lemma disc_neq0 : let a3 := phi a * phi a * phi a in let b2 := phi b * phi b in
   (1+1)*(1+1)* a3 + (1+1+1)*(1+1+1)*(1+1+1)*b2 != 0.
Proof.
rewrite /= -!phi3 -!phi2 -!phiM -!phiD phi_eq0. by apply/negP => /Z.eqb_eq.
Qed.
Lemma f_closed A B : on_curve p a b A -> on_curve p a b B -> on_curve p a b (padd p a A B).
Proof.
move=> HA HB. apply: oncurve_psi; first by apply: padd_valid; apply: on_curve_valid; eassumption.
rewrite psi_padd //. apply: add_oncurve; try exact: psi_oncurve. exact: two_neq0.
Qed.
Lemma f_neg A : on_curve p a b A -> on_curve p a b (pneg p A).
Proof.
move=> HA. apply: oncurve_psi; first by apply: pneg_valid; apply: on_curve_valid; eassumption.
rewrite psi_pneg. apply: neg_oncurve. exact: psi_oncurve.
Qed.
Lemma f_assoc A B C : on_curve p a b A -> on_curve p a b B -> on_curve p a b C ->
  padd p a A (padd p a B C) = padd p a (padd p a A B) C.
Proof.
move=> HA HB HC. apply: psi_inj; try (apply: on_curve_valid; do ?apply: f_closed => //).
rewrite !psi_padd //; try exact: f_closed.
apply: ec_addA; try exact: psi_oncurve. exact: two_neq0. exact: disc_neq0.
Qed.
Lemma f_comm A B : on_curve p a b A -> on_curve p a b B -> padd p a A B = padd p a B A.
Proof.
move=> HA HB. apply: psi_inj; try (apply: on_curve_valid; do ?apply: f_closed => //).
rewrite !psi_padd //. apply: (ec_addC two_neq0 disc_neq0); exact: psi_oncurve.
Qed.
Lemma f_addN A : on_curve p a b A -> padd p a A (pneg p A) = PO.
Proof.
move=> HA. apply: psi_inj => //; first by apply: on_curve_valid; apply: f_closed => //; exact: f_neg.
rewrite psi_padd //; last exact: f_neg. rewrite psi_pneg. exact: (ec_addN (psi_oncurve HA)).
Qed.
End Group.
End Coef.

(** ** the Jacobian model *)
Definition Phi (j : Z * Z * Z) : F * F * F := let '(x, y, z) := j in (phi x, phi y, phi z).
Definition zred (j : Z * Z * Z) : Prop := let '(x, y, z) := j in (0 <= z < p)%Z.

Lemma phi_subP x y : phi (subP p x y) = phi x - phi y.
Proof.
rewrite /subP; cbv zeta.
have E : phi p = 0 by rewrite -(phi_mod p) Z.mod_same; [exact: phi0|lia].
case: (_ <? _)%Z; last exact: phiB. by rewrite phiD phiB E addr0.
Qed.
Lemma phi_shl x k : (0 <= k)%Z -> phi (Z.shiftl x k) = phi x * phi (2 ^ k)%Z.
Proof. by move=> Hk; rewrite Z.shiftl_mul_pow2 // phiM. Qed.
Lemma phi_shl1 x : phi (Z.shiftl x 1) = two F * phi x.
Proof. by rewrite phi_shl // mulrC -[(2 ^ 1)%Z]/2%Z phi2. Qed.
Lemma phi4 : phi 4 = two F * two F.
Proof. by rewrite /two -phi2 -phiM. Qed.
Lemma phi8 : phi 8 = two F * two F * two F.
Proof. by rewrite /two -phi2 -!phiM. Qed.

Lemma phi_shl2 x : phi (Z.shiftl x 2) = two F * two F * phi x.
Proof. by rewrite phi_shl // mulrC -[(2 ^ 2)%Z]/4%Z phi4. Qed.
Lemma phi_shl3 x : phi (Z.shiftl x 3) = two F * two F * two F * phi x.
Proof. by rewrite phi_shl // mulrC -[(2 ^ 3)%Z]/8%Z phi8. Qed.

Lemma zred_dbl j : zred (doubleJacobian p j).
Proof. case: j => [[x y] z]. apply: Z.mod_pos_bound. lia. Qed.
Lemma zred_add j1 j2 : zred j1 -> zred j2 -> zred (addJacobian p j1 j2).
Proof.
case: j1 => [[x1 y1] z1]; case: j2 => [[x2 y2] z2] H1 H2. rewrite /addJacobian.
case: (z1 =? 0)%Z => //. case: (z2 =? 0)%Z => //.
case: (_ && _). exact: zred_dbl. apply: Z.mod_pos_bound. lia.
Qed.

Lemma Phi_dbl j : Phi (doubleJacobian p j) = dblJ (Phi j).
Proof.
case: j => [[x y] z]. rewrite /doubleJacobian /Phi /dblJ; cbv beta iota zeta.
rewrite ?(phi_mod, phi_subP, phi_shl1, phi_shl2, phi_shl3, phiM, phiD) //.
have E3 : forall t : F, two F * t + t = (1 + 1 + 1) * t.
  by move=> t; rewrite /two [in RHS]mulrDl mul1r.
by rewrite !E3.
Qed.

Lemma subP_range x y : (0 <= x < p)%Z -> (0 <= y < p)%Z -> (0 <= subP p x y < p)%Z.
Proof. move=> Hx Hy. rewrite /subP. case: (Z.ltb_spec (x - y) 0) => H; lia. Qed.

Lemma Phi_add j1 j2 : zred j1 -> zred j2 -> Phi (addJacobian p j1 j2) = addJ (Phi j1) (Phi j2).
Proof.
case: j1 => [[x1 y1] z1]; case: j2 => [[x2 y2] z2] H1 H2. rewrite /addJacobian.
rewrite /addJ; cbv beta iota zeta; rewrite [Phi (x1, y1, z1)]/Phi [Phi (x2, y2, z2)]/Phi; cbv beta iota zeta. rewrite !phi_small_eq0 //.
case: (z1 =? 0)%Z => //. case: (z2 =? 0)%Z => //.
have M := fun t => Z.mod_pos_bound t p p_pos.
have E1 : phi (subP p ((x2 * ((z1 * z1) mod p)) mod p) ((x1 * ((z2 * z2) mod p)) mod p)) =
          phi x2 * (phi z1 * phi z1) - phi x1 * (phi z2 * phi z2).
  by rewrite phi_subP ?(phi_mod, phiM).
have E2 : phi (subP p ((y2 * z1 * ((z1 * z1) mod p)) mod p) ((y1 * z2 * ((z2 * z2) mod p)) mod p)) =
          phi y2 * phi z1 * (phi z1 * phi z1) - phi y1 * phi z2 * (phi z2 * phi z2).
  by rewrite phi_subP ?(phi_mod, phiM).
rewrite -E1 -E2 !phi_small_eq0; try (apply: subP_range; exact: M).
case: (_ && _). 
  by rewrite -(Phi_dbl (x1, y1, z1)).
rewrite /Phi. by rewrite ?(phi_mod, phiB, phi_shl1, phiM, phiD, E1, E2).
Qed.

Lemma affineFromJacobian_ok j : zred j ->
  exists A, affineFromJacobian p j = Ret (enc A) /\ valid A /\ psi A = aff (Phi j).
Proof.
case: j => [[x y] z] Hz. rewrite /affineFromJacobian /Phi /aff phi_small_eq0 //.
case: (Z.eqb_spec z 0) => Ez; first by exists PO.
have Hz' : (0 <= z < p)%Z by []. have [u [-> [Bu Hu]]] := ModInverse_prime z p Hp ltac:(rewrite Z.mod_small; lia).
exists (PA ((x * (u * u)) mod p) ((y * (u * u * u)) mod p)%Z).
split; first by []. split; first by split; apply: Z.mod_pos_bound; lia.
rewrite /= !(phi_mod, phiM) (phi_inv Hu) !invfM. by [].
Qed.
End Bridge.

(** ** Integer-level statements (no mathcomp type appears in them) *)
Section Final.
Variables p a b : Z.
Hypothesis Hp : Znumtheory.prime p.
Hypothesis Hp3 : (3 < p)%Z.
Let F := [fieldType of 'F_(Z.to_nat p)].
Let Hc : Z.to_nat p \in [char F].
Proof. exact: (char_Fp (Zprime_mc Hp)). Qed.

Section GroupLaws.
Hypothesis Hdisc : ((4 * (a * a * a) + 27 * (b * b)) mod p <> 0)%Z.
Lemma padd_closed A B : on_curve p a b A -> on_curve p a b B -> on_curve p a b (padd p a A B).
Proof. exact: (f_closed Hp Hp3 Hc). Qed.
Lemma padd_assoc A B C : on_curve p a b A -> on_curve p a b B -> on_curve p a b C ->
  padd p a A (padd p a B C) = padd p a (padd p a A B) C.
Proof. exact: (f_assoc Hp Hp3 Hc Hdisc). Qed.
Lemma padd_comm A B : on_curve p a b A -> on_curve p a b B -> padd p a A B = padd p a B A.
Proof. exact: (f_comm Hp Hp3 Hc Hdisc). Qed.
Lemma pneg_closed A : on_curve p a b A -> on_curve p a b (pneg p A).
Proof. exact: (f_neg Hp3 Hc). Qed.
Lemma padd_neg A : on_curve p a b A -> padd p a A (pneg p A) = PO.
Proof. exact: (f_addN Hp Hp3 Hc). Qed.
End GroupLaws.

Section Model.
Hypothesis Ha : (a mod p = (-3) mod p)%Z.
Lemma phi_a : @phi p F a = - (1 + 1 + 1).
Proof. by rewrite -(phi_mod Hp3) Ha (phi_mod Hp3) -[(-3)%Z]/(- (3))%Z (phiN Hp3 Hc) (phi3 Hp3 Hc). Qed.

Definition jac (j : Z * Z * Z) (A : pt) : Prop :=
  zred p j /\ on_curve p a b A /\ aff (@Phi p F j) = @psi p F A.

Lemma jac_dbl j A : jac j A -> jac (doubleJacobian p j) (padd p a A A).
Proof.
move=> [Z0 [HA E]]. split; first exact: (zred_dbl Hp3). split; first exact: padd_closed.
have OA := psi_oncurve Hp3 Hc HA. rewrite -E phi_a in OA.
rewrite (Phi_dbl Hp3 Hc) (aff_dbl (two_neq0 Hp3 Hc) OA) (psi_padd Hp Hp3 Hc HA HA) -E. by rewrite phi_a.
Qed.
Lemma jac_add j1 A1 j2 A2 : jac j1 A1 -> jac j2 A2 -> jac (addJacobian p j1 j2) (padd p a A1 A2).
Proof.
move=> [Z1 [HA1 E1]] [Z2 [HA2 E2]]. split; first exact: (zred_add Hp3). split; first exact: padd_closed.
have OA1 := psi_oncurve Hp3 Hc HA1. rewrite -E1 phi_a in OA1.
have OA2 := psi_oncurve Hp3 Hc HA2. rewrite -E2 phi_a in OA2.
rewrite (Phi_add Hp3 Hc) // (aff_add (two_neq0 Hp3 Hc) OA1 OA2) (psi_padd Hp Hp3 Hc HA1 HA2) -E1 -E2. by rewrite phi_a.
Qed.
Lemma jac_affine j A : jac j A -> affineFromJacobian p j = Ret (enc A).
Proof.
move=> [Z0 [HA E]]. have [A' [-> [V E']]] := affineFromJacobian_ok Hp Hp3 Hc Z0.
congr (Ret (enc _)). apply: (psi_inj Hp3 Hc V (on_curve_valid HA)). by rewrite E' E.
Qed.
Lemma jac_inf x y : jac (x, y, 0%Z) PO.
Proof. split; [rewrite /=; lia|split; first done]. by rewrite /Phi /aff (phi0 Hp3 Hc) eqxx. Qed.
Lemma jac_aff x y : on_curve p a b (PA x y) -> jac (x, y, 1%Z) (PA x y).
Proof.
move=> H. split; [rewrite /=; lia|]. split => //. 
by rewrite /Phi /aff (phi1 Hp3 Hc) oner_eq0 !mulr1 invr1 !mulr1.
Qed.
End Model.

Lemma affine_returns j : zred p j -> exists r, affineFromJacobian p j = Ret (enc r) /\ valid p r.
Proof. move=> Z0. have [A' [-> [V E']]] := affineFromJacobian_ok Hp Hp3 Hc Z0. by exists A'. Qed.
Lemma dbl_zred j : zred p (doubleJacobian p j).
Proof. exact: (zred_dbl Hp3). Qed.
Lemma add_zred j1 j2 : zred p j1 -> zred p j2 -> zred p (addJacobian p j1 j2).
Proof. exact: (zred_add Hp3). Qed.
End Final.
Arguments padd_closed : clear implicits.
Arguments padd_assoc : clear implicits.
Arguments padd_comm : clear implicits.
Arguments pneg_closed : clear implicits.
Arguments padd_neg : clear implicits.
Arguments jac : clear implicits.
Arguments jac_dbl : clear implicits.
Arguments jac_add : clear implicits.
Arguments jac_affine : clear implicits.
Arguments jac_inf : clear implicits.
Arguments jac_aff : clear implicits.
Arguments affine_returns : clear implicits.
Arguments dbl_zred : clear implicits.
Arguments add_zred : clear implicits.
