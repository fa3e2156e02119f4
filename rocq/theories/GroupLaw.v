#[global] Set Warnings "-notation-overridden,-ambiguous-paths".
(** * The group law of a short Weierstrass curve over any field of characteristic <> 2.

    This file is pure mathematics (it models no line of the repository).  The chord-and-tangent
    addition is shown associative by the ideal-class argument: every point P gives an ideal
    I_P of the coordinate ring, I_P I_Q is equivalent to I_(P+Q), and equivalent point ideals
    belong to equal points. *)
From mathcomp Require Import ssreflect ssrfun ssrbool eqtype ssrnat seq choice ssralg poly polydiv.
From Coq Require Import Ring Field.
Set Implicit Arguments.
Unset Strict Implicit.
Unset Printing Implicit Defensive.
Import GRing.Theory.
Local Open Scope ring_scope.

(** ** making Coq's [ring]/[field] usable on mathcomp rings: named copies of the operations *)
Section FieldTac.
Variable F : fieldType.
Definition fAdd (x y : F) : F := x + y.
Definition fMul (x y : F) : F := x * y.
Definition fSub (x y : F) : F := x - y.
Definition fOpp (x : F) : F := - x.
Definition fZero : F := 0.
Definition fOne : F := 1.
Definition fInv (x : F) : F := x^-1.
Definition fDiv (x y : F) : F := x / y.
Lemma mc_field_theory : @field_theory F fZero fOne fAdd fMul fSub fOpp fDiv fInv eq.
Proof.
split; [split|..].
- exact: add0r.
- exact: addrC.
- exact: addrA.
- exact: mul1r.
- exact: mulrC.
- exact: mulrA.
- exact: mulrDl.
- by [].
- exact: subrr.
- by apply/eqP; rewrite oner_eq0.
- by [].
- by move=> x /eqP nx; rewrite /fMul /fInv mulVf.
Qed.
Definition pAdd (x y : {poly F}) : {poly F} := x + y.
Definition pMul (x y : {poly F}) : {poly F} := x * y.
Definition pSub (x y : {poly F}) : {poly F} := x - y.
Definition pOpp (x : {poly F}) : {poly F} := - x.
Definition pZero : {poly F} := 0.
Definition pOne : {poly F} := 1.
Lemma mc_poly_theory : @ring_theory {poly F} pZero pOne pAdd pMul pSub pOpp eq.
Proof.
split.
- exact: add0r.
- exact: addrC.
- exact: addrA.
- exact: mul1r.
- exact: mulrC.
- exact: mulrA.
- exact: mulrDl.
- by [].
- exact: subrr.
Qed.
Lemma toAdd (x y : F) : x + y = fAdd x y. Proof. by []. Qed.
Lemma toMul (x y : F) : x * y = fMul x y. Proof. by []. Qed.
Lemma toOpp (x : F) : - x = fOpp x. Proof. by []. Qed.
Lemma toInv (x : F) : x^-1 = fInv x. Proof. by []. Qed.
Lemma toZero : 0 = fZero. Proof. by []. Qed.
Lemma toOne : 1 = fOne. Proof. by []. Qed.
Definition fEval (p : {poly F}) (x : F) : F := p.[x].
Lemma toEval (p : {poly F}) (x : F) : p.[x] = fEval p x. Proof. by []. Qed.
Lemma PtoAdd (x y : {poly F}) : x + y = pAdd x y. Proof. by []. Qed.
Lemma PtoMul (x y : {poly F}) : x * y = pMul x y. Proof. by []. Qed.
Lemma PtoOpp (x : {poly F}) : - x = pOpp x. Proof. by []. Qed.
Lemma PtoZero : (0 : {poly F}) = pZero. Proof. by []. Qed.
Lemma PtoOne : (1 : {poly F}) = pOne. Proof. by []. Qed.
End FieldTac.
Arguments fZero {F}.
Arguments fOne {F}.
Arguments pZero {F}.
Arguments pOne {F}.

(** points of the projective line at infinity / affine points *)
Inductive point (F : Type) := Inf | Aff (x y : F).
Arguments Inf {F}.
Arguments Aff {F} x y.

Section EC.
Variable F : fieldType.
Variables a b : F.
Hypothesis two_neq0 : (1 + 1 : F) != 0.
Let disc : F := let a3 := a * a * a in let b2 := b * b in
   (1+1)*(1+1)* a3 + (1+1+1)*(1+1+1)*(1+1+1)*b2.
Hypothesis disc_neq0 : disc != 0.

Add Field Ffield : (mc_field_theory F).
Notation P := {poly F}.
Add Ring Pring : (mc_poly_theory F).
Ltac fprep := match goal with |- @eq ?T ?x ?y => change (@eq F x y) end;
  rewrite ?(toAdd, toMul, toOpp, toInv, toZero, toOne, toEval);
  match goal with |- @eq ?T ?x ?y => change (@eq F x y) end.
Ltac fring := fprep; ring.
Ltac ffield := fprep; field.
Ltac pring := match goal with |- @eq ?T ?x ?y => change (@eq P x y) end;
  rewrite ?(PtoAdd, PtoMul, PtoOpp, PtoZero, PtoOne);
  match goal with |- @eq ?T ?x ?y => change (@eq P x y) end; ring.

Definition oncurve (p : point F) : bool :=
  match p with Inf => true | Aff x y => y * y == x * x * x + a * x + b end.

(** chord and tangent *)
Definition ec_neg (p : point F) : point F :=
  match p with Inf => Inf | Aff x y => Aff x (- y) end.
Definition ec_add (p q : point F) : point F :=
  match p, q with
  | Inf, _ => q
  | _, Inf => p
  | Aff x1 y1, Aff x2 y2 =>
      if x1 == x2 then
        if y1 == - y2 then Inf
        else let l := ((1+1+1) * (x1 * x1) + a) / ((1+1) * y1) in
             let x3 := l * l - x1 - x2 in
             Aff x3 (l * (x1 - x3) - y1)
      else let l := (y2 - y1) / (x2 - x1) in
           let x3 := l * l - x1 - x2 in
           Aff x3 (l * (x1 - x3) - y1)
  end.

(** ** the coordinate ring F[X] + F[X] Y with Y^2 = f *)
Definition f_sig : {g : P | g = 'X * 'X * 'X + a%:P * 'X + b%:P}.
Proof. by eexists. Qed.
Definition f : P := sval f_sig.
Lemma fE : f = 'X * 'X * 'X + a%:P * 'X + b%:P.
Proof. exact: (svalP f_sig). Qed.
Record cr := CR { c0 : P; c1 : P }.
Definition radd u v := CR (c0 u + c0 v) (c1 u + c1 v).
Definition ropp u := CR (- c0 u) (- c1 u).
Definition rsub u v := CR (c0 u - c0 v) (c1 u - c1 v).
Definition rmul u v := CR (c0 u * c0 v + f * (c1 u * c1 v)) (c0 u * c1 v + c1 u * c0 v).
Definition r0 := CR 0 0.
Definition r1 := CR 1 0.
Definition rX := CR 'X 0.
Definition rY := CR 0 1.
Definition rC (c : F) := CR c%:P 0.
Definition rP (p : P) := CR p 0.

Lemma cr_ext u v : c0 u = c0 v -> c1 u = c1 v -> u = v.
Proof. by case: u v => [? ?] [? ?] /= -> ->. Qed.

Lemma cr_ring_theory : @ring_theory cr r0 r1 radd rmul rsub ropp eq.
Proof.
split; rewrite /r0 /r1 /radd /rmul /rsub /ropp => *; apply: cr_ext => /=; pring.
Qed.
Add Ring CRring : cr_ring_theory.

Notation "u +' v" := (radd u v) (at level 50, left associativity).
Notation "u -' v" := (rsub u v) (at level 50, left associativity).
Notation "u *' v" := (rmul u v) (at level 40, left associativity).

(** ** norm *)
Definition N (u : cr) : P := c0 u * c0 u - f * (c1 u * c1 u).
Lemma N_mul u v : N (u *' v) = N u * N v.
Proof. rewrite /N /rmul /=. pring. Qed.

Lemma size_f : size f = 4%N.
Proof.
have -> : f = ('X * 'X + a%:P) * 'X + b%:P by rewrite fE; pring.
rewrite size_MXaddC.
have sz : size ('X * 'X + a%:P : P) = 3%N by rewrite size_MXaddC polyX_eq0 /= size_polyX.
have/negbTE -> : ('X * 'X + a%:P : P) != 0 by rewrite -size_poly_eq0 sz.
by rewrite sz.
Qed.
Lemma f_neq0 : f != 0.
Proof. by rewrite -size_poly_eq0 size_f. Qed.

Lemma size_sq (p : P) : p != 0 -> size (p * p) = (size p).*2.-1.
Proof. by move=> np; rewrite size_mul // addnn. Qed.
Lemma size_fsq (p : P) : p != 0 -> size (f * (p * p)) = (size p).*2.+2.
Proof.
move=> np. have np2 : p * p != 0 by rewrite mulf_neq0.
rewrite size_mul // ?f_neq0 // size_f size_sq //.
have : (0 < size p)%N by rewrite size_poly_gt0.
by case: (size p) => [//|n] _ /=; rewrite doubleS.
Qed.

Lemma size_N u : size (N u) = maxn (if c0 u == 0 then 0%N else (size (c0 u)).*2.-1)
                                   (if c1 u == 0 then 0%N else (size (c1 u)).*2.+2).
Proof.
rewrite /N. case: u => p q /=.
case: (altP (p =P 0)) => [->|np]; case: (altP (q =P 0)) => [->|nq].
- by rewrite !mulr0 subr0 size_poly0.
- by rewrite mulr0 sub0r size_opp size_fsq // max0n.
- by rewrite !mulr0 subr0 size_sq // maxn0.
- have sp : (0 < size p)%N by rewrite size_poly_gt0.
  have E1 := size_sq np. have E2 := size_fsq nq.
  have Ep : odd (size (p * p)) by rewrite E1; case: (size p) sp => [//|n] _; rewrite doubleS /= odd_double.
  have Eq : ~~ odd (size (f * (q * q))) by rewrite E2 /= odd_double.
  rewrite -E1 -E2.
  case: (ltngtP (size (p * p)) (size (f * (q * q)))) => H.
  + rewrite addrC size_addl ?size_opp //.
  + rewrite size_addl ?size_opp //.
  + by move: Ep Eq; rewrite H => ->.
Qed.

Lemma N_eq0 u : (N u == 0) = (c0 u == 0) && (c1 u == 0).
Proof.
rewrite -size_poly_eq0 size_N.
case: (altP (c0 u =P 0)) => [_|np]; case: (altP (c1 u =P 0)) => [_|nq] //=.
have : (0 < size (c0 u))%N by rewrite size_poly_gt0.
by rewrite maxn0; case: (size (c0 u)) => [//|n] _; rewrite doubleS.
have : (0 < size (c0 u))%N by rewrite size_poly_gt0.
by case: (size (c0 u)) => [//|n] _; rewrite doubleS /= /maxn; case: ifP.
Qed.

Lemma N_neq0 u : u <> r0 -> N u != 0.
Proof.
move=> nu; apply/negP; rewrite N_eq0 => /andP [/eqP e0 /eqP e1].
by apply: nu; apply: cr_ext.
Qed.
Lemma N_r0 : N r0 = 0.
Proof. rewrite /N /=. pring. Qed.

Lemma rmul_eq0 u v : u *' v = r0 -> u = r0 \/ v = r0.
Proof.
move=> E. have := N_mul u v. rewrite E N_r0 => /esym/eqP. rewrite mulf_eq0 !N_eq0.
case/orP => /andP [/eqP e0 /eqP e1]; [left|right]; exact: cr_ext.
Qed.
Lemma rmul_cancel u v w : u <> r0 -> u *' v = u *' w -> v = w.
Proof.
move=> nu E. have : u *' (v -' w) = r0.
  have -> : u *' (v -' w) = u *' v -' u *' w by ring.
  rewrite E; ring.
case/rmul_eq0 => // E2. have -> : v = (v -' w) +' w by ring.
rewrite E2; ring.
Qed.
Lemma rmul_neq0 u v : u <> r0 -> v <> r0 -> u *' v <> r0.
Proof. by move=> nu nv /rmul_eq0 []. Qed.

Lemma size_N_mul u v : u <> r0 -> v <> r0 -> size (N (u *' v)) = (size (N u) + size (N v)).-1.
Proof. by move=> nu nv; rewrite N_mul size_mul // N_neq0. Qed.
Lemma size_N_gt0 u : u <> r0 -> (0 < size (N u))%N.
Proof. by move=> nu; rewrite size_poly_gt0 N_neq0. Qed.

(** small norms *)
Lemma size_N_ne2 u : size (N u) <> 2%N.
Proof.
rewrite size_N. case: (altP (c0 u =P 0)) => [_|n0]; case: (altP (c1 u =P 0)) => [_|n1] //=.
- rewrite max0n. move: n1; rewrite -size_poly_gt0. by case: (size (c1 u)).
- by rewrite maxn0; case: (size (c0 u)) => [//|[//|n]].
- move: n1; rewrite -size_poly_gt0; case: (size (c1 u)) => [//|m] _.
  by case: (size (c0 u)) => [|[|n]]; rewrite ?doubleS /maxn //=; case: ifP => //.
Qed.

Lemma small_const (p : P) : (size p <= 1)%N -> p = (p`_0)%:P.
Proof. exact: size1_polyC. Qed.
Lemma small_lin (p : P) : (size p <= 2)%N -> p = (p`_1)%:P * 'X + (p`_0)%:P.
Proof.
move=> sp. apply/polyP => i. rewrite coefD coefMX !coefC.
case: i => [|[|i]] /=; rewrite ?add0r ?addr0 //.
by rewrite nth_default // (leq_trans sp).
Qed.

Lemma size_N_1 u : size (N u) = 1%N -> c1 u = 0 /\ size (c0 u) = 1%N.
Proof.
rewrite size_N. case: (altP (c0 u =P 0)) => [e0|n0]; case: (altP (c1 u =P 0)) => [e1|n1] //.
- rewrite ?maxn0 => H. split => //. by case: (size (c0 u)) H => [//|[//|n]].
- by rewrite /maxn; case: ifP => //; case: (size (c0 u)) => [//|[//|n]].
Qed.
Lemma size_N_3 u : size (N u) = 3%N -> c1 u = 0 /\ size (c0 u) = 2%N.
Proof.
rewrite size_N. case: (altP (c0 u =P 0)) => [e0|n0]; case: (altP (c1 u =P 0)) => [e1|n1] //.
- by rewrite ?max0n; case: (size (c1 u)).
- rewrite ?maxn0 => H. split => //. by case: (size (c0 u)) H => [//|[//|[//|n]]].
- rewrite /maxn; case: ifP => //; first by case: (size (c1 u)).
  move: n1; rewrite -size_poly_gt0; case: (size (c1 u)) => [//|m] _.
  by case: (size (c0 u)) => [//|[//|[//|n]]].
Qed.
Lemma size_N_4 u : size (N u) = 4%N -> (size (c0 u) <= 2)%N /\ size (c1 u) = 1%N.
Proof.
rewrite size_N. case: (altP (c0 u =P 0)) => [e0|n0]; case: (altP (c1 u =P 0)) => [e1|n1] //.
- rewrite ?max0n e0 size_poly0 => H. split => //. by case: (size (c1 u)) H => [//|[//|n]].
- by rewrite ?maxn0; case: (size (c0 u)) => [//|[//|[//|n]]].
- rewrite /maxn; case: ifP => // H E; last first.
    by move: E; case: (size (c0 u)) => [//|[//|[//|n]]].
  split; last by move: E; case: (size (c1 u)) => [//|[//|n]].
  by move: H; rewrite E; case: (size (c0 u)) => [//|[//|[//|n]]].
Qed.

(** ** point ideals *)
Definition ev (x y : F) (u : cr) : F := (c0 u).[x] + (c1 u).[x] * y.
Definition Id (p : point F) (u : cr) : Prop :=
  match p with Inf => True | Aff x y => ev x y u = 0 end.
Definition lX (x : F) : cr := CR ('X - x%:P) 0.
Definition lY (y : F) : cr := CR (- y%:P) 1.

Lemma f_eval x : f.[x] = x * x * x + a * x + b.
Proof. by rewrite fE !(hornerD, hornerM, hornerC, hornerX). Qed.

Lemma evD x y u v : ev x y (u +' v) = ev x y u + ev x y v.
Proof. rewrite /ev /= !hornerD. fring. Qed.
Lemma evM x y u v : oncurve (Aff x y) -> ev x y (u *' v) = ev x y u * ev x y v.
Proof.
move=> /= /eqP H. rewrite /ev /= !(hornerD, hornerM) f_eval -H. fring.
Qed.
Lemma ev_lX x y : ev x y (lX x) = 0.
Proof. rewrite /ev /= hornerXsubC horner0. fring. Qed.
Lemma ev_lY x y : ev x y (lY y) = 0.
Proof. rewrite /ev /= hornerN hornerC hornerE. fring. Qed.

Lemma gen x y u : ev x y u = 0 -> exists A B, u = A *' lX x +' B *' lY y.
Proof.
move=> H.
have : root (c0 u + c1 u * y%:P) x.
  by rewrite /root hornerD hornerM hornerC; apply/eqP.
case/factor_theorem => q Hq.
exists (rP q), (rP (c1 u)). apply: cr_ext => /=.
- have -> : c0 u = (c0 u + c1 u * y%:P) - c1 u * y%:P by pring.
  rewrite Hq. pring.
- pring.
Qed.

Definition isideal (I : cr -> Prop) :=
  I r0 /\ (forall u v, I u -> I v -> I (u +' v)) /\ (forall r u, I u -> I (r *' u)).
Lemma Id_ideal p : oncurve p -> isideal (Id p).
Proof.
case: p => [|x y] H; first by [].
split; [|split] => /=.
- rewrite /ev /= !horner0. fring.
- move=> u v. rewrite evD => -> ->. fring.
- move=> r u. rewrite evM // => ->. fring.
Qed.

Inductive idp (I J : cr -> Prop) : cr -> Prop :=
| idp0 : idp I J r0
| idpS u v z : I u -> J v -> idp I J z -> idp I J (u *' v +' z).
Definition sc (al : cr) (I : cr -> Prop) (z : cr) : Prop := exists w, I w /\ z = al *' w.
Implicit Types I J K : cr -> Prop.
Definition ieq (I J : cr -> Prop) := forall z, I z <-> J z.
Definition sim (I J : cr -> Prop) :=
  exists al be, al <> r0 /\ be <> r0 /\ ieq (sc al I) (sc be J).

Lemma idp1 I J u v : I u -> J v -> idp I J (u *' v).
Proof.
move=> Iu Jv. have -> : u *' v = u *' v +' r0 by ring.
by apply: idpS => //; apply: idp0.
Qed.
Lemma idpD I J u v : idp I J u -> idp I J v -> idp I J (u +' v).
Proof.
move=> Hu Hv. elim: Hu => [|u1 v1 z I1 J1 _ IH].
- by have -> : r0 +' v = v by ring.
- have -> : u1 *' v1 +' z +' v = u1 *' v1 +' (z +' v) by ring.
  exact: idpS.
Qed.
Lemma idp_mul I J r u : (forall r u, I u -> I (r *' u)) -> idp I J u -> idp I J (r *' u).
Proof.
move=> HI. elim=> [|u1 v1 z I1 J1 _ IH].
- have -> : r *' r0 = r0 by ring. exact: idp0.
- have -> : r *' (u1 *' v1 +' z) = (r *' u1) *' v1 +' r *' z by ring.
  apply: idpS => //. exact: HI.
Qed.
Lemma idp_ideal I J : isideal I -> isideal (idp I J).
Proof.
case=> [H0 [HD HM]]. split; [exact: idp0|split].
- exact: idpD.
- move=> r u. exact: idp_mul.
Qed.
Lemma idp_sub I J K : isideal K -> (forall u v, I u -> J v -> K (u *' v)) -> forall z, idp I J z -> K z.
Proof.
case=> [H0 [HD HM]] H z. elim=> [//|u v w Iu Jv _ IH]. by apply: HD => //; apply: H.
Qed.
Lemma idp_comm I J z : idp I J z -> idp J I z.
Proof.
elim=> [|u v w Iu Jv _ IH]; first exact: idp0.
have -> : u *' v = v *' u by ring. exact: idpS.
Qed.
Lemma idp_assoc1 I J K z : idp (idp I J) K z -> idp I (idp J K) z.
Proof.
elim=> [|u v w Iu Kv _ IH]; first exact: idp0.
apply: idpD => //. elim: Iu => [|u1 v1 w1 I1 J1 _ IH1].
- have -> : r0 *' v = r0 by ring. exact: idp0.
- have -> : (u1 *' v1 +' w1) *' v = u1 *' (v1 *' v) +' w1 *' v by ring.
  apply: idpS => //. exact: idp1.
Qed.
Lemma idp_assoc2 I J K z : idp I (idp J K) z -> idp (idp I J) K z.
Proof.
move/idp_comm => H.
have {H} : idp K (idp J I) z.
  apply: idp_assoc1. elim: H => [|u v w Iu Kv _ IH]; first exact: idp0.
  apply: idpS => //. exact: idp_comm.
move/idp_comm => H. elim: H => [|u v w Iu Kv _ IH]; first exact: idp0.
apply: idpS => //. exact: idp_comm.
Qed.
Lemma idp_assoc I J K : ieq (idp (idp I J) K) (idp I (idp J K)).
Proof. by move=> z; split; [exact: idp_assoc1|exact: idp_assoc2]. Qed.

Lemma idp_mono (I I' J J' : cr -> Prop) z : (forall u, I u -> I' u) -> (forall u, J u -> J' u) ->
  idp I J z -> idp I' J' z.
Proof.
move=> HI HJ. elim=> [|u v w Iu Jv _ IH]; first exact: idp0.
by apply: idpS => //; [exact: HI|exact: HJ].
Qed.

Lemma sc_idp al I J : ieq (sc al (idp I J)) (idp (sc al I) J).
Proof.
move=> z; split.
- case=> w [H ->]. elim: H => [|u v w' Iu Jv _ IH].
  + have -> : al *' r0 = r0 by ring. exact: idp0.
  + have -> : al *' (u *' v +' w') = (al *' u) *' v +' al *' w' by ring.
    apply: idpS => //. by exists u.
- elim=> [|u v w [u' [Iu ->]] Jv _ [w' [Hw ->]]].
  + exists r0. split; [exact: idp0|ring].
  + exists (u' *' v +' w'). split; [exact: idpS|ring].
Qed.

Lemma sim_refl I : sim I I.
Proof.
exists r1, r1. split; [|split] => //; try by case=> /eqP; rewrite oner_eq0.
Qed.
Lemma sim_sym I J : sim I J -> sim J I.
Proof. case=> al [be [nal [nbe H]]]. exists be, al. split => //; split => // z. by split=> /H. Qed.
Lemma sim_trans I J K : sim I J -> sim J K -> sim I K.
Proof.
case=> al [be [nal [nbe H]]] [ga [de [nga [nde H']]]].
exists (ga *' al), (be *' de). split; [exact: rmul_neq0|split; [exact: rmul_neq0|]].
move=> z; split.
- case=> w [Iw ->]. have : sc be J (al *' w) by apply/H; exists w.
  case=> w' [Jw' E].
  have : sc de K (ga *' w') by apply/H'; exists w'.
  case=> w'' [Kw'' E']. exists w''. split => //.
  have -> : ga *' al *' w = ga *' (al *' w) by ring.
  rewrite E. have -> : ga *' (be *' w') = be *' (ga *' w') by ring.
  rewrite E'. ring.
- case=> w [Kw ->]. have : sc ga J (de *' w) by apply/H'; exists w.
  case=> w' [Jw' E].
  have : sc al I (be *' w') by apply/H; exists w'.
  case=> w'' [Iw'' E']. exists w''. split => //.
  have -> : be *' de *' w = be *' (de *' w) by ring.
  rewrite E. have -> : be *' (ga *' w') = ga *' (be *' w') by ring.
  rewrite E'. ring.
Qed.
Lemma ieq_sim I J : ieq I J -> sim I J.
Proof.
move=> H. exists r1, r1. split; [|split]; try by case=> /eqP; rewrite oner_eq0.
move=> z; split; case=> w [Hw ->]; exists w; split => //; exact/H.
Qed.
Lemma sim_idp_l I I' J : sim I I' -> sim (idp I J) (idp I' J).
Proof.
case=> al [be [nal [nbe H]]]. exists al, be. split => //; split => // z.
rewrite sc_idp sc_idp. by split; apply: idp_mono => // u /H.
Qed.
Lemma sim_idp_r I I' J : sim I I' -> sim (idp J I) (idp J I').
Proof.
move=> H. have C A B : ieq (idp A B) (idp B A) by move=> z; split; exact: idp_comm.
apply: sim_trans (ieq_sim (C J I)) _. apply: sim_trans (ieq_sim (C _ _)).
exact: sim_idp_l.
Qed.

(** ** chord/tangent identities *)
Section Chord.
Variables x1 y1 x2 y2 l : F.
Hypothesis Ha : a = l * (y1 + y2) - (x1 * x1 + x1 * x2 + x2 * x2).
Hypothesis Hb : b = y1 * y1 - x1 * x1 * x1 - a * x1.
Hypothesis Hl : y2 = y1 + l * (x2 - x1).
Let x3 := l * l - x1 - x2.
Let y3 := l * (x1 - x3) - y1.

Lemma chord_on1 : oncurve (Aff x1 y1).
Proof. apply/eqP. rewrite Hb. fring. Qed.
Lemma chord_on2 : oncurve (Aff x2 y2).
Proof. apply/eqP. rewrite Hb Ha Hl. fring. Qed.
Lemma chord_on3 : oncurve (Aff x3 y3).
Proof. apply/eqP. rewrite /y3 /x3 Hb Ha Hl. fring. Qed.

Let L : P := y1%:P + l%:P * ('X - x1%:P).
Lemma chord_poly : f - L * L = ('X - x1%:P) * ('X - x2%:P) * ('X - x3%:P).
Proof.
rewrite fE Hb Ha /L /x3 Hl !(polyCD, polyCB, polyCM, polyCN).
pring.
Qed.

Definition ell : cr := CR (- L) 1.
Definition ell' : cr := CR L 1.
Lemma ell_ell' : ell *' ell' = lX x1 *' lX x2 *' lX x3.
Proof.
apply: cr_ext => /=.
- transitivity (f - L * L); first by pring. rewrite chord_poly. pring.
- pring.
Qed.
Lemma lY1 : lY y1 = ell +' rC l *' lX x1.
Proof. apply: cr_ext => /=; rewrite /L; pring. Qed.
Lemma lY2 : lY y2 = ell +' rC l *' lX x2.
Proof. apply: cr_ext => /=; rewrite /L ?Hl ?(polyCD, polyCB, polyCM, polyCN); pring. Qed.
Lemma lY3 : lY y3 = ell' -' rC l *' lX x3.
Proof. apply: cr_ext => /=; rewrite /L /y3 ?(polyCD, polyCB, polyCM, polyCN); pring. Qed.

(** the ideal generated by ell and (X-x1)(X-x2) *)
Let J (u : cr) : Prop := exists A B, u = A *' ell +' B *' (lX x1 *' lX x2).
Lemma J_ideal : isideal J.
Proof.
split; [|split].
- exists r0, r0. ring.
- move=> u v [A [B ->]] [A' [B' ->]]. exists (A +' A'), (B +' B'). ring.
- move=> r u [A [B ->]]. exists (r *' A), (r *' B). ring.
Qed.
Let I12 := idp (Id (Aff x1 y1)) (Id (Aff x2 y2)).
Lemma I12_J u : I12 u -> J u.
Proof.
apply: idp_sub J_ideal _ _ => {}u v /gen [A [B ->]] /gen [C [D ->]].
rewrite lY1 lY2.
exists (A *' lX x1 *' D +' B *' C *' lX x2 +' B *' D *' (ell +' rC l *' lX x2 +' rC l *' lX x1)),
  (A *' C +' A *' D *' rC l +' B *' C *' rC l +' B *' D *' rC l *' rC l).
ring.
Qed.
Lemma J_I12 : I12 ell -> forall u, J u -> I12 u.
Proof.
move=> H u [A [B ->]]. have [_ [HD HM]] : isideal I12 := idp_ideal _ (Id_ideal chord_on1).
apply: (HD); apply: (HM) => //. apply: idp1; exact: ev_lX.
Qed.

Lemma ell_1 : Id (Aff x1 y1) ell.
Proof.
rewrite /= /ev /= /L hornerN hornerD hornerM hornerXsubC !hornerC. fring.
Qed.
Lemma ell_2 : Id (Aff x2 y2) ell.
Proof.
rewrite /= /ev /= /L hornerN hornerD hornerM hornerXsubC !hornerC Hl. fring.
Qed.

Lemma ell_neq0 : ell <> r0.
Proof. by case=> _ /eqP; rewrite oner_eq0. Qed.
Lemma lX_neq0 x : lX x <> r0.
Proof. by case=> /eqP; rewrite polyXsubC_eq0. Qed.

Lemma I3_gen u : Id (Aff x3 y3) u <-> exists A B, u = A *' lX x3 +' B *' ell'.
Proof.
split.
- move/gen => [A [B ->]]. exists (A -' B *' rC l), B. rewrite lY3. ring.
- move=> [A [B ->]]. have [_ [HD HM]] := Id_ideal chord_on3. apply: (HD); apply: (HM).
  + exact: ev_lX.
  + have -> : ell' = lY y3 +' rC l *' lX x3 by rewrite lY3; ring.
    apply: (HD); [exact: ev_lY|]. apply: (HM). exact: ev_lX.
Qed.

Lemma chord_sim : I12 ell -> sim I12 (Id (Aff x3 y3)).
Proof.
move=> Hell. exists (lX x3), ell. split; [exact: lX_neq0|split; [exact: ell_neq0|]].
move=> z; split.
- case=> w [/I12_J [A [B ->]] ->].
  exists (A *' lX x3 +' B *' ell'). split; first by apply/I3_gen; exists A, B.
  have -> : ell *' (A *' lX x3 +' B *' ell') = A *' ell *' lX x3 +' B *' (ell *' ell') by ring.
  rewrite ell_ell'. ring.
- case=> w [/I3_gen [A [B ->]] ->].
  exists (A *' ell +' B *' (lX x1 *' lX x2)). split; first by apply: (J_I12 Hell); exists A, B.
  have -> : ell *' (A *' lX x3 +' B *' ell') = A *' ell *' lX x3 +' B *' (ell *' ell') by ring.
  rewrite ell_ell'. ring.
Qed.

Lemma rC_inv c : c != 0 -> rC c^-1 *' rC c = r1.
Proof.
move=> nc. apply: cr_ext => /=.
- have -> : c^-1%:P * c%:P + f * (0 * 0) = c^-1%:P * c%:P by pring.
  by rewrite -polyCM mulVf.
- pring.
Qed.

Lemma ell_in_distinct : x1 != x2 -> I12 ell.
Proof.
move=> nx. have nd : x1 - x2 != 0 by rewrite subr_eq0.
have [_ [HD HM]] : isideal I12 := idp_ideal _ (Id_ideal chord_on1).
have E : rC (x1 - x2) *' ell = ell *' lX x2 +' ropp r1 *' (lX x1 *' ell).
  have -> : rC (x1 - x2) = lX x2 -' lX x1.
    apply: cr_ext => /=; rewrite ?polyCB; pring.
  ring.
have -> : ell = rC (x1 - x2)^-1 *' (rC (x1 - x2) *' ell).
  have -> : rC (x1 - x2)^-1 *' (rC (x1 - x2) *' ell) = rC (x1 - x2)^-1 *' rC (x1 - x2) *' ell by ring.
  rewrite rC_inv //. ring.
apply: (HM). rewrite E. apply: (HD).
- apply: idp1; [exact: ell_1|exact: ev_lX].
- apply: (HM). apply: idp1; [exact: ev_lX|exact: ell_2].
Qed.

Lemma ell_in_tangent : x1 = x2 -> y1 = y2 -> y1 != 0 -> I12 ell.
Proof.
move=> ex ey ny. have [_ [HD HM]] : isideal I12 := idp_ideal _ (Id_ideal chord_on1).
have H1 : I12 (ell *' ell) by apply: idp1; [exact: ell_1|exact: ell_2].
have H2 : I12 (lX x1 *' lX x2) by apply: idp1; exact: ev_lX.
have H3 : I12 (ell *' lY y1) by rewrite /I12 -ey; apply: idp1; [rewrite -?ey; exact: ell_1|rewrite /= /ev; exact: (ev_lY x2 y1)].
have E2 : (1 + 1) * y1 != 0 by rewrite mulf_neq0.
have E : rC ((1 + 1) * y1) *' ell = (ell *' ell) +' (lX x3 *' (lX x1 *' lX x2)) +' (rC (- (1 + 1))) *' (ell *' lY y1).
  have -> : lX x3 *' (lX x1 *' lX x2) = ell *' ell' by rewrite ell_ell'; ring.
  have -> : rC ((1 + 1) * y1) = (ell +' ell') +' rC (- (1 + 1)) *' lY y1.
    apply: cr_ext => /=; rewrite !(polyCD, polyCM, polyCN, polyC1); pring.
  ring.
have -> : ell = rC ((1 + 1) * y1)^-1 *' (rC ((1 + 1) * y1) *' ell).
  have -> : rC ((1 + 1) * y1)^-1 *' (rC ((1 + 1) * y1) *' ell) = rC ((1 + 1) * y1)^-1 *' rC ((1 + 1) * y1) *' ell by ring.
  rewrite rC_inv //. ring.
apply: (HM). rewrite E. apply: (HD); [apply: (HD) => //|]; apply: (HM) => //.
Qed.
End Chord.

(** ** opposite points *)
Section Vertical.
Variables x y : F.
Hypothesis Hon : oncurve (Aff x y).
Let Hb : b = y * y - x * x * x - a * x.
Proof. move/eqP: Hon => ->. fring. Qed.
Let g : P := 'X * 'X + x%:P * 'X + (x * x + a)%:P.
Lemma vert_poly : f - (y * y)%:P = ('X - x%:P) * g.
Proof. rewrite fE Hb /g !(polyCD, polyCM, polyCB, polyCN). pring. Qed.
Lemma vert_neg_on : oncurve (Aff x (- y)).
Proof. apply/eqP. rewrite Hb. fring. Qed.
Lemma vert_mul : lY y *' lY (- y) = lX x *' rP g.
Proof.
apply: cr_ext => /=.
- transitivity (f - (y * y)%:P); first by rewrite !(polyCM, polyCN); pring.
  rewrite vert_poly. pring.
- rewrite polyCN. pring.
Qed.
Let IP := idp (Id (Aff x y)) (Id (Aff x (- y))).

Lemma deriv_neq0 : y = 0 -> (1+1+1) * (x * x) + a != 0.
Proof.
move=> y0. apply/negP => /eqP H. move/negP: disc_neq0; apply. apply/eqP. rewrite /disc.
have Hf : x * x * x + a * x + b = 0 by move/eqP: Hon; rewrite y0 => <-; fring.
set th := (1+1+1 : F).
transitivity ((th * th * th * b - (1+1) * th * th * a * x) * (x * x * x + a * x + b)
  + ((1+1) * th * a * x * x - th * th * b * x + (1+1)*(1+1)*a*a) * (th * (x * x) + a)).
- rewrite /th. fring.
- rewrite Hf H. fring.
Qed.

Lemma vert_in : IP (lX x).
Proof.
have [_ [HD HM]] : isideal IP := idp_ideal _ (Id_ideal Hon).
have HXX : IP (lX x *' lX x) by apply: idp1; exact: ev_lX.
case: (altP (y =P 0)) => [y0|ny].
- have nd := deriv_neq0 y0. set d := _ + a in nd.
  have E : rC d *' lX x = lY y *' lY (- y) +' (ropp (rX +' rC (x + x))) *' (lX x *' lX x).
    rewrite vert_mul.
    have -> : rC d = rP g -' (rX +' rC (x + x)) *' lX x.
      apply: cr_ext => /=; rewrite /g /d ?(polyCD, polyCM, polyCN, polyC1); pring.
    ring.
  have -> : lX x = rC d^-1 *' (rC d *' lX x).
    have -> : rC d^-1 *' (rC d *' lX x) = rC d^-1 *' rC d *' lX x by ring.
    rewrite rC_inv //. ring.
  apply: (HM). rewrite E. apply: (HD); [|by apply: (HM)].
  apply: idp1; exact: ev_lY.
- have n2 : (1 + 1) * y != 0 by rewrite mulf_neq0.
  have E : rC ((1+1) * y) *' lX x = lX x *' lY (- y) +' (ropp r1) *' (lY y *' lX x).
    have -> : rC ((1+1) * y) = lY (- y) -' lY y.
      apply: cr_ext => /=; rewrite ?(polyCD, polyCM, polyCN, polyC1); pring.
    ring.
  have -> : lX x = rC ((1+1) * y)^-1 *' (rC ((1+1) * y) *' lX x).
    have -> : rC ((1+1) * y)^-1 *' (rC ((1+1) * y) *' lX x) = rC ((1+1) * y)^-1 *' rC ((1+1) * y) *' lX x by ring.
    rewrite rC_inv //. ring.
  apply: (HM). rewrite E. apply: (HD); [|apply: (HM)].
  + apply: idp1; [exact: ev_lX|exact: ev_lY].
  + apply: idp1; [exact: ev_lY|exact: ev_lX].
Qed.

Lemma vert_sim : sim IP (Id Inf).
Proof.
have [_ [HD HM]] : isideal IP := idp_ideal _ (Id_ideal Hon).
exists r1, (lX x). split; [by case=> /eqP; rewrite oner_eq0|split; [exact: lX_neq0|]].
move=> z; split.
- case=> w [Hw ->].
  have : exists v, w = lX x *' v.
    move: w Hw. apply: idp_sub.
    + split; [|split].
      * exists r0. ring.
      * move=> u v [u' ->] [v' ->]. exists (u' +' v'). ring.
      * move=> r u [u' ->]. exists (r *' u'). ring.
    + move=> u v /gen [A [B ->]] /gen [C [D ->]].
      exists (A *' C *' lX x +' A *' D *' lY (- y) +' B *' C *' lY y +' B *' D *' rP g).
      have -> : (A *' lX x +' B *' lY y) *' (C *' lX x +' D *' lY (- y)) =
        A *' C *' lX x *' lX x +' A *' D *' lX x *' lY (- y) +' B *' C *' lX x *' lY y +' B *' D *' (lY y *' lY (- y)) by ring.
      rewrite vert_mul. ring.
  case=> v ->. exists v. split => //. ring.
- case=> w [_ ->]. exists (w *' lX x). split; last by ring.
  apply: (HM). exact: vert_in.
Qed.
End Vertical.

Lemma idp_unit I : isideal I -> ieq (idp (Id Inf) I) I.
Proof.
move=> HI z; split.
- move: z; apply: (idp_sub HI) => u v _ Iv. by case: HI => _ [_ HM]; apply: HM.
- move=> Iz. have -> : z = r1 *' z by ring. exact: idp1.
Qed.

Lemma same_x x y1 y2 : oncurve (Aff x y1) -> oncurve (Aff x y2) -> y1 = - y2 \/ y1 = y2.
Proof.
move=> /eqP H1 /eqP H2.
have : (y1 + y2) * (y1 - y2) == 0.
  apply/eqP. transitivity (y1 * y1 - y2 * y2); first by fring. rewrite H1 H2. fring.
rewrite mulf_eq0 => /orP [] /eqP H; [left|right].
- have -> : y1 = (y1 + y2) - y2 by fring. rewrite H. fring.
- have -> : y1 = (y1 - y2) + y2 by fring. rewrite H. fring.
Qed.

(** the slope facts for the two non-vertical cases *)
Lemma slope_chord x1 y1 x2 y2 : oncurve (Aff x1 y1) -> oncurve (Aff x2 y2) -> x1 != x2 ->
  let l := (y2 - y1) / (x2 - x1) in
  [/\ a = l * (y1 + y2) - (x1 * x1 + x1 * x2 + x2 * x2),
      b = y1 * y1 - x1 * x1 * x1 - a * x1 & y2 = y1 + l * (x2 - x1)].
Proof.
move=> /eqP H1 /eqP H2 nx l. have nd : x2 - x1 != 0 by rewrite subr_eq0 eq_sym.
have Hl : y2 = y1 + l * (x2 - x1) by rewrite /l divfK //; fring.
split => //; last by rewrite H1; fring.
apply: (mulfI nd).
have -> : (x2 - x1) * (l * (y1 + y2) - (x1 * x1 + x1 * x2 + x2 * x2)) =
   (l * (x2 - x1)) * (y1 + y2) - (x2 - x1) * (x1 * x1 + x1 * x2 + x2 * x2) by fring.
have -> : l * (x2 - x1) = y2 - y1 by rewrite /l divfK.
have -> : (y2 - y1) * (y1 + y2) = y2 * y2 - y1 * y1 by fring.
rewrite H1 H2. fring.
Qed.
Lemma slope_tangent x y : oncurve (Aff x y) -> y != 0 ->
  let l := ((1+1+1) * (x * x) + a) / ((1+1) * y) in
  [/\ a = l * (y + y) - (x * x + x * x + x * x),
      b = y * y - x * x * x - a * x & y = y + l * (x - x)].
Proof.
move=> /eqP H1 ny l. have nd : (1+1) * y != 0 by rewrite mulf_neq0.
split.
- have -> : l * (y + y) = l * ((1+1) * y) by fring.
  rewrite /l divfK //. fring.
- rewrite H1; fring.
- fring.
Qed.

Lemma neg_neq (y : F) : y != - y -> y != 0.
Proof. by move=> H; apply/negP => /eqP E; move: H; rewrite E oppr0 eqxx. Qed.

Lemma add_oncurve p q : oncurve p -> oncurve q -> oncurve (ec_add p q).
Proof.
case: p => [//|x1 y1]; case: q => [//|x2 y2] H1 H2. rewrite /ec_add.
case: (altP (x1 =P x2)) => [ex|nx].
- case: (altP (y1 =P - y2)) => [//|ny]. subst x2.
  case: (same_x H1 H2) => E; first by move: ny; rewrite E eqxx.
  subst y2. have [A B C] := slope_tangent H1 (neg_neq ny). exact: (chord_on3 A B C).
- have [A B C] := slope_chord H1 H2 nx. exact: (chord_on3 A B C).
Qed.

Lemma add_sim p q : oncurve p -> oncurve q -> sim (idp (Id p) (Id q)) (Id (ec_add p q)).
Proof.
case: p => [|x1 y1].
  move=> _ H. apply: ieq_sim. exact: (idp_unit (Id_ideal H)).
case: q => [|x2 y2] H1 H2.
  apply: ieq_sim => z; split.
  - move/idp_comm => Hz. exact/(idp_unit (Id_ideal H1)).
  - move=> Hz. apply: idp_comm. exact/(idp_unit (Id_ideal H1)).
rewrite /ec_add. case: (altP (x1 =P x2)) => [ex|nx].
- subst x2. case: (altP (y1 =P - y2)) => [ey|ny].
  + have -> : y2 = - y1 by rewrite ey; fring. exact: vert_sim.
  + case: (same_x H1 H2) => E; first by move: ny; rewrite E eqxx.
    subst y2. have [A B C] := slope_tangent H1 (neg_neq ny).
    apply: (chord_sim A B C). apply: (ell_in_tangent A B C) => //. exact: (neg_neq ny).
- have [A B C] := slope_chord H1 H2 nx.
  apply: (chord_sim A B C). by apply: ell_in_distinct.
Qed.

(** ** uniqueness *)
Lemma size_N_lX x : size (N (lX x)) = 3%N.
Proof.
have -> : N (lX x) = ('X - x%:P) * ('X - x%:P) by rewrite /N /=; pring.
by rewrite size_mul ?polyXsubC_eq0 // size_XsubC.
Qed.
Lemma size_N_lY y : size (N (lY y)) = 4%N.
Proof.
rewrite size_N /= oner_eq0 size_poly1 size_opp oppr_eq0.
case: (altP (y%:P =P 0)) => [_|ny] //.
by rewrite size_polyC; case: (y == 0).
Qed.
Lemma lY_neq0 y : lY y <> r0.
Proof. by case=> _ /eqP; rewrite oner_eq0. Qed.

Lemma Id_size x y u : u <> r0 -> Id (Aff x y) u -> (3 <= size (N u))%N.
Proof.
move=> nu H. have := size_N_gt0 nu. have := @size_N_ne2 u.
case E : (size (N u)) => [//|[|[|n]]] // _ _.
have [c10 s1] := size_N_1 E.
move: H. rewrite /= /ev c10 horner0.
have s1' : (size (c0 u) <= 1)%N by rewrite s1.
move=> H. have : size (c0 u) = 0%N; last by rewrite s1.
rewrite (small_const s1') in H *. move: H; rewrite hornerC => H.
have -> : (c0 u)`_0 = 0 by rewrite -[LHS]addr0 -[X in _ + X](mul0r y).
by rewrite size_polyC eqxx.
Qed.

Lemma Id_size3 x y u : Id (Aff x y) u -> size (N u) = 3%N -> exists2 c, c != 0 & u = rC c *' lX x.
Proof.
move=> H /size_N_3 [c10 s2].
have s2' : (size (c0 u) <= 2)%N by rewrite s2.
have E := small_lin s2'. set c : F := (c0 u)`_1 in E. set d : F := (c0 u)`_0 in E.
have nc : c != 0.
  apply/negP => /eqP c0'. move: E; rewrite c0' polyC0 mul0r add0r => E'.
  by move: s2; rewrite E' size_polyC; case: (d == 0).
exists c => //. move: H. rewrite /= /ev c10 horner0 E !(hornerD, hornerM, hornerC, hornerX) => H.
have Ed : d = - (c * x).
  have -> : d = (c * x + d + 0 * y) - c * x by fring.
  rewrite H. fring.
apply: cr_ext => /=; last by rewrite c10; pring.
rewrite E Ed polyCN polyCM. pring.
Qed.

Lemma Id_size4 x y u : Id (Aff x y) u -> size (N u) = 4%N ->
  exists d e, d != 0 /\ u = rC e *' lX x +' rC d *' lY y.
Proof.
move=> H /size_N_4 [s2 s1].
have E0 := small_lin s2. set e : F := (c0 u)`_1 in E0. set g : F := (c0 u)`_0 in E0.
have s1' : (size (c1 u) <= 1)%N by rewrite s1.
have E1 := small_const s1'. set d : F := (c1 u)`_0 in E1.
exists d, e. split.
- apply/negP => /eqP d0. by move: s1; rewrite E1 d0 polyC0 size_poly0.
- move: H. rewrite /= /ev E0 E1 !(hornerD, hornerM, hornerC, hornerX) => H.
  have Eg : g = - (e * x) - d * y.
    have -> : g = (e * x + g + d * y) - e * x - d * y by fring.
    rewrite H. fring.
  apply: cr_ext => /=.
  + rewrite E0 Eg !(polyCB, polyCN, polyCM). pring.
  + rewrite E1. symmetry. pring.
Qed.

Lemma sim_le x y x' y' al be : al <> r0 -> be <> r0 ->
  (forall z, sc al (Id (Aff x y)) z -> sc be (Id (Aff x' y')) z) -> (size (N be) <= size (N al))%N.
Proof.
move=> nal nbe H.
have : sc be (Id (Aff x' y')) (al *' lX x) by apply: H; exists (lX x); split => //; exact: ev_lX.
case=> t [It E].
have nt : t <> r0.
  move=> t0. have : al *' lX x = r0 by rewrite E t0; ring.
  exact: (rmul_neq0 nal (@lX_neq0 x)).
have S : size (N (al *' lX x)) = size (N (be *' t)) by rewrite E.
rewrite !size_N_mul // in S; last exact: lX_neq0.
rewrite size_N_lX in S.
have := Id_size nt It. have := size_N_gt0 nal. have := size_N_gt0 nbe.
move: S. case: (size (N al)) => [//|n]; case: (size (N be)) => [//|m]; case: (size (N t)) => [//|k].
rewrite !addSn [X in X -> _]/= => S _ _ H3.
by rewrite ltnS -(leq_add2r 3) S leq_add2l.
Qed.

Lemma sim_aff_aff x y x' y' : sim (Id (Aff x y)) (Id (Aff x' y')) -> x = x' /\ y = y'.
Proof.
case=> al [be [nal [nbe H]]].
have S : size (N al) = size (N be).
  apply/eqP; rewrite eqn_leq. apply/andP; split; apply: sim_le => // z /H; eauto.
have : sc be (Id (Aff x' y')) (al *' lX x) by apply/H; exists (lX x); split => //; exact: ev_lX.
case=> t [It Et].
have : sc be (Id (Aff x' y')) (al *' lY y) by apply/H; exists (lY y); split => //; exact: ev_lY.
case=> t' [It' Et'].
have nt : t <> r0.
  move=> t0. have : al *' lX x = r0 by rewrite Et t0; ring.
  exact: (rmul_neq0 nal (@lX_neq0 x)).
have nt' : t' <> r0.
  move=> t0. have : al *' lY y = r0 by rewrite Et' t0; ring.
  exact: (rmul_neq0 nal (@lY_neq0 y)).
have Sal := size_N_gt0 nal.
have St : size (N t) = 3%N.
  have : size (N (al *' lX x)) = size (N (be *' t)) by rewrite Et.
  rewrite !size_N_mul //; last exact: lX_neq0.
  rewrite -S size_N_lX. move: Sal; case: (size (N al)) => [//|n] _. rewrite !addSn /=. by move/addnI.
have St' : size (N t') = 4%N.
  have : size (N (al *' lY y)) = size (N (be *' t')) by rewrite Et'.
  rewrite !size_N_mul //; last exact: lY_neq0.
  rewrite -S size_N_lY. move: Sal; case: (size (N al)) => [//|n] _. rewrite !addSn /=. by move/addnI.
have [c nc Ec] := Id_size3 It St.
have [d [e [nd Ed]]] := Id_size4 It' St'.
have E : lX x *' t' = lY y *' t.
  apply: (rmul_cancel (u := al *' be)); first exact: rmul_neq0.
  have -> : al *' be *' (lX x *' t') = (al *' lX x) *' (be *' t') by ring.
  rewrite -Et' Et. ring.
move: E. rewrite Ec Ed => E.
have E1 : ('X - x%:P) * d%:P = ('X - x'%:P) * c%:P.
  have /= := congr1 c1 E.
  have -> : forall p q r s t : P, p * (q * 0 + 0 * r + (s * 1 + 0 * t)) + 0 * (q * r + f * (0 * 0) + (s * t + f * (0 * 1))) = p * s by move=> *; pring.
  move=> ->. pring.
have E0 : ('X - x%:P) * (e%:P * ('X - x'%:P) - d%:P * y'%:P) = - y%:P * (c%:P * ('X - x'%:P)).
  have /= := congr1 c0 E.
  have -> : forall p q r s t : P, p * (q * r + f * (0 * 0) + (s * t + f * (0 * 1))) + f * (0 * (q * 0 + 0 * r + (s * 1 + 0 * t))) = p * (q * r + s * t) by move=> *; pring.
  have -> : forall p q r : P, p * (q * r + f * (0 * 0)) + f * (1 * (q * 0 + 0 * r)) = p * (q * r) by move=> *; pring.
  move=> <-. pring.
have Ecd : c = d.
  have := congr1 (fun p : P => p`_1) E1.
  by rewrite !coefMC !coefB !coefX !coefC /= !subr0 !mul1r.
have Ex : x = x'.
  have := congr1 (fun p : P => p.[x]) E1.
  rewrite !hornerM !hornerXsubC !hornerC subrr mul0r => /esym/eqP.
  by rewrite mulf_eq0 (negbTE nc) orbF subr_eq0 => /eqP.
split; first exact: Ex. move: E0 {E1 E Et Et' It It' Ec Ed H}. rewrite -Ex => E0.
have nX : ('X - x%:P : P) != 0 by rewrite polyXsubC_eq0.
have E2 : e%:P * ('X - x%:P) - d%:P * y'%:P = - y%:P * c%:P.
  apply: (mulfI nX). rewrite E0. pring.
have := congr1 (fun p : P => p.[x]) E2.
rewrite !(hornerD, hornerM, hornerN, hornerC, hornerX) subrr mulr0 sub0r mulNr -Ecd => /oppr_inj.
rewrite mulrC. move/(mulIf nc) => ->. by [].
Qed.

Lemma sim_inf_aff x y : oncurve (Aff x y) -> ~ sim (Id Inf) (Id (Aff x y)).
Proof.
move=> Hon [al [be [nal [nbe H]]]].
have : sc be (Id (Aff x y)) al by apply/H; exists r1; split => //; ring.
case=> t [It Et].
have nt : t <> r0 by move=> t0; apply: nal; rewrite Et t0; ring.
have prin s : Id (Aff x y) s -> exists r, s = t *' r.
  move=> Is. have : sc al (Id Inf) (be *' s) by apply/H; exists s.
  case=> r [_ E]. exists r. apply: (rmul_cancel nbe). rewrite E Et. ring.
have [r Er] := prin _ (ev_lX x y).
have [r' Er'] := prin _ (ev_lY x y).
have nr : r <> r0.
  move=> e. have : lX x = r0 by rewrite Er e; ring. exact: lX_neq0.
have nr' : r' <> r0.
  move=> e. have : lY y = r0 by rewrite Er' e; ring. exact: lY_neq0.
have S1 : size (N (lX x)) = size (N (t *' r)) by rewrite Er.
have S2 : size (N (lY y)) = size (N (t *' r')) by rewrite Er'.
rewrite size_N_mul // size_N_lX in S1. rewrite size_N_mul // size_N_lY in S2.
have H3 := Id_size nt It. have Sr := size_N_gt0 nr. have Sr' := size_N_gt0 nr'. have n2 := @size_N_ne2 r'.
move: S1 S2 H3 Sr Sr' n2.
case: (size (N t)) => [|[|[|[|k]]]] //; case: (size (N r)) => [|[|m]] //; case: (size (N r')) => [|[|[|j]]] //;
  rewrite ?addSn ?addnS //.
Qed.

Lemma sim_eq p q : oncurve p -> oncurve q -> sim (Id p) (Id q) -> p = q.
Proof.
case: p => [|x y]; case: q => [|x' y'] // H1 H2 S.
- by case: (sim_inf_aff H2).
- by case: (sim_inf_aff H1); apply: sim_sym.
- by case: (sim_aff_aff S) => -> ->.
Qed.

(** ** the group laws *)
Theorem ec_addA p q r : oncurve p -> oncurve q -> oncurve r ->
  ec_add p (ec_add q r) = ec_add (ec_add p q) r.
Proof.
move=> Hp Hq Hr.
apply: sim_eq; try by do !apply: add_oncurve.
apply: sim_trans; first by apply: sim_sym; apply: add_sim => //; apply: add_oncurve.
apply: sim_trans; first by apply: sim_idp_r; apply: sim_sym; apply: add_sim.
apply: sim_trans; first by apply: ieq_sim => z; apply: iff_sym; apply: idp_assoc.
apply: sim_trans; first by apply: sim_idp_l; apply: add_sim.
by apply: add_sim => //; apply: add_oncurve.
Qed.
Theorem ec_addC p q : oncurve p -> oncurve q -> ec_add p q = ec_add q p.
Proof.
move=> Hp Hq. apply: sim_eq; try by apply: add_oncurve.
apply: sim_trans; first by apply: sim_sym; apply: add_sim.
apply: sim_trans; last by apply: add_sim.
by apply: ieq_sim => z; split; apply: idp_comm.
Qed.
Lemma ec_add0 p : ec_add p Inf = p. Proof. by case: p. Qed.
Lemma ec_0add p : ec_add Inf p = p. Proof. by []. Qed.
Lemma neg_oncurve p : oncurve p -> oncurve (ec_neg p).
Proof. case: p => [//|x y] H. exact: vert_neg_on. Qed.
Lemma ec_addN p : oncurve p -> ec_add p (ec_neg p) = Inf.
Proof. by case: p => [//|x y] _; rewrite /= eqxx opprK eqxx. Qed.
End EC.
