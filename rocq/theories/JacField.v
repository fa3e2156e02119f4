#[global] Set Warnings "-notation-overridden,-ambiguous-paths".
(** * Jacobian doubling and addition over any field, against the affine group law (a = -3).
    The formulas are those of elliptic.go (Go 1.18) doubleJacobian / addJacobian without the
    modular reductions; ECBridge.v links them to the integer model. *)
From mathcomp Require Import ssreflect ssrfun ssrbool eqtype ssrnat seq choice ssralg poly polydiv.
From Coq Require Import Ring Field.
From Verif Require Import GroupLaw.
Set Implicit Arguments.
Unset Strict Implicit.
Unset Printing Implicit Defensive.
Import GRing.Theory.
Local Open Scope ring_scope.

Section Jac.
Variable F : fieldType.
Variable b : F.
Let a : F := - (1 + 1 + 1).
Hypothesis two_neq0 : (1 + 1 : F) != 0.

Add Field Ffield2 : (mc_field_theory F).
Ltac fprep := match goal with |- @eq ?T ?x ?y => change (@eq F x y) end;
  rewrite ?(toAdd, toMul, toOpp, toInv, toZero, toOne);
  match goal with |- @eq ?T ?x ?y => change (@eq F x y) end.
Ltac fring := fprep; ring.
Ltac ffield := fprep; field.

Definition aff (j : F * F * F) : point F :=
  let '(x, y, z) := j in if z == 0 then Inf else Aff (x / (z * z)) (y / (z * z * z)).

Definition two : F := 1 + 1.
Definition dblJ (j : F * F * F) : F * F * F :=
  let '(x, y, z) := j in
  let delta := z * z in
  let gamma := y * y in
  let alpha := (1 + 1 + 1) * ((x - delta) * (x + delta)) in
  let beta := x * gamma in
  let x3 := alpha * alpha - two * two * two * beta in
  let z3 := (y + z) * (y + z) - gamma - delta in
  let y3 := alpha * (two * two * beta - x3) - two * two * two * (gamma * gamma) in
  (x3, y3, z3).

Definition addJ (j1 j2 : F * F * F) : F * F * F :=
  let '(x1, y1, z1) := j1 in
  let '(x2, y2, z2) := j2 in
  if z1 == 0 then (x2, y2, z2) else
  if z2 == 0 then (x1, y1, z1) else
  let z1z1 := z1 * z1 in
  let z2z2 := z2 * z2 in
  let u1 := x1 * z2z2 in
  let u2 := x2 * z1z1 in
  let h := u2 - u1 in
  let i := (two * h) * (two * h) in
  let jj := h * i in
  let s1 := y1 * z2 * z2z2 in
  let s2 := y2 * z1 * z1z1 in
  let r := s2 - s1 in
  if (h == 0) && (r == 0) then dblJ (x1, y1, z1) else
  let r := two * r in
  let v := u1 * i in
  let x3 := r * r - jj - v - v in
  let y3 := r * (v - x3) - two * (s1 * jj) in
  let z3 := ((z1 + z2) * (z1 + z2) - z1z1 - z2z2) * h in
  (x3, y3, z3).

Lemma two_n0 : two != 0. Proof. exact: two_neq0. Qed.

Lemma aff_dbl j : oncurve a b (aff j) -> aff (dblJ j) = ec_add a (aff j) (aff j).
Proof.
case: j => [[x y] z]. rewrite /aff /dblJ.
have Ez : (y + z) * (y + z) - y * y - z * z = two * (y * z) by rewrite /two; fring.
rewrite Ez. case: (altP (z =P 0)) => [-> _|nz Hon]; first by rewrite !mulr0 eqxx.
have nz' : z <> fZero by apply/eqP.
have t0 : two <> fZero by apply/eqP; exact: two_n0.
rewrite /= eqxx.
case: (altP (y =P 0)) => [->|ny].
  by rewrite !mul0r mulr0 !eqxx oppr0 eqxx.
have ny' : y <> fZero by apply/eqP.
have n3 : z * z * z != 0 by rewrite !mulf_neq0.
have nyz : two * (y * z) != 0 by rewrite !mulf_neq0 // two_n0.
rewrite (negbTE nyz).
have -> : (y / (z * z * z) == - (y / (z * z * z))) = false.
  apply/negP => /eqP E. 
  have : two * (y / (z * z * z)) == 0.
    apply/eqP. rewrite /two mulrDl mul1r {1}E addNr //.
  by rewrite !mulf_eq0 (negbTE two_n0) (negbTE ny) invr_eq0 (negbTE n3).
rewrite -/two /a.
congr Aff; rewrite /two in t0 *; move: nz' ny' t0; rewrite ?(toAdd, toMul, toOpp, toInv, toZero, toOne) => nz' ny' t0;
 match goal with |- @eq ?T ?x ?y => change (@eq F x y) end; field; repeat split => //.
Qed.

Lemma aff_add j1 j2 : oncurve a b (aff j1) -> oncurve a b (aff j2) ->
  aff (addJ j1 j2) = ec_add a (aff j1) (aff j2).
Proof.
case: j1 => [[x1 y1] z1]; case: j2 => [[x2 y2] z2].
move=> H1 H2.
rewrite /addJ.
case: (altP (z1 =P 0)) => [e|nz1]; first by rewrite {2}/aff e eqxx.
case: (altP (z2 =P 0)) => [e|nz2].
  rewrite {3}/aff e eqxx. by case: (aff _).
set h := x2 * (z1 * z1) - x1 * (z2 * z2).
set r := y2 * z1 * (z1 * z1) - y1 * z2 * (z2 * z2).
have nz1' : z1 <> fZero by apply/eqP.
have nz2' : z2 <> fZero by apply/eqP.
have nq1 : z1 * z1 != 0 by rewrite mulf_neq0.
have nq2 : z2 * z2 != 0 by rewrite mulf_neq0.
have nc1 : z1 * z1 * z1 != 0 by rewrite mulf_neq0.
have nc2 : z2 * z2 * z2 != 0 by rewrite mulf_neq0.
have t0 : two <> fZero by apply/eqP; exact: two_n0.
have Ex : (x1 / (z1 * z1) == x2 / (z2 * z2)) = (h == 0).
  by rewrite eqr_div // /h subr_eq0 eq_sym.
have Ey : (y1 / (z1 * z1 * z1) == y2 / (z2 * z2 * z2)) = (r == 0).
  rewrite eqr_div // /r subr_eq0 eq_sym. by rewrite -!mulrA.
case: (boolP ((h == 0) && (r == 0))) => [/andP [hz rz]|nhr].
  rewrite aff_dbl //. congr ec_add.
  rewrite /aff (negbTE nz1) (negbTE nz2).
  have := Ex; rewrite hz => /eqP ->. by have := Ey; rewrite rz => /eqP ->.
move: H1 H2. rewrite /aff (negbTE nz1) (negbTE nz2) => H1 H2.
have Ez : (z1 + z2) * (z1 + z2) - z1 * z1 - z2 * z2 = two * (z1 * z2) by rewrite /two; fring.
rewrite Ez !mulf_eq0 (negbTE two_n0) (negbTE nz1) (negbTE nz2) /= Ex.
case: (altP (h =P 0)) => hz.
  have rz : r != 0 by move: nhr; rewrite hz eqxx.
  have exx : x1 / (z1 * z1) = x2 / (z2 * z2) by apply/eqP; rewrite Ex hz eqxx.
  rewrite -exx in H2.
  case: (same_x H1 H2) => E; first by rewrite E eqxx.
  move: rz. by rewrite -Ey E eqxx.
have nh : (x2 * (z1 * z1) - x1 * (z2 * z2)) <> fZero by apply/eqP.
rewrite /h /r /two in t0 nh *.
congr Aff; move: nz1' nz2' nh t0; rewrite ?(toAdd, toMul, toOpp, toInv, toZero, toOne) => nz1' nz2' nh t0;
 match goal with |- @eq ?T ?x ?y => change (@eq F x y) end; field; repeat split => //;
 by rewrite /fMul /fOpp mulNr.
Qed.
End Jac.
