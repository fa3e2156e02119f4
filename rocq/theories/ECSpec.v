(** * Specification: the group of a short Weierstrass curve y^2 = x^3 + a x + b over Z/p,
    by the chord-and-tangent rule (GB/T 32918.1).  Independent of the code's Jacobian arithmetic. *)
From Verif Require Import Base.

Inductive pt := PO | PA (x y : Z).

Section Spec.
Variables p a b : Z.

(** inverse modulo the prime p, by Fermat *)
Definition finv (x : Z) : Z := x ^ (p - 2) mod p.

Definition on_curve (A : pt) : Prop :=
  match A with
  | PO => True
  | PA x y => 0 <= x < p /\ 0 <= y < p /\ (y * y) mod p = (x * x * x + a * x + b) mod p
  end.

Definition pneg (A : pt) : pt := match A with PO => PO | PA x y => PA x ((- y) mod p) end.

Definition padd (A B : pt) : pt :=
  match A, B with
  | PO, _ => B
  | _, PO => A
  | PA x1 y1, PA x2 y2 =>
      if (x1 =? x2) && ((y1 + y2) mod p =? 0) then PO else
      let l := if x1 =? x2 then (3 * (x1 * x1) + a) * finv (2 * y1) else (y2 - y1) * finv (x2 - x1) in
      let x3 := (l * l - x1 - x2) mod p in
      PA x3 ((l * (x1 - x3) - y1) mod p)
  end.

(** the k-fold sum A + ... + A *)
Definition pmul (k : Z) (A : pt) : pt := Nat.iter (Z.to_nat k) (padd A) PO.
End Spec.

(** crypto/elliptic represents the point at infinity by (0,0) *)
Definition enc (A : pt) : Z * Z := match A with PO => (0, 0) | PA x y => (x, y) end.
