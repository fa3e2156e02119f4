(** * Model of the generic curve arithmetic of Go 1.18 crypto/elliptic (CurveParams),
    which /repo/sm2/sm2.go:28-31 embeds in P256V1Curve and therefore uses for every curve
    operation.  (elliptic.go is not part of the repository; it is the standard library the
    go.mod line "go 1.18" selects.  *big.Int is Z, Mod is Z.modulo.) *)
From Verif Require Import Base.

(** ** SM2 domain parameters: sm2.go:46-56 *)
Definition sm2_P : Z := 0xFFFFFFFEFFFFFFFFFFFFFFFFFFFFFFFFFFFFFFFF00000000FFFFFFFFFFFFFFFF.
Definition sm2_A : Z := 0xFFFFFFFEFFFFFFFFFFFFFFFFFFFFFFFFFFFFFFFF00000000FFFFFFFFFFFFFFFC.
Definition sm2_B : Z := 0x28E9FA9E9D9F5E344D5A9E4BCF6509A7F39789F515AB8F92DDBCBD414D940E93.
Definition sm2_N : Z := 0xFFFFFFFEFFFFFFFFFFFFFFFFFFFFFFFF7203DF6B21C6052B53BBF40939D54123.
Definition sm2_Gx : Z := 0x32C4AE2C1F1981195F9904466A39C9948FE30BBFF2660BE1715A4589334C74C7.
Definition sm2_Gy : Z := 0xBC3736A2F4F6779C59BDCEE36B692153D0A9877CC62A474002DF32E52139F0A0.
Definition sm2_BitSize : Z := 256.

(** ** math/big ModInverse: the inverse of g modulo n in [0,n), nil (None) when gcd <> 1 *)
(** extended Euclid on (a, b): returns (g, u) with u*a = g (mod b_initial) *)
Fixpoint egcd_loop (fuel : nat) (r0 u0 r1 u1 : Z) : Z * Z :=
  match fuel with
  | O => (r0, u0)
  | S fuel' => if r1 =? 0 then (r0, u0)
               else egcd_loop fuel' r1 u1 (r0 mod r1) (u0 - r0 / r1 * u1)
  end.
Definition egcd_fuel (n : Z) : nat := S (S (2 * S (Z.to_nat (Z.log2 n)))).
Definition ModInverse (g n : Z) : option Z :=
  let '(d, u) := egcd_loop (egcd_fuel n) n 0 (g mod n) 1 in
  if d =? 1 then Some (u mod n) else None.

Section Curve.
Variables P B : Z.   (* field prime and curve coefficient b; a = -3 is built in *)

(** elliptic.go polynomial: x^3 - 3x + b mod P *)
Definition polynomial (x : Z) : Z := (x * x * x - (x + x + x) + B) mod P.
(** elliptic.go IsOnCurve *)
Definition IsOnCurve (x y : Z) : bool :=
  if (x <? 0) || (P <=? x) || (y <? 0) || (P <=? y) then false
  else (y * y) mod P =? polynomial x.

(** Go: z.Sub(a,b); if z.Sign() == -1 { z.Add(z, P) } *)
Definition subP (x y : Z) : Z := let h := x - y in if h <? 0 then h + P else h.

(** elliptic.go zForAffine *)
Definition zForAffine (x y : Z) : Z := if (negb (x =? 0)) || (negb (y =? 0)) then 1 else 0.

(** elliptic.go affineFromJacobian; the inverse exists when P is prime and 0 < z < P
    (ModInverse nil would panic) *)
Definition affineFromJacobian (j : Z * Z * Z) : outcome (Z * Z) :=
  let '(x, y, z) := j in
  if z =? 0 then Ret (0, 0) else
  match ModInverse z P with
  | None => Panic
  | Some zinv =>
      let zinvsq := zinv * zinv in
      let xOut := (x * zinvsq) mod P in
      let zinvcb := zinvsq * zinv in
      let yOut := (y * zinvcb) mod P in
      Ret (xOut, yOut)
  end.

(** elliptic.go doubleJacobian *)
Definition doubleJacobian (j : Z * Z * Z) : Z * Z * Z :=
  let '(x, y, z) := j in
  let delta := (z * z) mod P in
  let gamma := (y * y) mod P in
  let alpha := subP x delta in
  let alpha2 := x + delta in
  let alpha := alpha * alpha2 in
  let alpha := Z.shiftl alpha 1 + alpha in
  let beta := x * gamma in
  let x3 := alpha * alpha in
  let beta8 := Z.shiftl beta 3 mod P in
  let x3 := subP x3 beta8 mod P in
  let z3 := y + z in
  let z3 := z3 * z3 in
  let z3 := subP z3 gamma in
  let z3 := subP z3 delta mod P in
  let beta := Z.shiftl beta 2 in
  let beta := subP beta x3 in
  let y3 := alpha * beta in
  let gamma := gamma * gamma in
  let gamma := Z.shiftl gamma 3 mod P in
  let y3 := subP y3 gamma mod P in
  (x3, y3, z3).

(** elliptic.go addJacobian *)
Definition addJacobian (j1 j2 : Z * Z * Z) : Z * Z * Z :=
  let '(x1, y1, z1) := j1 in
  let '(x2, y2, z2) := j2 in
  if z1 =? 0 then (x2, y2, z2) else
  if z2 =? 0 then (x1, y1, z1) else
  let z1z1 := (z1 * z1) mod P in
  let z2z2 := (z2 * z2) mod P in
  let u1 := (x1 * z2z2) mod P in
  let u2 := (x2 * z1z1) mod P in
  let h := subP u2 u1 in
  let xEqual := h =? 0 in
  let i := Z.shiftl h 1 in
  let i := i * i in
  let jj := h * i in
  let s1 := (y1 * z2 * z2z2) mod P in
  let s2 := (y2 * z1 * z1z1) mod P in
  let r := subP s2 s1 in
  let yEqual := r =? 0 in
  if xEqual && yEqual then doubleJacobian (x1, y1, z1) else
  let r := Z.shiftl r 1 in
  let v := u1 * i in
  let x3 := (r * r - jj - v - v) mod P in
  let y3 := r * (v - x3) in
  let s1 := Z.shiftl (s1 * jj) 1 in
  let y3 := (y3 - s1) mod P in
  let z3 := z1 + z2 in
  let z3 := z3 * z3 in
  let z3 := z3 - z1z1 in
  let z3 := z3 - z2z2 in
  let z3 := (z3 * h) mod P in
  (x3, y3, z3).

(** elliptic.go Add *)
Definition Add (x1 y1 x2 y2 : Z) : outcome (Z * Z) :=
  affineFromJacobian (addJacobian (x1, y1, zForAffine x1 y1) (x2, y2, zForAffine x2 y2)).

(** elliptic.go ScalarMult: bits of k from the most significant; Bz = 1 always *)
Definition sm_bit (Bj : Z * Z * Z) (acc : Z * Z * Z) (bit : bool) : Z * Z * Z :=
  let acc := doubleJacobian acc in if bit then addJacobian Bj acc else acc.
Definition byte_bits (b : Z) : list bool := map (fun i => Z.testbit b (7 - Z.of_nat i)) (seq 0 8).
Definition sm_byte (Bj : Z * Z * Z) (acc : Z * Z * Z) (byte : Z) : Z * Z * Z :=
  fold_left (sm_bit Bj) (byte_bits byte) acc.
Definition ScalarMultJ (Bj : Z * Z * Z) (k : bytes) : Z * Z * Z := fold_left (sm_byte Bj) k (0, 0, 0).
Definition ScalarMult (Bx By : Z) (k : bytes) : outcome (Z * Z) :=
  affineFromJacobian (ScalarMultJ (Bx, By, 1) k).
End Curve.

(** the SM2 instance *)
Definition sm2_IsOnCurve := IsOnCurve sm2_P sm2_B.
Definition sm2_Add := Add sm2_P.
Definition sm2_ScalarMult := ScalarMult sm2_P.
(** elliptic.go ScalarBaseMult = ScalarMult(Gx, Gy, k) *)
Definition sm2_ScalarBaseMult (k : bytes) : outcome (Z * Z) := sm2_ScalarMult sm2_Gx sm2_Gy k.
