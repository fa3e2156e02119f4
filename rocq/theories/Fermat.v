(** * Bridge between Znumtheory primality on Z and mathcomp primality on nat; Fermat's little theorem. *)
From Coq Require Import ZArith Znumtheory Zpow_facts Lia.
From mathcomp Require Import all_ssreflect all_fingroup all_algebra all_solvable.
Set Implicit Arguments.
Unset Strict Implicit.
Unset Printing Implicit Defensive.

Lemma expn_Zpow (a n : nat) : Z.of_nat (expn a n) = Z.pow (Z.of_nat a) (Z.of_nat n).
Proof.
elim: n => [|n IH]; first by [].
rewrite expnS -multE Nat2Z.inj_mul IH Nat2Z.inj_succ Z.pow_succ_r //. lia.
Qed.

Lemma modn_Zmod (a n : nat) : Z.of_nat (modn a n) = Z.modulo (Z.of_nat a) (Z.of_nat n).
Proof.
case: (posnP n) => [->|Hn]; first by rewrite modn0 /= Zmod_0_r.
have H := divn_eq a n.
apply: (Z.mod_unique_pos _ _ (Z.of_nat (divn a n))).
- split; first lia. apply: inj_lt. by apply/ltP; rewrite ltn_mod.
- rewrite {1}H -plusE -multE. lia.
Qed.

Lemma dvdn_Zdivide (d n : nat) : dvdn d n <-> Z.divide (Z.of_nat d) (Z.of_nat n).
Proof.
split.
- move/dvdnP => [k ->]. exists (Z.of_nat k). by rewrite -multE Nat2Z.inj_mul.
- move=> [k Hk]. case: (posnP d) => Hd.
  + subst d. have -> : n = 0%N by lia. done.
  + apply/dvdnP. exists (Z.to_nat k).
    have : (0 < d)%coq_nat by apply/ltP.
    rewrite -multE. move=> ?. nia.
Qed.

Lemma Zprime_mc (p : Z) : Znumtheory.prime p -> prime.prime (Z.to_nat p).
Proof.
move=> Hp. have H2 := prime_ge_2 _ Hp.
apply/primeP; split; first by apply/ltP; lia.
move=> d /dvdn_Zdivide. rewrite Z2Nat.id; last lia.
move=> /(prime_divisors _ Hp) [] H; [| case: H => [H|[H|H]]]; try lia.
- by apply/orP; left; apply/eqP; lia.
- by apply/orP; right; apply/eqP; lia.
Qed.

Lemma fermat (p a : Z) : Znumtheory.prime p -> ~ Z.divide p a -> (a ^ (p - 1)) mod p = 1.
Proof.
move=> Hp Ha. have H2 := prime_ge_2 _ Hp.
have Hmc := Zprime_mc Hp.
rewrite Zpower_mod; last lia.
have Hb : (0 <= a mod p < p)%Z by apply: Z.mod_pos_bound; lia.
set m := Z.to_nat (a mod p).
have Hco : coprime m (Z.to_nat p).
  rewrite coprime_sym prime_coprime //. apply/negP => /dvdn_Zdivide.
  rewrite /m !Z2Nat.id; try lia. move=> Hd. apply: Ha.
  apply/(Z.mod_divide); first lia. apply Z.mod_divide in Hd; last lia.
  by rewrite Z.mod_mod in Hd; lia.
have := Euler_exp_totient Hco.
rewrite totient_prime // => HE.
have : Z.of_nat (modn (expn m (Z.to_nat p).-1) (Z.to_nat p)) = Z.of_nat (modn 1 (Z.to_nat p)) by congr Z.of_nat.
rewrite !modn_Zmod expn_Zpow /m !Z2Nat.id; try lia.
have -> : Z.of_nat (Z.to_nat p).-1 = (p - 1)%Z by rewrite -subn1 -minusE; lia.
move=> ->. rewrite Z.mod_small; lia.
Qed.
