(** * Fast reductions used only to make closed computations affordable for coqchk.
    Each is proved equal to Z.modulo, so nothing here is trusted. *)
From Verif Require Import Base ECModel NumTheory.
Open Scope Z_scope.

(** ** Multiplication of positives three bits at a time *)
Fixpoint mul8 (y y3 y5 y7 x : positive) : positive :=
  match x with
  | xO (xO (xO (p))) => let m := xO (xO (xO (mul8 y y3 y5 y7 p))) in m
  | xO (xO (xI (p))) => let m := xO (xO (xO (mul8 y y3 y5 y7 p))) in Pos.add (xO (xO y)) m
  | xO (xI (xO (p))) => let m := xO (xO (xO (mul8 y y3 y5 y7 p))) in Pos.add (xO y) m
  | xO (xI (xI (p))) => let m := xO (xO (xO (mul8 y y3 y5 y7 p))) in Pos.add (xO y3) m
  | xI (xO (xO (p))) => let m := xO (xO (xO (mul8 y y3 y5 y7 p))) in Pos.add y m
  | xI (xO (xI (p))) => let m := xO (xO (xO (mul8 y y3 y5 y7 p))) in Pos.add y5 m
  | xI (xI (xO (p))) => let m := xO (xO (xO (mul8 y y3 y5 y7 p))) in Pos.add y3 m
  | xI (xI (xI (p))) => let m := xO (xO (xO (mul8 y y3 y5 y7 p))) in Pos.add y7 m
  | xH => y
  | xO (xH) => xO y
  | xI (xH) => y3
  | xO (xO (xH)) => xO (xO y)
  | xI (xO (xH)) => y5
  | xO (xI (xH)) => xO y3
  | xI (xI (xH)) => y7
  end.
Definition fmul8 (x y : positive) : positive :=
  let y3 := Pos.add y (xO y) in let y5 := Pos.add y (xO (xO y)) in
  mul8 y y3 y5 (Pos.add (xO y) y5) x.
Lemma mul8_spec y : forall n x, (Pos.to_nat x < n)%nat -> mul8 y (y + y~0)%positive (y + y~0~0)%positive (y~0 + (y + y~0~0))%positive x = (x * y)%positive.
Proof.
  induction n; intros x Hn; [lia|].
  assert (D : forall z, (Pos.to_nat z < Pos.to_nat x)%nat -> mul8 y (y + y~0)%positive (y + y~0~0)%positive (y~0 + (y + y~0~0))%positive z = (z * y)%positive) by (intros; apply IHn; lia).
  clear IHn. destruct x as [[[p|p|]|[p|p|]|]|[[p|p|]|[p|p|]|]|]; cbn [mul8]; cbv zeta; try (rewrite D by lia); lia.
Qed.
Lemma fmul8_spec x y : fmul8 x y = (x * y)%positive.
Proof. unfold fmul8. cbv zeta. apply (mul8_spec y (S (Pos.to_nat x))). lia. Qed.
Definition zmul (x y : Z) : Z :=
  match x, y with
  | Zpos a, Zpos b => Zpos (fmul8 a b)
  | _, _ => x * y
  end.
Lemma zmul_spec x y : zmul x y = x * y.
Proof. destruct x, y; try reflexivity. cbn [zmul]. rewrite fmul8_spec. reflexivity. Qed.

(** ** Shifts by structural recursion *)
Fixpoint pdrop (k : nat) (p : positive) : Z :=
  match k, p with
  | O, _ => Zpos p
  | S k, xO p | S k, xI p => pdrop k p
  | S _, xH => 0
  end.
Lemma pdrop_spec k p : pdrop k p = Zpos p / 2 ^ Z.of_nat k.
Proof.
  revert p. induction k; intros p. { cbn [pdrop]. rewrite Z.div_1_r. reflexivity. }
  rewrite Nat2Z.inj_succ, Z.pow_succ_r by lia. rewrite <- Z.div_div by (try apply Z.pow_pos_nonneg; lia).
  destruct p; cbn [pdrop].
  - rewrite IHk. f_equal. rewrite Pos2Z.inj_xI. rewrite Z.mul_comm, Z.div_add_l by lia. change (1 / 2) with 0. lia.
  - rewrite IHk. f_equal. rewrite Pos2Z.inj_xO. rewrite Z.mul_comm, Z.div_mul; lia.
  - rewrite Z.div_0_l; auto. apply Z.pow_nonzero; lia.
Qed.
Definition zdrop (k : nat) (x : Z) : Z :=
  match x with Zpos p => pdrop k p | _ => x / 2 ^ Z.of_nat k end.
Lemma zdrop_spec k x : zdrop k x = x / 2 ^ Z.of_nat k.
Proof. destruct x; cbn [zdrop]; auto using pdrop_spec. Qed.
Fixpoint ppad (k : nat) (p : positive) : positive := match k with O => p | S k => xO (ppad k p) end.
Lemma ppad_spec k p : Zpos (ppad k p) = Zpos p * 2 ^ Z.of_nat k.
Proof.
  induction k; cbn [ppad]. { simpl (2 ^ _). lia. }
  rewrite Pos2Z.inj_xO, IHk, Nat2Z.inj_succ, Z.pow_succ_r by lia. ring.
Qed.
Definition zpad (k : nat) (x : Z) : Z :=
  match x with Zpos p => Zpos (ppad k p) | _ => x * 2 ^ Z.of_nat k end.
Lemma zpad_spec k x : zpad k x = x * 2 ^ Z.of_nat k.
Proof. destruct x; cbn [zpad]; auto using ppad_spec. Qed.

(** any quotient guess q is sound: the result is corrected, or recomputed *)
Definition fix_mod (n r : Z) : Z :=
  if r <? 0 then (let r' := r + n in if 0 <=? r' then r' else r mod n)
  else if r <? n then r
  else let r' := r - n in if r' <? n then r' else
       let r' := r' - n in if r' <? n then r' else r mod n.
Lemma fix_mod_spec n r : 0 < n -> fix_mod n r = r mod n.
Proof.
  intros Hn. unfold fix_mod. cbv zeta.
  destruct (Z.ltb_spec r 0).
  - destruct (Z.leb_spec 0 (r + n)); auto.
    replace r with ((r + n) + (-1) * n) at 2 by ring. rewrite Z.mod_add by lia. rewrite Z.mod_small; lia.
  - destruct (Z.ltb_spec r n). { rewrite Z.mod_small; lia. }
    destruct (Z.ltb_spec (r - n) n).
    { replace r with ((r - n) + 1 * n) at 2 by ring. rewrite Z.mod_add by lia. rewrite Z.mod_small; lia. }
    destruct (Z.ltb_spec (r - n - n) n); auto.
    replace r with ((r - n - n) + 2 * n) at 2 by ring. rewrite Z.mod_add by lia. rewrite Z.mod_small; lia.
Qed.

(** Barrett with precomputed mu and shifts *)
Definition barrett (n mu : Z) (k1 k2 : nat) (x : Z) : Z :=
  let q := zdrop k2 (zmul (zdrop k1 x) mu) in fix_mod n (x - zmul q n).
Lemma barrett_spec n mu k1 k2 x : 0 < n -> barrett n mu k1 k2 x = x mod n.
Proof.
  intros Hn. unfold barrett. cbv zeta. rewrite fix_mod_spec by auto.
  set (q := zdrop _ _). rewrite zmul_spec. replace (x - q * n) with (x + (- q) * n) by ring. apply Z.mod_add. lia.
Qed.

(** the SM2 prime p = 2^256 - 2^224 - 2^96 + 2^64 - 1 *)
Definition redp_pos (x : Z) : Z :=
  let h := zdrop 224 x in
  let h1 := zdrop 32 h in let h2 := zdrop 32 h1 in let h3 := zdrop 32 h2 in
  let h4 := zdrop 32 h3 in let h5 := zdrop 32 h4 in let h6 := zdrop 32 h5 in let h7 := zdrop 32 h6 in
  let q := zdrop 32 (h + (h1 + (h2 + (h3 + (h4 + 2 * (h5 + (h6 + h7))))))) in
  let q64 := zpad 64 q in let q96 := zpad 32 q64 in
  let q224 := zpad 128 q96 in let q256 := zpad 32 q224 in
  fix_mod sm2_P ((x + (q224 + (q96 + q))) - (q256 + q64)).
Lemma redp_pos_spec x : redp_pos x = x mod sm2_P.
Proof.
  unfold redp_pos. cbv zeta. rewrite fix_mod_spec by reflexivity.
  match goal with |- context [zpad 64 ?q] => generalize q; intro q0 end.
  rewrite !zpad_spec.
  match goal with |- ?e mod _ = _ => replace e with (x + (- q0) * sm2_P) end.
  - apply Z.mod_add. discriminate.
  - change (Z.of_nat 64) with 64. change (Z.of_nat 32) with 32. change (Z.of_nat 128) with 128.
    unfold sm2_P. ring.
Qed.

Definition redp (x : Z) : Z :=
  match x with
  | Zneg q => let r := redp_pos (Zpos q) in if r =? 0 then 0 else sm2_P - r
  | _ => redp_pos x
  end.
Lemma redp_spec x : redp x = x mod sm2_P.
Proof.
  destruct x; cbn [redp]; try apply redp_pos_spec. cbv zeta. rewrite redp_pos_spec.
  change (Z.neg p) with (- Z.pos p). destruct (Z.eqb_spec (Z.pos p mod sm2_P) 0) as [E|E].
  - rewrite Z.mod_opp_l_z; auto. discriminate.
  - rewrite Z.mod_opp_l_nz; auto. discriminate.
Qed.

(** ** modular exponentiation with an abstract reduction *)
Fixpoint powred (red : Z -> Z) (a : Z) (e : positive) : Z :=
  match e with
  | xH => red a
  | xO e' => let r := powred red a e' in red (zmul r r)
  | xI e' => let r := powred red a e' in red (zmul (red (zmul r r)) a)
  end.
Lemma powred_spec red n a e : n <> 0 -> (forall x, red x = x mod n) -> powred red a e = a ^ Zpos e mod n.
Proof.
  intros Hn H. rewrite <- powmod_pos_spec by auto.
  induction e; cbn [powred powmod_pos]; cbv zeta; rewrite ?zmul_spec, ?H, ?IHe; reflexivity.
Qed.

(** Pocklington check sharing exponentiations.  [N - 1 = r * q]. *)
Definition pock1_ok (red : Z -> Z) (N a q r : positive) : bool :=
  ((Zpos N - 1) =? Zpos r * Zpos q) &&
  let b := powred red (Zpos a) r in
  (powred red b q =? 1) && (Z.gcd (b - 1) (Zpos N) =? 1).
Lemma pock1_ok_spec red N a q r : (forall x, red x = x mod Zpos N) -> 1 < Zpos N ->
  pock1_ok red N a q r = true -> pock_ok (Zpos N) (Zpos a) (Zpos q) = true.
Proof.
  unfold pock1_ok, pock_ok. intros Hred HN H. cbv zeta in H.
  rewrite !andb_true_iff, !Z.eqb_eq in H. destruct H as [E [H1 H2]].
  rewrite !powred_spec with (n := Zpos N) in * by (auto; lia).
  rewrite !powmod_pos_spec by lia.
  assert (Hd : (Z.pos N - 1) / Zpos q = Zpos r) by (rewrite E; apply Z.div_mul; lia).
  rewrite Hd. rewrite !Z2Pos.id by lia. rewrite H2.
  rewrite E, Z.mod_mul by lia. rewrite Z.pow_mul_r by lia.
  rewrite <- Zpow_facts.Zpower_mod in H1 by lia. rewrite H1. reflexivity.
Qed.
(** [N - 1 = r * q1 * q2], one base for both factors *)
Definition pock2_ok (red : Z -> Z) (N a q1 q2 r : positive) : bool :=
  ((Zpos N - 1) =? Zpos r * Zpos q1 * Zpos q2) &&
  let b := powred red (Zpos a) r in
  let b1 := powred red b q1 in let b2 := powred red b q2 in
  (powred red b1 q2 =? 1) && (Z.gcd (b1 - 1) (Zpos N) =? 1) && (Z.gcd (b2 - 1) (Zpos N) =? 1).
Lemma pock2_ok_spec red N a q1 q2 r : (forall x, red x = x mod Zpos N) -> 1 < Zpos N ->
  pock2_ok red N a q1 q2 r = true ->
  pock_ok (Zpos N) (Zpos a) (Zpos q1) = true /\ pock_ok (Zpos N) (Zpos a) (Zpos q2) = true.
Proof.
  unfold pock2_ok, pock_ok. intros Hred HN H. cbv zeta in H.
  rewrite !andb_true_iff, !Z.eqb_eq in H. destruct H as [E [[H1 H2] H3]].
  rewrite !powred_spec with (n := Zpos N) in * by (auto; lia).
  rewrite !powmod_pos_spec by lia.
  assert (Hd1 : (Z.pos N - 1) / Zpos q1 = Zpos r * Zpos q2)
    by (rewrite E, <- Z.mul_assoc, (Z.mul_comm (Zpos q1)), Z.mul_assoc; apply Z.div_mul; lia).
  assert (Hd2 : (Z.pos N - 1) / Zpos q2 = Zpos r * Zpos q1) by (rewrite E; apply Z.div_mul; lia).
  rewrite Hd1, Hd2. rewrite !Z2Pos.id by lia. 
  rewrite <- Zpow_facts.Zpower_mod in H2, H3, H1 by lia. rewrite <- Z.pow_mul_r in H1 by lia.
  rewrite <- Zpow_facts.Zpower_mod in H1 by lia.
  rewrite <- Z.pow_mul_r in H1, H2, H3 by lia.
  rewrite H2, H3.
  rewrite Z.mul_assoc in H1. rewrite <- E in H1. rewrite H1.
  rewrite E at 2. rewrite Z.mod_mul by lia.
  rewrite E at 1. rewrite <- Z.mul_assoc, (Z.mul_comm (Zpos q1)), Z.mul_assoc, Z.mod_mul by lia.
  split; reflexivity.
Qed.

Lemma pock1_prime red N a q r : (forall x, red x = x mod Zpos N) -> 
  Znumtheory.prime (Zpos q) -> (1 <? Zpos N) && (Zpos q <? Zpos N) && (Zpos N <? (Zpos q + 1) * (Zpos q + 1)) = true ->
  pock1_ok red N a q r = true -> Znumtheory.prime (Zpos N).
Proof.
  intros Hred Hq Hb H. rewrite !andb_true_iff, !Z.ltb_lt in Hb.
  apply pocklington1 with (a := Zpos a) (q := Zpos q); try tauto.
  eapply pock1_ok_spec; eauto. tauto.
Qed.
Lemma pock2_prime red N a q1 q2 r : (forall x, red x = x mod Zpos N) -> 
  Znumtheory.prime (Zpos q1) -> Znumtheory.prime (Zpos q2) ->
  (1 <? Zpos N) && (Zpos q1 <? Zpos N) && (Zpos q2 <? Zpos N) && negb (Zpos q1 =? Zpos q2) &&
  (Zpos N <? (Zpos q1 * Zpos q2 + 1) * (Zpos q1 * Zpos q2 + 1)) = true ->
  pock2_ok red N a q1 q2 r = true -> Znumtheory.prime (Zpos N).
Proof.
  intros Hred Hq1 Hq2 Hb H. rewrite !andb_true_iff, !Z.ltb_lt, negb_true_iff, Z.eqb_neq in Hb.
  destruct (pock2_ok_spec red N a q1 q2 r) as [H1 H2]; auto; try tauto.
  apply pocklington2 with (a1 := Zpos a) (q1 := Zpos q1) (a2 := Zpos a) (q2 := Zpos q2); tauto.
Qed.
