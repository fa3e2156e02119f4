(** * Pocklington's criterion with several prime factors of N-1 (certificates for the NIST curves' moduli) *)
From Coq Require Import Znumtheory.
From Verif Require Import Base ECModel NumTheory FastMod.
Open Scope Z_scope.

(** the factors, arranged as a tree so that exponentiations are shared *)
Inductive ftree := Leaf (q : positive) | Node (l r : ftree).
Fixpoint leaves (t : ftree) : list Z := match t with Leaf q => [Zpos q] | Node l r => leaves l ++ leaves r end.
Fixpoint tprod (t : ftree) : positive := match t with Leaf q => q | Node l r => fmul8 (tprod l) (tprod r) end.
Definition qprod (l : list Z) : Z := fold_right Z.mul 1 l.
Lemma qprod_app a b : qprod (a ++ b) = qprod a * qprod b.
Proof. induction a as [|x a IH]; [symmetry; apply Z.mul_1_l|]. cbn [app]. change (qprod (x :: a ++ b)) with (x * qprod (a ++ b)). change (qprod (x :: a)) with (x * qprod a). rewrite IH. ring. Qed.
Lemma tprod_spec t : Zpos (tprod t) = qprod (leaves t).
Proof. induction t as [q|l IHl r IHr]; cbn [tprod leaves]; [cbn; lia|]. now rewrite fmul8_spec, Pos2Z.inj_mul, qprod_app, IHl, IHr. Qed.
(** [y] is a^((N-1)/tprod t) mod N; the power N-1 itself is checked at the first leaf only *)
Fixpoint tcheck (red : Z -> Z) (N : Z) (y : Z) (first : bool) (t : ftree) : bool :=
  match t with
  | Leaf q => (if first then powred red y q =? 1 else true) && (Z.gcd (y - 1) N =? 1)
  | Node l r => tcheck red N (powred red y (tprod r)) first l && tcheck red N (powred red y (tprod l)) false r
  end.
Lemma powmod_mod_l b e n : n <> 0 -> (b mod n) ^ Zpos e mod n = b ^ Zpos e mod n.
Proof. intros H.
  induction e using Pos.peano_ind; [rewrite !Z.pow_1_r; apply Z.mod_mod; auto|]. rewrite !Pos2Z.inj_succ, !Z.pow_succ_r by lia.
  rewrite Z.mul_mod, IHe, Z.mod_mod, <- Z.mul_mod by auto. reflexivity.
Qed.
Lemma tcheck_first red N a : (forall x, red x = x mod N) -> 1 < N -> forall t y e,
  y = a ^ Zpos e mod N -> Zpos e * qprod (leaves t) = N - 1 -> tcheck red N y true t = true -> a ^ (N - 1) mod N = 1.
Proof.
  intros Hred HN t. induction t as [q|l IHl r IHr]; intros y e Hy He H; cbn [tcheck leaves] in *.
  - apply andb_true_iff in H as [H1 _]. apply Z.eqb_eq in H1. rewrite (powred_spec red N) in H1 by (auto; lia).
    cbn [qprod fold_right] in He. rewrite Z.mul_1_r in He.
    rewrite <- He, Z.pow_mul_r by lia. rewrite <- (powmod_mod_l _ q N) by lia. rewrite <- Hy. exact H1.
  - apply andb_true_iff in H as [H1 _]. rewrite qprod_app in He. rewrite (powred_spec red N) in H1 by (auto; lia).
    apply (IHl _ (e * tprod r)%positive) in H1; [exact H1| |].
    + rewrite Hy, powmod_mod_l, Pos2Z.inj_mul, Z.pow_mul_r by lia. reflexivity.
    + rewrite Pos2Z.inj_mul, tprod_spec. lia.
Qed.
Lemma tcheck_spec red N a : (forall x, red x = x mod N) -> 1 < N -> a ^ (N - 1) mod N = 1 -> forall t y e first,
  y = a ^ Zpos e mod N -> Zpos e * qprod (leaves t) = N - 1 -> tcheck red N y first t = true -> Forall (fun q => pock_ok N a q = true) (leaves t).
Proof.
  intros Hred HN Hf0 t. assert (Hf : powmod_pos a (Z.to_pos (N - 1)) N = 1) by (rewrite powmod_pos_spec, Z2Pos.id by lia; exact Hf0). clear Hf0. induction t as [q|l IHl r IHr]; intros y e first Hy He H; cbn [tcheck leaves] in *.
  - apply andb_true_iff in H as [_ H2]. apply Z.eqb_eq in H2.
    apply Forall_cons; [|apply Forall_nil]. unfold pock_ok. cbn [qprod fold_right] in He. rewrite Z.mul_1_r in He.
    assert (Hd : (N - 1) / Zpos q = Zpos e) by (rewrite <- He; apply Z.div_mul; lia).
    rewrite Hf, Hd. rewrite powmod_pos_spec, Z2Pos.id by lia. rewrite <- Hy, H2. rewrite <- He at 1. rewrite Z.mod_mul by lia. reflexivity.
  - apply andb_true_iff in H as [H1 H2]. rewrite qprod_app in He. rewrite (powred_spec red N) in H1, H2 by (auto; lia).
    apply Forall_app. split.
    + apply (IHl _ (e * tprod r)%positive) in H1; [exact H1| |].
      * rewrite Hy, powmod_mod_l, Pos2Z.inj_mul, Z.pow_mul_r by lia. reflexivity.
      * rewrite Pos2Z.inj_mul, tprod_spec. lia.
    + apply (IHr _ (e * tprod l)%positive) in H2; [exact H2| |].
      * rewrite Hy, powmod_mod_l, Pos2Z.inj_mul, Z.pow_mul_r by lia. reflexivity.
      * rewrite Pos2Z.inj_mul, tprod_spec. lia.
Qed.
Lemma qprod_divides p l : NoDup l -> Forall prime l -> Forall (fun q => (q | p)) l -> (qprod l | p).
Proof.
  induction 1 as [|q l Hn _ IH]; intros HP HD; [exists p; cbn; lia|].
  apply Forall_cons_iff in HP as [Pq HP], HD as [Dq HD]. cbn [qprod fold_right]. fold (qprod l).
  destruct (IH HP HD) as [k Hk]. rewrite Hk in Dq |- *.
  assert (R : rel_prime q (qprod l)).
  { clear - Pq HP Hn. induction l as [|x l IH]; cbn [qprod fold_right]; [apply rel_prime_sym, rel_prime_1|]. fold (qprod l).
    apply Forall_cons_iff in HP as [Px HP]. apply rel_prime_mult.
    - apply prime_rel_prime; auto. intros D. apply prime_div_prime in D; auto. apply Hn. left. auto.
    - apply IH; auto. intros I. apply Hn. right. exact I. }
  rewrite (Z.mul_comm k) in Dq. apply Gauss in Dq; auto. destruct Dq as [m ->]. exists m. lia.
Qed.
Lemma qprod_pos l : Forall prime l -> 0 < qprod l.
Proof. induction 1 as [|q l Pq _ IH]; cbn [qprod fold_right]; [lia|]. fold (qprod l). pose proof (prime_ge_2 _ Pq). nia. Qed.
Fixpoint increasing (l : list Z) : bool :=
  match l with a :: (b :: _) as r => (a <? b) && increasing r | _ => true end.
Lemma increasing_NoDup l : increasing l = true -> NoDup l.
Proof.
  assert (L : forall l a, increasing (a :: l) = true -> Forall (Z.lt a) l).
  { clear. induction l as [|b l IH]; intros a H; [constructor|]. cbn [increasing] in H. apply andb_true_iff in H as [H1 H2]. apply Z.ltb_lt in H1.
    constructor; [exact H1|]. eapply Forall_impl; [|apply IH; exact H2]. intros x Hx. lia. }
  induction l as [|a l IH]; intros H; constructor.
  - pose proof (L _ _ H) as F. intros I. rewrite Forall_forall in F. specialize (F _ I). lia.
  - apply IH. destruct l; [reflexivity|]. cbn [increasing] in H. apply andb_true_iff in H. tauto.
Qed.
Theorem pockn_prime red N a t r : (forall x, red x = x mod Zpos N) -> Forall prime (leaves t) -> increasing (leaves t) = true ->
  (1 <? Zpos N) && forallb (fun q => q <? Zpos N) (leaves t) && (Zpos N <? (Zpos (tprod t) + 1) * (Zpos (tprod t) + 1)) && (Zpos N - 1 =? Zpos r * Zpos (tprod t)) = true ->
  tcheck red (Zpos N) (powred red (Zpos a) r) true t = true -> prime (Zpos N).
Proof.
  intros Hred HP Hinc Hb H. rewrite !andb_true_iff, Z.eqb_eq, !Z.ltb_lt in Hb. destruct Hb as [[[HN Hl] Hb] He].
  rewrite (powred_spec red (Zpos N)) in H by (auto; lia).
  assert (He' : Zpos r * qprod (leaves t) = Zpos N - 1) by (rewrite <- tprod_spec; lia).
  pose proof (tcheck_first red (Zpos N) (Zpos a) Hred HN t _ r eq_refl He' H) as Hf.
  apply (tcheck_spec red (Zpos N) (Zpos a) Hred HN Hf t _ r true eq_refl He') in H.
  destruct (prime_dec (Zpos N)) as [|Np]; auto. exfalso.
  destruct (composite_small_factor (Zpos N) HN Np) as [p [Pp [Dp Lp]]].
  assert (D : (qprod (leaves t) | p - 1)).
  { apply qprod_divides; [now apply increasing_NoDup|exact HP|]. rewrite forallb_forall in Hl. rewrite Forall_forall in H, HP |- *. intros q Hq.
    specialize (Hl q Hq). apply Z.ltb_lt in Hl. eapply pock_ok_spec; eauto. }
  pose proof (prime_ge_2 _ Pp). apply Z.divide_pos_le in D; [|lia]. rewrite <- tprod_spec in D. nia.
Qed.

(** the Mersenne number 2^521 - 1: reduction by folding *)
Definition red521 (x : Z) : Z :=
  let q := zdrop 521 x in fix_mod (2 ^ 521 - 1) (x + q - zpad 521 q).
Lemma red521_spec x : red521 x = x mod (2 ^ 521 - 1).
Proof.
  unfold red521. cbv zeta. rewrite fix_mod_spec by reflexivity. rewrite zpad_spec. set (q := zdrop _ _). change (Z.of_nat 521) with 521.
  replace (x + q - q * 2 ^ 521) with (x + (- q) * (2 ^ 521 - 1)) by ring. apply Z.mod_add. discriminate.
Qed.
(** 2^384 - 2^128 - 2^96 + 2^32 - 1: two steps of folding *)
Definition P384 : Z := 2 ^ 384 - 2 ^ 128 - 2 ^ 96 + 2 ^ 32 - 1.
Definition fold384 (x : Z) : Z := let q := zdrop 384 x in (x - zpad 384 q) + ((zpad 128 q + zpad 96 q) + (q - zpad 32 q)).
Lemma fold384_spec x : fold384 x mod P384 = x mod P384.
Proof.
  unfold fold384. cbv zeta. rewrite !zpad_spec. set (q := zdrop _ _). change (Z.of_nat 384) with 384. change (Z.of_nat 128) with 128. change (Z.of_nat 96) with 96. change (Z.of_nat 32) with 32.
  match goal with |- ?e mod _ = _ => replace e with (x + (- q) * P384) end; [apply Z.mod_add; discriminate|]. unfold P384. ring.
Qed.
Definition red384 (x : Z) : Z := fix_mod P384 (fold384 (fold384 x)).
Lemma red384_spec x : red384 x = x mod P384.
Proof. unfold red384. rewrite fix_mod_spec by reflexivity. now rewrite !fold384_spec. Qed.
(** 2^224 - 2^96 + 1 *)
Definition P224 : Z := 2 ^ 224 - 2 ^ 96 + 1.
Definition fold224 (x : Z) : Z := let q := zdrop 224 x in (x - zpad 224 q) + (zpad 96 q - q).
Lemma fold224_spec x : fold224 x mod P224 = x mod P224.
Proof.
  unfold fold224. cbv zeta. rewrite !zpad_spec. set (q := zdrop _ _). change (Z.of_nat 224) with 224. change (Z.of_nat 96) with 96.
  match goal with |- ?e mod _ = _ => replace e with (x + (- q) * P224) end; [apply Z.mod_add; discriminate|]. unfold P224. ring.
Qed.
Definition red224 (x : Z) : Z := fix_mod P224 (fold224 (fold224 x)).
Lemma red224_spec x : red224 x = x mod P224.
Proof. unfold red224. rewrite fix_mod_spec by reflexivity. now rewrite !fold224_spec. Qed.
