(** * Number theory on Z: modular inverse, Pocklington's criterion, modular exponentiation. *)
From Coq Require Import Znumtheory Zpow_facts.
From Verif Require Import Base ECModel Fermat.
Open Scope Z_scope.

(** ** Congruence *)
Definition cong (n a b : Z) : Prop := a mod n = b mod n.

Lemma cong_mul n a b c d : cong n a b -> cong n c d -> cong n (a * c) (b * d).
Proof. unfold cong. intros H1 H2. rewrite Zmult_mod, H1, H2, <- Zmult_mod. reflexivity. Qed.
Lemma cong_add n a b c d : cong n a b -> cong n c d -> cong n (a + c) (b + d).
Proof. unfold cong. intros H1 H2. rewrite Zplus_mod, H1, H2, <- Zplus_mod. reflexivity. Qed.
Lemma cong_sub n a b c d : cong n a b -> cong n c d -> cong n (a - c) (b - d).
Proof. unfold cong. intros H1 H2. rewrite Zminus_mod, H1, H2, <- Zminus_mod. reflexivity. Qed.
Lemma cong_refl n a : cong n a a. Proof. reflexivity. Qed.
Lemma cong_sym n a b : cong n a b -> cong n b a. Proof. unfold cong; auto. Qed.
Lemma cong_trans n a b c : cong n a b -> cong n b c -> cong n a c. Proof. unfold cong; intros; congruence. Qed.
Lemma cong_mod n a : n <> 0 -> cong n (a mod n) a.
Proof. intros. unfold cong. apply Z.mod_mod. lia. Qed.
Lemma cong_divide n a b : n <> 0 -> cong n a b <-> (n | a - b).
Proof.
  intros Hn. unfold cong. split; intro H.
  - apply Z.mod_divide; auto. rewrite Zminus_mod, H, Z.sub_diag. apply Z.mod_0_l; auto.
  - destruct H as [k Hk]. replace a with (b + k * n) by lia. apply Z.mod_add; auto.
Qed.

(** ** math/big ModInverse *)
Lemma egcd_loop_spec (g n : Z) : forall k fuel r0 u0 r1 u1,
  n <> 0 -> (2 * k <= fuel)%nat -> 0 < r0 -> 0 <= r1 < 2 ^ Z.of_nat k -> 
  cong n (u0 * g) r0 -> cong n (u1 * g) r1 ->
  exists u, egcd_loop fuel r0 u0 r1 u1 = (Z.gcd r0 r1, u) /\ cong n (u * g) (Z.gcd r0 r1).
Proof.
  induction k; intros fuel r0 u0 r1 u1 Hn Hf Hr0 Hr1 C0 C1.
  - assert (r1 = 0) by (simpl in Hr1; lia). subst r1. rewrite Z.gcd_0_r, Z.abs_eq by lia.
    exists u0. split; auto. destruct fuel; reflexivity.
  - destruct fuel as [|[|fuel]]; try lia. cbn [egcd_loop].
    assert (Step : forall r0 u0 r1 u1, cong n (u0 * g) r0 -> cong n (u1 * g) r1 -> 0 < r1 ->
              cong n ((u0 - r0 / r1 * u1) * g) (r0 mod r1)).
    { intros. replace ((u2 - r2 / r3 * u3) * g) with (u2 * g - r2 / r3 * (u3 * g)) by ring.
      rewrite (Z.mod_eq r2 r3) by lia. apply cong_sub; auto. rewrite (Z.mul_comm r3).
      apply cong_mul; auto. apply cong_refl. }
    destruct (Z.eqb_spec r1 0) as [E|E].
    { subst. rewrite Z.gcd_0_r, Z.abs_eq by lia. exists u0. auto. }
    assert (0 < r1) by lia.
    pose proof (Z.mod_pos_bound r0 r1 ltac:(lia)) as B1.
    assert (G1 : Z.gcd r1 (r0 mod r1) = Z.gcd r0 r1) by (rewrite Z.gcd_comm, Z.gcd_mod by lia; apply Z.gcd_comm).
    destruct (Z.eqb_spec (r0 mod r1) 0) as [E2|E2].
    { rewrite E2, Z.gcd_0_r, Z.abs_eq in G1 by lia. rewrite <- G1. exists u1. auto. }
    pose proof (Z.mod_pos_bound r1 (r0 mod r1) ltac:(lia)) as B2.
    assert (G2 : Z.gcd (r0 mod r1) (r1 mod (r0 mod r1)) = Z.gcd r0 r1).
    { rewrite Z.gcd_comm, Z.gcd_mod by lia. rewrite Z.gcd_comm. exact G1. }
    rewrite <- G2.
    apply IHk; auto; try lia.
    + split; try lia.
      assert (2 * (r1 mod (r0 mod r1)) < r1).
      { pose proof (Z.div_mod r1 (r0 mod r1) ltac:(lia)).
        assert (1 <= r1 / (r0 mod r1)) by (apply Z.div_le_lower_bound; lia). nia. }
      rewrite Nat2Z.inj_succ, Z.pow_succ_r in Hr1 by lia. lia. 
    + apply Step; auto. lia.
Qed.

Lemma ModInverse_spec g n : 1 < n ->
  match ModInverse g n with
  | Some u => 0 <= u < n /\ (u * g) mod n = 1
  | None => Z.gcd g n <> 1
  end.
Proof.
  intros Hn. unfold ModInverse.
  destruct (egcd_loop_spec g n (S (Z.to_nat (Z.log2 n))) (egcd_fuel n) n 0 (g mod n) 1) as [u [E C]]; try lia.
  - unfold egcd_fuel. lia.
  - pose proof (Z.mod_pos_bound g n ltac:(lia)). pose proof (Z.log2_spec n ltac:(lia)).
    rewrite Nat2Z.inj_succ, Z2Nat.id by apply Z.log2_nonneg. lia.
  - unfold cong. rewrite Z.mul_0_l, Z.mod_same, Z.mod_0_l; lia.
  - rewrite Z.mul_1_l. unfold cong. rewrite Z.mod_mod; lia.
  - assert (GG : Z.gcd n (g mod n) = Z.gcd g n) by (rewrite Z.gcd_comm, Z.gcd_mod by lia; apply Z.gcd_comm).
    rewrite E. rewrite GG in *. destruct (Z.eqb_spec (Z.gcd g n) 1) as [G|G].
    + split. apply Z.mod_pos_bound; lia. rewrite G in C. unfold cong in C.
      rewrite Zmult_mod_idemp_l. rewrite C. apply Z.mod_small. lia.
    + exact G.
Qed.

Lemma ModInverse_prime g n : prime n -> g mod n <> 0 ->
  exists u, ModInverse g n = Some u /\ 0 <= u < n /\ (u * g) mod n = 1.
Proof.
  intros Hp Hg. pose proof (prime_ge_2 _ Hp). pose proof (ModInverse_spec g n ltac:(lia)) as H1.
  destruct (ModInverse g n) as [u|]. { exists u; auto. }
  exfalso. apply H1. apply Zgcd_1_rel_prime. apply rel_prime_sym. apply prime_rel_prime; auto.
  intro D. apply Hg. apply Z.mod_divide; auto. lia.
Qed.

Lemma ModInverse_zero g n : 1 < n -> g mod n = 0 -> ModInverse g n = None.
Proof.
  intros Hn Hg. pose proof (ModInverse_spec g n Hn) as H. destruct (ModInverse g n) as [u|]; auto.
  destruct H as [_ H]. rewrite <- Zmult_mod_idemp_r, Hg, Z.mul_0_r, Z.mod_0_l in H by lia. discriminate.
Qed.

(** ** Fast modular exponentiation *)
Fixpoint powmod_pos (a : Z) (e : positive) (n : Z) : Z :=
  match e with
  | xH => a mod n
  | xO e' => let r := powmod_pos a e' n in (r * r) mod n
  | xI e' => let r := powmod_pos a e' n in (((r * r) mod n) * a) mod n
  end.
Lemma powmod_pos_spec a e n : n <> 0 -> powmod_pos a e n = (a ^ Zpos e) mod n.
Proof.
  intros Hn. induction e; cbn [powmod_pos]; cbv zeta.
  - rewrite IHe. rewrite Pos2Z.inj_xI, Z.pow_add_r, Z.pow_mul_r, Z.pow_1_r by lia.
    rewrite (Z.pow_2_r a). rewrite Z.pow_mul_l.
    rewrite <- Z.mul_mod by lia. rewrite Zmult_mod_idemp_l. reflexivity.
  - rewrite IHe. rewrite Pos2Z.inj_xO, Z.pow_mul_r by lia. rewrite (Z.pow_2_r a), Z.pow_mul_l.
    rewrite <- Z.mul_mod by lia. reflexivity.
  - rewrite Z.pow_1_r. reflexivity.
Qed.

(** ** Pocklington's criterion *)
Lemma pow_gcd (p a : Z) : 1 < p -> forall v u, 0 <= v -> 0 <= u ->
  a ^ u mod p = 1 -> a ^ v mod p = 1 -> a ^ (Z.gcd u v) mod p = 1.
Proof.
  intros Hp v u Hv. revert u. pattern v. apply Zlt_0_ind; auto. clear v Hv.
  intros v IH Hv u Hu Eu Ev.
  destruct (Z.eq_dec v 0) as [->|Nv].
  { rewrite Z.gcd_0_r, Z.abs_eq; auto. }
  rewrite Z.gcd_comm. rewrite <- Z.gcd_mod by auto. rewrite Z.gcd_comm.
  pose proof (Z.mod_pos_bound u v ltac:(lia)).
  apply IH; auto; try lia.
  rewrite (Z.div_mod u v) in Eu by auto.
  rewrite Z.pow_add_r, Z.pow_mul_r in Eu; try lia; try (apply Z.div_pos; lia).
  2: { apply Z.mul_nonneg_nonneg; [lia| apply Z.div_pos; lia]. }
  rewrite Z.mul_mod in Eu by lia. rewrite Zpower_mod in Eu by lia. rewrite Ev in Eu.
  rewrite Z.pow_1_l in Eu by (apply Z.div_pos; lia).
  rewrite (Z.mod_small 1) in Eu by lia. rewrite Z.mul_1_l, Z.mod_mod in Eu by lia. exact Eu.
Qed.

Lemma pock_step (N p a q : Z) : prime p -> (p | N) -> prime q -> (q | N - 1) -> 1 < N ->
  a ^ (N - 1) mod N = 1 -> Z.gcd (a ^ ((N - 1) / q) mod N - 1) N = 1 -> (q | p - 1).
Proof.
  intros Hp HpN Hq [r Hr] HN E G.
  pose proof (prime_ge_2 _ Hp). pose proof (prime_ge_2 _ Hq).
  assert (Er : (N - 1) / q = r) by (rewrite Hr; apply Z.div_mul; lia). rewrite Er in G.
  assert (0 <= r) by nia.
  assert (Dm : forall x, (p | x mod N - x)).
  { intros x. rewrite Z.mod_eq by lia. apply Z.divide_trans with N; auto. exists (- (x / N)). ring. }
  assert (E1 : a ^ (N - 1) mod p = 1).
  { pose proof (Dm (a ^ (N-1))) as D. rewrite E in D. apply cong_divide in D; [|lia].
    unfold cong in D. rewrite <- D. apply Z.mod_small; lia. }
  assert (Na : ~ (p | a)).
  { intro D. apply Z.mod_divide in D; [|lia]. rewrite Zpower_mod, D, Z.pow_0_l, Z.mod_0_l in E1; lia. }
  destruct (Zdivide_dec q (p - 1)) as [|ND]; auto. exfalso.
  pose proof (fermat Hp Na) as F.
  assert (Eg : a ^ Z.gcd (N - 1) (p - 1) mod p = 1) by (apply pow_gcd; auto; lia).
  assert (Dr : (Z.gcd (N - 1) (p - 1) | r)).
  { apply Gauss with q.
    - rewrite Z.mul_comm, <- Hr. apply Z.gcd_divide_l.
    - apply rel_prime_sym. apply prime_rel_prime; auto. intro D. apply ND.
      eapply Z.divide_trans; [exact D|apply Z.gcd_divide_r]. }
  destruct Dr as [t Ht].
  pose proof (Z.gcd_nonneg (N-1) (p-1)).
  assert (Er' : a ^ r mod p = 1).
  { destruct (Z.eq_dec r 0) as [->|]. { rewrite Z.pow_0_r. apply Z.mod_small; lia. }
    assert (0 <= t).
    { clear - Ht H1 n H2. destruct (Z_lt_le_dec t 0); auto. pose proof (Z.mul_nonpos_nonneg t (Z.gcd (N-1) (p-1)) ltac:(lia) H2). lia. }
    rewrite Ht, Z.mul_comm, Z.pow_mul_r, Zpower_mod, Eg, Z.pow_1_l, Z.mod_small; lia. }
  assert (D : (p | a ^ r mod N - 1)).
  { replace (a ^ r mod N - 1) with ((a ^ r mod N - a ^ r) + (a ^ r - 1)) by ring.
    apply Z.divide_add_r; auto. apply cong_divide; [lia|]. unfold cong. rewrite Er', Z.mod_small; lia. }
  assert (Dg : (p | Z.gcd (a ^ r mod N - 1) N)) by (apply Z.gcd_greatest; auto).
  rewrite G in Dg. apply Z.divide_1_r in Dg. lia.
Qed.

Lemma composite_small_factor N : 1 < N -> ~ prime N -> exists p, prime p /\ (p | N) /\ p * p <= N.
Proof.
  intros HN Hnp.
  assert (L : forall m, 1 < m -> exists p, prime p /\ (p | m)).
  { intros m Hm. assert (Hm0 : 0 <= m) by lia. revert Hm. pattern m. apply Zlt_0_ind; auto. clear m Hm0.
    intros m IH _ Hm. destruct (prime_dec m) as [|Np]. { exists m. split; auto. apply Z.divide_refl. }
    destruct (not_prime_divide _ Hm Np) as [d [Hd Dd]].
    destruct (IH d) as [p [Pp Dp]]; try lia. exists p. split; auto. eapply Z.divide_trans; eauto. }
  destruct (not_prime_divide _ HN Hnp) as [d [Hd [e De]]].
  assert (1 < e) by nia.
  destruct (Z_le_gt_dec d e).
  - destruct (L d) as [p [Pp Dp]]; [lia|]. exists p. split; auto. split.
    + eapply Z.divide_trans; [exact Dp|]. exists e. lia.
    + assert (p <= d) by (apply Z.divide_pos_le; auto; lia). pose proof (prime_ge_2 _ Pp). nia.
  - destruct (L e) as [p [Pp Dp]]; [lia|]. exists p. split; auto. split.
    + eapply Z.divide_trans; [exact Dp|]. exists d. lia.
    + assert (p <= e) by (apply Z.divide_pos_le; auto; lia). pose proof (prime_ge_2 _ Pp). nia.
Qed.

(** certificate check for one prime factor q of N-1 with base a *)
Definition pock_ok (N a q : Z) : bool :=
  ((N - 1) mod q =? 0) && (powmod_pos a (Z.to_pos (N - 1)) N =? 1) &&
  (Z.gcd (powmod_pos a (Z.to_pos ((N - 1) / q)) N - 1) N =? 1).

Lemma pock_ok_spec N a q p : prime q -> q < N -> prime p -> (p | N) -> 1 < N -> pock_ok N a q = true -> (q | p - 1).
Proof.
  unfold pock_ok. intros Hq Hlt Hp HpN HN H.
  pose proof (prime_ge_2 _ Hq).
  apply andb_true_iff in H. destruct H as [H H3]. apply andb_true_iff in H. destruct H as [H1 H2].
  apply Z.eqb_eq in H1, H2, H3. 
  assert (D : (q | N - 1)) by (apply Z.mod_divide; auto; lia).
  assert (0 < (N - 1) / q) by (apply Z.div_str_pos; split; [lia| apply Z.divide_pos_le; auto; lia]).
  rewrite powmod_pos_spec in H2, H3 by lia. rewrite !Z2Pos.id in * by lia.
  eapply pock_step; eauto.
Qed.

Lemma pocklington1 N a q : 1 < N -> prime q -> q < N -> N < (q + 1) * (q + 1) -> pock_ok N a q = true -> prime N.
Proof.
  intros HN Hq Hlt Hb H. destruct (prime_dec N) as [|Np]; auto. exfalso.
  destruct (composite_small_factor N HN Np) as [p [Pp [Dp Lp]]].
  pose proof (pock_ok_spec N a q p Hq Hlt Pp Dp HN H) as D.
  pose proof (prime_ge_2 _ Pp). pose proof (prime_ge_2 _ Hq).
  apply Z.divide_pos_le in D; [|lia]. nia.
Qed.

Lemma pocklington2 N a1 q1 a2 q2 : 1 < N -> prime q1 -> prime q2 -> q1 <> q2 -> q1 < N -> q2 < N ->
  N < (q1 * q2 + 1) * (q1 * q2 + 1) -> pock_ok N a1 q1 = true -> pock_ok N a2 q2 = true -> prime N.
Proof.
  intros HN Hq1 Hq2 Hne Hl1 Hl2 Hb H1 H2. destruct (prime_dec N) as [|Np]; auto. exfalso.
  destruct (composite_small_factor N HN Np) as [p [Pp [Dp Lp]]].
  pose proof (pock_ok_spec N a1 q1 p Hq1 Hl1 Pp Dp HN H1) as D1.
  pose proof (pock_ok_spec N a2 q2 p Hq2 Hl2 Pp Dp HN H2) as D2.
  pose proof (prime_ge_2 _ Pp). pose proof (prime_ge_2 _ Hq1). pose proof (prime_ge_2 _ Hq2).
  assert (D : (q1 * q2 | p - 1)).
  { destruct D1 as [k Hk]. rewrite Hk in D2 |- *. rewrite (Z.mul_comm k).
    apply Z.mul_divide_mono_l. apply Gauss with q1; [rewrite Z.mul_comm; auto|].
    apply prime_rel_prime; auto. intro D. apply prime_div_prime in D; auto. }
  apply Z.divide_pos_le in D; [|lia]. nia.
Qed.

(** small primes by trial division *)
Definition trial_ok (n : Z) : bool :=
  (1 <? n) && forallb (fun i => negb (n mod (Z.of_nat i + 2) =? 0)) (seq 0 (Z.to_nat (Z.sqrt n - 1))).
Lemma trial_ok_spec n : trial_ok n = true -> prime n.
Proof.
  unfold trial_ok. intros H. apply andb_true_iff in H. destruct H as [H1 H2]. apply Z.ltb_lt in H1.
  destruct (prime_dec n) as [|Np]; auto. exfalso.
  destruct (composite_small_factor n H1 Np) as [p [Pp [Dp Lp]]].
  pose proof (prime_ge_2 _ Pp).
  rewrite forallb_forall in H2. specialize (H2 (Z.to_nat (p - 2))).
  assert (p <= Z.sqrt n) by (apply Z.sqrt_le_square; lia).
  rewrite in_seq in H2. rewrite Z2Nat.id in H2 by lia. replace (p - 2 + 2) with p in H2 by lia.
  rewrite (proj2 (Z.mod_divide n p ltac:(lia)) Dp) in H2. 
  specialize (H2 ltac:(lia)). discriminate.
Qed.
