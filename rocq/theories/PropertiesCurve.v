(** * Properties C23, C24 (curve arithmetic and domain parameters) *)
From Coq Require Import Znumtheory.
From Verif Require Import Base ECSpec ECModel NumTheory Primes ECProofs BaseOrder.
Open Scope Z_scope.

(** C23 (a): Add on the code's (0,0)-for-infinity representation is the chord-and-tangent sum,
    including doubling, inverse points and infinity. *)
Theorem C23_add : forall A B, on_curve sm2_P sm2_A sm2_B A -> on_curve sm2_P sm2_A sm2_B B ->
  sm2_Add (fst (enc A)) (snd (enc A)) (fst (enc B)) (snd (enc B)) = Ret (enc (padd sm2_P sm2_A A B)).
Proof. exact sm2_Add_correct. Qed.
Print Assumptions C23_add.

(** C23 (b): ScalarMult by a byte string is the be_to_Z(k)-fold sum. *)
Theorem C23_scalar_mult : forall x y k, on_curve sm2_P sm2_A sm2_B (PA x y) -> bytes_ok k ->
  sm2_ScalarMult x y k = Ret (enc (pmul sm2_P sm2_A (be_to_Z k) (PA x y))).
Proof. exact sm2_ScalarMult_correct. Qed.
Print Assumptions C23_scalar_mult.
Theorem C23_scalar_base_mult : forall k, bytes_ok k ->
  sm2_ScalarBaseMult k = Ret (enc (pmul sm2_P sm2_A (be_to_Z k) (PA sm2_Gx sm2_Gy))).
Proof. exact sm2_ScalarBaseMult_correct. Qed.
Print Assumptions C23_scalar_base_mult.

(** C23 (c): the sum is an abelian group law on the curve. *)
Theorem C23_group :
  (forall A B, sm2_on_curve A -> sm2_on_curve B -> sm2_on_curve (padd sm2_P sm2_A A B)) /\
  (forall A B C, sm2_on_curve A -> sm2_on_curve B -> sm2_on_curve C ->
     padd sm2_P sm2_A A (padd sm2_P sm2_A B C) = padd sm2_P sm2_A (padd sm2_P sm2_A A B) C) /\
  (forall A B, sm2_on_curve A -> sm2_on_curve B -> padd sm2_P sm2_A A B = padd sm2_P sm2_A B A) /\
  (forall A, padd sm2_P sm2_A PO A = A) /\
  (forall A, sm2_on_curve A -> sm2_on_curve (pneg sm2_P A) /\ padd sm2_P sm2_A A (pneg sm2_P A) = PO) /\
  (forall i j A, sm2_on_curve A -> 0 <= i -> 0 <= j ->
     pmul sm2_P sm2_A (i + j) A = padd sm2_P sm2_A (pmul sm2_P sm2_A i A) (pmul sm2_P sm2_A j A)).
Proof.
  repeat split.
  - exact sm2_padd_closed.
  - exact sm2_padd_assoc.
  - exact sm2_padd_comm.
  - exact (sm2_pneg_closed A H).
  - exact (sm2_padd_neg A H).
  - exact sm2_pmul_add.
Qed.
Print Assumptions C23_group.

(** C23 (d): multiples of G: n*G is (0,0); for 1 <= k < n the code returns a finite on-curve point,
    and distinct k give distinct points. *)
Theorem C23_order : forall k, bytes_ok k ->
  (sm2_ScalarBaseMult k = Ret (0, 0) <-> be_to_Z k mod sm2_N = 0) /\
  (be_to_Z k mod sm2_N <> 0 -> exists x y, sm2_ScalarBaseMult k = Ret (x, y) /\ sm2_IsOnCurve x y = true).
Proof.
  intros k Hk. rewrite (sm2_ScalarBaseMult_correct k Hk).
  pose proof (be_to_Z_bound k Hk) as [B _].
  pose proof (sm2_pmul_zero_iff (be_to_Z k) B) as Z0.
  pose proof (sm2_pmul_closed (be_to_Z k) sm2_G sm2_G_on) as Hc.
  destruct (sm2_pmul (be_to_Z k) sm2_G) as [|x y]; cbn [enc].
  - split; [tauto|]. intros H. exfalso. apply H, Z0. reflexivity.
  - assert (Hi := proj2 (sm2_IsOnCurve_spec x y) Hc). split.
    + split.
      * intros E. injection E as -> ->. exfalso. vm_compute in Hi. discriminate.
      * intros H. apply Z0 in H. discriminate.
    + intros _. exists x, y. auto.
Qed.
Print Assumptions C23_order.
Theorem C23_distinct : forall i j, bytes_ok i -> bytes_ok j ->
  (sm2_ScalarBaseMult i = sm2_ScalarBaseMult j <-> be_to_Z i mod sm2_N = be_to_Z j mod sm2_N).
Proof.
  intros i j Hi Hj. rewrite !sm2_ScalarBaseMult_correct by auto.
  pose proof (be_to_Z_bound i Hi) as [Bi _]. pose proof (be_to_Z_bound j Hj) as [Bj _].
  rewrite <- sm2_pmul_cong by auto.
  pose proof (sm2_pmul_closed (be_to_Z i) sm2_G sm2_G_on) as Ci.
  pose proof (sm2_pmul_closed (be_to_Z j) sm2_G sm2_G_on) as Cj.
  assert (N00 : forall x y, sm2_on_curve (PA x y) -> (0, 0) <> (x, y)).
  { intros x y H E. injection E as <- <-. apply sm2_IsOnCurve_spec in H. vm_compute in H. discriminate. }
  destruct (sm2_pmul (be_to_Z i) sm2_G) as [|x y], (sm2_pmul (be_to_Z j) sm2_G) as [|x' y']; cbn [enc].
  - split; reflexivity.
  - split; [|discriminate]. intros E. injection E as E1 E2. exfalso. apply (N00 x' y' Cj). congruence.
  - split; [|discriminate]. intros E. injection E as E1 E2. exfalso. apply (N00 x y Ci). congruence.
  - split; intros E; injection E as -> ->; reflexivity.
Qed.
Print Assumptions C23_distinct.

(** a non-trivial instance of the hypotheses: G and 2G are on the curve *)
Example C23_nonvacuous : exists x y, sm2_Add sm2_Gx sm2_Gy sm2_Gx sm2_Gy = Ret (x, y) /\
  sm2_on_curve (PA x y) /\ sm2_on_curve (PA sm2_Gx sm2_Gy) /\ (x, y) <> (sm2_Gx, sm2_Gy).
Proof.
  eexists _, _. split; [vm_compute; reflexivity|]. split; [apply sm2_IsOnCurve_spec; vm_compute; reflexivity|].
  split; [exact sm2_G_on|]. discriminate.
Qed.
(** the key pair of sm2_test.go is consistent with the model's arithmetic on small multiples:
    G + (-G) is infinity *)
Example C23_inverse : sm2_Add sm2_Gx sm2_Gy sm2_Gx (sm2_P - sm2_Gy) = Ret (0, 0).
Proof. vm_compute. reflexivity. Qed.

(** C24: the constants of sm2.go:46-56 are valid domain parameters. *)
Theorem C24_domain_parameters :
  prime sm2_P /\ prime sm2_N /\ sm2_A = sm2_P - 3 /\ 2 ^ 255 < sm2_N < sm2_P /\ sm2_P < 2 ^ 256 /\
  (4 * (sm2_A * sm2_A * sm2_A) + 27 * (sm2_B * sm2_B)) mod sm2_P <> 0 /\
  on_curve sm2_P sm2_A sm2_B (PA sm2_Gx sm2_Gy) /\
  pmul sm2_P sm2_A sm2_N (PA sm2_Gx sm2_Gy) = PO /\
  (forall k, 0 < k < sm2_N -> pmul sm2_P sm2_A k (PA sm2_Gx sm2_Gy) <> PO).
Proof.
  split; [exact sm2_P_prime|]. split; [exact sm2_N_prime|]. split; [reflexivity|].
  split; [split; reflexivity|]. split; [reflexivity|]. split; [exact sm2_disc|].
  split; [exact sm2_G_on|]. split; [exact sm2_nG|].
  intros k Hk E. apply (sm2_pmul_zero_iff k ltac:(lia)) in E. rewrite Z.mod_small in E; lia.
Qed.
Print Assumptions C24_domain_parameters.
