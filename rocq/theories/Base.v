(** * Base definitions shared by all models: bytes, big-endian integers, outcomes *)
From Coq Require Export List ZArith Lia Bool String.
From Coq Require Import ZifyBool ZifyNat.
Export ListNotations.
#[global] Open Scope Z_scope.
#[global] Open Scope list_scope.
Arguments Z.mul : simpl never.
Arguments Z.add : simpl never.
Arguments Z.sub : simpl never.
Arguments Z.pow : simpl never.
Arguments Z.div : simpl never.
Arguments Z.modulo : simpl never.
Arguments Z.of_nat : simpl never.
Arguments Z.to_nat : simpl never.

(** ** Outcome of a Go call *)
(** A Go function of the code base either returns a value with nil error, returns an error,
    or panics.  (Functions that return a meaningful value together with a non-nil error
    use an explicit pair instead.) *)
Inductive outcome (A : Type) : Type :=
| Ret (a : A)
| Err (e : string)
| Panic.
Arguments Ret {A} _.
Arguments Err {A} _.
Arguments Panic {A}.

Definition bind {A B} (x : outcome A) (f : A -> outcome B) : outcome B :=
  match x with Ret a => f a | Err e => Err e | Panic => Panic end.
Notation "'do' x <- m ; k" := (bind m (fun x => k)) (at level 200, x pattern, m at level 100, k at level 200).

Definition is_ret {A} (x : outcome A) : bool := match x with Ret _ => true | _ => false end.
Definition is_err {A} (x : outcome A) : bool := match x with Err _ => true | _ => false end.
Definition is_panic {A} (x : outcome A) : bool := match x with Panic => true | _ => false end.

(** ** Bytes *)
Definition bytes := list Z.
Definition byte_ok (b : Z) : Prop := 0 <= b < 256.
Definition bytes_ok (l : bytes) : Prop := Forall byte_ok l.
Definition byte_okb (b : Z) : bool := (0 <=? b) && (b <? 256).
Definition bytes_okb (l : bytes) : bool := forallb byte_okb l.

Definition zlen {A} (l : list A) : Z := Z.of_nat (List.length l).

(** big-endian value of a byte string: Go [new(big.Int).SetBytes(l)] *)
Definition be_to_Z (l : bytes) : Z := fold_left (fun acc b => acc * 256 + b) l 0.

(** [n]-byte big-endian encoding of [z mod 256^n] *)
Fixpoint Z_to_be (n : nat) (z : Z) : bytes :=
  match n with
  | O => []
  | S n' => Z_to_be n' (z / 256) ++ [z mod 256]
  end.

(** number of bytes of the minimal big-endian encoding of a non-negative integer *)
Definition nbytes (z : Z) : nat :=
  if z =? 0 then O else S (Z.to_nat (Z.log2 z / 8)).

(** Go [z.Bytes()]: minimal big-endian encoding of |z| (empty for 0) *)
Definition big_bytes (z : Z) : bytes := Z_to_be (nbytes (Z.abs z)) (Z.abs z).

Fixpoint bytes_eqb (a b : bytes) : bool :=
  match a, b with
  | [], [] => true
  | x :: a', y :: b' => (x =? y) && bytes_eqb a' b'
  | _, _ => false
  end.

(** ** Lemmas *)
Lemma bytes_okb_spec l : bytes_okb l = true <-> bytes_ok l.
Proof.
  unfold bytes_okb, bytes_ok. rewrite forallb_forall, Forall_forall.
  unfold byte_okb, byte_ok. split; intros H x Hx; specialize (H x Hx); lia.
Qed.

Lemma bytes_eqb_spec a b : bytes_eqb a b = true <-> a = b.
Proof.
  revert b; induction a as [|x a IH]; intros [|y b]; cbn [bytes_eqb]; try easy.
  rewrite andb_true_iff, Z.eqb_eq, IH. split; [intros [-> ->]; reflexivity | intros [= -> ->]; auto].
Qed.
Lemma bytes_eqb_refl a : bytes_eqb a a = true.
Proof. now apply bytes_eqb_spec. Qed.
Lemma bytes_eqb_neq a b : bytes_eqb a b = false <-> a <> b.
Proof.
  rewrite <- bytes_eqb_spec. destruct (bytes_eqb a b); split; congruence.
Qed.
Lemma bytes_eqb_sym a b : bytes_eqb a b = bytes_eqb b a.
Proof.
  destruct (bytes_eqb a b) eqn:E; symmetry.
  - apply bytes_eqb_spec in E. subst. apply bytes_eqb_refl.
  - apply bytes_eqb_neq in E. apply bytes_eqb_neq. congruence.
Qed.

Lemma bytes_ok_app a b : bytes_ok (a ++ b) <-> bytes_ok a /\ bytes_ok b.
Proof. apply Forall_app. Qed.
Lemma bytes_ok_cons x b : bytes_ok (x :: b) <-> byte_ok x /\ bytes_ok b.
Proof. split; [intros H; inversion H; auto | intros []; constructor; auto]. Qed.
Lemma bytes_ok_nil : bytes_ok [].
Proof. constructor. Qed.
#[global] Hint Resolve bytes_ok_nil : core.

Lemma Forall_firstn {A} (P : A -> Prop) n l : Forall P l -> Forall P (firstn n l).
Proof. revert n; induction l; intros [|n] H; cbn; auto. inversion H; subst; constructor; auto. Qed.
Lemma Forall_skipn {A} (P : A -> Prop) n l : Forall P l -> Forall P (skipn n l).
Proof. revert n; induction l; intros [|n] H; cbn; auto. inversion H; subst; auto. Qed.
Lemma bytes_ok_firstn n l : bytes_ok l -> bytes_ok (firstn n l).
Proof. apply Forall_firstn. Qed.
Lemma bytes_ok_skipn n l : bytes_ok l -> bytes_ok (skipn n l).
Proof. apply Forall_skipn. Qed.
Lemma bytes_ok_repeat b n : byte_ok b -> bytes_ok (repeat b n).
Proof. intros H; induction n; constructor; auto. Qed.
#[global] Hint Resolve bytes_ok_firstn bytes_ok_skipn : core.

Lemma zlen_nonneg {A} (l : list A) : 0 <= zlen l.
Proof. unfold zlen; lia. Qed.
Lemma zlen_app {A} (a b : list A) : zlen (a ++ b) = zlen a + zlen b.
Proof. unfold zlen. rewrite app_length. lia. Qed.
Lemma zlen_cons {A} (x : A) l : zlen (x :: l) = 1 + zlen l.
Proof. unfold zlen. cbn [List.length]. lia. Qed.
Lemma zlen_nil {A} : zlen (@nil A) = 0.
Proof. reflexivity. Qed.

Lemma be_to_Z_app_gen l1 l2 acc :
  fold_left (fun acc b => acc * 256 + b) (l1 ++ l2) acc
  = fold_left (fun acc b => acc * 256 + b) l2 (fold_left (fun acc b => acc * 256 + b) l1 acc).
Proof. apply fold_left_app. Qed.

Lemma be_acc l acc :
  fold_left (fun acc b => acc * 256 + b) l acc = acc * 256 ^ zlen l + be_to_Z l.
Proof.
  unfold be_to_Z. revert acc. induction l as [|x l IH]; intros acc; cbn [fold_left].
  - rewrite zlen_nil. change (256 ^ 0) with 1. lia.
  - rewrite IH. rewrite (IH (0 * 256 + x)). rewrite zlen_cons.
    rewrite Z.pow_add_r by (try lia; apply zlen_nonneg). change (256 ^ 1) with 256. ring.
Qed.

Lemma be_to_Z_nil : be_to_Z [] = 0. Proof. reflexivity. Qed.
Lemma be_to_Z_cons x l : be_to_Z (x :: l) = x * 256 ^ zlen l + be_to_Z l.
Proof. unfold be_to_Z at 1. cbn [fold_left]. rewrite be_acc. f_equal. Qed.
Lemma be_to_Z_app a b : be_to_Z (a ++ b) = be_to_Z a * 256 ^ zlen b + be_to_Z b.
Proof. unfold be_to_Z at 1. rewrite fold_left_app. rewrite be_acc. reflexivity. Qed.
Lemma be_to_Z_snoc a x : be_to_Z (a ++ [x]) = be_to_Z a * 256 + x.
Proof. unfold be_to_Z at 1. rewrite fold_left_app. reflexivity. Qed.

Lemma pow256_pos n : 0 <= n -> 0 < 256 ^ n.
Proof. intros; apply Z.pow_pos_nonneg; lia. Qed.

Lemma be_to_Z_bound l : bytes_ok l -> 0 <= be_to_Z l < 256 ^ zlen l.
Proof.
  induction l as [|x l IH]; intros H.
  - change (0 <= 0 < 1). lia.
  - apply bytes_ok_cons in H. destruct H as [Hx Hl]. specialize (IH Hl).
    rewrite be_to_Z_cons, zlen_cons. rewrite Z.pow_add_r by (try lia; apply zlen_nonneg).
    change (256 ^ 1) with 256. unfold byte_ok in Hx.
    pose proof (pow256_pos (zlen l) (zlen_nonneg l)). nia.
Qed.
Lemma be_to_Z_nonneg l : bytes_ok l -> 0 <= be_to_Z l.
Proof. intros; apply be_to_Z_bound; auto. Qed.

Lemma Z_to_be_length n z : List.length (Z_to_be n z) = n.
Proof. revert z; induction n; intros; cbn [Z_to_be]; auto. rewrite app_length, IHn. cbn. lia. Qed.
Lemma Z_to_be_zlen n z : zlen (Z_to_be n z) = Z.of_nat n.
Proof. unfold zlen. now rewrite Z_to_be_length. Qed.
Lemma Z_to_be_ok n z : bytes_ok (Z_to_be n z).
Proof.
  revert z; induction n; intros; cbn [Z_to_be]; auto.
  apply bytes_ok_app; split; auto. repeat constructor; unfold byte_ok; apply Z.mod_pos_bound; lia.
Qed.
#[global] Hint Resolve Z_to_be_ok : core.

Lemma pow256_S n : 256 ^ Z.of_nat (S n) = 256 * 256 ^ Z.of_nat n.
Proof. rewrite Nat2Z.inj_succ. rewrite Z.pow_succ_r by lia. reflexivity. Qed.

Lemma be_to_Z_to_be n z : be_to_Z (Z_to_be n z) = z mod 256 ^ Z.of_nat n.
Proof.
  revert z; induction n; intros z; cbn [Z_to_be].
  - change (256 ^ Z.of_nat 0) with 1. rewrite Z.mod_1_r. reflexivity.
  - rewrite be_to_Z_snoc, IHn, pow256_S.
    pose proof (pow256_pos (Z.of_nat n) ltac:(lia)).
    rewrite Z.rem_mul_r by lia. lia.
Qed.

Lemma be_to_Z_to_be_small n z : 0 <= z < 256 ^ Z.of_nat n -> be_to_Z (Z_to_be n z) = z.
Proof. intros. rewrite be_to_Z_to_be. apply Z.mod_small; auto. Qed.

Lemma Z_to_be_be_to_Z l : bytes_ok l -> Z_to_be (List.length l) (be_to_Z l) = l.
Proof.
  induction l as [|x l IH] using rev_ind; intros H; [reflexivity|].
  apply bytes_ok_app in H. destruct H as [Hl Hx]. apply bytes_ok_cons in Hx.
  destruct Hx as [Hx _]. unfold byte_ok in Hx.
  rewrite app_length. cbn [List.length]. rewrite Nat.add_1_r. cbn [Z_to_be].
  rewrite be_to_Z_snoc.
  rewrite Z.div_add_l by lia. rewrite (Z.div_small x 256) by lia. rewrite Z.add_0_r, IH by auto.
  f_equal. f_equal. rewrite Z.add_comm, Z.mod_add by lia. apply Z.mod_small; lia.
Qed.

Lemma be_to_Z_inj a b :
  bytes_ok a -> bytes_ok b -> List.length a = List.length b -> be_to_Z a = be_to_Z b -> a = b.
Proof.
  intros Ha Hb Hl He. rewrite <- (Z_to_be_be_to_Z a), <- (Z_to_be_be_to_Z b) by auto. congruence.
Qed.

Lemma Z_to_be_inj n a b :
  0 <= a < 256 ^ Z.of_nat n -> 0 <= b < 256 ^ Z.of_nat n -> Z_to_be n a = Z_to_be n b -> a = b.
Proof.
  intros Ha Hb H. rewrite <- (be_to_Z_to_be_small n a), <- (be_to_Z_to_be_small n b) by auto. congruence.
Qed.

Lemma nbytes_spec z : 0 < z -> 256 ^ (Z.of_nat (nbytes z) - 1) <= z < 256 ^ Z.of_nat (nbytes z).
Proof.
  intros H. unfold nbytes. rewrite (proj2 (Z.eqb_neq z 0)) by lia.
  pose proof (Z.log2_spec z H) as [H1 H2].
  pose proof (Z.log2_nonneg z) as H0.
  rewrite Nat2Z.inj_succ. rewrite Z2Nat.id by (apply Z.div_pos; lia).
  change 256 with (2 ^ 8). rewrite <- !Z.pow_mul_r by (try lia; pose proof (Z.div_pos (Z.log2 z) 8); lia).
  split.
  - etransitivity; [|exact H1]. apply Z.pow_le_mono_r; [lia|].
    pose proof (Z.div_mod (Z.log2 z) 8 ltac:(lia)). pose proof (Z.mod_pos_bound (Z.log2 z) 8). lia.
  - eapply Z.lt_le_trans; [exact H2|]. apply Z.pow_le_mono_r; [lia|].
    pose proof (Z.div_mod (Z.log2 z) 8 ltac:(lia)). pose proof (Z.mod_pos_bound (Z.log2 z) 8). lia.
Qed.

Lemma nbytes_upper z : 0 <= z -> z < 256 ^ Z.of_nat (nbytes z).
Proof.
  intros H. destruct (Z.eq_dec z 0) as [->|]; [reflexivity|]. apply nbytes_spec; lia.
Qed.

Lemma nbytes_le z n : 0 <= z < 256 ^ Z.of_nat n -> (nbytes z <= n)%nat.
Proof.
  intros H. destruct (Z.eq_dec z 0) as [->|Hz]; [cbn; lia|].
  pose proof (nbytes_spec z ltac:(lia)) as [H1 _].
  destruct (Nat.le_gt_cases (nbytes z) n) as [|Hgt]; [auto|exfalso].
  assert (256 ^ Z.of_nat n <= 256 ^ (Z.of_nat (nbytes z) - 1)) by (apply Z.pow_le_mono_r; lia). lia.
Qed.

Lemma nbytes_ge z n : 256 ^ (Z.of_nat n - 1) <= z -> (n <= nbytes z)%nat.
Proof.
  intros H. destruct n as [|n]; [lia|].
  assert (0 < z).
  { eapply Z.lt_le_trans; [|exact H]. apply Z.pow_pos_nonneg; lia. }
  pose proof (nbytes_spec z ltac:(lia)) as [_ H1].
  destruct (Nat.le_gt_cases (S n) (nbytes z)) as [|Hgt]; [auto|exfalso].
  assert (256 ^ Z.of_nat (nbytes z) <= 256 ^ (Z.of_nat (S n) - 1)) by (apply Z.pow_le_mono_r; lia). lia.
Qed.

Lemma nbytes_eq z n : (0 < n)%nat -> 256 ^ (Z.of_nat n - 1) <= z < 256 ^ Z.of_nat n -> nbytes z = n.
Proof.
  intros Hn [H1 H2]. assert (0 <= z).
  { etransitivity; [|exact H1]. apply Z.pow_nonneg; lia. }
  pose proof (nbytes_le z n ltac:(lia)). pose proof (nbytes_ge z n H1). lia.
Qed.

Lemma big_bytes_ok z : bytes_ok (big_bytes z).
Proof. apply Z_to_be_ok. Qed.
#[global] Hint Resolve big_bytes_ok : core.
Lemma be_to_Z_big_bytes z : be_to_Z (big_bytes z) = Z.abs z.
Proof.
  unfold big_bytes. apply be_to_Z_to_be_small. split; [lia|]. apply nbytes_upper; lia.
Qed.
Lemma big_bytes_length z : List.length (big_bytes z) = nbytes (Z.abs z).
Proof. apply Z_to_be_length. Qed.

(** a minimal encoding has a non-zero head *)
Lemma be_head_nonzero x l : bytes_ok (x :: l) -> x <> 0 -> nbytes (be_to_Z (x :: l)) = S (List.length l).
Proof.
  intros H Hx. apply nbytes_eq; [lia|].
  pose proof (be_to_Z_bound _ H) as Hb. rewrite zlen_cons in Hb.
  replace (Z.of_nat (S (List.length l))) with (1 + zlen l) by (unfold zlen; lia).
  split; [|lia].
  apply bytes_ok_cons in H. destruct H as [H1 H2]. unfold byte_ok in H1.
  rewrite be_to_Z_cons. pose proof (be_to_Z_nonneg l H2).
  replace (1 + zlen l - 1) with (zlen l) by lia.
  pose proof (pow256_pos (zlen l) (zlen_nonneg l)). nia.
Qed.

Lemma Z_to_be_pad n m z : 0 <= z < 256 ^ Z.of_nat n -> Z_to_be (m + n) z = repeat 0 m ++ Z_to_be n z.
Proof.
  intros H.
  apply be_to_Z_inj.
  - apply Z_to_be_ok.
  - apply bytes_ok_app; split; auto. apply bytes_ok_repeat. unfold byte_ok; lia.
  - rewrite app_length, repeat_length, !Z_to_be_length. lia.
  - rewrite be_to_Z_app. rewrite (be_to_Z_to_be_small n) by auto.
    rewrite be_to_Z_to_be_small.
    2:{ split; [lia|]. eapply Z.lt_le_trans; [apply H|]. apply Z.pow_le_mono_r; lia. }
    assert (be_to_Z (repeat 0 m) = 0) as ->; [|lia].
    clear. induction m; [reflexivity|]. cbn [repeat]. rewrite be_to_Z_cons. lia.
Qed.

(** ** List helpers *)
Lemma firstn_app_exact {A} (a b : list A) n : n = List.length a -> firstn n (a ++ b) = a.
Proof. intros ->. rewrite firstn_app, Nat.sub_diag, firstn_O, app_nil_r. apply firstn_all. Qed.
Lemma skipn_app_exact {A} (a b : list A) n : n = List.length a -> skipn n (a ++ b) = b.
Proof. intros ->. rewrite skipn_app, Nat.sub_diag, skipn_O, skipn_all. reflexivity. Qed.

(** [l] split into chunks of [n] elements; the (possibly short) rest is dropped *)
Fixpoint upd {A} (l : list A) (i : nat) (v : A) : list A :=
  match l, i with
  | [], _ => []
  | _ :: l', O => v :: l'
  | x :: l', S i' => x :: upd l' i' v
  end.
Lemma upd_length {A} (l : list A) i v : List.length (upd l i v) = List.length l.
Proof. revert i; induction l; intros [|i]; cbn [upd List.length]; auto. Qed.
Lemma nth_upd_same {A} (l : list A) i v d : (i < List.length l)%nat -> nth i (upd l i v) d = v.
Proof. revert i; induction l; intros [|i] H; cbn in *; auto; try lia. apply IHl; lia. Qed.
Lemma nth_upd_other {A} (l : list A) i j v d : i <> j -> nth j (upd l i v) d = nth j l d.
Proof. revert i j; induction l; intros [|i] [|j] H; cbn in *; auto; try lia; try congruence. Qed.
Lemma firstn_upd {A} (l : list A) i v : firstn i (upd l i v) = firstn i l.
Proof. revert i; induction l; intros [|i]; cbn; auto. now rewrite IHl. Qed.
Lemma upd_app_r {A} (a b : list A) i v : (List.length a <= i)%nat ->
  upd (a ++ b) i v = a ++ upd b (i - List.length a) v.
Proof.
  revert i; induction a as [|x a IH]; intros i H; cbn [app List.length].
  - now rewrite Nat.sub_0_r.
  - cbn in H. destruct i as [|i]; [lia|]. cbn [upd Nat.sub]. rewrite IH by lia. reflexivity.
Qed.
Lemma upd_app_l {A} (a b : list A) i v : (i < List.length a)%nat ->
  upd (a ++ b) i v = upd a i v ++ b.
Proof.
  revert i; induction a as [|x a IH]; intros i H; cbn in H; [lia|].
  destruct i as [|i]; cbn [upd app]; [reflexivity|]. rewrite IH by lia. reflexivity.
Qed.

(** decide closed well-formedness goals *)
Ltac ok_list :=
  repeat match goal with
         | |- Forall _ [] => apply Forall_nil
         | |- Forall _ (_ :: _) => apply Forall_cons
         end;
  try (apply bytes_okb_spec; vm_compute; reflexivity).
