(** * Lemmas on machine words represented in Z *)
From Verif Require Import Base.
From Coq Require Import ZifyBool ZifyNat.

Definition word (n x : Z) : Prop := 0 <= x < 2 ^ n.

Lemma word_iff n x : 0 <= n -> word n x <-> 0 <= x /\ forall i, n <= i -> Z.testbit x i = false.
Proof.
  intros Hn. unfold word. split.
  - intros [H0 H1]. split; auto. intros i Hi.
    destruct (Z.eq_dec x 0) as [->|Hx]; [apply Z.testbit_0_l|].
    apply Z.bits_above_log2; auto. apply Z.log2_lt_pow2 in H1; lia.
  - intros [H0 H]. split; auto.
    destruct (Z.eq_dec x 0) as [->|Hx]; [apply Z.pow_pos_nonneg; lia|].
    apply Z.log2_lt_pow2; [lia|].
    destruct (Z.lt_ge_cases (Z.log2 x) n) as [|Hge]; auto.
    specialize (H _ Hge). rewrite Z.bit_log2 in H by lia. discriminate.
Qed.

Lemma word_lxor n a b : 0 <= n -> word n a -> word n b -> word n (Z.lxor a b).
Proof.
  intros Hn Ha Hb. apply word_iff in Ha, Hb; auto. apply word_iff; auto.
  destruct Ha as [Ha0 Ha], Hb as [Hb0 Hb]. split.
  - apply Z.lxor_nonneg. tauto.
  - intros i Hi. rewrite Z.lxor_spec, Ha, Hb; auto.
Qed.
Lemma word_lor n a b : 0 <= n -> word n a -> word n b -> word n (Z.lor a b).
Proof.
  intros Hn Ha Hb. apply word_iff in Ha, Hb; auto. apply word_iff; auto.
  destruct Ha as [Ha0 Ha], Hb as [Hb0 Hb]. split.
  - apply Z.lor_nonneg. tauto.
  - intros i Hi. rewrite Z.lor_spec, Ha, Hb; auto.
Qed.
Lemma word_land n a b : 0 <= n -> word n a -> word n b -> word n (Z.land a b).
Proof.
  intros Hn Ha Hb. apply word_iff in Ha, Hb; auto. apply word_iff; auto.
  destruct Ha as [Ha0 Ha], Hb as [Hb0 Hb]. split.
  - apply Z.land_nonneg. tauto.
  - intros i Hi. rewrite Z.land_spec, Ha; auto.
Qed.
Lemma word_mod n x : 0 <= n -> word n (x mod 2 ^ n).
Proof. intros. unfold word. apply Z.mod_pos_bound. apply Z.pow_pos_nonneg; lia. Qed.

(** disjoint or is addition *)
Lemma lor_add s a b : 0 <= s -> a mod 2 ^ s = 0 -> 0 <= b < 2 ^ s -> Z.lor a b = a + b.
Proof.
  intros Hs Ha Hb.
  assert (Hd : Z.land a b = 0).
  { apply Z.bits_inj'. intros i Hi. rewrite Z.land_spec, Z.testbit_0_l.
    destruct (Z.lt_ge_cases i s) as [Hlt|Hge].
    - replace (Z.testbit a i) with (Z.testbit (a mod 2 ^ s) i)
        by (apply Z.mod_pow2_bits_low; lia).
      rewrite Ha, Z.testbit_0_l. reflexivity.
    - assert (word s b) as Hw by exact Hb. apply word_iff in Hw; auto. destruct Hw as [_ Hw].
      rewrite (Hw i) by lia. apply andb_false_r. }
  rewrite Z.add_nocarry_lxor by auto. symmetry. apply Z.lxor_lor; auto.
Qed.

(** complement *)
Lemma lxor_ones_sub n x : 0 <= n -> word n x -> Z.lxor x (2 ^ n - 1) = 2 ^ n - 1 - x.
Proof.
  intros Hn Hx.
  pose proof Hx as Hx'. apply word_iff in Hx; auto. destruct Hx as [H0 Hx].
  assert (Hones : 2 ^ n - 1 = Z.ones n) by (rewrite Z.ones_equiv; lia).
  rewrite Hones.
  assert (Hd : Z.land x (Z.lxor x (Z.ones n)) = 0).
  { apply Z.bits_inj'. intros i Hi. rewrite Z.land_spec, Z.lxor_spec, Z.testbit_0_l.
    destruct (Z.lt_ge_cases i n).
    - rewrite Z.ones_spec_low by lia. destruct (Z.testbit x i); reflexivity.
    - rewrite Hx by lia. reflexivity. }
  assert (x + Z.lxor x (Z.ones n) = Z.ones n).
  { rewrite Z.add_nocarry_lxor by auto. rewrite <- Z.lxor_assoc, Z.lxor_nilpotent, Z.lxor_0_l. reflexivity. }
  lia.
Qed.

Lemma shiftl_mul a n : 0 <= n -> Z.shiftl a n = a * 2 ^ n.
Proof. intros; apply Z.shiftl_mul_pow2; auto. Qed.
Lemma shiftr_div a n : 0 <= n -> Z.shiftr a n = a / 2 ^ n.
Proof. intros; apply Z.shiftr_div_pow2; auto. Qed.

Lemma land_ones_low a n : 0 <= n -> Z.land a (2 ^ n - 1) = a mod 2 ^ n.
Proof. intros. replace (2 ^ n - 1) with (Z.ones n) by (rewrite Z.ones_equiv; lia). apply Z.land_ones; auto. Qed.

Lemma lxor_cancel_l a b : Z.lxor a (Z.lxor a b) = b.
Proof. now rewrite <- Z.lxor_assoc, Z.lxor_nilpotent, Z.lxor_0_l. Qed.
Lemma lxor_cancel_r a b : Z.lxor (Z.lxor a b) b = a.
Proof. now rewrite Z.lxor_assoc, Z.lxor_nilpotent, Z.lxor_0_r. Qed.
