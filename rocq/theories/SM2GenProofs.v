(** * Proofs: signing and verifying on any curve whose generator has prime order *)
From Coq Require Import String Znumtheory.
From Verif Require Import Base Words NumTheory ECSpec ECModel ECBridge ECProofs CryptoByte SM2Spec SM2Model SM2SigProofs KeysModel PropertiesKeysCurves SM2Gen.
Open Scope Z_scope.

(** ** Specification: SM2 signatures over a curve cv (GB/T 32918.2, 6.1 and 7.1), as in SM2Spec.v *)
Definition cmul (cv : curve) (k : Z) (A : pt) : pt := pmul (cv_P cv) (curve_a cv) k A.
Definition cadd (cv : curve) (A B : pt) : pt := padd (cv_P cv) (curve_a cv) A B.
(** the generator has prime order N *)
Definition prime_order (cv : curve) : Prop := curve_good cv /\ prime (cv_N cv) /\ 2 < cv_N cv /\ curve_mulG cv (cv_N cv) = PO.
(** the nonce of one read *)
Definition gnonce (cv : curve) (blk : bytes) : Z := be_to_Z blk mod (cv_N cv - 1) + 1.
(** how many bytes one read takes *)
Definition gread (cv : curve) : nat := Z.to_nat (cv_BitSize cv / 8 + 8).
Definition gis_signature (cv : curve) (D e k r s : Z) : Prop :=
  1 <= k < cv_N cv /\
  r = (e + xcoord (curve_mulG cv k)) mod cv_N cv /\ r <> 0 /\ r + k <> cv_N cv /\
  0 < s < cv_N cv /\ ((1 + D) * s) mod cv_N cv = (k - r * D) mod cv_N cv.
Definition gaccepts (cv : curve) (Q : pt) (e r s : Z) : Prop :=
  1 <= r < cv_N cv /\ 1 <= s < cv_N cv /\
  let t := (r + s) mod cv_N cv in
  t <> 0 /\
  let R := cadd cv (curve_mulG cv s) (cmul cv t Q) in
  R <> PO /\ (e + xcoord R) mod cv_N cv = r.

Section Gen.
Variable cv : curve.
Hypothesis Hcv : prime_order cv.
Hypothesis Hbs : 0 <= cv_BitSize cv.
Notation N := (cv_N cv).
Notation mulG := (curve_mulG cv).
Let Hgood : curve_good cv := proj1 Hcv.
Let HN : prime N := proj1 (proj2 Hcv).
Let HN2 : 2 < N := proj1 (proj2 (proj2 Hcv)).
Let HNG : mulG N = PO := proj2 (proj2 (proj2 Hcv)).
Let Hp : prime (cv_P cv) := proj1 Hgood.
Let Hp3 : 3 < cv_P cv := proj1 (proj2 Hgood).
Let Hdisc := proj1 (proj2 (proj2 Hgood)).
Let Ha := proj1 (proj2 (proj2 (proj2 Hgood))).
Let Hb := proj1 (proj2 (proj2 (proj2 (proj2 Hgood)))).
Let HG : curve_point cv (curve_G cv) := proj2 (proj2 (proj2 (proj2 (proj2 Hgood)))).

Lemma g_base k : 0 <= k -> cv_ScalarBaseMult cv (big_bytes k) = Ret (enc (mulG k)).
Proof.
  intros H. pose proof (ScalarMult_correct (cv_P cv) (curve_a cv) (cv_B cv) Hp Hp3 Hdisc Ha Hb (cv_Gx cv) (cv_Gy cv) (big_bytes k) HG (big_bytes_ok k)) as E.
  rewrite be_to_Z_big_bytes, Z.abs_eq in E by auto. exact E.
Qed.
Lemma g_mult x y k : curve_point cv (PA x y) -> 0 <= k -> ScalarMult (cv_P cv) x y (big_bytes k) = Ret (enc (cmul cv k (PA x y))).
Proof.
  intros HA H. pose proof (ScalarMult_correct (cv_P cv) (curve_a cv) (cv_B cv) Hp Hp3 Hdisc Ha Hb x y (big_bytes k) HA (big_bytes_ok k)) as E.
  rewrite be_to_Z_big_bytes, Z.abs_eq in E by auto. exact E.
Qed.
Lemma g_add A B : curve_point cv A -> curve_point cv B ->
  Add (cv_P cv) (fst (enc A)) (snd (enc A)) (fst (enc B)) (snd (enc B)) = Ret (enc (cadd cv A B)).
Proof. exact (Add_correct (cv_P cv) (curve_a cv) (cv_B cv) Hp Hp3 Ha Hb A B). Qed.
Lemma g_closed k A : curve_point cv A -> curve_point cv (cmul cv k A).
Proof. exact (pmul_closed (cv_P cv) (curve_a cv) (cv_B cv) Hp Hp3 k A). Qed.
Lemma g_Gnz : curve_G cv <> PO. Proof. discriminate. Qed.
Lemma g_zero_iff k : 0 <= k -> (mulG k = PO <-> k mod N = 0).
Proof. exact (pmul_zero_iff (cv_P cv) (curve_a cv) (cv_B cv) Hp Hp3 Hdisc N (curve_G cv) HN HG g_Gnz HNG k). Qed.
Lemma g_cong i j : 0 <= i -> 0 <= j -> (mulG i = mulG j <-> i mod N = j mod N).
Proof. exact (pmul_cong (cv_P cv) (curve_a cv) (cv_B cv) Hp Hp3 Hdisc N (curve_G cv) HN HG g_Gnz HNG i j). Qed.
Lemma g_mul_mul i j : 0 <= i -> 0 <= j -> mulG (i * j) = cmul cv i (mulG j).
Proof. exact (pmul_mul (cv_P cv) (curve_a cv) (cv_B cv) Hp Hp3 Hdisc i j (curve_G cv) HG). Qed.
Lemma g_mul_add i j : 0 <= i -> 0 <= j -> mulG (i + j) = cadd cv (mulG i) (mulG j).
Proof. exact (pmul_add (cv_P cv) (curve_a cv) (cv_B cv) Hp Hp3 Hdisc i j (curve_G cv) HG). Qed.

(** ** nonces *)
Lemma gnonce_range b : 1 <= gnonce cv b < N.
Proof. unfold gnonce. pose proof (Z.mod_pos_bound (be_to_Z b) (N - 1) ltac:(lia)). lia. Qed.
Lemma gnextk_cases rand :
  (exists b rest, rand = b ++ rest /\ List.length b = gread cv /\ gnextk cv rand = Ret (gnonce cv b, rest)) \/
  ((List.length rand < gread cv)%nat /\ (gnextk cv rand = Err "EOF" \/ gnextk cv rand = Err "unexpected EOF")).
Proof.
  unfold gnextk. cbv zeta. rewrite Z.quot_div_nonneg by lia.
  assert (B : 0 <= cv_BitSize cv / 8) by (apply Z.div_pos; lia).
  replace (cv_BitSize cv / 8 + 8 <? 0) with false by (symmetry; apply Z.ltb_ge; lia). fold (gread cv). unfold ReadFull.
  destruct (Nat.leb_spec (gread cv) (List.length rand)) as [H|H].
  - left. exists (firstn (gread cv) rand), (skipn (gread cv) rand). rewrite firstn_skipn. split; [reflexivity|].
    split; [rewrite firstn_length; lia|]. cbn [bind]. replace (N - 1 =? 0) with false by (symmetry; apply Z.eqb_neq; lia). reflexivity.
  - right. split; [exact H|]. destruct rand; auto.
Qed.
Lemma gread_pos : (0 < gread cv)%nat.
Proof. unfold gread. assert (0 <= cv_BitSize cv / 8) by (apply Z.div_pos; lia). lia. Qed.

(** ** signing *)
Lemma ginner_spec fuel e rand : (List.length rand < fuel)%nat ->
  match gsign_inner cv fuel e rand with
  | Ret (k, r, rest) => exists pre b, rand = pre ++ b ++ rest /\ List.length b = gread cv /\ k = gnonce cv b /\
       r = (e + xcoord (mulG k)) mod N /\ r <> 0 /\ r + k <> N /\ (Z.of_nat (gread cv) | Z.of_nat (List.length pre))
  | Err s => (s = "EOF" \/ s = "unexpected EOF")%string
  | Panic => False
  end.
Proof.
  revert rand. induction fuel as [|fuel IH]; intros rand Hf; [lia|]. cbn [gsign_inner]. pose proof gread_pos as Gp.
  destruct (gnextk_cases rand) as [(b & rest & -> & Hl & E)|(Hs & E)].
  2:{ destruct E as [-> | ->]; cbn [bind]; auto. }
  rewrite E. cbn [bind]. pose proof (gnonce_range b) as Hk. remember (gnonce cv b) as k eqn:Ek.
  rewrite g_base by lia. cbn [bind]. rewrite fst_enc. cbv zeta.
  destruct (Z.eqb_spec ((e + xcoord (mulG k)) mod N) 0) as [R0|R0]; cbn [negb andb].
  2: destruct (Z.eqb_spec ((e + xcoord (mulG k)) mod N + k) N) as [R1|R1]; cbn [negb].
  3:{ exists [], b. cbn [app]. split; [reflexivity|]. repeat (split; [assumption || reflexivity|]). exists 0. reflexivity. }
  all: rewrite app_length in Hf; specialize (IH rest ltac:(lia)); destruct (gsign_inner cv fuel e rest) as [[[k' r'] rest']|s|]; [|exact IH|exact IH];
    destruct IH as (pre & b' & -> & Hb' & Hk' & Hr & HU & HU2 & HD);
    exists (b ++ pre), b'; rewrite <- app_assoc; split; [reflexivity|]; repeat (split; [assumption|]);
    rewrite app_length, Hl, Nat2Z.inj_add; apply Z.divide_add_r; auto; exists 1; lia.
Qed.

Lemma gouter_spec fuel D e rand : (List.length rand < fuel)%nat -> (D + 1) mod N <> 0 ->
  match gsign_outer cv fuel D e rand with
  | Ret (r, s, rest) => exists pre b, rand = pre ++ b ++ rest /\ List.length b = gread cv /\
       (Z.of_nat (gread cv) | Z.of_nat (List.length pre)) /\ gis_signature cv D e (gnonce cv b) r s
  | Err s => (s = "EOF" \/ s = "unexpected EOF")%string
  | Panic => False
  end.
Proof.
  intros Hf HD. revert rand Hf. induction fuel as [|fuel IH]; intros rand Hf; [lia|]. cbn [gsign_outer]. pose proof gread_pos as Gp.
  pose proof (ginner_spec (S (List.length rand)) e rand ltac:(lia)) as HI.
  destruct (gsign_inner cv (S (List.length rand)) e rand) as [[[k r] rest]|s|]; cbn [bind]; [| exact HI |exact HI].
  destruct HI as (pre & b & -> & Hl & Hk & Hr & HU1 & HU2 & Hdiv).
  destruct (ModInverse_prime (D + 1) N HN HD) as (i & Ei & Hi1 & Hi2). cbv zeta. rewrite Ei.
  set (s := ((k - r * D) * i) mod N).
  assert (Hs : 0 <= s < N) by (apply Z.mod_pos_bound; lia).
  destruct (Z.eqb_spec s 0) as [Es|Es]; cbn [negb].
  - rewrite !app_length in Hf. specialize (IH rest ltac:(lia)).
    destruct (gsign_outer cv fuel D e rest) as [[[r' s'] rest']|s'|]; [| exact IH | exact IH].
    destruct IH as (pre' & b' & -> & Hb' & Hdiv' & HS).
    exists (pre ++ b ++ pre'), b'. rewrite <- !app_assoc. split; [reflexivity|]. split; [exact Hb'|]. split; [|exact HS].
    rewrite !app_length, !Nat2Z.inj_add. rewrite Hl. apply Z.divide_add_r; auto. apply Z.divide_add_r; auto. exists 1; lia.
  - exists pre, b. split; [reflexivity|]. split; [auto|]. split; [auto|].
    split; [apply gnonce_range|]. rewrite <- Hk. split; [exact Hr|].
    split; [auto|]. split; [auto|]. split; [lia|].
    unfold s. rewrite Z.mul_mod_idemp_r by lia.
    replace ((1 + D) * ((k - r * D) * i)) with ((k - r * D) * (i * (D + 1))) by ring.
    rewrite (Zmult_mod _ (i * (D + 1))), Hi2, Z.mul_1_r, Zmod_mod. reflexivity.
Qed.
Lemma gouter_bad fuel D e rand : (D + 1) mod N = 0 -> match gsign_outer cv fuel D e rand with Ret _ => False | _ => True end.
Proof.
  intros HD. destruct fuel as [|fuel]; [exact Logic.I|]. cbn [gsign_outer].
  destruct (gsign_inner cv (S (List.length rand)) e rand) as [[[k r] rest]|s|]; cbn [bind]; [|exact Logic.I|exact Logic.I].
  cbv zeta. rewrite ModInverse_zero; [exact Logic.I|lia|exact HD].
Qed.
Lemma gsign_ret rand priv dg r s rest : gSignDigestRS cv rand priv dg = Ret (r, s, rest) ->
  exists pre b, rand = pre ++ b ++ rest /\ List.length b = gread cv /\
       (Z.of_nat (gread cv) | Z.of_nat (List.length pre)) /\ gis_signature cv (sk_D priv) (be_to_Z dg) (gnonce cv b) r s.
Proof.
  unfold gSignDigestRS. cbv zeta. destruct (N =? 0); [discriminate|]. intros E.
  destruct (Z.eq_dec ((sk_D priv + 1) mod N) 0) as [H0|H0].
  - pose proof (gouter_bad (S (List.length rand)) (sk_D priv) (be_to_Z dg) rand H0) as B. rewrite E in B. destruct B.
  - pose proof (gouter_spec (S (List.length rand)) (sk_D priv) (be_to_Z dg) rand ltac:(lia) H0) as B. rewrite E in B. exact B.
Qed.

(** ** algebra *)
Lemma g_mul_zero a b : (a * b) mod N = 0 -> a mod N = 0 \/ b mod N = 0.
Proof.
  intros H. apply Zmod_divide in H; [|lia].
  apply prime_mult in H; [|exact HN]. destruct H as [H|H]; [left|right]; apply Zdivide_mod; auto.
Qed.
Lemma g_t_nonzero D e k r s : gis_signature cv D e k r s -> (r + s) mod N <> 0.
Proof.
  intros (Hk & Hr & Hr0 & Hrk & Hs & E) H.
  assert (Hrb : 0 <= r < N) by (rewrite Hr; apply Z.mod_pos_bound; lia).
  apply cong_of_mod in E. destruct E as [q E].
  apply Zmod_divide in H; [|lia]. destruct H as [q' H].
  assert (K : k + r = ((1 + D) * q' - q) * N).
  { replace (k + r) with ((1 + D) * (r + s) - q * N) by lia. rewrite H. ring. }
  assert ((1 + D) * q' - q = 1) by nia. nia.
Qed.
Lemma g_range D e k r s : gis_signature cv D e k r s -> 1 <= r < N /\ 1 <= s < N.
Proof.
  intros (Hk & Hr & Hr0 & Hrk & Hs & E).
  assert (Hrb : 0 <= r < N) by (rewrite Hr; apply Z.mod_pos_bound; lia). lia.
Qed.
Lemma g_sig_point d e k r s : 0 <= d -> gis_signature cv d e k r s ->
  cadd cv (mulG s) (cmul cv ((r + s) mod N) (mulG d)) = mulG k.
Proof.
  intros Hd HS. pose proof (g_range _ _ _ _ _ HS) as [Rr Rs]. destruct HS as (Hk & _ & _ & _ & _ & E).
  remember ((r + s) mod N) as t eqn:Et.
  assert (Ht : 0 <= t < N) by (rewrite Et; apply Z.mod_pos_bound; lia).
  assert (Htd : 0 <= t * d) by (apply Z.mul_nonneg_nonneg; lia).
  rewrite <- g_mul_mul by lia. rewrite <- g_mul_add by lia.
  apply g_cong; [lia|lia|].
  apply cong_of_mod in E. destruct E as [q E].
  assert (E4 : t mod N = (r + s) mod N) by (rewrite Et; apply Zmod_mod). apply cong_of_mod in E4. destruct E4 as [q' E4].
  apply (mod_of_cong _ _ _ (q + q' * d)). rewrite E4. clear - E. lia.
Qed.
Lemma g_y_nonzero k : 0 <= k -> k mod N <> 0 -> ycoord (mulG k) <> 0.
Proof.
  intros Hk Hk0 Hy. pose proof (g_closed k _ HG) as Hc. change (cmul cv k (curve_G cv)) with (mulG k) in Hc.
  pose proof (g_zero_iff k Hk) as Z1. pose proof (g_mul_add k k Hk Hk) as E2. pose proof (g_zero_iff (k + k) ltac:(lia)) as Z2.
  destruct (mulG k) as [|x y] eqn:EG.
  - apply Hk0, Z1. reflexivity.
  - cbn [ycoord] in Hy. subst y.
    assert (E3 : cadd cv (PA x 0) (PA x 0) = PO).
    { pose proof (padd_neg (cv_P cv) (curve_a cv) (cv_B cv) Hp Hp3 (PA x 0) Hc) as E. exact E. }
    rewrite E3 in E2. apply Z2 in E2.
    replace (k + k) with (2 * k) in E2 by lia. apply g_mul_zero in E2.
    destruct E2 as [E2|E2]; [|auto]. rewrite Z.mod_small in E2 by lia. discriminate.
Qed.

(** ** verification *)
Lemma g_total pub dg r s : exists b, gVerifyDigestRS cv pub dg r s = Ret b.
Proof.
  unfold gVerifyDigestRS. destruct ((r <? 1) || (N <=? r)); [eauto|].
  destruct ((s <? 1) || (N <=? s)); [eauto|]. cbv zeta. destruct ((r + s) mod N =? 0); [eauto|].
  unfold cv_ScalarBaseMult.
  destruct (ScalarMult_returns (cv_P cv) (curve_a cv) (cv_B cv) Hp Hp3 (cv_Gx cv) (cv_Gy cv) (big_bytes s)) as (A & EA & _). rewrite EA. cbn [bind].
  destruct (ScalarMult_returns (cv_P cv) (curve_a cv) (cv_B cv) Hp Hp3 (pk_X pub) (pk_Y pub) (big_bytes ((r + s) mod N))) as (B & EB & _). rewrite EB. cbn [bind].
  destruct (Add_returns (cv_P cv) (curve_a cv) (cv_B cv) Hp Hp3 Hdisc (fst (enc A)) (snd (enc A)) (fst (enc B)) (snd (enc B))) as (C & EC & _). rewrite EC. cbn [bind].
  destruct ((fst (enc C) =? 0) || (snd (enc C) =? 0)); eauto.
Qed.
Definition gpoint (Q : pt) (r s : Z) : pt := cadd cv (mulG s) (cmul cv ((r + s) mod N) Q).
Lemma g_exact pub dg r s : curve_point cv (pub_point pub) ->
  gVerifyDigestRS cv pub dg r s = Ret true <->
  (gaccepts cv (pub_point pub) (be_to_Z dg) r s /\
   xcoord (gpoint (pub_point pub) r s) <> 0 /\ ycoord (gpoint (pub_point pub) r s) <> 0).
Proof.
  intros HQ. unfold gaccepts. fold (gpoint (pub_point pub) r s). unfold gVerifyDigestRS.
  destruct (Z.ltb_spec r 1); [split; [discriminate|intros; lia]|].
  destruct (Z.leb_spec N r); [split; [discriminate|intros; lia]|].
  destruct (Z.ltb_spec s 1); [split; [discriminate|intros; lia]|].
  destruct (Z.leb_spec N s); [split; [discriminate|intros; lia]|]. cbn [orb]. cbv zeta.
  destruct (Z.eqb_spec ((r + s) mod N) 0) as [Ht|Ht].
  { split; [discriminate|]. intros ((_ & _ & Ht' & _) & _). congruence. }
  rewrite g_base by lia. cbn [bind].
  pose proof (Z.mod_pos_bound (r + s) N ltac:(lia)) as Htb.
  rewrite g_mult by (auto; lia). cbn [bind]. fold (pub_point pub).
  rewrite g_add by (apply g_closed; auto). cbn [bind]. fold (gpoint (pub_point pub) r s).
  generalize (gpoint (pub_point pub) r s). intros R. rewrite fst_enc, snd_enc.
  destruct (Z.eqb_spec (xcoord R) 0) as [Hx|Hx]; [split; [discriminate|intros; tauto]|].
  destruct (Z.eqb_spec (ycoord R) 0) as [Hy|Hy]; [split; [discriminate|intros; tauto]|]. cbn [orb].
  rewrite (Z.add_comm (xcoord R)).
  split.
  - intros [= E]. apply Z.eqb_eq in E. repeat split; auto; try lia. intros ->. apply Hx. reflexivity.
  - intros ((_ & _ & _ & _ & E) & _). rewrite E, Z.eqb_refl. reflexivity.
Qed.
Lemma g_verifies d dg k r s c : 1 <= d < N ->
  gis_signature cv d (be_to_Z dg) k r s ->
  gVerifyDigestRS cv (mkPub c (xcoord (mulG d)) (ycoord (mulG d))) dg r s = Ret (negb (xcoord (mulG k) =? 0)).
Proof.
  intros Hd HS. pose proof (g_closed d _ HG) as HQ. change (cmul cv d (curve_G cv)) with (mulG d) in HQ.
  pose proof (g_zero_iff d ltac:(lia)) as HZ.
  assert (EQ : pub_point (mkPub c (xcoord (mulG d)) (ycoord (mulG d))) = mulG d).
  { unfold pub_point. cbn [pk_X pk_Y]. destruct (mulG d) eqn:E; [|reflexivity].
    exfalso. pose proof (proj1 HZ eq_refl) as E'. rewrite Z.mod_small in E'; lia. }
  remember (mkPub c (xcoord (mulG d)) (ycoord (mulG d))) as pub eqn:Epub. clear Epub.
  assert (HQ' : curve_point cv (pub_point pub)) by (rewrite EQ; exact HQ).
  pose proof (g_exact pub dg r s HQ') as V. rewrite EQ in V.
  pose proof (g_sig_point d (be_to_Z dg) k r s ltac:(lia) HS) as HP.
  unfold gaccepts, gpoint in V. cbv zeta in V. rewrite HP in V.
  pose proof (g_range _ _ _ _ _ HS) as [Rr Rs]. pose proof (g_t_nonzero _ _ _ _ _ HS) as Ht.
  destruct HS as (Hk & Hr & _).
  assert (Hy : ycoord (mulG k) <> 0) by (apply g_y_nonzero; [lia|rewrite Z.mod_small; lia]).
  destruct (g_total pub dg r s) as [bb Eb]. rewrite Eb in V. rewrite Eb. clear Eb.
  destruct (Z.eqb_spec (xcoord (mulG k)) 0) as [Hx|Hx]; cbn [negb].
  - destruct bb; [|reflexivity]. exfalso. apply (proj1 (proj2 (proj1 V eq_refl))). exact Hx.
  - assert (Ret bb = Ret true) as E.
    { apply V. repeat split; auto; try lia. intros E. apply Hx. rewrite E. reflexivity. }
    exact E.
Qed.
End Gen.
