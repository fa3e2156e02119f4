(** * Property C132 (sm2: keys on curves other than the SM2 curve) *)
From Coq Require Import String Znumtheory.
From Verif Require Import Base Words NumTheory SM3Spec SM3Model SM3Proofs ECSpec ECModel ECBridge ECProofs BaseOrder Primes CryptoByte SM2Spec SM2Model SM2SigProofs SM2EncProofs KeysModel PropertiesKeysCurves FastMod Pock PropertiesSM2Sig SM2Gen SM2GenProofs.
Open Scope Z_scope.
Opaque SM3Digest sm3_Sum kdf.

(** the private key D belongs to the public key on the curve *)
Definition gkeypair (cv : curve) (priv : PrivateKey) : Prop :=
  pk_X (sk_Pub priv) = xcoord (curve_mulG cv (sk_D priv)) /\ pk_Y (sk_Pub priv) = ycoord (curve_mulG cv (sk_D priv)).

(** With the SM2 curve every function is the one the other properties speak about. *)
Theorem C132_sm2 :
  (forall rand priv dg, gSignDigestRS curve_sm2 rand priv dg = SignDigestRS rand priv dg) /\
  (forall rand priv inp uid, gSign curve_sm2 rand priv inp uid = Sign rand priv inp uid) /\
  (forall pub dg r s, gVerifyDigestRS curve_sm2 pub dg r s = VerifyDigestRS pub dg r s) /\
  (forall pub inp uid sig, gVerify curve_sm2 pub inp uid sig = Verify pub inp uid sig) /\
  (forall rand pub msg, gEncryt curve_sm2 rand pub msg = Encryt rand pub msg) /\
  (forall priv data, gDecryt curve_sm2 priv data = Decryt priv data).
Proof.
  split; [exact gSignDigestRS_sm2|]. split; [exact gSign_sm2|]. split; [exact gVerifyDigestRS_sm2|]. split; [exact gVerify_sm2|].
  split; [exact gEncryt_sm2|exact gDecryt_sm2].
Qed.
Print Assumptions C132_sm2.

(** On every curve whose generator has prime order, a signature satisfies the equations of the standard and verifies,
    except exactly when the nonce's point has x = 0. *)
Theorem C132_sign_verify : forall cv rand priv dg r s rest, prime_order cv -> 0 <= cv_BitSize cv ->
  gSignDigestRS cv rand priv dg = Ret (r, s, rest) ->
  exists pre b, rand = pre ++ b ++ rest /\ List.length b = gread cv /\
    gis_signature cv (sk_D priv) (be_to_Z dg) (gnonce cv b) r s /\
    (gkeypair cv priv -> 1 <= sk_D priv < cv_N cv ->
     gVerifyDigestRS cv (sk_Pub priv) dg r s = Ret (negb (xcoord (curve_mulG cv (gnonce cv b)) =? 0))).
Proof.
  intros cv rand priv dg r s rest Hc Hb E. destruct (gsign_ret cv Hc Hb _ _ _ _ _ _ E) as (pre & b & E1 & Hl & _ & HS).
  exists pre, b. split; [exact E1|]. split; [exact Hl|]. split; [exact HS|]. intros [Kx Ky] Hd.
  pose proof (g_verifies cv Hc (sk_D priv) dg (gnonce cv b) r s (pk_Curve (sk_Pub priv)) Hd HS) as V.
  rewrite <- Kx, <- Ky in V. destruct priv as [[c x y] D]. exact V.
Qed.
Print Assumptions C132_sign_verify.

(** The same for messages and encoded signatures, for orders of up to 534 bits. *)
Lemma gfits n r s : n < 2 ^ 535 -> 0 <= r < n -> 0 <= s < n -> sig_fits r s.
Proof.
  intros HN Hr Hs. unfold sig_fits, sig_content, max_content. rewrite zlen_app.
  assert (B : 2 ^ 535 = 2 ^ (8 * 67 - 1)) by reflexivity.
  pose proof (bigint_content_zlen r 67 ltac:(lia) ltac:(lia)). pose proof (bigint_content_zlen s 67 ltac:(lia) ltac:(lia)).
  rewrite !tlv_zlen_small by lia. lia.
Qed.
Lemma gVerifyRS_digest cv pub inp uid r s h : SM3Digest pub inp uid = Ret h -> gVerifyRS cv pub inp uid r s = gVerifyDigestRS cv pub h r s.
Proof. intros E. unfold gVerifyRS, gVerifyDigestRS. rewrite E. reflexivity. Qed.
Theorem C132_message : forall cv rand priv inp uid sig rest, prime_order cv -> 0 <= cv_BitSize cv -> cv_N cv < 2 ^ 535 ->
  bytes_ok inp -> bytes_ok uid -> gkeypair cv priv -> 1 <= sk_D priv < cv_N cv ->
  gSign cv rand priv inp uid = Ret (sig, rest) ->
  exists pre b, rand = pre ++ b ++ rest /\ List.length b = gread cv /\
    gVerify cv (sk_Pub priv) inp uid sig = Ret (negb (xcoord (curve_mulG cv (gnonce cv b)) =? 0)).
Proof.
  intros cv rand priv inp uid sig rest Hc Hb HN Oi Ou HK HD E.
  destruct (SM3Digest_returns (sk_Pub priv) inp uid Oi Ou) as (h & Eh & _).
  unfold gSign, gSignRS in E. rewrite Eh in E. cbn [bind] in E.
  destruct (gSignDigestRS cv rand priv h) as [[[r s] rest']| |] eqn:ES; cbn [bind] in E; try discriminate E.
  destruct (C132_sign_verify cv rand priv h r s rest' Hc Hb ES) as (pre & b & E1 & Hl & HS & V). specialize (V HK HD).
  destruct (g_range cv Hc _ _ _ _ _ HS) as [Rr Rs].
  destruct (sign_roundtrip r s (gfits _ r s HN ltac:(lia) ltac:(lia))) as (sig' & M & U). rewrite M in E. cbn [bind] in E. injection E as <- <-.
  exists pre, b. split; [exact E1|]. split; [exact Hl|]. unfold gVerify. rewrite U, (gVerifyRS_digest _ _ _ _ _ _ _ Eh). exact V.
Qed.
Print Assumptions C132_message.

(** Verification accepts exactly the pairs the standard accepts whose point has no zero coordinate. *)
Theorem C132_verify : forall cv pub dg r s, prime_order cv -> curve_point cv (PA (pk_X pub) (pk_Y pub)) ->
  gVerifyDigestRS cv pub dg r s = Ret true <->
  (gaccepts cv (PA (pk_X pub) (pk_Y pub)) (be_to_Z dg) r s /\
   let R := cadd cv (curve_mulG cv s) (cmul cv ((r + s) mod cv_N cv) (PA (pk_X pub) (pk_Y pub))) in xcoord R <> 0 /\ ycoord R <> 0).
Proof. intros cv pub dg r s Hc HQ. exact (g_exact cv Hc pub dg r s HQ). Qed.
Print Assumptions C132_verify.

(** Degenerate orders: 0 is an error, 1 a division by zero as soon as the reader delivers. *)
Theorem C132_order_zero : forall cv rand priv dg, cv_N cv = 0 -> gSignDigestRS cv rand priv dg = Err "zero parameter".
Proof. intros cv rand priv dg H. unfold gSignDigestRS. rewrite H. reflexivity. Qed.
Print Assumptions C132_order_zero.
Theorem C132_order_one : forall cv rand priv dg, cv_N cv = 1 -> 0 <= cv_BitSize cv -> (gread cv <= List.length rand)%nat ->
  gSignDigestRS cv rand priv dg = Panic.
Proof.
  intros cv rand priv dg H Hb Hr. unfold gSignDigestRS. rewrite H. cbn [Z.eqb gsign_outer gsign_inner].
  assert (E : gnextk cv rand = Panic); [|rewrite E; reflexivity].
  unfold gnextk. cbv zeta. rewrite Z.quot_div_nonneg by lia. assert (0 <= cv_BitSize cv / 8) by (apply Z.div_pos; lia).
  replace (_ <? 0) with false by (symmetry; apply Z.ltb_ge; lia). fold (gread cv). unfold ReadFull. rewrite (proj2 (Nat.leb_le _ _)) by exact Hr.
  cbn [bind]. rewrite H. reflexivity.
Qed.
Print Assumptions C132_order_one.

(** Encryption writes coordinates without padding and masks from offset 96 on, so on a curve over a field of at most 248
    bits (P-224 among them) it never returns a ciphertext: it panics, or runs out of random bytes. *)
Lemma narrow_bytes x p : 0 <= x < p -> p <= 2 ^ 248 -> (List.length (big_bytes x) <= 31)%nat.
Proof.
  intros H Hp. rewrite big_bytes_length, Z.abs_eq by lia. apply nbytes_le.
  change (256 ^ Z.of_nat 31) with (2 ^ 248). lia.
Qed.
Lemma valid_range p A : 3 < p -> valid p A -> 0 <= fst (enc A) < p /\ 0 <= snd (enc A) < p.
Proof. intros Hp. destruct A; cbn; lia. Qed.
Theorem C132_encrypt_narrow : forall cv rand pub msg c rest, curve_good cv -> cv_P cv <= 2 ^ 248 -> bytes_ok msg ->
  gEncryt cv rand pub msg <> Ret (c, rest).
Proof.
  intros cv rand pub msg c rest (Pp & P3 & Dd & _) Hp Om. unfold gEncryt. generalize (S (List.length rand)). intros fuel. revert rand.
  induction fuel as [|fuel IH]; intros rand; [discriminate|]. cbn [gencrypt_loop].
  destruct (gnextk cv rand) as [[k rd]| |]; cbn [bind]; try discriminate. cbv zeta. unfold cv_ScalarBaseMult.
  destruct (ScalarMult_returns (cv_P cv) (curve_a cv) (cv_B cv) Pp P3 (cv_Gx cv) (cv_Gy cv) (big_bytes k)) as (A & EA & VA). rewrite EA. cbn [bind].
  destruct (ScalarMult_returns (cv_P cv) (curve_a cv) (cv_B cv) Pp P3 (pk_X pub) (pk_Y pub) (big_bytes k)) as (B & EB & VB). rewrite EB. cbn [bind].
  rewrite sm3_Sum_correct by (repeat (apply bytes_ok_app; split); auto using big_bytes_ok). cbn [bind].
  unfold zlen. rewrite kdf_spec_code. cbv zeta. cbn [bind].
  match goal with |- context [nonzero ?t] => set (ks := t) end.
  assert (Lk : (List.length ks <= List.length msg)%nat).
  { unfold ks. match goal with |- (List.length (kdf_code _ ?z) <= _)%nat => destruct (good_lenb (List.length msg)) eqn:GL;
      [apply good_lenb_spec in GL; rewrite (kdf_code_len_good _ z GL); lia|
       pose proof (kdf_code_len_bad (List.length msg) z ltac:(rewrite <- good_lenb_spec; congruence)); lia] end. }
  destruct (nonzero ks) eqn:NZ; [|apply IH].
  destruct (xor_loop _ 96 msg) as [c'| |] eqn:X; cbn [bind]; try discriminate. exfalso.
  assert (Mn : (0 < List.length msg)%nat). { destruct ks; [discriminate NZ|]. cbn [List.length] in Lk. lia. }
  apply xor_loop_length in X as [_ X]. rewrite !app_length, SM3_length in X.
  destruct (valid_range _ _ P3 VA) as [R1 R2].
  pose proof (narrow_bytes _ _ R1 Hp). pose proof (narrow_bytes _ _ R2 Hp). lia.
Qed.
Print Assumptions C132_encrypt_narrow.

(** The hypotheses can be met: by the SM2 curve, and by a small curve y^2 = x^3 - 3x + 3 modulo 79 with 83 points,
    on which a digest is signed and verified. *)
Example C132_instance_sm2 : prime_order curve_sm2 /\ 0 <= cv_BitSize curve_sm2 /\ cv_N curve_sm2 < 2 ^ 535.
Proof.
  split; [|split; reflexivity || (vm_compute; congruence)]. split; [exact (C116_curves_good SM2P256V1_id curve_sm2 eq_refl)|].
  split; [exact sm2_N_prime|]. split; [reflexivity|]. exact sm2_nG.
Qed.
Definition toy : curve := mkCurve 79 83 3 1 1 7.
Definition toy_key : PrivateKey :=
  mkPriv (mkPub 7 (xcoord (curve_mulG toy 5)) (ycoord (curve_mulG toy 5))) 5.
Example C132_instance_toy : prime_order toy /\ gkeypair toy toy_key /\
  exists r s, gSignDigestRS toy [0; 0; 0; 0; 0; 0; 0; 41] toy_key [77] = Ret (r, s, []) /\ gVerifyDigestRS toy (sk_Pub toy_key) [77] r s = Ret true.
Proof.
  split; [|split; [split; reflexivity|]].
  - split; [apply good_make; [apply trial_ok_spec; vm_compute; reflexivity|vm_compute; reflexivity]|].
    split; [apply trial_ok_spec; vm_compute; reflexivity|]. split; [reflexivity|]. vm_compute. reflexivity.
  - eexists _, _. split; [vm_compute; reflexivity|vm_compute; reflexivity].
Qed.
Example C132_instance_narrow : curve_good curve_p224 /\ cv_P curve_p224 <= 2 ^ 248.
Proof. split; [exact (C116_curves_good 224 curve_p224 eq_refl)|vm_compute; congruence]. Qed.
