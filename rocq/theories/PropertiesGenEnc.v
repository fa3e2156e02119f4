(** * Property C135 (sm2: encryption on curves other than the SM2 curve) *)
From Coq Require Import String Znumtheory.
From Verif Require Import Base Words NumTheory SM3Spec SM3Model SM3Proofs ECSpec ECModel ECBridge ECProofs BaseOrder Primes CryptoByte SM2Spec SM2Model SM2SigProofs SM2EncProofs PropertiesSM2Enc KeysModel PropertiesKeysCurves PropertiesSM2Sig SM2Gen SM2GenProofs PropertiesGenCurve SM2GenEnc.
From Coq Require Import ZifyBool ZifyNat.
Open Scope Z_scope.
Opaque SM3Digest sm3_Sum kdf pmul padd SM3.

Lemma gcoords A B : enc A = enc B -> xcoord A = xcoord B /\ ycoord A = ycoord B.
Proof. intros E. rewrite <- !fst_enc, <- !snd_enc, E. auto. Qed.
(** the shared point when the public key is a point of the curve *)
Lemma gshared_point cv pub k A : prime_order cv -> 0 <= k -> curve_point cv (PA (pk_X pub) (pk_Y pub)) -> gshared cv pub k A ->
  xcoord A = xcoord (cmul cv k (PA (pk_X pub) (pk_Y pub))) /\ ycoord A = ycoord (cmul cv k (PA (pk_X pub) (pk_Y pub))).
Proof.
  intros Hcv Hk HQ [_ E]. pose proof (g_mult cv Hcv _ _ k HQ Hk) as M. rewrite E in M. injection M as M. apply gcoords. exact M.
Qed.
(** the public point of a key pair is a point other than the one at infinity *)
Lemma gpub cv priv : prime_order cv -> gkeypair cv priv -> 1 <= sk_D priv < cv_N cv ->
  curve_mulG cv (sk_D priv) = PA (pk_X (sk_Pub priv)) (pk_Y (sk_Pub priv)) /\ curve_point cv (PA (pk_X (sk_Pub priv)) (pk_Y (sk_Pub priv))).
Proof.
  intros Hcv [KX KY] HD. pose proof (mulG_on cv Hcv (sk_D priv)) as On.
  assert (NZ : curve_mulG cv (sk_D priv) <> PO). { intros H. apply (g_zero_iff cv Hcv) in H; [|lia]. rewrite Z.mod_small in H by lia. lia. }
  destruct (curve_mulG cv (sk_D priv)) as [|x y]; [congruence|]. cbn [xcoord ycoord] in KX, KY. rewrite KX, KY. auto.
Qed.

(** C135 round trip: whenever encryption returns, decryption with the matching key gives the message back *)
Theorem C135_roundtrip : forall cv rand priv msg c rest, prime_order cv -> 0 <= cv_BitSize cv -> cv_P cv <= 2 ^ 256 ->
  gkeypair cv priv -> 1 <= sk_D priv < cv_N cv -> bytes_ok msg ->
  gEncryt cv rand (sk_Pub priv) msg = Ret (c, rest) -> gDecryt cv priv c = Ret (msg, None).
Proof.
  intros cv rand priv msg c rest Hcv Hbs H256 Hkp HD Hm E. destruct (gEncryt_ret cv Hcv Hbs H256 (sk_Pub priv) msg c Hm _ rand rest (le_n _) E) as (pre & b & A & _ & Hb & HS & NZ & GL & FC & E2).
  pose proof (gnonce_range cv Hcv b) as Hk. set (k := gnonce cv b) in *. clearbody k.
  destruct (gpub cv priv Hcv Hkp HD) as [EQ HQ]. destruct (gshared_point cv _ k A Hcv ltac:(lia) HQ HS) as [X Y].
  assert (COM : cmul cv k (PA (pk_X (sk_Pub priv)) (pk_Y (sk_Pub priv))) = cmul cv (Z.abs (sk_D priv)) (curve_mulG cv k)).
  { rewrite Z.abs_eq by lia. rewrite <- EQ. rewrite <- (g_mul_mul cv Hcv) by lia. rewrite <- (g_mul_mul cv Hcv) by lia. f_equal. lia. }
  rewrite COM in X, Y. clear COM.
  pose proof (mulG_on cv Hcv k) as CC. destruct (point_small cv H256 _ CC) as [F1 F2].
  assert (CN : curve_mulG cv k <> PO). { intros H. apply (g_zero_iff cv Hcv) in H; [|lia]. rewrite Z.mod_small in H by lia. lia. }
  unfold layout in E2. rewrite (stream_coords _ _ _ X Y) in NZ, E2. rewrite (c3_coords _ _ _ X Y) in E2.
  destruct (curve_mulG cv k) as [|x1 y1]; [congruence|]. cbn [xcoord ycoord] in E2, F1, F2.
  assert (B1 : be_to_Z (b32 x1) = x1) by (apply be_to_Z_to_be_small; exact F1).
  assert (B2 : be_to_Z (b32 y1) = y1) by (apply be_to_Z_to_be_small; exact F2).
  set (T := cmul cv (Z.abs (sk_D priv)) (PA x1 y1)) in *.
  assert (LS : List.length (stream (List.length msg) T) = List.length msg) by (apply kdf_code_len_good; auto).
  assert (LX : List.length (xor_bytes (stream (List.length msg) T) msg) = List.length msg) by (rewrite xor_bytes_length; auto).
  assert (OK : bytes_ok (c3_of T msg ++ xor_bytes (stream (List.length msg) T) msg)).
  { apply bytes_ok_app. split; [apply SM3_ok|apply xor_bytes_ok; auto; apply kdf_code_ok]. }
  pose proof (gDecryt_read cv Hcv H256 priv 4 (b32 x1) (b32 y1) (c3_of T msg ++ xor_bytes (stream (List.length msg) T) msg)
    (b32_len _) (b32_len _) (Z_to_be_ok _ _) (Z_to_be_ok _ _) OK) as DR.
  cbv zeta in DR. rewrite B1, B2 in DR. destruct DR as [_ DR]. specialize (DR CC). rewrite <- E2 in DR. rewrite DR.
  fold T. rewrite skipn_app_exact, firstn_app_exact by (unfold c3_of; rewrite SM3_length; reflexivity).
  rewrite LX, NZ, (proj2 (good_lenb_spec _) GL). rewrite xor_bytes_involutive by auto. rewrite bytes_eqb_refl. reflexivity.
Qed.
Print Assumptions C135_roundtrip.

(** C135 the complete behaviour of encryption: fewer random bytes than one read takes is an error; otherwise the first read gives the
    nonce k, and an all-zero key stream makes it start over with the rest *)
Theorem C135_exact : forall cv b rest pub msg, prime_order cv -> 0 <= cv_BitSize cv -> cv_P cv <= 2 ^ 256 ->
  curve_point cv (PA (pk_X pub) (pk_Y pub)) -> List.length b = Z.to_nat (cv_BitSize cv / 8 + 8) -> bytes_ok msg ->
  let k := be_to_Z b mod (cv_N cv - 1) + 1 in let C1 := curve_mulG cv k in let S := cmul cv k (PA (pk_X pub) (pk_Y pub)) in let n := List.length msg in
  (Forall (fun x => x = 0) (stream n S) -> gEncryt cv (b ++ rest) pub msg = gEncryt cv rest pub msg) /\
  (~ Forall (fun x => x = 0) (stream n S) ->
    ((n <= 32 \/ n mod 32 = 0)%nat /\ 2 ^ 248 <= xcoord C1 /\ 2 ^ 248 <= ycoord C1 ->
       gEncryt cv (b ++ rest) pub msg =
       Ret (4 :: b32 (xcoord C1) ++ b32 (ycoord C1) ++ SM3 (big_bytes (xcoord S) ++ msg ++ big_bytes (ycoord S)) ++ xor_bytes (stream n S) msg, rest)) /\
    (~ ((n <= 32 \/ n mod 32 = 0)%nat /\ 2 ^ 248 <= xcoord C1 /\ 2 ^ 248 <= ycoord C1) -> gEncryt cv (b ++ rest) pub msg = Panic)).
Proof.
  intros cv b rest pub msg Hcv Hbs H256 HQ Hb Hm k C1 S n. pose proof (gnonce_range cv Hcv b) as Hk. assert (Hk0 : 0 <= gnonce cv b) by (clear - Hk; lia).
  destruct (gshared_exists cv Hcv H256 pub (gnonce cv b)) as [A HS]. rewrite (gEncryt_read cv Hcv Hbs H256 b rest pub msg A Hb Hm HS).
  destruct (gshared_point cv _ _ A Hcv Hk0 HQ HS) as [X Y]. change (gnonce cv b) with k in *. fold S in X, Y. unfold layout. rewrite (stream_coords _ _ _ X Y), (c3_coords _ _ _ X Y). fold C1 n. change (c3_of S msg) with (SM3 (big_bytes (xcoord S) ++ msg ++ big_bytes (ycoord S))).
  assert (NZ : nonzero (stream n S) = true <-> ~ Forall (fun x => x = 0) (stream n S)).
  { unfold nonzero. rewrite existsb_exists, <- Exists_Forall_neg.
    - rewrite Exists_exists. split; intros (x & U & V); exists x; (split; [auto|]); [apply negb_true_iff, Z.eqb_neq in V|apply negb_true_iff, Z.eqb_neq]; auto.
    - intros x. destruct (Z.eq_dec x 0); auto. }
  clearbody S C1. destruct (nonzero (stream n S)) eqn:E.
  - split; [intros F; exfalso; apply NZ; auto|]. intros _. split; intros H.
    + rewrite (proj2 (good_lenb_spec n) (proj1 H)). unfold full_coords. rewrite !(proj2 (Z.leb_le _ _)) by tauto. cbn [andb]. reflexivity.
    + destruct (good_lenb n && full_coords C1) eqn:E'; [exfalso|reflexivity]. apply H.
      apply andb_true_iff in E'. destruct E' as [U V]. apply good_lenb_spec in U. unfold full_coords in V.
      apply andb_true_iff in V. rewrite !Z.leb_le in V. unfold good_len in U. tauto.
  - split; [reflexivity|]. intros F. apply NZ in F. discriminate F.
Qed.
Print Assumptions C135_exact.
Theorem C135_no_randomness : forall cv rand pub msg, prime_order cv -> 0 <= cv_BitSize cv -> (List.length rand < Z.to_nat (cv_BitSize cv / 8 + 8))%nat ->
  gEncryt cv rand pub msg = Err "EOF" \/ gEncryt cv rand pub msg = Err "unexpected EOF".
Proof. intros cv rand pub msg Hcv Hbs H. exact (gEncryt_short cv Hcv Hbs rand pub msg H). Qed.
Print Assumptions C135_no_randomness.

(** C135 what a successful decryption proves about the ciphertext *)
Theorem C135_integrity : forall cv priv data m, prime_order cv -> cv_P cv <= 2 ^ 256 -> bytes_ok data -> gDecryt cv priv data = Ret (m, None) ->
  exists b0 X Y c3 c2, parts data b0 X Y c3 c2 /\ curve_point cv (C1_of X Y) /\
    let S := cmul cv (Z.abs (sk_D priv)) (C1_of X Y) in
    c3 = SM3 (big_bytes (xcoord S) ++ m ++ big_bytes (ycoord S)) /\
    m = xor_bytes (stream (List.length c2) S) c2 /\ List.length m = List.length c2 /\ m <> [].
Proof.
  intros cv priv data m Hcv H256 OK E.
  destruct (Nat.le_gt_cases 65 (List.length data)) as [HL|HL]; [|rewrite gDecryt_short in E by auto; discriminate E].
  destruct (Decryt_split data HL OK) as (b0 & X & Y & tl & ED & LX & LY & OX & OY & OT & _).
  destruct (gDecryt_read cv Hcv H256 priv b0 X Y tl LX LY OX OY OT) as [D1 D2]. rewrite <- ED in D1, D2.
  fold (C1_of X Y) in D1, D2. cbv zeta in D2. clear HL.
  assert (Sp : IsOnCurve (cv_P cv) (cv_B cv) (be_to_Z X) (be_to_Z Y) = true <-> curve_point cv (C1_of X Y)).
  { destruct Hcv as ((Hp & Hp3 & _ & A3 & _) & _). apply (IsOnCurve_spec (cv_P cv) (curve_a cv) (cv_B cv)); [lia|exact A3]. }
  assert (OC : curve_point cv (C1_of X Y)).
  { destruct (IsOnCurve (cv_P cv) (cv_B cv) (be_to_Z X) (be_to_Z Y)) eqn:IC; [apply Sp; reflexivity|].
    rewrite D1 in E; [discriminate E|]. intros H. apply Sp in H. discriminate H. }
  rewrite (D2 OC) in E. clear D1 D2. remember (cmul cv (Z.abs (sk_D priv)) (C1_of X Y)) as S eqn:HS.
  set (n := List.length (skipn 32 tl)) in *.
  destruct (nonzero (stream n S)) eqn:NZ; [|discriminate E]. destruct (good_lenb n) eqn:GL; [|discriminate E].
  apply good_lenb_spec in GL.
  destruct (bytes_eqb (c3_of S (xor_bytes (stream n S) (skipn 32 tl))) (firstn 32 tl)) eqn:EQ; [|discriminate E].
  apply bytes_eqb_spec in EQ. injection E as E.
  assert (LS : List.length (stream n S) = n) by (apply kdf_code_len_good; auto).
  assert (L3 : List.length (firstn 32 tl) = 32%nat) by (rewrite <- EQ; apply SM3_length).
  assert (Hn : n <> 0%nat) by (intros H; destruct (stream n S); [discriminate NZ|rewrite H in LS; discriminate LS]).
  exists b0, X, Y, (firstn 32 tl), (skipn 32 tl). split; [|split; [exact OC|]].
  - constructor; auto. rewrite firstn_skipn. exact ED.
  - cbv zeta. rewrite <- HS. fold n. rewrite <- E. split; [symmetry; exact EQ|]. split; [reflexivity|].
    assert (LM : List.length (xor_bytes (stream n S) (skipn 32 tl)) = n) by (rewrite xor_bytes_length; auto).
    split; [exact LM|]. intros H. apply Hn. transitivity (List.length (@nil Z)); [|reflexivity]. rewrite <- H. symmetry. exact LM.
Qed.
Print Assumptions C135_integrity.

(** the SM2 curve meets the hypotheses and encryption succeeds there *)
Example C135_instance_sm2 : prime_order curve_sm2 /\ 0 <= cv_BitSize curve_sm2 /\ cv_P curve_sm2 <= 2 ^ 256 /\ exists c, gEncryt curve_sm2 (repeat 0 40) (sk_Pub key1) [65] = Ret (c, []).
Proof.
  split; [exact (proj1 C132_instance_sm2)|]. split; [exact (proj1 (proj2 C132_instance_sm2))|]. split; [vm_compute; discriminate|].
  destruct enc_instance as (c & E & _). exists c. rewrite gEncryt_sm2. exact E.
Qed.
