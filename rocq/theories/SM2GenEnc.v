(** * Proofs: encryption and decryption on any curve of at most 256 bits *)
From Coq Require Import String Znumtheory.
From Verif Require Import Base Words NumTheory SM3Spec SM3Model SM3Proofs ECSpec ECModel ECBridge ECProofs CryptoByte SM2Spec SM2Model SM2SigProofs SM2EncProofs KeysModel PropertiesKeysCurves SM2Gen SM2GenProofs.
From Coq Require Import ZifyBool ZifyNat.
Open Scope Z_scope.
Opaque sm3_Sum kdf.

Lemma bb_le x : 0 <= x < 2 ^ 256 -> (List.length (big_bytes x) <= 32)%nat.
Proof. intros H. rewrite big_bytes_length. apply nbytes_le. rewrite Z.abs_eq by lia. change (256 ^ Z.of_nat 32) with (2 ^ 256). lia. Qed.
Lemma bb_32 x : 0 <= x < 2 ^ 256 -> (List.length (big_bytes x) = 32%nat <-> 2 ^ 248 <= x).
Proof.
  intros H. rewrite big_bytes_length, Z.abs_eq by lia. split; intros E.
  - destruct (Z.le_gt_cases (2 ^ 248) x) as [L|L]; [exact L|]. assert (nbytes x <= 31)%nat by (apply nbytes_le; change (256 ^ Z.of_nat 31) with (2 ^ 248); lia). lia.
  - apply nbytes_eq; [lia|]. change (256 ^ (Z.of_nat 32 - 1)) with (2 ^ 248). change (256 ^ Z.of_nat 32) with (2 ^ 256). lia.
Qed.
Lemma bb_b32 x : 0 <= x < 2 ^ 256 -> 2 ^ 248 <= x -> big_bytes x = b32 x.
Proof. intros H L. unfold big_bytes, b32. rewrite Z.abs_eq by lia. f_equal. rewrite <- (proj2 (bb_32 x H) L), big_bytes_length, Z.abs_eq by lia. reflexivity. Qed.
Definition small_pt (A : pt) : Prop := 0 <= xcoord A < 2 ^ 256 /\ 0 <= ycoord A < 2 ^ 256.
Lemma small_kdf n A : small_pt A -> kdf (Z.of_nat n) (xcoord A) (ycoord A) = Ret (if nonzero (stream n A) then Some (stream n A) else None).
Proof. intros [Hx Hy]. rewrite kdf_spec_code. cbv zeta. rewrite !append32 by assumption. reflexivity. Qed.

Section GenEnc.
Variable cv : curve.
Hypothesis Hcv : prime_order cv.
Hypothesis Hbs : 0 <= cv_BitSize cv.
Hypothesis H256 : cv_P cv <= 2 ^ 256.
Notation mulG := (curve_mulG cv).
Let Hgood : curve_good cv := proj1 Hcv.
Let Hp : prime (cv_P cv) := proj1 Hgood.
Let Hp3 : 3 < cv_P cv := proj1 (proj2 Hgood).
Let HG : curve_point cv (curve_G cv) := proj2 (proj2 (proj2 (proj2 (proj2 Hgood)))).

Lemma point_small A : curve_point cv A -> small_pt A.
Proof. unfold small_pt. destruct A as [|x y]; [intros _; cbn; lia|]. intros (X & Y & _). cbn [xcoord ycoord]. lia. Qed.
Lemma mulG_on k : curve_point cv (mulG k).
Proof. exact (g_closed cv Hcv k _ HG). Qed.
(** the shared point as the code computes it, for any public key coordinates *)
Definition gshared (pub : PublicKey) (k : Z) (A : pt) : Prop := small_pt A /\ ScalarMult (cv_P cv) (pk_X pub) (pk_Y pub) (big_bytes k) = Ret (enc A).
Lemma gshared_exists pub k : exists A, gshared pub k A.
Proof.
  destruct (ScalarMult_returns (cv_P cv) (curve_a cv) (cv_B cv) Hp Hp3 (pk_X pub) (pk_Y pub) (big_bytes k)) as (A & E & V). exists A. split; [|exact E].
  unfold small_pt. destruct A as [|x y]; cbn in *; lia.
Qed.
Definition layout (k : Z) (A : pt) (msg : bytes) : bytes := 4 :: b32 (xcoord (mulG k)) ++ b32 (ycoord (mulG k)) ++ c3_of A msg ++ xor_bytes (stream (List.length msg) A) msg.
Lemma gencrypt_step fuel rand b rest pub msg A : gnextk cv rand = Ret (gnonce cv b, rest) -> bytes_ok msg ->
  let k := gnonce cv b in gshared pub k A ->
  gencrypt_loop cv (S fuel) rand pub msg =
  if nonzero (stream (List.length msg) A) then
    if good_lenb (List.length msg) && full_coords (mulG k) then Ret (layout k A msg, rest) else Panic
  else gencrypt_loop cv fuel rest pub msg.
Proof.
  intros En Hm k [HV HS]. cbn [gencrypt_loop]. rewrite En. cbn [bind]. fold k. pose proof (gnonce_range cv Hcv b) as Hk. fold k in Hk. rewrite (g_base cv Hcv k) by lia. cbn [bind]. cbv zeta. rewrite HS. cbn [bind]. rewrite !fst_enc, !snd_enc.
  destruct (point_small _ (mulG_on k)) as [Cx Cy]. rewrite sm3_Sum_correct by (repeat (apply bytes_ok_app; split); auto using big_bytes_ok). cbn [bind]. fold (c3_of A msg).
  change (zlen msg) with (Z.of_nat (List.length msg)). rewrite small_kdf by exact HV. cbn [bind]. destruct (nonzero (stream (List.length msg) A)) eqn:NZ; [|reflexivity]. unfold layout.
  set (t := stream (List.length msg) A) in *. set (x1 := xcoord (mulG k)) in *. set (y1 := ycoord (mulG k)) in *.
  assert (Hmne : msg <> []).
  { intros ->. unfold t, stream in NZ. pose proof (kdf_code_len_good 0 (b32 (xcoord A) ++ b32 (ycoord A)) ltac:(left; lia)) as L. cbn [List.length] in NZ. destruct (kdf_code 0 _); [discriminate|cbn in L; lia]. }
  pose proof (bb_le x1 Cx). pose proof (bb_le y1 Cy). assert (HC3 : List.length (c3_of A msg) = 32%nat) by apply SM3_length. assert (HL : (0 < List.length msg)%nat) by (destruct msg; [congruence|cbn; lia]).
  destruct (good_lenb (List.length msg) && full_coords (mulG k)) eqn:OK.
  - apply andb_true_iff in OK. destruct OK as [OK1 OK2]. apply good_lenb_spec in OK1. unfold full_coords in OK2. fold x1 y1 in OK2. apply andb_true_iff in OK2. destruct OK2 as [OKx OKy].
    apply Z.leb_le in OKx, OKy. rewrite (bb_b32 x1), (bb_b32 y1) by auto.
    pose proof (kdf_code_len_good _ (b32 (xcoord A) ++ b32 (ycoord A)) OK1) as Lt. fold (stream (List.length msg) A) in Lt. fold t in Lt.
    pose proof (xor_loop_spec msg ((b32 x1 ++ b32 y1) ++ c3_of A msg) t [] Lt) as XL. rewrite app_nil_r in XL.
    replace (List.length ((b32 x1 ++ b32 y1) ++ c3_of A msg)) with 96%nat in XL by (rewrite !app_length, !b32_len, HC3; reflexivity).
    rewrite XL. cbn [bind]. rewrite app_nil_r. rewrite <- !app_assoc. reflexivity.
  - assert (HP : (List.length (((big_bytes x1 ++ big_bytes y1) ++ c3_of A msg) ++ t) < 96 + List.length msg)%nat).
    { rewrite !app_length, HC3. apply andb_false_iff in OK. destruct OK as [OK|OK].
      - assert (NG : ~ good_len (List.length msg)) by (rewrite <- good_lenb_spec; congruence).
        pose proof (kdf_code_len_bad _ (b32 (xcoord A) ++ b32 (ycoord A)) NG) as Lt. fold (stream (List.length msg) A) in Lt. fold t in Lt. lia.
      - assert (Lt : (List.length t <= List.length msg)%nat).
        { destruct (good_lenb (List.length msg)) eqn:GL.
          - apply good_lenb_spec in GL. unfold t, stream. rewrite kdf_code_len_good by auto. lia.
          - assert (NG : ~ good_len (List.length msg)) by (rewrite <- good_lenb_spec; congruence).
            pose proof (kdf_code_len_bad _ (b32 (xcoord A) ++ b32 (ycoord A)) NG) as Lt. fold (stream (List.length msg) A) in Lt. fold t in Lt. lia. }
        unfold full_coords in OK. fold x1 y1 in OK. pose proof (bb_32 x1 Cx) as Ix. pose proof (bb_32 y1 Cy) as Iy.
        apply andb_false_iff in OK. destruct OK as [OK|OK]; apply Z.leb_gt in OK; lia. }
    set (c := ((big_bytes x1 ++ big_bytes y1) ++ c3_of A msg) ++ t) in *.
    assert (xor_loop c 96 msg = Panic) as ->; [|reflexivity].
    destruct (Nat.le_gt_cases 96 (List.length c)); [apply xor_loop_panic; auto|apply xor_loop_panic_far; auto; lia].
Qed.
Lemma gencrypt_fuel f1 : forall f2 rand pub msg, bytes_ok msg -> (List.length rand < f1)%nat -> (List.length rand < f2)%nat -> gencrypt_loop cv f1 rand pub msg = gencrypt_loop cv f2 rand pub msg.
Proof.
  pose proof (gread_pos cv Hcv Hbs) as Gp.
  induction f1 as [|f1 IH]; intros f2 rand pub msg Hm H1 H2; [lia|]. destruct f2 as [|f2]; [lia|]. destruct (gnextk_cases cv Hcv Hbs rand) as [(b & rest & -> & Hl & E)|(Hs & E)].
  - destruct (gshared_exists pub (gnonce cv b)) as [A HS]. rewrite !(gencrypt_step _ _ b rest pub msg A E Hm HS). destruct (nonzero _); [reflexivity|]. rewrite app_length in *. apply IH; auto; lia.
  - cbn [gencrypt_loop]. destruct E as [-> | ->]; reflexivity.
Qed.
(** what determines gEncryt *)
Lemma gEncryt_read b rest pub msg A : List.length b = gread cv -> bytes_ok msg -> let k := gnonce cv b in gshared pub k A ->
  gEncryt cv (b ++ rest) pub msg = if nonzero (stream (List.length msg) A) then if good_lenb (List.length msg) && full_coords (mulG k) then Ret (layout k A msg, rest) else Panic else gEncryt cv rest pub msg.
Proof.
  intros Hb Hm k HS. pose proof (gread_pos cv Hcv Hbs) as Gp. destruct (gnextk_cases cv Hcv Hbs (b ++ rest)) as [(b' & rest' & E1 & Hl & E)|(Hs & _)]; [|rewrite app_length in Hs; lia].
  assert (Q : b' = b /\ rest' = rest). { apply (f_equal (firstn (gread cv))) in E1 as F1. apply (f_equal (skipn (gread cv))) in E1 as F2. rewrite !firstn_app_exact in F1 by auto. rewrite !skipn_app_exact in F2 by auto. auto. }
  destruct Q as [-> ->]. unfold gEncryt at 1. rewrite (gencrypt_step _ _ b rest pub msg A E Hm HS). fold k. destruct (nonzero _); [reflexivity|]. unfold gEncryt. apply gencrypt_fuel; auto. rewrite app_length. lia.
Qed.
Lemma gEncryt_short rand pub msg : (List.length rand < gread cv)%nat -> gEncryt cv rand pub msg = Err "EOF" \/ gEncryt cv rand pub msg = Err "unexpected EOF".
Proof.
  intros H. unfold gEncryt. cbn [gencrypt_loop]. destruct (gnextk_cases cv Hcv Hbs rand) as [(b & rest & -> & Hl & _)|(_ & [-> | ->])]; auto. rewrite app_length in H. lia.
Qed.
Lemma gEncryt_ret pub msg c : bytes_ok msg -> forall n rand rest, (List.length rand <= n)%nat -> gEncryt cv rand pub msg = Ret (c, rest) ->
  exists pre b A, rand = pre ++ b ++ rest /\ List.length b = gread cv /\ let k := gnonce cv b in gshared pub k A /\
    nonzero (stream (List.length msg) A) = true /\ good_len (List.length msg) /\ full_coords (mulG k) = true /\ c = layout k A msg.
Proof.
  intros Hm. pose proof (gread_pos cv Hcv Hbs) as Gp. induction n as [n IH] using lt_wf_ind; intros rand rest Hn E. destruct (Nat.le_gt_cases (gread cv) (List.length rand)) as [H|H].
  - rewrite <- (firstn_skipn (gread cv) rand) in E |- *. set (b := firstn (gread cv) rand) in *. set (tl := skipn (gread cv) rand) in *. assert (Hb : List.length b = gread cv) by (unfold b; rewrite firstn_length; lia). assert (Ht : (List.length tl < List.length rand)%nat) by (unfold tl; rewrite skipn_length; lia). clearbody b tl.
    destruct (gshared_exists pub (gnonce cv b)) as [A HS]. rewrite (gEncryt_read b tl pub msg A Hb Hm HS) in E. destruct (nonzero (stream (List.length msg) A)) eqn:NZ.
    + destruct (good_lenb (List.length msg) && full_coords (mulG (gnonce cv b))) eqn:OK; [|discriminate E]. apply andb_true_iff in OK. destruct OK as [OK1 OK2]. apply good_lenb_spec in OK1.
      exists [], b, A. cbv zeta. injection E as E1 E2. split; [cbn [app]; congruence|]. auto 8.
    + destruct (IH (List.length tl) ltac:(lia) tl rest ltac:(lia) E) as (pre & b' & A' & -> & R). exists (b ++ pre), b', A'. rewrite <- app_assoc. auto.
  - destruct (gEncryt_short rand pub msg H) as [Q|Q]; rewrite Q in E; discriminate E.
Qed.

Lemma gzero_not_on : ~ curve_point cv (PA 0 0).
Proof.
  pose proof Hgood as Hg'. destruct Hg' as (_ & _ & _ & _ & B0 & _). intros (_ & _ & E). rewrite !Z.mul_0_l, !Z.mul_0_r, !Z.add_0_l in E. apply B0. rewrite <- E. rewrite Z.mod_0_l by lia. reflexivity.
Qed.
Lemma gmult_abs x y k : curve_point cv (PA x y) -> ScalarMult (cv_P cv) x y (big_bytes k) = Ret (enc (cmul cv (Z.abs k) (PA x y))).
Proof.
  intros HA. pose proof Hgood as Hg'. destruct Hg' as (_ & _ & D & A3 & B0 & _).
  pose proof (ScalarMult_correct (cv_P cv) (curve_a cv) (cv_B cv) Hp Hp3 D A3 B0 x y (big_bytes k) HA (big_bytes_ok k)) as E. rewrite be_to_Z_big_bytes in E. exact E.
Qed.
Lemma gDecryt_short priv data : (List.length data < 65)%nat -> gDecryt cv priv data = Panic.
Proof.
  intros H. unfold gDecryt. destruct data as [|b0 d]; [reflexivity|]. cbn [List.length] in H |- *.
  rewrite slice_ok by (cbn [List.length]; lia). cbn [bind skipn]. rewrite firstn_all2 by lia.
  destruct (Nat.le_gt_cases 32 (List.length d)).
  - rewrite (slice_ok d 0 32) by lia. cbn [bind]. rewrite (slice_panic d 32 64) by lia. reflexivity.
  - rewrite (slice_panic d 0 32) by lia. reflexivity.
Qed.
Theorem gDecryt_read priv b0 X Y tl : List.length X = 32%nat -> List.length Y = 32%nat ->
  bytes_ok X -> bytes_ok Y -> bytes_ok tl ->
  let C1 := PA (be_to_Z X) (be_to_Z Y) in
  let S := cmul cv (Z.abs (sk_D priv)) C1 in
  let c3 := firstn 32 tl in
  let c2 := skipn 32 tl in
  let n := List.length c2 in
  (~ curve_point cv C1 -> gDecryt cv priv (b0 :: X ++ Y ++ tl) = Ret ([], Some "C1 is not on the curve"%string)) /\
  (curve_point cv C1 -> gDecryt cv priv (b0 :: X ++ Y ++ tl) =
    if nonzero (stream n S) then
      if good_lenb n then
        let m := xor_bytes (stream n S) c2 in
        if bytes_eqb (c3_of S m) c3 then Ret (m, None) else Ret (m, Some "failed to decrypt:hash compared error"%string)
      else Panic
    else Ret ([], Some "failed to decrypt:kdf error"%string)).
Proof.
  intros LX LY HX HY HT C1 S c3 c2 n.
  set (d := X ++ Y ++ tl).
  assert (Ld : List.length d = (64 + List.length tl)%nat) by (unfold d; rewrite !app_length; lia).
  assert (E1 : slice (b0 :: d) 1 (List.length (b0 :: d)) = Ret d).
  { rewrite slice_ok by (cbn [List.length]; lia). cbn [skipn]. rewrite firstn_all2; [reflexivity|cbn [List.length]; lia]. }
  assert (E2 : slice d 0 32 = Ret X).
  { rewrite slice_ok by lia. cbn [skipn]. unfold d. rewrite firstn_app_exact; auto. }
  assert (E3 : slice d 32 64 = Ret Y).
  { rewrite slice_ok by lia. unfold d. rewrite skipn_app_exact by auto. rewrite firstn_app_exact by (rewrite LY; reflexivity). reflexivity. }
  assert (E4 : skipn 96 d = c2).
  { unfold d, c2. rewrite app_assoc. rewrite skipn_app. rewrite app_length, LX, LY.
    rewrite skipn_all2 by (rewrite app_length; lia). reflexivity. }
  assert (E5 : zlen d - 96 = Z.of_nat (List.length tl) - 32) by (unfold zlen; lia).
  unfold gDecryt. fold d. rewrite E1. cbn [bind]. rewrite E2. cbn [bind]. rewrite E3. cbn [bind].
  pose proof (be_to_Z_nonneg X HX) as NX. pose proof (be_to_Z_nonneg Y HY) as NY.
  assert (ON : ((cv_P cv <=? be_to_Z X) || (cv_P cv <=? be_to_Z Y) = true -> ~ curve_point cv C1) /\
               (IsOnCurve (cv_P cv) (cv_B cv) (be_to_Z X) (be_to_Z Y) = true <-> curve_point cv C1)).
  { split; [|apply (IsOnCurve_spec (cv_P cv) (curve_a cv) (cv_B cv)); [lia|exact (proj1 (proj2 (proj2 (proj2 Hgood))))]]. intros H (A & B & _). apply orb_true_iff in H. destruct H as [H|H]; apply Z.leb_le in H; lia. }
  destruct ON as [ON1 ON2]. split.
  - intros NO. destruct (_ || _); [reflexivity|]. destruct (IsOnCurve (cv_P cv) (cv_B cv) (be_to_Z X) (be_to_Z Y)); [|reflexivity].
    exfalso. apply NO, ON2. reflexivity.
  - intros OC. destruct (_ || _); [exfalso; apply ON1; auto|]. clear ON1. rewrite (proj2 ON2 OC). cbn [negb].
    pose proof (gmult_abs (be_to_Z X) (be_to_Z Y) 1 OC) as M1. change (cmul cv (Z.abs 1) C1) with C1 in M1. change (cmul cv (Z.abs 1) (PA (be_to_Z X) (be_to_Z Y))) with (PA (be_to_Z X) (be_to_Z Y)) in M1. rewrite M1. cbn [bind enc fst snd].
    assert (NZ : (be_to_Z X =? 0) && (be_to_Z Y =? 0) = false).
    { destruct (Z.eqb_spec (be_to_Z X) 0) as [Ex|]; [|reflexivity]. destruct (Z.eqb_spec (be_to_Z Y) 0) as [Ey|]; [|reflexivity].
      exfalso. apply gzero_not_on. unfold C1 in OC. rewrite Ex, Ey in OC. exact OC. }
    rewrite NZ. clear M1 NZ.
    pose proof (gmult_abs (be_to_Z X) (be_to_Z Y) (sk_D priv) OC) as M2. rewrite M2. cbn [bind]. fold C1. fold S. clear M2.
    rewrite fst_enc, snd_enc, E4, E5.
    pose proof (point_small S (g_closed cv Hcv _ C1 OC)) as SV. destruct SV as [Fx Fy]. assert (SV : small_pt S) by (split; assumption). clearbody S.
    destruct (Nat.le_gt_cases (List.length tl) 32) as [Hs|Hl].
    + rewrite kdf_nonpos by lia. cbn [bind].
      assert (En : n = 0%nat) by (unfold n, c2; rewrite skipn_length; lia). rewrite En.
      assert (Est : stream 0 S = []). { reflexivity. } rewrite Est. reflexivity.
    + replace (Z.of_nat (List.length tl) - 32) with (Z.of_nat n) by (unfold n, c2; rewrite skipn_length; lia).
      rewrite small_kdf by exact SV. cbn [bind].
      assert (Hn : (0 < n)%nat) by (unfold n, c2; rewrite skipn_length; lia).
      destruct (nonzero (stream n S)) eqn:NZ; [|reflexivity].
      destruct (good_lenb n) eqn:GL.
      * apply good_lenb_spec in GL.
        pose proof (kdf_code_len_good n (b32 (xcoord S) ++ b32 (ycoord S)) GL) as Lt. fold (stream n S) in Lt.
        pose proof (xor_loop_spec c2 [] (stream n S) [] Lt) as XL. cbn [app List.length] in XL. rewrite !app_nil_r in XL.
        rewrite XL. cbn [bind].
        assert (Hmok : bytes_ok (xor_bytes (stream n S) c2)).
        { apply xor_bytes_ok; [apply kdf_code_ok|apply bytes_ok_skipn; auto]. }
        rewrite sm3_Sum_correct. 2:{ repeat (apply bytes_ok_app; split); auto. }
        cbn [bind]. fold (c3_of S (xor_bytes (stream n S) c2)).
        assert (E6 : slice d 64 96 = Ret c3).
        { rewrite slice_ok by lia. unfold d, c3. rewrite app_assoc. rewrite skipn_app_exact by (rewrite app_length; lia). reflexivity. }
        rewrite E6. cbn [bind]. cbv zeta. destruct (bytes_eqb _ c3); reflexivity.
      * assert (NG : ~ good_len n) by (rewrite <- good_lenb_spec; congruence).
        pose proof (kdf_code_len_bad n (b32 (xcoord S) ++ b32 (ycoord S)) NG) as Lt. fold (stream n S) in Lt.
        rewrite xor_loop_panic; [reflexivity| |lia]. fold n. lia.
Qed.
End GenEnc.
