(** * Proofs about encryption (sm2.go:385-493) *)
From Coq Require Import Znumtheory.
From Verif Require Import Base Words SM3Spec SM3Model SM3Proofs ECSpec ECModel NumTheory Primes ECProofs BaseOrder CryptoByte SM2Spec SM2Model SM2SigProofs.
From Coq Require Import ZifyBool ZifyNat.
Open Scope Z_scope.
Ltac Zify.zify_post_hook ::= Z.div_mod_to_equations.

(** ** what the code's kdf computes *)
(** the hash of block i (i = 1..n) covers all the input of blocks 1..i, because the hash object is
    not reset: input i is (x||y||1)||(x||y||2)||...||(x||y||i) *)
Definition kdf_input (Z0 : bytes) (i : nat) : bytes :=
  flat_map (fun j => Z0 ++ Z_to_be 4 (Z.of_nat j)) (seq 1 i).
(** each block is truncated to klen mod 32 bytes unless that is 0 *)
Definition kdf_block (klen : nat) (h : bytes) : bytes :=
  if (klen mod 32 =? 0)%nat then h else firstn (klen mod 32) h.
Definition kdf_code (klen : nat) (Z0 : bytes) : bytes :=
  flat_map (fun i => kdf_block klen (SM3 (kdf_input Z0 i))) (seq 1 ((klen + 31) / 32)).

Lemma intToBytes_be x : intToBytes x = Z_to_be 4 x.
Proof.
  unfold intToBytes. rewrite PutUint32_be.
  - change (2 ^ 32) with (256 ^ Z.of_nat 4). apply be_to_Z_inj; [apply Z_to_be_ok|apply Z_to_be_ok|now rewrite !Z_to_be_length|].
    rewrite !be_to_Z_to_be. apply Zmod_mod.
  - unfold w32, word. apply Z.mod_pos_bound. reflexivity.
Qed.
Lemma kdf_input_S Z0 i : kdf_input Z0 (S i) = kdf_input Z0 i ++ Z0 ++ Z_to_be 4 (Z.of_nat (S i)).
Proof. unfold kdf_input. rewrite seq_S, flat_map_app. cbn [flat_map Nat.add]. rewrite app_nil_r. reflexivity. Qed.
Lemma kdf_loop_spec n : forall h done klen xb yb out, bytes_ok xb -> bytes_ok yb ->
  Rep h (kdf_input (xb ++ yb) done) ->
  kdf_loop n h (Z.of_nat klen) (Z.of_nat done + 1) xb yb out =
  Ret (out ++ flat_map (fun i => kdf_block klen (SM3 (kdf_input (xb ++ yb) i))) (seq (S done) n)).
Proof.
  induction n as [|n IH]; intros h done klen xb yb out Hx Hy HR; cbn [kdf_loop].
  - cbn [seq flat_map]. rewrite app_nil_r. reflexivity.
  - destruct (dWrite_rep _ _ _ HR Hx) as (h1 & E1 & R1). rewrite E1. cbn [bind]. clear E1.
    destruct (dWrite_rep _ _ _ R1 Hy) as (h2 & E2 & R2). rewrite E2. cbn [bind]. clear E2.
    rewrite intToBytes_be.
    destruct (dWrite_rep _ _ (Z_to_be 4 (Z.of_nat done + 1)) R2 (Z_to_be_ok _ _)) as (h3 & E3 & R3). rewrite E3. cbn [bind]. clear E3.
    assert (EI : ((kdf_input (xb ++ yb) done ++ xb) ++ yb) ++ Z_to_be 4 (Z.of_nat done + 1) = kdf_input (xb ++ yb) (S done)).
    { rewrite kdf_input_S. rewrite <- !app_assoc. do 4 f_equal. lia. }
    rewrite EI in R3. rewrite (Sum_method_rep _ _ R3). cbn [bind].
    replace (Z.of_nat done + 1 + 1) with (Z.of_nat (S done) + 1) by lia.
    rewrite IH by auto. cbn [seq flat_map]. f_equal.
    assert (EB : (if negb (Z.rem (Z.of_nat klen) 32 =? 0)
       then out ++ firstn (Z.to_nat (Z.rem (Z.of_nat klen) 32)) (SM3 (kdf_input (xb ++ yb) (S done)))
       else out ++ SM3 (kdf_input (xb ++ yb) (S done))) = out ++ kdf_block klen (SM3 (kdf_input (xb ++ yb) (S done)))).
    { unfold kdf_block. rewrite Z.rem_mod_nonneg by lia. 
      assert (HM : Z.of_nat klen mod 32 = Z.of_nat (klen mod 32)) by (rewrite Nat2Z.inj_mod; reflexivity).
      rewrite HM, Nat2Z.id. destruct (Nat.eqb_spec (klen mod 32) 0) as [E0|E0].
      - rewrite E0. reflexivity.
      - rewrite (proj2 (Z.eqb_neq _ _)) by lia. reflexivity. }
    rewrite EB. rewrite <- app_assoc. reflexivity.
Qed.
Definition nonzero (l : bytes) : bool := existsb (fun b => negb (b =? 0)) l.
Lemma kdf_spec_code klen x y :
  kdf (Z.of_nat klen) x y =
  let out := kdf_code klen (appendBigIntTo32Bytes x ++ appendBigIntTo32Bytes y) in
  Ret (if nonzero out then Some out else None).
Proof.
  unfold kdf. rewrite Z.quot_div_nonneg by lia.
  replace (Z.to_nat ((Z.of_nat klen + 31) / 32)) with ((klen + 31) / 32)%nat.
  2:{ change 31 with (Z.of_nat 31) at 1. change 32 with (Z.of_nat 32). rewrite <- Nat2Z.inj_add, <- Nat2Z.inj_div, Nat2Z.id. reflexivity. }
  change 1 with (Z.of_nat 0 + 1) at 1.
  rewrite kdf_loop_spec; try apply append32_ok; try exact new_rep. cbn [bind app]. reflexivity.
Qed.
Lemma kdf_nonpos klen x y : klen <= 0 -> kdf klen x y = Ret None.
Proof.
  intros H. unfold kdf. replace (Z.to_nat (Z.quot (klen + 31) 32)) with 0%nat; [reflexivity|].
  destruct (Z.le_gt_cases 0 (klen + 31)).
  - rewrite Z.quot_small by lia. reflexivity.
  - pose proof (Z.quot_opp_l (klen + 31) 32 ltac:(lia)). pose proof (Z.quot_pos (- (klen + 31)) 32 ltac:(lia) ltac:(lia)). lia.
Qed.
(** total length of the code's kdf output *)
Lemma kdf_block_length klen h : List.length h = 32%nat -> 
  List.length (kdf_block klen h) = if (klen mod 32 =? 0)%nat then 32%nat else (klen mod 32)%nat.
Proof.
  intros H. unfold kdf_block. destruct (_ =? _)%nat; auto. rewrite firstn_length, H.
  pose proof (Nat.mod_upper_bound klen 32). lia.
Qed.
Lemma flat_map_const_length {A B} (f : A -> list B) n l : (forall x, List.length (f x) = n) ->
  List.length (flat_map f l) = (n * List.length l)%nat.
Proof. intros H. induction l; cbn [flat_map List.length]; [lia|]. rewrite app_length, H, IHl. lia. Qed.
Lemma kdf_code_length klen Z0 : List.length (kdf_code klen Z0) =
  ((if (klen mod 32 =? 0)%nat then 32 else klen mod 32) * ((klen + 31) / 32))%nat.
Proof.
  unfold kdf_code. rewrite (flat_map_const_length _ (if (klen mod 32 =? 0)%nat then 32 else klen mod 32)%nat).
  - rewrite seq_length. reflexivity.
  - intros i. apply kdf_block_length. apply SM3_length.
Qed.
(** message lengths for which the key stream is long enough *)
Definition good_len (n : nat) : Prop := (n <= 32 \/ n mod 32 = 0)%nat.
Definition good_lenb (n : nat) : bool := (n <=? 32)%nat || (n mod 32 =? 0)%nat.
Lemma good_lenb_spec n : good_lenb n = true <-> good_len n.
Proof. unfold good_lenb, good_len. rewrite orb_true_iff, Nat.leb_le, Nat.eqb_eq. tauto. Qed.
Lemma kdf_code_len_good klen Z0 : good_len klen -> List.length (kdf_code klen Z0) = klen.
Proof.
  intros H. rewrite kdf_code_length. destruct (Nat.eqb_spec (klen mod 32) 0) as [E|E].
  - lia.
  - destruct H as [H|H]; [|lia]. assert (klen <> 32%nat) by (intros ->; apply E; reflexivity).
    rewrite Nat.mod_small by lia. replace ((klen + 31) / 32)%nat with 1%nat; [lia|].
    destruct (Nat.eq_dec klen 0) as [->|]; [exfalso; apply E; reflexivity|lia].
Qed.
Lemma kdf_code_len_bad klen Z0 : ~ good_len klen -> (List.length (kdf_code klen Z0) < klen)%nat.
Proof.
  intros H. rewrite kdf_code_length. unfold good_len in H.
  assert (Hm : (klen mod 32 <> 0)%nat) by tauto. assert (Hl : (32 < klen)%nat) by lia.
  rewrite (proj2 (Nat.eqb_neq _ _) Hm).
  pose proof (Nat.div_mod klen 32 ltac:(lia)) as D. pose proof (Nat.mod_upper_bound klen 32 ltac:(lia)) as U.
  set (q := (klen / 32)%nat) in *. set (r := (klen mod 32)%nat) in *.
  assert (Hq : (1 <= q)%nat) by (destruct q; lia).
  assert (E : ((klen + 31) / 32 = q + 1)%nat).
  { symmetry. apply (Nat.div_unique _ 32 _ (r - 1)%nat); lia. }
  rewrite E. nia.
Qed.
Lemma kdf_code_ok klen Z0 : bytes_ok (kdf_code klen Z0).
Proof.
  unfold kdf_code. induction (seq 1 _); cbn [flat_map]; auto. apply bytes_ok_app; split; auto.
  unfold kdf_block. destruct (_ =? _)%nat; [apply SM3_ok|apply bytes_ok_firstn, SM3_ok].
Qed.

(** ** the xor loop *)
Definition xor_bytes (a b : bytes) : bytes := map (fun p => Z.lxor (fst p) (snd p)) (combine a b).
Lemma xor_bytes_length a b : List.length a = List.length b -> List.length (xor_bytes a b) = List.length a.
Proof. intros H. unfold xor_bytes. rewrite map_length, combine_length. lia. Qed.
Lemma xor_bytes_involutive a b : List.length a = List.length b -> xor_bytes a (xor_bytes a b) = b.
Proof.
  revert b. induction a as [|x a IH]; intros [|y b] H; cbn in *; try lia; auto.
  unfold xor_bytes in *. cbn [map combine fst snd]. f_equal.
  - rewrite <- Z.lxor_assoc, Z.lxor_nilpotent, Z.lxor_0_l. reflexivity.
  - apply IH. lia.
Qed.
Lemma xor_bytes_ok a b : bytes_ok a -> bytes_ok b -> bytes_ok (xor_bytes a b).
Proof.
  revert b. induction a as [|x a IH]; intros [|y b] Ha Hb; unfold xor_bytes in *; cbn [combine map]; auto.
  apply bytes_ok_cons in Ha, Hb. apply bytes_ok_cons. split; [apply lxor_byte; tauto|apply IH; tauto].
Qed.
Lemma xor_loop_spec m : forall pre t post,
  List.length t = List.length m ->
  xor_loop (pre ++ t ++ post) (List.length pre) m = Ret (pre ++ xor_bytes t m ++ post).
Proof.
  induction m as [|b m IH]; intros pre t post H.
  - destruct t; [|cbn in H; lia]. reflexivity.
  - destruct t as [|x t]; cbn in H; [lia|]. cbn [xor_loop].
    rewrite app_length. cbn [app List.length]. rewrite (proj2 (Nat.ltb_lt _ _)) by lia.
    rewrite app_nth2, Nat.sub_diag by lia. cbn [nth].
    rewrite upd_app_r by lia. rewrite Nat.sub_diag. cbn [upd].
    replace (pre ++ Z.lxor x b :: t ++ post) with ((pre ++ [Z.lxor x b]) ++ t ++ post) by (rewrite <- app_assoc; reflexivity).
    replace (S (List.length pre)) with (List.length (pre ++ [Z.lxor x b])) by (rewrite app_length; cbn; lia).
    rewrite IH by lia. rewrite <- app_assoc. reflexivity.
Qed.
Lemma xor_loop_panic m : forall c i, (List.length c < i + List.length m)%nat -> (i <= List.length c)%nat -> xor_loop c i m = Panic.
Proof.
  induction m as [|b m IH]; intros c i H Hi; cbn [List.length] in H; [lia|]. cbn [xor_loop].
  destruct (Nat.ltb_spec i (List.length c)); [|reflexivity].
  apply IH; rewrite upd_length; lia.
Qed.
Lemma xor_loop_panic_far m : forall c i, m <> [] -> (List.length c <= i)%nat -> xor_loop c i m = Panic.
Proof. intros c i Hm Hi. destruct m; [congruence|]. cbn [xor_loop]. rewrite (proj2 (Nat.ltb_ge _ _)) by lia. reflexivity. Qed.
Lemma xor_loop_length m : forall c i c', xor_loop c i m = Ret c' -> List.length c' = List.length c /\ (i + List.length m <= Nat.max i (List.length c))%nat.
Proof.
  induction m as [|b m IH]; intros c i c'; cbn [xor_loop List.length].
  - intros [= <-]. split; auto. lia.
  - destruct (Nat.ltb_spec i (List.length c)); [|discriminate]. intros E. apply IH in E. rewrite upd_length in E. split; [tauto|lia].
Qed.

(** ** encryption *)
Definition field_elt (x : Z) : Prop := 0 <= x < sm2_P.
Lemma big_bytes_len_le x : field_elt x -> (List.length (big_bytes x) <= 32)%nat.
Proof.
  intros H. rewrite big_bytes_length. unfold field_elt in H. rewrite Z.abs_eq by lia. apply nbytes_le.
  assert (sm2_P < 256 ^ Z.of_nat 32) by reflexivity. lia.
Qed.
Lemma big_bytes_len_32 x : field_elt x -> (List.length (big_bytes x) = 32%nat <-> 2 ^ 248 <= x).
Proof.
  intros H. rewrite big_bytes_length. unfold field_elt in H. rewrite Z.abs_eq by lia.
  assert (sm2_P < 256 ^ Z.of_nat 32) by reflexivity. split.
  - intros E. assert (0 < x). { destruct (Z.eq_dec x 0) as [->|]; [discriminate|lia]. }
    pose proof (nbytes_spec x ltac:(lia)) as [B _]. rewrite E in B. exact B.
  - intros Hx. apply nbytes_eq; [lia|]. change (256 ^ (Z.of_nat 32 - 1)) with (2 ^ 248). lia.
Qed.
Lemma big_bytes_b32 x : field_elt x -> 2 ^ 248 <= x -> big_bytes x = b32 x.
Proof.
  intros H Hx. apply (big_bytes_len_32 x H) in Hx. rewrite big_bytes_length in Hx. unfold big_bytes, b32. rewrite Hx.
  unfold field_elt in H. rewrite Z.abs_eq by lia. reflexivity.
Qed.
Lemma field_lt x : field_elt x -> 0 <= x < 2 ^ 256.
Proof. intros H. unfold field_elt in H. assert (sm2_P < 2 ^ 256) by reflexivity. lia. Qed.
Lemma valid_field A : ECBridge.valid sm2_P A -> field_elt (xcoord A) /\ field_elt (ycoord A).
Proof. destruct A; cbn; unfold field_elt; [intros _; split; split; reflexivity || lia|]. intros. lia. Qed.
Lemma on_field A : on_sm2 A -> field_elt (xcoord A) /\ field_elt (ycoord A).
Proof. destruct A; cbn; unfold field_elt; [intros _; split; split; reflexivity || lia|]. intros. lia. Qed.

(** key stream derived from a shared point *)
Definition stream (n : nat) (S : pt) : bytes := kdf_code n (b32 (xcoord S) ++ b32 (ycoord S)).
Definition c3_of (S : pt) (m : bytes) : bytes := SM3 (big_bytes (xcoord S) ++ m ++ big_bytes (ycoord S)).

Lemma kdf_stream n S : field_elt (xcoord S) -> field_elt (ycoord S) ->
  kdf (Z.of_nat n) (xcoord S) (ycoord S) = Ret (if nonzero (stream n S) then Some (stream n S) else None).
Proof. intros Hx Hy. rewrite kdf_spec_code. cbv zeta. rewrite !append32 by (apply field_lt; auto). reflexivity. Qed.

(** the shared point as the code computes it, for any public key coordinates *)
Definition shared (pub : PublicKey) (k : Z) (S : pt) : Prop :=
  ECBridge.valid sm2_P S /\ sm2_ScalarMult (pk_X pub) (pk_Y pub) (big_bytes k) = Ret (enc S).
Lemma shared_exists pub k : exists S, shared pub k S.
Proof. destruct (sm2_ScalarMult_returns (pk_X pub) (pk_Y pub) (big_bytes k)) as (A & E & V). exists A. split; auto. Qed.

(** both coordinates of a point need 32 bytes *)
Definition full_coords (A : pt) : bool := (2 ^ 248 <=? xcoord A) && (2 ^ 248 <=? ycoord A).

Lemma nonzero_nil : nonzero [] = false. Proof. reflexivity. Qed.
Lemma nonzero_ne l : nonzero l = true -> l <> []. Proof. intros H ->. discriminate. Qed.

Lemma encrypt_step fuel b rest pub msg S : List.length b = 40%nat -> bytes_ok msg ->
  let k := nonce_of b in shared pub k S ->
  encrypt_loop (Datatypes.S fuel) (b ++ rest) pub msg =
  if nonzero (stream (List.length msg) S) then
    if good_lenb (List.length msg) && full_coords (k ⊗ G) then
      Ret (4 :: b32 (xcoord (k ⊗ G)) ++ b32 (ycoord (k ⊗ G)) ++ c3_of S msg ++ xor_bytes (stream (List.length msg) S) msg, rest)
    else Panic
  else encrypt_loop fuel rest pub msg.
Proof.
  intros Hb Hm k [HV HS]. cbn [encrypt_loop]. rewrite nextk_full by auto. cbn [bind]. fold k.
  pose proof (nonce_range b) as Hk. fold k in Hk. rewrite base_mult_big by lia. cbn [bind]. rewrite HS. cbn [bind].
  rewrite !fst_enc, !snd_enc.
  destruct (valid_field S HV) as [Fx Fy].
  pose proof (sm2_pmul_closed k G G_on) as HC. unfold sm2_pmul in HC. destruct (on_field _ HC) as [Cx Cy].
  rewrite sm3_Sum_correct. 2:{ repeat (apply bytes_ok_app; split); auto. }
  cbn [bind]. fold (c3_of S msg).
  change (zlen msg) with (Z.of_nat (List.length msg)). rewrite kdf_stream by auto. cbn [bind].
  destruct (nonzero (stream (List.length msg) S)) eqn:NZ; [|reflexivity].
  set (t := stream (List.length msg) S) in *.
  set (x1 := xcoord (k ⊗ G)) in *. set (y1 := ycoord (k ⊗ G)) in *.
  assert (Hmne : msg <> []).
  { intros ->. unfold t, stream in NZ. pose proof (kdf_code_len_good 0 (b32 (xcoord S) ++ b32 (ycoord S)) ltac:(left; lia)) as L.
    cbn [List.length] in NZ. destruct (kdf_code 0 _); [discriminate|cbn in L; lia]. }
  pose proof (big_bytes_len_le x1 Cx). pose proof (big_bytes_len_le y1 Cy).
  assert (HC3 : List.length (c3_of S msg) = 32%nat) by apply SM3_length.
  assert (HL : (0 < List.length msg)%nat) by (destruct msg; [congruence|cbn; lia]).
  destruct (good_lenb (List.length msg) && full_coords (k ⊗ G)) eqn:OK.
  - apply andb_true_iff in OK. destruct OK as [OK1 OK2]. apply good_lenb_spec in OK1.
    unfold full_coords in OK2. fold x1 y1 in OK2. apply andb_true_iff in OK2. destruct OK2 as [OKx OKy].
    apply Z.leb_le in OKx, OKy. rewrite (big_bytes_b32 x1), (big_bytes_b32 y1) by auto.
    pose proof (kdf_code_len_good _ (b32 (xcoord S) ++ b32 (ycoord S)) OK1) as Lt. fold (stream (List.length msg) S) in Lt. fold t in Lt.
    pose proof (xor_loop_spec msg ((b32 x1 ++ b32 y1) ++ c3_of S msg) t [] Lt) as XL.
    rewrite app_nil_r in XL.
    replace (List.length ((b32 x1 ++ b32 y1) ++ c3_of S msg)) with 96%nat in XL by (rewrite !app_length, !b32_len, HC3; reflexivity).
    rewrite XL. cbn [bind]. rewrite app_nil_r. rewrite <- !app_assoc. reflexivity.
  - assert (HP : (List.length (((big_bytes x1 ++ big_bytes y1) ++ c3_of S msg) ++ t) < 96 + List.length msg)%nat).
    { rewrite !app_length, HC3. apply andb_false_iff in OK. destruct OK as [OK|OK].
      - assert (NG : ~ good_len (List.length msg)) by (rewrite <- good_lenb_spec; congruence).
        pose proof (kdf_code_len_bad _ (b32 (xcoord S) ++ b32 (ycoord S)) NG) as Lt. fold (stream (List.length msg) S) in Lt. fold t in Lt. lia.
      - assert (Lt : (List.length t <= List.length msg)%nat).
        { destruct (good_lenb (List.length msg)) eqn:GL.
          - apply good_lenb_spec in GL. unfold t, stream. rewrite kdf_code_len_good by auto. lia.
          - assert (NG : ~ good_len (List.length msg)) by (rewrite <- good_lenb_spec; congruence).
            pose proof (kdf_code_len_bad _ (b32 (xcoord S) ++ b32 (ycoord S)) NG) as Lt. fold (stream (List.length msg) S) in Lt. fold t in Lt. lia. }
        unfold full_coords in OK. fold x1 y1 in OK.
        pose proof (big_bytes_len_32 x1 Cx) as Ix. pose proof (big_bytes_len_32 y1 Cy) as Iy.
        apply andb_false_iff in OK. destruct OK as [OK|OK]; apply Z.leb_gt in OK; lia. }
    set (c := ((big_bytes x1 ++ big_bytes y1) ++ c3_of S msg) ++ t) in *.
    assert (xor_loop c 96 msg = Panic) as ->; [|reflexivity].
    destruct (Nat.le_gt_cases 96 (List.length c)).
    + apply xor_loop_panic; auto.
    + apply xor_loop_panic_far; auto. lia.
Qed.

Lemma encrypt_fuel f1 : forall f2 rand pub msg, bytes_ok msg -> (List.length rand < f1)%nat -> (List.length rand < f2)%nat ->
  encrypt_loop f1 rand pub msg = encrypt_loop f2 rand pub msg.
Proof.
  induction f1 as [|f1 IH]; intros f2 rand pub msg Hm H1 H2; [lia|]. destruct f2 as [|f2]; [lia|].
  destruct (Nat.le_gt_cases 40 (List.length rand)) as [H|H].
  - assert (Hb : List.length (firstn 40 rand) = 40%nat) by (rewrite firstn_length; lia).
    destruct (shared_exists pub (nonce_of (firstn 40 rand))) as [S HS].
    rewrite <- (firstn_skipn 40 rand). rewrite !(encrypt_step _ _ _ _ _ S Hb Hm HS).
    destruct (nonzero _); [reflexivity|]. apply IH; auto; rewrite skipn_length; lia.
  - cbn [encrypt_loop]. destruct (nextk_short rand ltac:(lia)) as [-> | ->]; reflexivity.
Qed.
(** the three equations that determine Encryt *)
Theorem Encryt_read b rest pub msg S : List.length b = 40%nat -> bytes_ok msg ->
  let k := nonce_of b in shared pub k S ->
  Encryt (b ++ rest) pub msg =
  if nonzero (stream (List.length msg) S) then
    if good_lenb (List.length msg) && full_coords (k ⊗ G) then
      Ret (4 :: b32 (xcoord (k ⊗ G)) ++ b32 (ycoord (k ⊗ G)) ++ c3_of S msg ++ xor_bytes (stream (List.length msg) S) msg, rest)
    else Panic
  else Encryt rest pub msg.
Proof.
  intros Hb Hm k HS. unfold Encryt at 1. rewrite (encrypt_step _ _ _ _ _ S Hb Hm HS). fold k.
  destruct (nonzero _); [reflexivity|]. unfold Encryt. apply encrypt_fuel; auto. rewrite app_length. lia.
Qed.
Theorem Encryt_short rand pub msg : (List.length rand < 40)%nat ->
  Encryt rand pub msg = Err "EOF" \/ Encryt rand pub msg = Err "unexpected EOF".
Proof.
  intros H. unfold Encryt. cbn [encrypt_loop]. destruct (nextk_short rand H) as [-> | ->]; auto.
Qed.

(** induction principle over the 40-byte reads *)
Lemma reads_ind (P : bytes -> Prop) :
  (forall l, (List.length l < 40)%nat -> P l) ->
  (forall b rest, List.length b = 40%nat -> P rest -> P (b ++ rest)) -> forall l, P l.
Proof.
  intros H0 H1 l. remember (List.length l) as n eqn:E. revert l E. induction n as [n IH] using lt_wf_ind. intros l E.
  destruct (Nat.le_gt_cases 40 (List.length l)) as [H|H]; [|auto].
  rewrite <- (firstn_skipn 40 l). apply H1; [rewrite firstn_length; lia|].
  apply (IH (List.length (skipn 40 l))); auto. rewrite skipn_length. lia.
Qed.

Theorem Encryt_ret rand pub msg c rest : bytes_ok msg -> Encryt rand pub msg = Ret (c, rest) ->
  exists pre b S, rand = pre ++ b ++ rest /\ List.length b = 40%nat /\
    let k := nonce_of b in shared pub k S /\
    nonzero (stream (List.length msg) S) = true /\ good_len (List.length msg) /\ full_coords (k ⊗ G) = true /\
    c = 4 :: b32 (xcoord (k ⊗ G)) ++ b32 (ycoord (k ⊗ G)) ++ c3_of S msg ++ xor_bytes (stream (List.length msg) S) msg.
Proof.
  intros Hm. induction rand as [l Hl|b tl Hb IH] using reads_ind.
  - intros E. destruct (Encryt_short l pub msg Hl) as [E'|E']; rewrite E' in E; discriminate E.
  - intros E. destruct (shared_exists pub (nonce_of b)) as [S HS].
    rewrite (Encryt_read b tl pub msg S Hb Hm HS) in E.
    destruct (nonzero (stream (List.length msg) S)) eqn:NZ.
    + destruct (good_lenb (List.length msg) && full_coords (nonce_of b ⊗ G)) eqn:OK; [|discriminate E].
      injection E as E1 E2. apply andb_true_iff in OK. destruct OK as [OK1 OK2]. apply good_lenb_spec in OK1.
      exists [], b, S. cbv zeta. subst tl. repeat (split; [solve [auto]|]). symmetry; exact E1.
    + specialize (IH E). destruct IH as (pre & b' & S' & -> & IH). exists (b ++ pre), b', S'.
      rewrite <- app_assoc. auto.
Qed.
Theorem Encryt_outcomes rand pub msg : bytes_ok msg -> forall e, Encryt rand pub msg = Err e -> e = "EOF"%string \/ e = "unexpected EOF"%string.
Proof.
  intros Hm. induction rand as [l Hl|b tl Hb IH] using reads_ind.
  - intros e E. destruct (Encryt_short l pub msg Hl) as [E'|E']; rewrite E' in E; injection E as <-; auto.
  - intros e E. destruct (shared_exists pub (nonce_of b)) as [S HS].
    rewrite (Encryt_read b tl pub msg S Hb Hm HS) in E.
    destruct (nonzero _); [|auto]. destruct (_ && _); discriminate E.
Qed.

(** ** decryption *)
Lemma slice_ok l i j : (i <= j <= List.length l)%nat -> slice l i j = Ret (firstn (j - i) (skipn i l)).
Proof. intros H. unfold slice. rewrite !(proj2 (Nat.leb_le _ _)) by lia. reflexivity. Qed.
Lemma slice_panic l i j : (j < i \/ List.length l < j)%nat -> slice l i j = Panic.
Proof.
  intros H. unfold slice. destruct (Nat.leb_spec i j); [|reflexivity]. rewrite (proj2 (Nat.leb_gt _ _)) by lia. reflexivity.
Qed.
Lemma Decryt_short priv data : (List.length data < 65)%nat -> Decryt priv data = Panic.
Proof.
  intros H. unfold Decryt. destruct data as [|b0 d]; [reflexivity|]. cbn [List.length] in H |- *.
  rewrite slice_ok by (cbn [List.length]; lia). cbn [bind skipn]. rewrite firstn_all2 by lia.
  destruct (Nat.le_gt_cases 32 (List.length d)).
  - rewrite (slice_ok d 0 32) by lia. cbn [bind]. rewrite (slice_panic d 32 64) by lia. reflexivity.
  - rewrite (slice_panic d 0 32) by lia. reflexivity.
Qed.
Lemma zero_not_on : ~ on_sm2 (PA 0 0).
Proof. intros H. apply sm2_IsOnCurve_spec in H. vm_compute in H. discriminate. Qed.

(** everything Decryt does on an input of at least 65 bytes, split as b0 || X || Y || rest *)
Theorem Decryt_read priv b0 X Y tl : List.length X = 32%nat -> List.length Y = 32%nat ->
  bytes_ok X -> bytes_ok Y -> bytes_ok tl ->
  let C1 := PA (be_to_Z X) (be_to_Z Y) in
  let S := Z.abs (sk_D priv) ⊗ C1 in
  let c3 := firstn 32 tl in
  let c2 := skipn 32 tl in
  let n := List.length c2 in
  (~ on_sm2 C1 -> Decryt priv (b0 :: X ++ Y ++ tl) = Ret ([], Some "C1 is not on the curve"%string)) /\
  (on_sm2 C1 -> Decryt priv (b0 :: X ++ Y ++ tl) =
    if nonzero (stream n S) then
      if good_lenb n then
        let m := xor_bytes (stream n S) c2 in
        if bytes_eqb (c3_of S m) c3 then Ret (m, None) else Ret (m, Some "failed to decrypt:hash compared error"%string)
      else Panic
    else Ret ([], Some "failed to decrypt:kdf error"%string)).
Proof.
  intros LX LY HX HY HT C1 S c3 c2 n.
  set (d := X ++ Y ++ tl).
  assert (Ld : List.length d = (64 + List.length tl)%nat) by (unfold d; rewrite !app_length; lia).
  assert (E1 : slice (b0 :: d) 1 (List.length (b0 :: d)) = Ret d).
  { rewrite slice_ok by (cbn [List.length]; lia). cbn [skipn]. rewrite firstn_all2; [reflexivity|cbn [List.length]; lia]. }
  assert (E2 : slice d 0 32 = Ret X).
  { rewrite slice_ok by lia. cbn [skipn]. unfold d. rewrite firstn_app_exact; auto. }
  assert (E3 : slice d 32 64 = Ret Y).
  { rewrite slice_ok by lia. unfold d. rewrite skipn_app_exact by auto. rewrite firstn_app_exact by (rewrite LY; reflexivity). reflexivity. }
  assert (E4 : skipn 96 d = c2).
  { unfold d, c2. rewrite app_assoc. rewrite skipn_app. rewrite app_length, LX, LY.
    rewrite skipn_all2 by (rewrite app_length; lia). reflexivity. }
  assert (E5 : zlen d - 96 = Z.of_nat (List.length tl) - 32) by (unfold zlen; lia).
  unfold Decryt. fold d. rewrite E1. cbn [bind]. rewrite E2. cbn [bind]. rewrite E3. cbn [bind].
  pose proof (be_to_Z_nonneg X HX) as NX. pose proof (be_to_Z_nonneg Y HY) as NY.
  assert (ON : ((sm2_P <=? be_to_Z X) || (sm2_P <=? be_to_Z Y) = true -> ~ on_sm2 C1) /\
               (sm2_IsOnCurve (be_to_Z X) (be_to_Z Y) = true <-> on_sm2 C1)).
  { split; [|apply sm2_IsOnCurve_spec]. intros H (A & B & _). apply orb_true_iff in H. destruct H as [H|H]; apply Z.leb_le in H; lia. }
  destruct ON as [ON1 ON2]. split.
  - intros NO. destruct (_ || _); [reflexivity|]. destruct (sm2_IsOnCurve (be_to_Z X) (be_to_Z Y)); [|reflexivity].
    exfalso. apply NO, ON2. reflexivity.
  - intros OC. destruct (_ || _); [exfalso; apply ON1; auto|]. clear ON1. rewrite (proj2 ON2 OC). cbn [negb].
    pose proof (sm2_ScalarMult_correct (be_to_Z X) (be_to_Z Y) (big_bytes 1) OC (big_bytes_ok 1)) as M1.
    rewrite be_to_Z_big_bytes in M1. change (Z.abs 1) with 1 in M1. rewrite sm2_pmul_1 in M1. rewrite M1. cbn [bind enc fst snd].
    assert (NZ : (be_to_Z X =? 0) && (be_to_Z Y =? 0) = false).
    { destruct (Z.eqb_spec (be_to_Z X) 0) as [Ex|]; [|reflexivity]. destruct (Z.eqb_spec (be_to_Z Y) 0) as [Ey|]; [|reflexivity].
      exfalso. apply zero_not_on. unfold C1 in OC. rewrite Ex, Ey in OC. exact OC. }
    rewrite NZ. clear M1 NZ.
    pose proof (sm2_ScalarMult_correct (be_to_Z X) (be_to_Z Y) (big_bytes (sk_D priv)) OC (big_bytes_ok _)) as M2.
    rewrite be_to_Z_big_bytes in M2. rewrite M2. cbn [bind]. unfold sm2_pmul. fold C1. fold S. clear M2.
    rewrite fst_enc, snd_enc, E4, E5.
    pose proof (sm2_pmul_closed (Z.abs (sk_D priv)) C1 OC) as SC. unfold sm2_pmul in SC. fold S in SC.
    destruct (on_field S SC) as [Fx Fy]. clearbody S.
    destruct (Nat.le_gt_cases (List.length tl) 32) as [Hs|Hl].
    + rewrite kdf_nonpos by lia. cbn [bind].
      assert (En : n = 0%nat) by (unfold n, c2; rewrite skipn_length; lia). rewrite En.
      assert (Est : stream 0 S = []). { reflexivity. } rewrite Est. reflexivity.
    + replace (Z.of_nat (List.length tl) - 32) with (Z.of_nat n) by (unfold n, c2; rewrite skipn_length; lia).
      rewrite kdf_stream by auto. cbn [bind].
      assert (Hn : (0 < n)%nat) by (unfold n, c2; rewrite skipn_length; lia).
      destruct (nonzero (stream n S)) eqn:NZ; [|reflexivity].
      destruct (good_lenb n) eqn:GL.
      * apply good_lenb_spec in GL.
        pose proof (kdf_code_len_good n (b32 (xcoord S) ++ b32 (ycoord S)) GL) as Lt. fold (stream n S) in Lt.
        pose proof (xor_loop_spec c2 [] (stream n S) [] Lt) as XL. cbn [app List.length] in XL. rewrite !app_nil_r in XL.
        rewrite XL. cbn [bind].
        assert (Hmok : bytes_ok (xor_bytes (stream n S) c2)).
        { apply xor_bytes_ok; [apply kdf_code_ok|apply bytes_ok_skipn; auto]. }
        rewrite sm3_Sum_correct. 2:{ repeat (apply bytes_ok_app; split); auto. }
        cbn [bind]. fold (c3_of S (xor_bytes (stream n S) c2)).
        assert (E6 : slice d 64 96 = Ret c3).
        { rewrite slice_ok by lia. unfold d, c3. rewrite app_assoc. rewrite skipn_app_exact by (rewrite app_length; lia). reflexivity. }
        rewrite E6. cbn [bind]. cbv zeta. destruct (bytes_eqb _ c3); reflexivity.
      * assert (NG : ~ good_len n) by (rewrite <- good_lenb_spec; congruence).
        pose proof (kdf_code_len_bad n (b32 (xcoord S) ++ b32 (ycoord S)) NG) as Lt. fold (stream n S) in Lt.
        rewrite xor_loop_panic; [reflexivity| |lia]. fold n. lia.
Qed.
