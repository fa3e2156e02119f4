(** * Properties C25-C33, C82 (package sm2: encryption) *)
From Verif Require Import Base SM3Spec ECSpec ECModel CryptoByte SM2Spec SM2Model SM2SigProofs SM2EncProofs SM3Proofs ECProofs BaseOrder PropertiesSM2Sig.
From Coq Require Import ZifyBool ZifyNat.
Open Scope Z_scope.

(** Vocabulary.  [stream n S] is the key stream of n bytes the code derives from the shared point S
    (see kdf_code in SM2EncProofs and C29 below: for n <= 32 it is the standard's KDF), [c3_of S m] is
    SM3(x || m || y) with the minimal big-endian bytes of S's coordinates, [xor_bytes] the bytewise
    xor, [good_len n] means n <= 32 or n is a multiple of 32, [full_coords A] means that both
    coordinates of A are at least 2^248, i.e. need 32 bytes. *)

Lemma shared_on Q pub k : on_sm2 Q -> Q <> PO -> pk_X pub = xcoord Q -> pk_Y pub = ycoord Q -> 0 <= k ->
  shared pub k (k ⊗ Q).
Proof.
  intros HQ NQ EX EY Hk. destruct Q as [|x y]; [congruence|]. cbn [xcoord ycoord] in EX, EY.
  pose proof (sm2_ScalarMult_correct x y (big_bytes k) HQ (big_bytes_ok k)) as M.
  rewrite be_to_Z_big_bytes, Z.abs_eq in M by lia. rewrite <- EX, <- EY in M at 1. split.
  - pose proof (sm2_pmul_closed k _ HQ) as C. unfold sm2_pmul in C. 
    destruct (k ⊗ PA x y); cbn in *; tauto.
  - exact M.
Qed.
Lemma shared_coords pub k S S' : shared pub k S -> shared pub k S' -> xcoord S = xcoord S' /\ ycoord S = ycoord S'.
Proof.
  intros [_ H] [_ H']. rewrite H in H'. injection H' as E. rewrite <- !fst_enc, <- !snd_enc, E. auto.
Qed.
Lemma stream_coords n S S' : xcoord S = xcoord S' -> ycoord S = ycoord S' -> stream n S = stream n S'.
Proof. intros E E'. unfold stream. rewrite E, E'. reflexivity. Qed.
Lemma c3_coords m S S' : xcoord S = xcoord S' -> ycoord S = ycoord S' -> c3_of S m = c3_of S' m.
Proof. intros E E'. unfold c3_of. rewrite E, E'. reflexivity. Qed.

(** ** C28 layout *)
Theorem C28_layout : forall rand pub msg c rest Q,
  on_sm2 Q -> Q <> PO -> pk_X pub = xcoord Q -> pk_Y pub = ycoord Q -> bytes_ok msg ->
  Encryt rand pub msg = Ret (c, rest) ->
  exists pre b, rand = pre ++ b ++ rest /\ List.length b = 40%nat /\
    let k := nonce_of b in
    let C1 := k ⊗ G in let S := k ⊗ Q in
    c = [4] ++ b32 (xcoord C1) ++ b32 (ycoord C1) ++
        SM3 (big_bytes (xcoord S) ++ msg ++ big_bytes (ycoord S)) ++
        xor_bytes (stream (List.length msg) S) msg /\
    List.length c = (97 + List.length msg)%nat /\ good_len (List.length msg).
Proof.
  intros rand pub msg c rest Q HQ NQ EX EY Hm E. apply Encryt_ret in E; auto.
  destruct E as (pre & b & S & E1 & Hb & HS & NZ & GL & FC & E2). exists pre, b. split; auto. split; auto. cbv zeta.
  pose proof (nonce_range b) as Hk.
  destruct (shared_coords _ _ _ _ HS (shared_on Q pub (nonce_of b) HQ NQ EX EY ltac:(lia))) as [X Y].
  rewrite <- (stream_coords _ _ _ X Y). fold (c3_of (nonce_of b ⊗ Q) msg). rewrite <- (c3_coords _ _ _ X Y).
  split; [exact E2|]. split; [|exact GL]. rewrite E2. cbn [List.length]. rewrite !app_length, !b32_len.
  assert (LS : List.length (stream (List.length msg) S) = List.length msg) by (apply kdf_code_len_good; auto).
  unfold c3_of. rewrite SM3_length. rewrite xor_bytes_length by auto. rewrite LS. reflexivity.
Qed.
Print Assumptions C28_layout.

(** ** C29 the key derivation function *)
Lemma kdf_code_short klen Z0 : (1 <= klen <= 32)%nat -> kdf_code klen Z0 = kdf_spec klen Z0.
Proof.
  intros H. unfold kdf_code, kdf_spec. replace ((klen + 31) / 32)%nat with 1%nat.
  2:{ apply (Nat.div_unique _ 32 _ (klen - 1)); lia. }
  cbn [seq flat_map]. rewrite !app_nil_r. unfold kdf_input. cbn [seq flat_map]. rewrite app_nil_r. unfold kdf_block.
  destruct (Nat.eqb_spec (klen mod 32) 0) as [E|E].
  - assert (klen = 32)%nat as -> by (destruct (Nat.eq_dec klen 32); auto; rewrite Nat.mod_small in E by lia; lia).
    rewrite firstn_all2; auto. rewrite SM3_length. lia.
  - rewrite Nat.mod_small; auto. destruct (Nat.eq_dec klen 32) as [->|]; [exfalso; apply E; reflexivity|lia].
Qed.
Theorem C29_one_block : forall klen x y, (1 <= klen <= 32)%nat -> 0 <= x < 2 ^ 256 -> 0 <= y < 2 ^ 256 ->
  let out := kdf_spec klen (b32 x ++ b32 y) in
  (Exists (fun b => b <> 0) out -> kdf (Z.of_nat klen) x y = Ret (Some out)) /\
  (Forall (fun b => b = 0) out -> kdf (Z.of_nat klen) x y = Ret None).
Proof.
  intros klen x y Hl Hx Hy out. rewrite kdf_spec_code. cbv zeta. rewrite !append32 by auto. rewrite kdf_code_short by auto.
  fold out. unfold nonzero. split; intros H.
  - destruct (existsb _ out) eqn:E; auto. exfalso. apply Exists_exists in H. destruct H as (b & Hb & Nb).
    rewrite <- not_true_iff_false, existsb_exists in E. apply E. exists b. split; auto. apply negb_true_iff, Z.eqb_neq; auto.
  - destruct (existsb _ out) eqn:E; auto. exfalso. apply existsb_exists in E. destruct E as (b & Hb & Nb).
    rewrite Forall_forall in H. rewrite (H b Hb) in Nb. discriminate Nb.
Qed.
Print Assumptions C29_one_block.
(** what is computed for every length: block i hashes the concatenation of all inputs up to i, and
    each block is cut to klen mod 32 bytes unless that is 0 *)
Theorem C29_general : forall klen x y, 0 <= x < 2 ^ 256 -> 0 <= y < 2 ^ 256 ->
  let input i := flat_map (fun j => b32 x ++ b32 y ++ Z_to_be 4 (Z.of_nat j)) (seq 1 i) in
  let cut (h : bytes) := if (klen mod 32 =? 0)%nat then h else firstn (klen mod 32) h in
  let out := flat_map (fun i => cut (SM3 (input i))) (seq 1 ((klen + 31) / 32)) in
  kdf (Z.of_nat klen) x y = Ret (if existsb (fun b => negb (b =? 0)) out then Some out else None).
Proof.
  intros klen x y Hx Hy input cut out. rewrite kdf_spec_code. cbv zeta. rewrite !append32 by auto.
  assert (E : kdf_code klen (b32 x ++ b32 y) = out).
  { unfold kdf_code, out. apply flat_map_ext. intros i. unfold cut, kdf_block, input, kdf_input. 
    assert (EI : flat_map (fun j : nat => (b32 x ++ b32 y) ++ Z_to_be 4 (Z.of_nat j)) (seq 1 i) =
      flat_map (fun j : nat => b32 x ++ b32 y ++ Z_to_be 4 (Z.of_nat j)) (seq 1 i)).
    { apply flat_map_ext. intros j. rewrite <- app_assoc. reflexivity. }
    rewrite EI. reflexivity. }
  rewrite E. reflexivity.
Qed.
Print Assumptions C29_general.
(** the output is too short for every other length above 32 *)
Theorem C29_too_short : forall klen x y out, (32 < klen)%nat -> (klen mod 32 <> 0)%nat ->
  kdf (Z.of_nat klen) x y = Ret (Some out) -> (List.length out < klen)%nat.
Proof.
  intros klen x y out H1 H2. rewrite kdf_spec_code. cbv zeta.
  destruct (nonzero _); [|discriminate]. intros [= <-]. apply kdf_code_len_bad. unfold good_len. lia.
Qed.
Print Assumptions C29_too_short.
(** and for two full blocks it is not the standard's output *)
Theorem C29_two_blocks_refuted : exists x y out, kdf 64 x y = Ret (Some out) /\
  List.length out = 64%nat /\ out <> kdf_spec 64 (b32 x ++ b32 y).
Proof.
  exists 0, 0, (kdf_code 64 (b32 0 ++ b32 0)).
  assert (E : kdf_code 64 (b32 0 ++ b32 0) = SM3 (kdf_input (b32 0 ++ b32 0) 1) ++ SM3 (kdf_input (b32 0 ++ b32 0) 2)).
  { unfold kdf_code. cbn [seq flat_map Nat.add Nat.div Nat.divmod fst]. rewrite app_nil_r. reflexivity. }
  assert (H2 : hd 0 (SM3 (kdf_input (b32 0 ++ b32 0) 2)) = 250) by (vm_compute; reflexivity).
  assert (H3 : hd 0 (SM3 ((b32 0 ++ b32 0) ++ Z_to_be 4 2)) = 182) by (vm_compute; reflexivity).
  split.
  - change 64 with (Z.of_nat 64). rewrite kdf_spec_code. cbv zeta. rewrite !append32 by lia.
    assert (nonzero (kdf_code 64 (b32 0 ++ b32 0)) = true) as ->; [|reflexivity].
    rewrite E. unfold nonzero. rewrite existsb_app. apply orb_true_iff. right.
    destruct (SM3 (kdf_input (b32 0 ++ b32 0) 2)) as [|b l]; cbn [hd] in H2; [discriminate H2|]. rewrite H2. reflexivity.
  - split; [apply kdf_code_len_good; right; reflexivity|]. rewrite E. intros C.
    assert (E' : kdf_spec 64 (b32 0 ++ b32 0) = SM3 ((b32 0 ++ b32 0) ++ Z_to_be 4 1) ++ SM3 ((b32 0 ++ b32 0) ++ Z_to_be 4 2)).
    { unfold kdf_spec. cbn [seq flat_map Nat.add Nat.div Nat.divmod fst Z.of_nat]. rewrite app_nil_r.
      apply firstn_all2. rewrite app_length, !SM3_length. reflexivity. }
    rewrite E' in C. apply (f_equal (skipn 32)) in C. rewrite !skipn_app_exact in C by (rewrite SM3_length; reflexivity).
    rewrite C in H2. rewrite H2 in H3. discriminate H3.
Qed.
Print Assumptions C29_two_blocks_refuted.

(** ** C25 round trip *)
Theorem C25_roundtrip : forall rand priv msg c rest, 1 <= sk_D priv < sm2_N -> keypair priv -> bytes_ok msg ->
  Encryt rand (sk_Pub priv) msg = Ret (c, rest) -> Decryt priv c = Ret (msg, None).
Proof.
  intros rand priv msg c rest HD [KX KY] Hm E. apply Encryt_ret in E; auto.
  destruct E as (pre & b & S & E1 & Hb & HS & NZ & GL & FC & E2).
  pose proof (nonce_range b) as Hk. set (k := nonce_of b) in *. clearbody k.
  pose proof (sm2_pmul_closed (sk_D priv) G G_on) as QC. unfold sm2_pmul in QC.
  assert (QN : sk_D priv ⊗ G <> PO).
  { intros H. apply (sm2_pmul_zero_iff (sk_D priv)) in H; [|lia]. rewrite Z.mod_small in H by lia. lia. }
  destruct (shared_coords _ _ _ _ HS (shared_on _ _ k QC QN KX KY ltac:(lia))) as [X Y].
  assert (COM : k ⊗ (sk_D priv ⊗ G) = Z.abs (sk_D priv) ⊗ (k ⊗ G)).
  { rewrite Z.abs_eq by lia. pose proof (sm2_pmul_mul k (sk_D priv) G G_on ltac:(lia) ltac:(lia)) as A.
    pose proof (sm2_pmul_mul (sk_D priv) k G G_on ltac:(lia) ltac:(lia)) as B. unfold sm2_pmul in A, B.
    rewrite Z.mul_comm in A. congruence. }
  rewrite COM in X, Y.
  pose proof (sm2_pmul_closed k G G_on) as CC. unfold sm2_pmul in CC.
  assert (CN : k ⊗ G <> PO).
  { intros H. apply (sm2_pmul_zero_iff k) in H; [|lia]. rewrite Z.mod_small in H by lia. lia. }
  rewrite (stream_coords _ _ _ X Y) in NZ, E2. rewrite (c3_coords _ _ _ X Y) in E2.
  destruct (k ⊗ G) as [|x1 y1]; [congruence|]. cbn [xcoord ycoord] in E2.
  destruct (on_field _ CC) as [F1 F2]. cbn [xcoord ycoord] in F1, F2. apply field_lt in F1, F2.
  assert (B1 : be_to_Z (b32 x1) = x1) by (apply be_to_Z_to_be_small; exact F1).
  assert (B2 : be_to_Z (b32 y1) = y1) by (apply be_to_Z_to_be_small; exact F2).
  set (T := Z.abs (sk_D priv) ⊗ PA x1 y1) in *.
  assert (LS : List.length (stream (List.length msg) T) = List.length msg) by (apply kdf_code_len_good; auto).
  assert (LX : List.length (xor_bytes (stream (List.length msg) T) msg) = List.length msg) by (rewrite xor_bytes_length; auto).
  assert (OK : bytes_ok (c3_of T msg ++ xor_bytes (stream (List.length msg) T) msg)).
  { apply bytes_ok_app. split; [apply SM3_ok|apply xor_bytes_ok; auto; apply kdf_code_ok]. }
  pose proof (Decryt_read priv 4 (b32 x1) (b32 y1) (c3_of T msg ++ xor_bytes (stream (List.length msg) T) msg)
    (b32_len _) (b32_len _) (Z_to_be_ok _ _) (Z_to_be_ok _ _) OK) as DR.
  cbv zeta in DR. rewrite B1, B2 in DR. destruct DR as [_ DR]. specialize (DR CC). rewrite <- E2 in DR. rewrite DR.
  fold T. rewrite skipn_app_exact, firstn_app_exact by (unfold c3_of; rewrite SM3_length; reflexivity).
  rewrite LX, NZ, (proj2 (good_lenb_spec _) GL). rewrite xor_bytes_involutive by auto. rewrite bytes_eqb_refl. reflexivity.
Qed.
Print Assumptions C25_roundtrip.

(** ** C26 when encryption succeeds *)
(** the complete behaviour of Encryt: with fewer than 40 random bytes it fails; otherwise the
    first 40 give the nonce k, and an all-zero key stream makes it start over with the rest *)
Theorem C26_exact : forall b rest pub msg Q,
  on_sm2 Q -> Q <> PO -> pk_X pub = xcoord Q -> pk_Y pub = ycoord Q ->
  List.length b = 40%nat -> bytes_ok msg ->
  let k := nonce_of b in let C1 := k ⊗ G in let S := k ⊗ Q in let n := List.length msg in
  (Forall (fun x => x = 0) (stream n S) -> Encryt (b ++ rest) pub msg = Encryt rest pub msg) /\
  (~ Forall (fun x => x = 0) (stream n S) ->
    ((n <= 32 \/ n mod 32 = 0)%nat /\ 2 ^ 248 <= xcoord C1 /\ 2 ^ 248 <= ycoord C1 ->
       exists c, Encryt (b ++ rest) pub msg = Ret (c, rest)) /\
    (~ ((n <= 32 \/ n mod 32 = 0)%nat /\ 2 ^ 248 <= xcoord C1 /\ 2 ^ 248 <= ycoord C1) ->
       Encryt (b ++ rest) pub msg = Panic)).
Proof.
  intros b rest pub msg Q HQ NQ EX EY Hb Hm k C1 S n. pose proof (nonce_range b) as Hk. fold k in Hk.
  pose proof (shared_on Q pub k HQ NQ EX EY ltac:(lia)) as HS.
  rewrite (Encryt_read b rest pub msg _ Hb Hm HS). fold k C1 S n.
  assert (NZ : nonzero (stream n S) = true <-> ~ Forall (fun x => x = 0) (stream n S)).
  { unfold nonzero. rewrite existsb_exists, <- Exists_Forall_neg.
    - rewrite Exists_exists. split; intros (x & A & B); exists x; (split; [auto|]); [apply negb_true_iff, Z.eqb_neq in B|apply negb_true_iff, Z.eqb_neq]; auto.
    - intros x. destruct (Z.eq_dec x 0); auto. }
  clearbody S C1. destruct (nonzero (stream n S)) eqn:E.
  - split; [intros F; exfalso; apply NZ; auto|]. intros _. split; intros H.
    + rewrite (proj2 (good_lenb_spec n) (proj1 H)). unfold full_coords. rewrite !(proj2 (Z.leb_le _ _)) by tauto. cbn [andb]. eauto.
    + destruct (good_lenb n && full_coords C1) eqn:E'; [exfalso|reflexivity]. apply H.
      apply andb_true_iff in E'. destruct E' as [A B]. apply good_lenb_spec in A. unfold full_coords in B.
      apply andb_true_iff in B. rewrite !Z.leb_le in B. unfold good_len in A. tauto.
  - split; [reflexivity|]. intros F. apply NZ in F. discriminate F.
Qed.
Print Assumptions C26_exact.
Theorem C26_no_randomness : forall rand pub msg, (List.length rand < 40)%nat -> 
  Encryt rand pub msg = Err "EOF" \/ Encryt rand pub msg = Err "unexpected EOF".
Proof. exact Encryt_short. Qed.
Print Assumptions C26_no_randomness.
(** so "every non-empty message can be encrypted" is false, for any key and any randomness *)
Theorem C26_all_lengths_refuted : forall rand pub msg c rest, bytes_ok msg ->
  (32 < List.length msg)%nat -> (List.length msg mod 32 <> 0)%nat -> Encryt rand pub msg <> Ret (c, rest).
Proof.
  intros rand pub msg c rest Hm H1 H2 E. apply Encryt_ret in E; auto.
  destruct E as (_ & _ & _ & _ & _ & _ & _ & GL & _). unfold good_len in GL. lia.
Qed.
Print Assumptions C26_all_lengths_refuted.

(** ** C27 empty messages *)
Theorem C27_empty : forall rand pub, Encryt rand pub [] = Err "EOF" \/ Encryt rand pub [] = Err "unexpected EOF".
Proof.
  intros rand pub. induction rand as [l Hl|b tl Hb IH] using reads_ind; [apply Encryt_short; auto|].
  destruct (shared_exists pub (nonce_of b)) as [S HS].
  rewrite (Encryt_read b tl pub [] S Hb (Forall_nil _) HS). exact IH.
Qed.
Print Assumptions C27_empty.

(** ** C30-C32, C82 decryption *)
Lemma Decryt_split data : (65 <= List.length data)%nat -> bytes_ok data ->
  exists b0 X Y tl, data = b0 :: X ++ Y ++ tl /\ List.length X = 32%nat /\ List.length Y = 32%nat /\
    bytes_ok X /\ bytes_ok Y /\ bytes_ok tl /\ tl = skipn 65 data.
Proof.
  intros H OK. destruct data as [|b0 d]; [cbn in H; lia|]. apply bytes_ok_cons in OK. destruct OK as [_ OK].
  cbn [List.length] in H. exists b0, (firstn 32 d), (firstn 32 (skipn 32 d)), (skipn 64 d).
  split. { f_equal. rewrite <- (firstn_skipn 32 d) at 1. f_equal. rewrite <- (firstn_skipn 32 (skipn 32 d)) at 1. rewrite skipn_skipn. reflexivity. }
  rewrite !firstn_length, skipn_length. repeat split; try lia; try apply bytes_ok_firstn; try apply bytes_ok_skipn; auto.
Qed.
(** the parts of a ciphertext: one ignored byte, C1, C3 and C2 *)
Record parts (data : bytes) (b0 : Z) (X Y c3 c2 : bytes) : Prop := mkParts {
  parts_eq : data = b0 :: X ++ Y ++ c3 ++ c2;
  parts_X : List.length X = 32%nat; parts_Y : List.length Y = 32%nat; parts_c3 : List.length c3 = 32%nat }.
Definition C1_of (X Y : bytes) : pt := PA (be_to_Z X) (be_to_Z Y).

Theorem C30_integrity : forall priv data m, bytes_ok data -> Decryt priv data = Ret (m, None) ->
  exists b0 X Y c3 c2, parts data b0 X Y c3 c2 /\
    on_sm2 (C1_of X Y) /\
    let S := Z.abs (sk_D priv) ⊗ C1_of X Y in
    c3 = SM3 (big_bytes (xcoord S) ++ m ++ big_bytes (ycoord S)) /\
    m = xor_bytes (stream (List.length c2) S) c2 /\ List.length m = List.length c2 /\ m <> [].
Proof.
  intros priv data m OK E.
  destruct (Nat.le_gt_cases 65 (List.length data)) as [HL|HL]; [|rewrite Decryt_short in E by auto; discriminate E].
  destruct (Decryt_split data HL OK) as (b0 & X & Y & tl & ED & LX & LY & OX & OY & OT & _).
  destruct (Decryt_read priv b0 X Y tl LX LY OX OY OT) as [D1 D2]. rewrite <- ED in D1, D2.
  fold (C1_of X Y) in D1, D2. cbv zeta in D2. clear HL.
  assert (OC : on_sm2 (C1_of X Y)).
  { destruct (sm2_IsOnCurve (be_to_Z X) (be_to_Z Y)) eqn:IC; [apply sm2_IsOnCurve_spec in IC; exact IC|].
    rewrite D1 in E; [discriminate E|]. intros H. apply sm2_IsOnCurve_spec in H. congruence. }
  rewrite (D2 OC) in E. clear D1 D2. remember (Z.abs (sk_D priv) ⊗ C1_of X Y) as S eqn:HS.
  set (n := List.length (skipn 32 tl)) in *.
  destruct (nonzero (stream n S)) eqn:NZ; [|discriminate E]. destruct (good_lenb n) eqn:GL; [|discriminate E].
  apply good_lenb_spec in GL.
  destruct (bytes_eqb (c3_of S (xor_bytes (stream n S) (skipn 32 tl))) (firstn 32 tl)) eqn:EQ; [|discriminate E].
  apply bytes_eqb_spec in EQ. injection E as E.
  assert (LS : List.length (stream n S) = n) by (apply kdf_code_len_good; auto).
  assert (L3 : List.length (firstn 32 tl) = 32%nat) by (rewrite <- EQ; apply SM3_length).
  assert (Hn : n <> 0%nat) by (intros H; destruct (stream n S); [discriminate NZ|rewrite H in LS; discriminate LS]).
  exists b0, X, Y, (firstn 32 tl), (skipn 32 tl). split; [|split; [exact OC|]].
  - constructor; auto. rewrite firstn_skipn. exact ED.
  - cbv zeta. rewrite <- HS. fold n. rewrite <- E. split; [symmetry; exact EQ|]. split; [reflexivity|].
    assert (LM : List.length (xor_bytes (stream n S) (skipn 32 tl)) = n) by (rewrite xor_bytes_length; auto).
    split; [exact LM|]. intros H. apply Hn. transitivity (List.length (@nil Z)); [|reflexivity]. rewrite <- H. symmetry. exact LM.
Qed.
Print Assumptions C30_integrity.
Lemma bytes_ok_parts data b0 X Y c3 c2 : bytes_ok data -> parts data b0 X Y c3 c2 ->
  bytes_ok X /\ bytes_ok Y /\ bytes_ok c3 /\ bytes_ok c2.
Proof.
  intros OK [E _ _ _]. subst data. apply bytes_ok_cons in OK. destruct OK as [_ OK].
  repeat (apply bytes_ok_app in OK; destruct OK as [? OK]). auto.
Qed.
(** Decryt on a ciphertext given by its parts *)
Lemma Decryt_parts priv data b0 X Y c3 c2 : bytes_ok data -> parts data b0 X Y c3 c2 ->
  let S := Z.abs (sk_D priv) ⊗ C1_of X Y in let n := List.length c2 in
  (~ on_sm2 (C1_of X Y) -> Decryt priv data = Ret ([], Some "C1 is not on the curve"%string)) /\
  (on_sm2 (C1_of X Y) -> Decryt priv data =
    if nonzero (stream n S) then
      if good_lenb n then
        let m := xor_bytes (stream n S) c2 in
        if bytes_eqb (c3_of S m) c3 then Ret (m, None) else Ret (m, Some "failed to decrypt:hash compared error"%string)
      else Panic
    else Ret ([], Some "failed to decrypt:kdf error"%string)).
Proof.
  intros OK HP. destruct (bytes_ok_parts _ _ _ _ _ _ OK HP) as (OX & OY & O3 & O2). destruct HP as [-> LX LY L3].
  assert (OT : bytes_ok (c3 ++ c2)) by (apply bytes_ok_app; auto).
  pose proof (Decryt_read priv b0 X Y (c3 ++ c2) LX LY OX OY OT) as DR. cbv zeta in DR.
  rewrite (skipn_app_exact c3 c2 32), (firstn_app_exact c3 c2 32) in DR by auto. exact DR.
Qed.
(** changing C3 of an accepted ciphertext in any way makes Decryt fail *)
Theorem C30_tampered_tag : forall priv b0 b0' X Y c3 c3' c2 m data data',
  bytes_ok data -> bytes_ok data' -> parts data b0 X Y c3 c2 -> parts data' b0' X Y c3' c2 -> c3' <> c3 ->
  Decryt priv data = Ret (m, None) -> exists m', Decryt priv data' = Ret (m', Some "failed to decrypt:hash compared error"%string).
Proof.
  intros priv b0 b0' X Y c3 c3' c2 m data data' OK OK' HP HP' NE E.
  destruct (Decryt_parts priv _ _ _ _ _ _ OK HP) as [D1 D2]. destruct (Decryt_parts priv _ _ _ _ _ _ OK' HP') as [_ D2'].
  cbv zeta in D2, D2'.
  assert (OC : on_sm2 (C1_of X Y)).
  { destruct (sm2_IsOnCurve (be_to_Z X) (be_to_Z Y)) eqn:IC; [apply sm2_IsOnCurve_spec in IC; exact IC|].
    rewrite D1 in E; [discriminate E|]. intros H. apply sm2_IsOnCurve_spec in H. congruence. }
  specialize (D2 OC). specialize (D2' OC). rewrite D2 in E. rewrite D2'. clear D1 D2 D2'.
  set (S := Z.abs (sk_D priv) ⊗ C1_of X Y) in *. clearbody S.
  destruct (nonzero _); [|discriminate E]. destruct (good_lenb _); [|discriminate E].
  destruct (bytes_eqb _ c3) eqn:EQ; [|discriminate E]. apply bytes_eqb_spec in EQ.
  destruct (bytes_eqb _ c3') eqn:EQ'; [apply bytes_eqb_spec in EQ'; congruence|]. eauto.
Qed.
Print Assumptions C30_tampered_tag.

(** ** C82 ciphertexts are unique given C1 and the message *)
Theorem C82_unique : forall priv data data' b0 b0' X Y c3 c3' c2 c2' m,
  bytes_ok data -> bytes_ok data' -> parts data b0 X Y c3 c2 -> parts data' b0' X Y c3' c2' ->
  Decryt priv data = Ret (m, None) -> Decryt priv data' = Ret (m, None) -> c3' = c3 /\ c2' = c2.
Proof.
  intros priv data data' b0 b0' X Y c3 c3' c2 c2' m OK OK' HP HP' E E'.
  pose proof (C30_integrity priv data m OK E) as (a0 & A & B & t3 & t2 & Q & _ & I3 & I2 & L & _).
  pose proof (C30_integrity priv data' m OK' E') as (a0' & A' & B' & t3' & t2' & Q' & _ & I3' & I2' & L' & _).
  assert (U : forall d a A B c e a' A' B' c' e', parts d a A B c e -> parts d a' A' B' c' e' -> A = A' /\ B = B' /\ c = c' /\ e = e').
  { clear. intros d a A B c e a' A' B' c' e' [-> L1 L2 L3] [EQ L1' L2' L3']. injection EQ as _ EQ.
    apply app_inj_len in EQ; [|congruence]. destruct EQ as [-> EQ].
    apply app_inj_len in EQ; [|congruence]. destruct EQ as [-> EQ]. apply app_inj_len in EQ; [|congruence]. destruct EQ; subst; auto. }
  destruct (U _ _ _ _ _ _ _ _ _ _ _ HP Q) as (<- & <- & <- & <-).
  destruct (U _ _ _ _ _ _ _ _ _ _ _ HP' Q') as (<- & <- & <- & <-).
  set (S := Z.abs (sk_D priv) ⊗ C1_of X Y) in *. clearbody S. split; [congruence|].
  assert (LL : List.length c2 = List.length c2') by congruence.
  assert (GL : forall c, List.length m = List.length c -> m = xor_bytes (stream (List.length c) S) c ->
      c = xor_bytes (stream (List.length c) S) m).
  { intros c HL HM. rewrite HM. symmetry. apply xor_bytes_involutive.
    assert (HX : List.length (xor_bytes (stream (List.length c) S) c) = List.length c) by congruence.
    unfold xor_bytes in HX. rewrite map_length, combine_length in HX.
    destruct (good_lenb (List.length c)) eqn:G.
    - apply kdf_code_len_good. apply good_lenb_spec. auto.
    - exfalso. assert (NG : ~ good_len (List.length c)) by (rewrite <- good_lenb_spec; congruence).
      pose proof (kdf_code_len_bad _ (b32 (xcoord S) ++ b32 (ycoord S)) NG) as LB. fold (stream (List.length c) S) in LB. lia. }
  rewrite (GL c2 L I2), (GL c2' L' I2'). rewrite LL. reflexivity.
Qed.
Print Assumptions C82_unique.

(** ** C31 exactly when Decryt panics *)
Theorem C31_panics_iff : forall priv data, bytes_ok data ->
  (Decryt priv data = Panic <->
   (List.length data < 65)%nat \/
   let X := firstn 32 (skipn 1 data) in let Y := firstn 32 (skipn 33 data) in
   let n := (List.length data - 97)%nat in
   on_sm2 (C1_of X Y) /\ (32 < n)%nat /\ (n mod 32 <> 0)%nat /\
   ~ Forall (fun x => x = 0) (stream n (Z.abs (sk_D priv) ⊗ C1_of X Y))).
Proof.
  intros priv data OK.
  destruct (Nat.le_gt_cases 65 (List.length data)) as [HL|HL].
  2:{ split; [auto|]. intros _. apply Decryt_short. exact HL. }
  destruct (Decryt_split data HL OK) as (b0 & X & Y & tl & ED & LX & LY & OX & OY & OT & _).
  assert (EX : firstn 32 (skipn 1 data) = X).
  { rewrite ED. cbn [skipn]. apply firstn_app_exact. auto. }
  assert (EY : firstn 32 (skipn 33 data) = Y).
  { rewrite ED. change (skipn 33 (b0 :: X ++ Y ++ tl)) with (skipn 32 (X ++ Y ++ tl)). rewrite skipn_app_exact by auto. apply firstn_app_exact. auto. }
  assert (EN : (List.length data - 97)%nat = List.length (skipn 32 tl)).
  { rewrite ED. cbn [List.length]. rewrite !app_length, skipn_length, LX, LY. lia. }
  cbv zeta. rewrite EX, EY, EN.
  destruct (Decryt_read priv b0 X Y tl LX LY OX OY OT) as [D1 D2]. rewrite <- ED in D1, D2.
  fold (C1_of X Y) in D1, D2. cbv zeta in D2. set (S := Z.abs (sk_D priv) ⊗ C1_of X Y) in *. clearbody S.
  set (n := List.length (skipn 32 tl)) in *.
  assert (NZ : nonzero (stream n S) = true <-> ~ Forall (fun x => x = 0) (stream n S)).
  { unfold nonzero. rewrite existsb_exists, <- Exists_Forall_neg.
    - rewrite Exists_exists. split; intros (x & A & B); exists x; (split; [auto|]); [apply negb_true_iff, Z.eqb_neq in B|apply negb_true_iff, Z.eqb_neq]; auto.
    - intros x. destruct (Z.eq_dec x 0); auto. }
  rewrite <- NZ.
  destruct (sm2_IsOnCurve (be_to_Z X) (be_to_Z Y)) eqn:IC.
  - apply sm2_IsOnCurve_spec in IC. specialize (D2 IC). rewrite D2. clear D1 D2 NZ.
    destruct (nonzero (stream n S)).
    + destruct (good_lenb n) eqn:G.
      * apply good_lenb_spec in G. unfold good_len in G. split.
        -- destruct (bytes_eqb _ _); intros H; discriminate H.
        -- intros [H|(_ & H1 & H2 & _)]; lia.
      * assert (NG : ~ good_len n) by (rewrite <- good_lenb_spec; congruence). unfold good_len in NG.
        split; [|reflexivity]. intros _. right. split; [exact IC|]. split; [|split; [|reflexivity]].
        -- destruct (Nat.le_gt_cases n 32) as [A|A]; [exfalso; apply NG; left; exact A|exact A].
        -- intros A. apply NG. right. exact A.
    + split; [intros H; discriminate H|]. intros [H|(_ & _ & _ & H)]; [lia|discriminate H].
  - assert (NC : ~ on_sm2 (C1_of X Y)) by (intros H; apply sm2_IsOnCurve_spec in H; congruence).
    rewrite (D1 NC). split; [intros H; discriminate H|]. intros [H|(H & _)]; [lia|contradiction].
Qed.
Print Assumptions C31_panics_iff.

(** ** C32 the first byte is ignored *)
Theorem C32_first_byte : forall priv b b' rest, Decryt priv (b :: rest) = Decryt priv (b' :: rest).
Proof. reflexivity. Qed.
Print Assumptions C32_first_byte.

(** ** C33 what is returned next to an error *)
(** every error comes with an empty plaintext except the C3 mismatch, where the whole candidate
    plaintext (C2 xor key stream) is returned next to the error, whatever C3 was *)
Theorem C33_exact : forall priv data m e, bytes_ok data -> Decryt priv data = Ret (m, Some e) ->
  (m = [] \/
   e = "failed to decrypt:hash compared error"%string /\
   m <> [] /\ let c2 := skipn 97 data in
   m = xor_bytes (stream (List.length c2) (Z.abs (sk_D priv) ⊗ C1_of (firstn 32 (skipn 1 data)) (firstn 32 (skipn 33 data)))) c2).
Proof.
  intros priv data m e OK E.
  destruct (Nat.le_gt_cases 65 (List.length data)) as [HL|HL]; [|rewrite Decryt_short in E by auto; discriminate E].
  destruct (Decryt_split data HL OK) as (b0 & X & Y & tl & ED & LX & LY & OX & OY & OT & ET).
  assert (EX : firstn 32 (skipn 1 data) = X).
  { rewrite ED. cbn [skipn]. apply firstn_app_exact. auto. }
  assert (EY : firstn 32 (skipn 33 data) = Y).
  { rewrite ED. change (skipn 33 (b0 :: X ++ Y ++ tl)) with (skipn 32 (X ++ Y ++ tl)). rewrite skipn_app_exact by auto. apply firstn_app_exact. auto. }
  assert (EN : skipn 97 data = skipn 32 tl).
  { rewrite ET, skipn_skipn. reflexivity. }
  cbv zeta. rewrite EX, EY, EN. clear ET EX EY EN.
  destruct (Decryt_read priv b0 X Y tl LX LY OX OY OT) as [D1 D2]. rewrite <- ED in D1, D2.
  fold (C1_of X Y) in D1, D2. cbv zeta in D2. set (S := Z.abs (sk_D priv) ⊗ C1_of X Y) in *. clearbody S.
  destruct (sm2_IsOnCurve (be_to_Z X) (be_to_Z Y)) eqn:IC.
  - apply sm2_IsOnCurve_spec in IC. specialize (D2 IC). rewrite D2 in E. clear D1 D2.
    destruct (nonzero _); [|injection E as <- <-; auto]. destruct (good_lenb _); [|discriminate E].
    destruct (bytes_eqb _ _); [discriminate E|]. injection E as E1 E2.
    destruct m as [|x m]; [auto|]. right. split; [auto|]. split; [discriminate|]. auto.
  - rewrite D1 in E; [injection E as <- <-; auto|]. intros H. apply sm2_IsOnCurve_spec in H. congruence.
Qed.
Print Assumptions C33_exact.
(** an attacker obtains a plaintext for every C2: on any accepted ciphertext, replacing C3 leaves the
    returned bytes equal to the message, together with the error *)
Theorem C33_plaintext_released : forall priv b0 X Y c3 c3' c2 m data data',
  bytes_ok data -> bytes_ok data' -> parts data b0 X Y c3 c2 -> parts data' b0 X Y c3' c2 -> c3' <> c3 ->
  Decryt priv data = Ret (m, None) -> Decryt priv data' = Ret (m, Some "failed to decrypt:hash compared error"%string).
Proof.
  intros priv b0 X Y c3 c3' c2 m data data' OK OK' HP HP' NE E.
  destruct (Decryt_parts priv _ _ _ _ _ _ OK HP) as [D1 D2]. destruct (Decryt_parts priv _ _ _ _ _ _ OK' HP') as [_ D2'].
  cbv zeta in D2, D2'.
  assert (OC : on_sm2 (C1_of X Y)).
  { destruct (sm2_IsOnCurve (be_to_Z X) (be_to_Z Y)) eqn:IC; [apply sm2_IsOnCurve_spec in IC; exact IC|].
    rewrite D1 in E; [discriminate E|]. intros H. apply sm2_IsOnCurve_spec in H. congruence. }
  specialize (D2 OC). specialize (D2' OC). rewrite D2 in E. rewrite D2'. clear D1 D2 D2'.
  set (S := Z.abs (sk_D priv) ⊗ C1_of X Y) in *. clearbody S.
  destruct (nonzero _); [|discriminate E]. destruct (good_lenb _); [|discriminate E].
  destruct (bytes_eqb _ c3) eqn:EQ; [|discriminate E]. apply bytes_eqb_spec in EQ. injection E as E.
  destruct (bytes_eqb _ c3') eqn:EQ'; [apply bytes_eqb_spec in EQ'; congruence|]. rewrite E. reflexivity.
Qed.
Print Assumptions C33_plaintext_released.

(** ** instances: key d = 1 (key1 of PropertiesSM2Sig), nonce 1 (the zero reader), message "A" *)
Example enc_instance : exists c, Encryt (repeat 0 40) (sk_Pub key1) [65] = Ret (c, []) /\ List.length c = 98%nat.
Proof.
  assert (Hb : List.length (repeat 0 40) = 40%nat) by reflexivity.
  assert (Hm : bytes_ok [65]) by (apply bytes_okb_spec; reflexivity).
  pose proof (C26_exact (repeat 0 40) [] (sk_Pub key1) [65] G G_on ltac:(discriminate) eq_refl eq_refl Hb Hm) as H.
  cbv zeta in H. change (nonce_of (repeat 0 40)) with 1 in H. rewrite (sm2_pmul_1 G : 1 ⊗ G = G) in H.
  destruct H as [_ H]. destruct H as [H _].
  - assert (E : hd 0 (stream 1 G) = 199) by (vm_compute; reflexivity). change (List.length [65]) with 1%nat. intros F.
    destruct (stream 1 G) as [|x l]; cbn [hd] in E; [discriminate E|]. inversion F. rewrite E in H1. discriminate H1.
  - destruct H as [c E].
    + split; [left; cbn; lia|]. split; vm_compute; discriminate.
    + exists c. split; [exact E|]. 
      destruct (C28_layout (repeat 0 40) (sk_Pub key1) [65] c [] G G_on ltac:(discriminate) eq_refl eq_refl Hm E) as (pre & b & _ & _ & _ & L & _). exact L.
Qed.
(** the ciphertext of the instance decrypts, and with a different C3 releases the plaintext next to
    the error *)
Example dec_instance : exists data data', 
  Decryt key1 data = Ret ([65], None) /\ Decryt key1 data' = Ret ([65], Some "failed to decrypt:hash compared error"%string).
Proof.
  assert (Hm : bytes_ok [65]) by (apply bytes_okb_spec; reflexivity).
  destruct enc_instance as (c & E & L). exists c.
  assert (K1 : 1 <= sk_D key1 < sm2_N) by (split; [discriminate|reflexivity]).
  assert (K2 : keypair key1) by (unfold keypair; cbn [sk_D sk_Pub key1]; rewrite (sm2_pmul_1 G : 1 ⊗ G = G); split; reflexivity).
  pose proof (C25_roundtrip _ _ _ _ _ K1 K2 Hm E) as D.
  destruct (C28_layout (repeat 0 40) (sk_Pub key1) [65] c [] G G_on ltac:(discriminate) eq_refl eq_refl Hm E) as (pre & b & _ & _ & EC & _ & GL).
  set (k := nonce_of b) in *. clearbody k. set (X := b32 (xcoord (k ⊗ G))) in *. set (Y := b32 (ycoord (k ⊗ G))) in *.
  assert (OX : bytes_ok X) by apply Z_to_be_ok. assert (OY : bytes_ok Y) by apply Z_to_be_ok.
  assert (LX : List.length X = 32%nat) by apply b32_len. assert (LY : List.length Y = 32%nat) by apply b32_len. clearbody X Y.
  set (c3 := SM3 _) in EC. assert (O3 : bytes_ok c3) by apply SM3_ok. assert (L3 : List.length c3 = 32%nat) by apply SM3_length. clearbody c3.
  set (c2 := xor_bytes _ _) in EC. assert (O2 : bytes_ok c2) by (apply xor_bytes_ok; [apply kdf_code_ok|auto]). clearbody c2.
  assert (OKd : forall t, bytes_ok t -> bytes_ok (4 :: X ++ Y ++ t ++ c2)).
  { intros t Ht. apply bytes_ok_cons. split; [unfold byte_ok; lia|]. repeat (apply bytes_ok_app; split); auto. }
  destruct c3 as [|x0 c3]; [discriminate L3|]. apply bytes_ok_cons in O3. destruct O3 as [B0 O3].
  set (x1 := if x0 =? 0 then 1 else 0). assert (Hx1 : x1 <> x0 /\ byte_ok x1) by (unfold x1, byte_ok; destruct (Z.eqb_spec x0 0); lia).
  exists (4 :: X ++ Y ++ (x1 :: c3) ++ c2). split; [exact D|].
  apply (C33_plaintext_released key1 4 X Y (x0 :: c3) (x1 :: c3) c2 [65] c).
  - rewrite EC. apply (OKd (x0 :: c3)). apply bytes_ok_cons; auto.
  - apply OKd. apply bytes_ok_cons. tauto.
  - constructor; auto.
  - constructor; auto.
  - intros C. injection C as C. tauto.
  - exact D.
Qed.
(** Decryt does panic on long inputs too: C1 = G, any C3, 33 bytes of C2 *)
Example C31_instance : Decryt key1 (4 :: b32 sm2_Gx ++ b32 sm2_Gy ++ repeat 0 32 ++ repeat 7 33) = Panic.
Proof.
  apply C31_panics_iff.
  - apply bytes_ok_cons. split; [unfold byte_ok; lia|]. repeat (apply bytes_ok_app; split); try apply Z_to_be_ok; apply bytes_okb_spec; reflexivity.
  - right. cbv zeta.
    assert (E1 : firstn 32 (skipn 1 (4 :: b32 sm2_Gx ++ b32 sm2_Gy ++ repeat 0 32 ++ repeat 7 33)) = b32 sm2_Gx) by (vm_compute; reflexivity).
    assert (E2 : firstn 32 (skipn 33 (4 :: b32 sm2_Gx ++ b32 sm2_Gy ++ repeat 0 32 ++ repeat 7 33)) = b32 sm2_Gy) by (vm_compute; reflexivity).
    assert (E3 : (List.length (4%Z :: b32 sm2_Gx ++ b32 sm2_Gy ++ repeat 0%Z 32 ++ repeat 7%Z 33) - 97 = 33)%nat) by (vm_compute; reflexivity).
    rewrite E1, E2, E3. unfold C1_of, b32. rewrite !be_to_Z_to_be_small by (split; [vm_compute; discriminate|vm_compute; reflexivity]). fold G.
    split; [exact G_on|]. split; [lia|]. split; [vm_compute; discriminate|].
    change (Z.abs (sk_D key1)) with 1. rewrite (sm2_pmul_1 G : 1 ⊗ G = G).
    assert (E : hd 0 (stream 33 G) = 199) by (vm_compute; reflexivity). intros F.
    destruct (stream 33 G) as [|x l]; cbn [hd] in E; [discriminate E|]. inversion F as [|? ? H1 H2]. rewrite E in H1. discriminate H1.
Qed.
