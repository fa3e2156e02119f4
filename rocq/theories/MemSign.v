(** * Signing and verifying of sm2.go on memory (Mem): the byte slices of z, SM3Digest, Sign, SignDigest, Verify, VerifyDigest.
    The package variable sm2SignDefaultUserId is itself a slice, here the parameter [dflt]. *)
From Coq Require Import PeanoNat.
From Verif Require Import Base Words SM3Spec SM3Model ECModel SM2Model Mem MemSM MemSMProofs.
Local Open Scope nat_scope.

Section Grow.
Variable extra : nat -> nat -> nat.
(** sm2.go:20-23: the array and window of the package variable *)
Variable dflt : slc.

(** digest.Write(p), the count is dropped *)
Definition mdWrite (d : mdig) (p : slc) : M mdig := mdo (d, _) <- mWrite d p; mret d.
(** sm2.go:167-180; []byte\{...\} and n.Bytes() are new arrays *)
Definition mz (d : mdig) (x y : Z) (uid : slc) : M (slc * mdig) :=
  let d := mReset d in
  let userIdLen := ((Z.of_nat (s_len uid) * 8) mod 2 ^ 16)%Z in
  mdo p <- new [Z.land (Z.shiftr userIdLen 8) 0xff];
  mdo d <- mdWrite d p;
  mdo p <- new [Z.land userIdLen 0xff];
  mdo d <- mdWrite d p;
  mdo d <- mdWrite d uid;
  mdo p <- new (big_bytes sm2_A);
  mdo d <- mdWrite d p;
  mdo p <- new (big_bytes sm2_B);
  mdo d <- mdWrite d p;
  mdo p <- new (big_bytes sm2_Gx);
  mdo d <- mdWrite d p;
  mdo p <- new (big_bytes sm2_Gy);
  mdo d <- mdWrite d p;
  mdo p <- mAppendBig extra x;
  mdo d <- mdWrite d p;
  mdo p <- mAppendBig extra y;
  mdo d <- mdWrite d p;
  mdo e <- emptyS;
  mdo h <- mSum extra d e;
  mret (h, d).
(** sm2.go:130-140 *)
Definition mSM3Digest (pub : PublicKey) (msg uid : slc) : M slc :=
  let uid := if s_len uid =? 0 then dflt else uid in
  mdo d <- mNew;
  mdo (zv, d) <- mz d (pk_X pub) (pk_Y pub) uid;
  let d := mReset d in
  mdo d <- mdWrite d zv;
  mdo d <- mdWrite d msg;
  mdo e <- emptyS;
  mSum extra d e.
(** sm2.go:202-209: the builder's array may have spare capacity *)
Definition mMarshalSign (r s : Z) : M slc :=
  mdo b <- mlift (MarshalSign r s);
  alloc (b ++ repeat 0%Z (extra 0 (List.length b))) (List.length b).
(** sm2.go:268-310: new(big.Int).SetBytes(digest) reads the slice once *)
Definition mSignDigestRS (rand : bytes) (priv : PrivateKey) (digest : slc) : M (Z * Z * bytes) :=
  mdo b <- load digest; mlift (SignDigestRS rand priv b).
(** sm2.go:253-256 *)
Definition mSignRS (rand : bytes) (priv : PrivateKey) (inp uid : slc) : M (Z * Z * bytes) :=
  mdo hash <- mSM3Digest (sk_Pub priv) inp uid; mSignDigestRS rand priv hash.
(** sm2.go:244-250 *)
Definition mSign (rand : bytes) (priv : PrivateKey) (inp uid : slc) : M (slc * bytes) :=
  mdo (r, s, rand) <- mSignRS rand priv inp uid;
  mdo b <- mMarshalSign r s; mret (b, rand).
(** sm2.go:259-265 *)
Definition mSignDigest (rand : bytes) (priv : PrivateKey) (digest : slc) : M (slc * bytes) :=
  mdo (r, s, rand) <- mSignDigestRS rand priv digest;
  mdo b <- mMarshalSign r s; mret (b, rand).
(** sm2.go:359-383 *)
Definition mVerifyDigestRS (pub : PublicKey) (digest : slc) (r s : Z) : M bool :=
  mdo b <- load digest; mlift (VerifyDigestRS pub b r s).
(** sm2.go:322-349 *)
Definition mVerifyRS (pub : PublicKey) (inp uid : slc) (r s : Z) : M bool :=
  if ((r <? 1) || (sm2_N <=? r))%Z then mret false else
  if ((s <? 1) || (sm2_N <=? s))%Z then mret false else
  fun h => match mSM3Digest pub inp uid h with
  | (h, Panic) => (h, Panic)
  | (h, Err _) => (h, Ret false)
  | (h, Ret hash) =>
    (mdo b <- load hash;
     let e := be_to_Z b in
     let t := (r + s)%Z in
     let t := (t mod sm2_N)%Z in
     if (t =? 0)%Z then mret false else
     mdo xy1 <- mlift (sm2_ScalarBaseMult (big_bytes s));
     mdo xy2 <- mlift (sm2_ScalarMult (pk_X pub) (pk_Y pub) (big_bytes t));
     mdo xy <- mlift (sm2_Add (fst xy1) (snd xy1) (fst xy2) (snd xy2));
     let x := fst xy in let y := snd xy in
     if ((x =? 0) || (y =? 0))%Z then mret false else
     let x := (x + e)%Z in
     let x := (x mod sm2_N)%Z in
     mret (x =? r)%Z) h
  end.
(** sm2.go:313-320; ReadASN1Integer copies what it reads (SetBytes) *)
Definition mVerify (pub : PublicKey) (inp uid signature : slc) : M bool :=
  mdo b <- load signature;
  match UnmarshalSign b with
  | Ret (r, s) => mVerifyRS pub inp uid r s
  | Err _ => mret false
  | Panic => mpanic
  end.
(** sm2.go:351-357 *)
Definition mVerifyDigest (pub : PublicKey) (inp signature : slc) : M bool :=
  mdo b <- load signature;
  match UnmarshalSign b with
  | Ret (r, s) => mVerifyDigestRS pub inp r s
  | Err _ => mret false
  | Panic => mpanic
  end.
End Grow.

(** ** Simulation *)
(** the digest object lives in memory allocated since [h0] and holds the state [dg] *)
Definition dig (h0 h : heap) (d : mdig) (dg : digest) : Prop :=
  ext h0 h /\ obj h d /\ List.length h0 <= m_x d /\ view h d = dg.

Lemma dig_write {A B} h0 h d dg p b (k : mdig -> M A) (g : digest -> outcome B) R :
  dig h0 h d dg -> wf h p -> s_arr p <> m_x d -> rd h p = b ->
  (forall h' d' dg', dig h0 h' d' dg' -> sim h0 (k d' h') (g dg') R) ->
  sim h0 ((mdo d <- mdWrite d p; k d) h) (do dg <- dWrite dg b; g dg) R.
Proof.
  intros (E & O & L & V) W N Rb K. pose proof (mWrite_spec h d p O W N) as S. rewrite Rb, V in S.
  unfold mdWrite, dWrite, mbind. destruct (sm3_Write dg b) as [[dg' n]| |]; [|contradiction|].
  - destruct S as (h' & d' & S & V' & X & O' & Kp & _). rewrite S. cbn [bind mret]. apply K. split; [|split; [|split]]; auto.
    + eapply ext_keeps; eauto. intros a [<-|[]]. exact L.
    + lia.
  - rewrite S. cbn [bind]. split; [exact E|exact I].
Qed.
(** a write of a slice that was just made *)
Lemma dig_new {A B} h0 h d dg (m : M slc) b (k : mdig -> M A) (g : digest -> outcome B) R :
  dig h0 h d dg -> fresh h (m h) b ->
  (forall h' d' dg', dig h0 h' d' dg' -> sim h0 (k d' h') (g dg') R) ->
  sim h0 ((mdo p <- m; mdo d <- mdWrite d p; k d) h) (do dg <- dWrite dg b; g dg) R.
Proof.
  intros (E & O & L & V) (h' & s & Em & W & Rs & As & K) Kk. eapply sim_step; [exact Em|]. cbv beta.
  pose proof (proj1 O) as Ox. eapply dig_write; [|exact W|lia|exact Rs|exact Kk].
  split; [eapply ext_keeps; eauto; intros a []|]. split; [eapply keeps_obj; eauto|]. split; [exact L|].
  rewrite (keeps_view _ _ _ _ K); auto.
Qed.
(** a write of a slice of the caller *)
Lemma dig_old {A B} h0 h d dg p b (k : mdig -> M A) (g : digest -> outcome B) R :
  dig h0 h d dg -> wf h0 p -> rd h0 p = b ->
  (forall h' d' dg', dig h0 h' d' dg' -> sim h0 (k d' h') (g dg') R) ->
  sim h0 ((mdo d <- mdWrite d p; k d) h) (do dg <- dWrite dg b; g dg) R.
Proof.
  intros D W Rb K. pose proof D as (E & O & L & V). pose proof (proj1 W). eapply dig_write; [exact D|eapply ext_wf; eauto|lia| |exact K].
  rewrite (ext_rd _ _ _ E W). exact Rb.
Qed.
(** digest.Sum(nil) *)
Lemma dig_sum extra h0 h d dg : dig h0 h d dg ->
  sim h0 ((mdo e <- emptyS; mSum extra d e) h) (sm3_Sum_method dg [])
    (fun h' s b => own h0 h' s b /\ s_arr s <> m_x d /\ dig h0 h' d dg).
Proof.
  intros (E & O & L & V). destruct (new_fresh h []) as (h1 & e & Em & W & Rs & As & K).
  eapply sim_step; [exact Em|]. cbv beta. pose proof (proj1 O) as Ox. pose proof (ext_length _ _ E) as Le.
  assert (O1 : obj h1 d) by (eapply keeps_obj; eauto).
  assert (V1 : view h1 d = dg) by (rewrite (keeps_view _ _ _ _ K); auto).
  assert (E1 : ext h0 h1) by (eapply ext_keeps; eauto; intros a []).
  pose proof (mSum_spec extra h1 d e O1 W) as S. rewrite V1, Rs in S. pose proof (proj1 K) as Lk.
  destruct (sm3_Sum_method dg []) as [b| |]; [|contradiction|].
  - destruct S as (h2 & s & S & Ws & Rb & _ & K2 & A). rewrite S.
    assert (E2 : ext h0 h2) by (eapply ext_keeps; eauto; intros a [<-|[]]; lia).
    split; [exact E2|]. cbn [fst snd]. split; [|split].
    + split; [|auto]. destruct A; lia.
    + destruct A; lia.
    + split; [exact E2|]. split; [eapply keeps_obj; eauto|]. split; [exact L|].
      rewrite (keeps_view _ _ _ _ K2); [exact V1|apply O1|]. intros [I|[]]. lia.
  - destruct S as (h2 & S & K2). rewrite S. split; [|exact I]. eapply ext_keeps; eauto. cbn. intros a [<-|[]]. lia.
Qed.
Lemma mbind_assoc {A B C} (m : M A) (f : A -> M B) (g : B -> M C) h :
  mbind m (fun a => mbind (f a) g) h = mbind (mbind m f) g h.
Proof. unfold mbind. destruct (m h) as [h' [a|e|]]; reflexivity. Qed.

Lemma mz_sim extra h0 h d dg x y uid u : dig h0 h d dg -> wf h0 uid -> rd h0 uid = u ->
  sim h0 (mz extra d x y uid h) (z dg x y u)
    (fun h' a b => own h0 h' (fst a) (fst b) /\ s_arr (fst a) <> m_x (snd a) /\ dig h0 h' (snd a) (snd b)).
Proof.
  intros D W Ru. unfold mz, z.
  assert (Lu : zlen u = Z.of_nat (s_len uid)) by (unfold zlen; rewrite <- Ru, rd_length by exact W; reflexivity). rewrite Lu.
  set (n := ((Z.of_nat (s_len uid) * 8) mod 2 ^ 16)%Z). clearbody n.
  assert (D0 : dig h0 h (mReset d) (sm3_Reset dg)).
  { destruct D as (E & O & L & V). split; [exact E|]. split; [exact O|]. split; [exact L|]. rewrite <- V. reflexivity. }
  cbv zeta.
  clear D. rename D0 into D. revert D. generalize (mReset d) (sm3_Reset dg). clear d dg. intros d dg D.
  eapply dig_new; [exact D|apply new_fresh|]. clear D. intros h1 d1 dg1 D.
  eapply dig_new; [exact D|apply new_fresh|]. clear D. intros h2 d2 dg2 D.
  eapply dig_old; [exact D|exact W|exact Ru|]. clear D. intros h3 d3 dg3 D.
  eapply dig_new; [exact D|apply new_fresh|]. clear D. intros h4 d4 dg4 D.
  eapply dig_new; [exact D|apply new_fresh|]. clear D. intros h5 d5 dg5 D.
  eapply dig_new; [exact D|apply new_fresh|]. clear D. intros h6 d6 dg6 D.
  eapply dig_new; [exact D|apply new_fresh|]. clear D. intros h7 d7 dg7 D.
  eapply dig_new; [exact D|apply mAppendBig_spec|]. clear D. intros h8 d8 dg8 D.
  eapply dig_new; [exact D|apply mAppendBig_spec|]. clear D. intros h9 d9 dg9 D.
  rewrite mbind_assoc. eapply sim_bind; [apply dig_sum; exact D|]. cbv beta. intros h' s b E (Ow & N & D').
  apply sim_ret; [exact E|]. auto.
Qed.
Lemma mNew_dig h0 : exists h d, mNew h0 = (h, Ret d) /\ dig h0 h d sm3_New.
Proof.
  destruct (mNew_spec h0) as (h & d & E & O & V & X & K). exists h, d. split; [exact E|].
  split; [now apply keeps_ext|]. split; [exact O|]. split; [lia|exact V].
Qed.
Lemma mSM3Digest_sim extra dflt h0 pub msg uid : wf h0 dflt -> rd h0 dflt = sm2SignDefaultUserId -> wf h0 msg -> wf h0 uid ->
  sim h0 (mSM3Digest extra dflt pub msg uid h0) (SM3Digest pub (rd h0 msg) (rd h0 uid)) (own h0).
Proof.
  intros Wd Rd Wm Wu. unfold mSM3Digest, SM3Digest.
  set (u := if s_len uid =? 0 then dflt else uid).
  assert (Hu : wf h0 u /\ rd h0 u = match rd h0 uid with [] => sm2SignDefaultUserId | _ => rd h0 uid end).
  { unfold u. destruct (Nat.eqb_spec (s_len uid) 0) as [Z0|Z0].
    - rewrite (rd_nil _ _ Z0). auto.
    - split; [exact Wu|]. pose proof (rd_length _ _ Wu) as L. destruct (rd h0 uid); [cbn in L; lia|reflexivity]. }
  destruct Hu as [Hu Ru]. clearbody u. rewrite <- Ru.
  destruct (mNew_dig h0) as (h & d & E & D). eapply sim_step; [exact E|]. cbv beta.
  eapply sim_bind; [eapply mz_sim; eauto|]. cbv beta. intros h' [zv d'] [zb dg'] E' (Ow & N & D'). cbn [fst snd] in *.
  assert (D0 : dig h0 h' (mReset d') (sm3_Reset dg')).
  { destruct D' as (E1 & O & L & V). split; [exact E1|]. split; [exact O|]. split; [exact L|]. rewrite <- V. reflexivity. }
  destruct Ow as (_ & Wz & Rz). cbv zeta.
  eapply dig_write; [exact D0|exact Wz|exact N|exact Rz|]. clear D0 D' . intros h2 d2 dg2 D2.
  eapply dig_old; [exact D2|exact Wm|reflexivity|]. clear D2. intros h3 d3 dg3 D3.
  eapply sim_weaken; [apply dig_sum; exact D3|]. cbv beta. tauto.
Qed.
Lemma mMarshalSign_sim extra h0 h r s : ext h0 h ->
  sim h0 (mMarshalSign extra r s h) (MarshalSign r s) (own h0).
Proof.
  intros E. unfold mMarshalSign, mbind, mlift. destruct (MarshalSign r s) as [b| |]; [|split; [exact E|reflexivity]|split; [exact E|exact I]].
  unfold alloc. set (x := b ++ repeat 0%Z (extra 0 (List.length b))). split; cbn [fst snd]; [now apply ext_alloc|].
  split; [cbn [s_arr]; now apply ext_length|]. split; [apply new_wf; unfold x; rewrite app_length; lia|].
  rewrite new_rd. unfold x. rewrite firstn_app, firstn_all, Nat.sub_diag. cbn. apply app_nil_r.
Qed.
Opaque SM3Digest.
(** r, s and the rest of the random bytes are plain values *)
Lemma mSignDigestRS_sim h0 h rand priv dgst b : ext h0 h -> rd h dgst = b ->
  sim h0 (mSignDigestRS rand priv dgst h) (SignDigestRS rand priv b) (fun _ a b => a = b).
Proof.
  intros E R. unfold mSignDigestRS. eapply sim_step; [reflexivity|]. cbv beta. rewrite R. apply sim_lift; auto.
Qed.
Lemma mSignRS_sim extra dflt h0 rand priv inp uid : wf h0 dflt -> rd h0 dflt = sm2SignDefaultUserId -> wf h0 inp -> wf h0 uid ->
  sim h0 (mSignRS extra dflt rand priv inp uid h0) (SignRS rand priv (rd h0 inp) (rd h0 uid)) (fun _ a b => a = b).
Proof.
  intros Wd Rd Wm Wu. unfold mSignRS, SignRS. eapply sim_bind; [apply mSM3Digest_sim; auto|]. intros h' a b E (_ & _ & R).
  now apply mSignDigestRS_sim.
Qed.
Definition sig_rel (h0 h : heap) (a : slc * bytes) (b : bytes * bytes) : Prop := own h0 h (fst a) (fst b) /\ snd a = snd b.
Lemma mSign_sim extra dflt h0 rand priv inp uid : wf h0 dflt -> rd h0 dflt = sm2SignDefaultUserId -> wf h0 inp -> wf h0 uid ->
  sim h0 (mSign extra dflt rand priv inp uid h0) (Sign rand priv (rd h0 inp) (rd h0 uid)) (sig_rel h0).
Proof.
  intros Wd Rd Wm Wu. unfold mSign, Sign. eapply sim_bind; [apply mSignRS_sim; auto|]. cbv beta. intros h' a [[r s] rest] E ->.
  cbv beta iota. eapply sim_bind; [apply mMarshalSign_sim; exact E|]. intros h2 x b E2 Ow. apply sim_ret; [exact E2|]. split; [exact Ow|reflexivity].
Qed.
Lemma mSignDigest_sim extra h0 rand priv dgst : wf h0 dgst ->
  sim h0 (mSignDigest extra rand priv dgst h0) (SignDigest rand priv (rd h0 dgst)) (sig_rel h0).
Proof.
  intros W. unfold mSignDigest, SignDigest. eapply sim_bind; [apply mSignDigestRS_sim; [apply ext_refl|reflexivity]|]. cbv beta. intros h' a [[r s] rest] E ->.
  cbv beta iota. eapply sim_bind; [apply mMarshalSign_sim; exact E|]. intros h2 x b E2 Ow. apply sim_ret; [exact E2|]. split; [exact Ow|reflexivity].
Qed.
Lemma mVerifyRS_sim extra dflt h0 pub inp uid r s : wf h0 dflt -> rd h0 dflt = sm2SignDefaultUserId -> wf h0 inp -> wf h0 uid ->
  sim h0 (mVerifyRS extra dflt pub inp uid r s h0) (VerifyRS pub (rd h0 inp) (rd h0 uid) r s) (fun _ a b => a = b).
Proof.
  intros Wd Rd Wm Wu. unfold mVerifyRS, VerifyRS.
  destruct ((r <? 1) || (sm2_N <=? r))%Z; [apply sim_ret; [apply ext_refl|reflexivity]|].
  destruct ((s <? 1) || (sm2_N <=? s))%Z; [apply sim_ret; [apply ext_refl|reflexivity]|].
  destruct (mSM3Digest_sim extra dflt h0 pub inp uid Wd Rd Wm Wu) as [E S].
  destruct (mSM3Digest extra dflt pub inp uid h0) as [h' [a|e|]]; cbn [fst snd] in *; destruct (SM3Digest pub (rd h0 inp) (rd h0 uid)) as [b|e'|]; try contradiction.
  2:{ split; [exact E|reflexivity]. }
  2:{ split; [exact E|exact I]. }
  destruct S as (_ & _ & R). eapply sim_step; [reflexivity|]. cbv beta zeta. rewrite R.
  destruct ((r + s) mod sm2_N =? 0)%Z; [apply sim_ret; auto|].
  eapply sim_bind; [apply (sim_lift _ _ _ (fun _ a b => a = b)); auto|]. intros h2 xy1 ? E2 <-.
  eapply sim_bind; [apply (sim_lift _ _ _ (fun _ a b => a = b)); auto|]. intros h3 xy2 ? E3 <-.
  eapply sim_bind; [apply (sim_lift _ _ _ (fun _ a b => a = b)); auto|]. intros h4 xy ? E4 <-.
  destruct ((fst xy =? 0) || (snd xy =? 0))%Z; apply sim_ret; auto.
Qed.
Lemma mVerify_sim extra dflt h0 pub inp uid sg : wf h0 dflt -> rd h0 dflt = sm2SignDefaultUserId -> wf h0 inp -> wf h0 uid ->
  sim h0 (mVerify extra dflt pub inp uid sg h0) (Verify pub (rd h0 inp) (rd h0 uid) (rd h0 sg)) (fun _ a b => a = b).
Proof.
  intros Wd Rd Wm Wu. unfold mVerify, Verify. eapply sim_step; [reflexivity|]. cbv beta.
  destruct (UnmarshalSign (rd h0 sg)) as [[r s]|e|].
  - now apply mVerifyRS_sim.
  - apply sim_ret; [apply ext_refl|reflexivity].
  - split; [apply ext_refl|exact I].
Qed.
Lemma mVerifyDigest_sim h0 pub dgst sg :
  sim h0 (mVerifyDigest pub dgst sg h0) (VerifyDigest pub (rd h0 dgst) (rd h0 sg)) (fun _ a b => a = b).
Proof.
  unfold mVerifyDigest, VerifyDigest. eapply sim_step; [reflexivity|]. cbv beta.
  destruct (UnmarshalSign (rd h0 sg)) as [[r s]|e|].
  - eapply sim_step; [reflexivity|]. cbv beta. apply sim_lift; [apply ext_refl|auto].
  - apply sim_ret; [apply ext_refl|reflexivity].
  - split; [apply ext_refl|exact I].
Qed.
Transparent SM3Digest.
