(** * pbkdf on memory computes what the list model computes *)
From Coq Require Import PeanoNat ZifyNat.
From Verif Require Import Base Words PbkdfModel Mem MemSM MemSMProofs MemP12.
Local Open Scope nat_scope.

(** A call in memory [h] that returns the slice s showing b; of the memory of h0 and of what was there before, only the arrays A changed *)
Lemma appendS_own extra h0 h s t sb tb : ext h0 h -> own h0 h s sb -> rd h t = tb ->
  exists h' s', appendS extra s t h = (h', Ret s') /\ own h0 h' s' (sb ++ tb) /\ ext h0 h' /\ keeps h h' [s_arr s] /\ rd h' s = sb /\
    (s_arr s' = s_arr s \/ List.length h <= s_arr s').
Proof.
  intros E (A & W & R) Rt. destruct (appendS_spec extra h s t W) as (h' & s' & E1 & W1 & R1 & R2 & K & A1).
  exists h', s'. split; [exact E1|]. pose proof (ext_length _ _ E). split; [split; [destruct A1; lia|split; [exact W1|congruence]]|].
  split; [apply (ext_keeps _ _ _ _ E K); intros a [<-|[]]; auto|]. split; [exact K|]. split; [congruence|]. destruct A1; [now left|right; lia].
Qed.

Lemma mrepD_spec extra h0 ID : forall n h D Db, ext h0 h -> own h0 h D Db ->
  exists h' D', mrepD extra n ID D h = (h', Ret D') /\ own h0 h' D' (Db ++ repeat ID n) /\ ext h0 h'.
Proof.
  induction n as [|n IH]; intros h D Db E (A & W & R).
  - exists h, D. cbn [repeat]. rewrite app_nil_r. split; [reflexivity|]. split; [split; auto|exact E].
  - cbn [mrepD]. destruct (appendB_spec extra h D [ID] W) as (h1 & D1 & E1 & W1 & R1 & _ & K1 & A1). unfold mbind. rewrite E1.
    pose proof (ext_length _ _ E).
    destruct (IH h1 D1 (Db ++ [ID])) as (h2 & D2 & E2 & O2 & X2).
    { apply (ext_keeps _ _ _ _ E K1). intros a [<-|[]]; auto. }
    { split; [destruct A1; lia|]. split; [exact W1|congruence]. }
    exists h2, D2. split; [exact E2|]. split; [|exact X2]. cbn [repeat]. rewrite <- app_assoc in O2. exact O2.
Qed.

Lemma repeat_len (p : bytes) n : List.length (bytes_Repeat p n) = n * List.length p.
Proof. unfold bytes_Repeat. induction n; cbn [repeat List.concat]; [reflexivity|]. rewrite app_length, IHn. cbn. lia. Qed.
Lemma fill_nat p v : 0 < v -> p <> [] ->
  fillWithRepeats p (Z.of_nat v) =
  firstn (v * ((List.length p + v - 1) / v)) (bytes_Repeat p ((v * ((List.length p + v - 1) / v) + List.length p - 1) / List.length p)).
Proof.
  intros Hv Hp. unfold fillWithRepeats. destruct p as [|x p]; [congruence|]. cbv zeta. unfold zlen. set (L := List.length (x :: p)). assert (HL : 0 < L) by (unfold L; cbn; lia).
  replace (Z.of_nat L + Z.of_nat v - 1)%Z with (Z.of_nat (L + v - 1)) by lia. rewrite <- Nat2Z.inj_div, <- Nat2Z.inj_mul, Nat2Z.id.
  set (o := v * ((L + v - 1) / v)). replace (Z.of_nat o + Z.of_nat L - 1)%Z with (Z.of_nat (o + L - 1)) by lia. rewrite <- Nat2Z.inj_div, Nat2Z.id. reflexivity.
Qed.
Lemma fill_fits L v : 0 < L -> v * ((L + v - 1) / v) <= (v * ((L + v - 1) / v) + L - 1) / L * L.
Proof.
  intros HL. set (o := v * _). pose proof (Nat.div_mod (o + L - 1) L ltac:(lia)). pose proof (Nat.mod_upper_bound (o + L - 1) L ltac:(lia)). lia.
Qed.
Lemma mfill_fresh h p v : 0 < v -> wf h p -> fresh h (mfill p v h) (fillWithRepeats (rd h p) (Z.of_nat v)).
Proof.
  intros Hv W. unfold mfill. destruct (Nat.eqb_spec (s_len p) 0) as [Z0|N0].
  - rewrite rd_nil by auto. exact (new_fresh h []).
  - assert (L : List.length (rd h p) = s_len p) by (apply rd_length; auto).
    rewrite fill_nat by (auto; intros Hn; rewrite Hn in L; cbn in L; lia). rewrite L.
    set (o := v * _). set (n := (o + s_len p - 1) / s_len p). unfold mbind, load.
    destruct (new_fresh h (bytes_Repeat (rd h p) n)) as (h1 & r & E1 & W1 & R1 & A1 & K1). rewrite E1.
    assert (Lr : s_len r = n * s_len p) by (rewrite <- (rd_length h1 r W1), R1, repeat_len, L; reflexivity).
    assert (Ho : o <= s_len r) by (rewrite Lr; apply fill_fits; lia). pose proof W1 as (_ & Wc & _).
    rewrite sub_ok by lia. exists h1, (subS r 0 o). split; [reflexivity|]. split; [apply sub_wf; auto; lia|]. split; [|auto].
    rewrite sub_rd by lia. rewrite R1, Nat.sub_0_r. reflexivity.
Qed.

Lemma mhash_fresh hash h s b : rd h s = b -> fresh h (mhash hash s h) (hash b).
Proof. intros <-. unfold mhash, mbind, load. apply new_fresh. Qed.
Lemma mhash_loop_spec hash : forall n h s b, wf h s -> rd h s = b ->
  exists h' s', mhash_loop hash n s h = (h', Ret s') /\ wf h' s' /\ rd h' s' = hash_loop hash n b /\ keeps h h' [] /\ (s_arr s' = s_arr s \/ List.length h <= s_arr s').
Proof.
  induction n as [|n IH]; intros h s b W R.
  - exists h, s. split; [reflexivity|]. split; [exact W|]. split; [exact R|]. split; [apply keeps_refl|now left].
  - cbn [mhash_loop hash_loop]. destruct (mhash_fresh hash h s b R) as (h1 & s1 & E1 & W1 & R1 & A1 & K1). unfold mbind. rewrite E1.
    destruct (IH h1 s1 _ W1 R1) as (h2 & s2 & E2 & W2 & R2 & K2 & A2). exists h2, s2. split; [exact E2|]. split; [exact W2|]. split; [exact R2|].
    split; [apply (keeps_trans h h1 h2 [] []); auto|]. pose proof (proj1 K1). right. destruct A2; lia.
Qed.
Lemma mrepB_spec extra v Ab : forall fuel h0 h Ai B Bb, ext h0 h -> own h0 h B Bb -> wf h0 Ai -> rd h0 Ai = Ab ->
  exists h' B', mrepB extra fuel v Ai B h = (h', Ret B') /\ own h0 h' B' (repeat_to fuel v Ab Bb) /\ ext h0 h'.
Proof.
  induction fuel as [|f IH]; intros h0 h Ai B Bb E O W R; cbn [mrepB repeat_to].
  - exists h, B. auto.
  - pose proof O as (A & Wb & Rb). rewrite <- (rd_length h B Wb), Rb. destruct (_ <? v); [|exists h, B; auto].
    destruct (appendS_own extra h0 h B Ai Bb Ab E O ltac:(rewrite (ext_rd _ _ _ E W); exact R)) as (h1 & B1 & E1 & O1 & X1 & _). unfold mbind. rewrite E1.
    destruct (IH h0 h1 Ai B1 (Bb ++ Ab) X1 O1 W R) as (h2 & B2 & E2 & O2 & X2). exists h2, B2. auto.
Qed.
Lemma repeat_to_len v Ab : Ab <> [] -> forall fuel Bb, v <= fuel + List.length Bb -> v <= List.length (repeat_to fuel v Ab Bb).
Proof.
  intros Hn. induction fuel as [|f IH]; intros Bb H; cbn [repeat_to]; [lia|]. destruct (Nat.ltb_spec (List.length Bb) v); [|lia].
  apply IH. rewrite app_length. destruct Ab; [congruence|]. cbn [List.length]. lia.
Qed.
Lemma put_put l i a b : i + List.length a + List.length b <= List.length l -> put (put l i a) (i + List.length a) b = put l i (a ++ b).
Proof.
  intros H. assert (L : List.length (firstn i l) = i) by (rewrite firstn_length; lia).
  assert (F : firstn (i + List.length a) (put l i a) = firstn i l ++ a).
  { unfold put. rewrite app_assoc. rewrite firstn_app. rewrite firstn_all2 by (rewrite app_length; lia).
    rewrite app_length, L. replace (i + List.length a - (i + List.length a)) with 0 by lia. cbn. apply app_nil_r. }
  transitivity (firstn (i + List.length a) (put l i a) ++ b ++ skipn (i + List.length a + List.length b) (put l i a)); [reflexivity|].
  rewrite F, (put_skipn l i a) by lia. unfold put. rewrite app_length, <- !app_assoc, Nat.add_assoc. reflexivity.
Qed.
Lemma mzero_spec : forall n h s i, wf h s -> i + n <= s_len s ->
  exists h', mzero n s i h = (h', Ret tt) /\ rd h' s = put (rd h s) i (repeat 0%Z n) /\ keeps h h' [s_arr s].
Proof.
  induction n as [|n IH]; intros h s i W L.
  - exists h. split; [reflexivity|]. split; [now rewrite put_nil|apply keeps_refl].
  - cbn [mzero]. unfold mbind at 1, setB. rewrite (proj2 (Nat.ltb_lt i (s_len s))) by lia. unfold poke. fold (poked h s i [0%Z]).
    pose proof W as (_ & Wc & _). assert (K1 : keeps h (poked h s i [0%Z]) [s_arr s]) by (apply keeps_poked; auto; cbn; lia).
    assert (R1 : rd (poked h s i [0%Z]) s = put (rd h s) i [0%Z]) by (apply poked_rd; auto; cbn; lia).
    destruct (IH (poked h s i [0%Z]) s (S i) ltac:(eapply keeps_wf; eauto) ltac:(lia)) as (h2 & E2 & R2 & K2).
    exists h2. split; [exact E2|]. split; [|eapply keeps_trans; eauto]. rewrite R2, R1. cbn [repeat].
    assert (Lr : List.length (rd h s) = s_len s) by (apply rd_length; auto).
    replace (S i) with (i + List.length [0%Z]) by (cbn; lia). change (0%Z :: repeat 0%Z n) with ([0%Z] ++ repeat 0%Z n).
    apply put_put. rewrite repeat_length. cbn. lia.
Qed.
Lemma poked_sub h s i j k b : poked h (subS s i j) k b = poked h s (i + k) b.
Proof. unfold poked, subS. cbn [s_arr s_off]. now rewrite Nat.add_assoc. Qed.

(** the second buffer of the loop: absent, or v bytes in an array of its own *)
Definition obs (o : option slc) : list nat := match o with Some b => [s_arr b] | None => [] end.
Definition bufok (h : heap) (v : nat) (o : option slc) : Prop := match o with Some b => wf h b /\ s_len b = v | None => True end.
Definition bufnext (h : heap) (o o' : option slc) : Prop := o' = o \/ (o = None /\ exists b, o' = Some b /\ List.length h <= s_arr b).

Lemma mpad_spec v h Ijb o : wf h Ijb -> s_len Ijb <= v -> bufok h v o -> ~ In (s_arr Ijb) (obs o) ->
  exists h' s o', mpad v Ijb o h = (h', Ret (s, o')) /\ wf h' s /\ rd h' s = repeat 0%Z (v - s_len Ijb) ++ rd h Ijb /\
    keeps h h' (obs o) /\ bufok h' v o' /\ bufnext h o o'.
Proof.
  intros W L B N. remember (mpad v Ijb o h) as X eqn:EX. unfold mpad in EX. destruct (Nat.ltb_spec (s_len Ijb) v) as [Hlt|Hge].
  2:{ exists h, Ijb, o. split; [exact EX|]. split; [exact W|]. split; [replace (v - s_len Ijb) with 0 by lia; reflexivity|].
      split; [apply keeps_refl|]. split; [exact B|now left]. }
  assert (G : exists h1 b, (match o with Some b => mret b | None => new (repeat 0%Z v) end) h = (h1, Ret b) /\ wf h1 b /\ s_len b = v /\ keeps h h1 [] /\
     s_arr b <> s_arr Ijb /\ bufnext h o (Some b) /\ (In (s_arr b) (obs o) \/ List.length h <= s_arr b)).
  { destruct o as [b|].
    - destruct B as [B1 B2]. exists h, b. split; [reflexivity|]. split; [auto|]. split; [auto|]. split; [apply keeps_refl|].
      split; [cbn in N; tauto|]. split; [now left|]. left. now left.
    - destruct (new_fresh h (repeat 0%Z v)) as (h1 & b & E1 & W1 & R1 & A1 & K1). exists h1, b. split; [exact E1|]. split; [auto|].
      split; [rewrite <- (rd_length h1 b W1), R1; apply repeat_length|]. split; [auto|]. destruct W as (W & _). split; [lia|]. split; [|auto].
      right. split; [auto|]. now exists b. }
  destruct G as (h1 & b & E1 & W1 & L1 & K1 & N1 & X1 & I1). unfold mbind at 1 in EX. rewrite E1 in EX. clear E1.
  destruct (mzero_spec (v - s_len Ijb) h1 b 0 W1 ltac:(lia)) as (h2 & E2 & R2 & K2). cbv zeta in EX. unfold mbind at 1 in EX. rewrite E2 in EX. clear E2.
  pose proof (keeps_wf _ _ _ _ K2 W1) as W2. pose proof W1 as (_ & Wc & _).
  unfold from in EX. unfold mbind at 1 in EX. rewrite sub_ok in EX by lia. set (t := subS b (v - s_len Ijb) (s_len b)) in *.
  assert (Wt : wf h2 t) by (apply sub_wf; auto; lia). pose proof (keeps_wf _ _ _ _ K1 W) as Wj1. pose proof (keeps_wf _ _ _ _ K2 Wj1) as Wj2.
  assert (Rj : rd h2 Ijb = rd h Ijb).
  { rewrite (keeps_rd _ _ _ _ K2 Wj1) by (cbn; tauto). apply (keeps_rd _ _ _ _ K1 W). auto. }
  destruct (copyS_spec h2 t Ijb Wt Wj2) as (E3 & _ & K3). replace (Nat.min (s_len t) (s_len Ijb)) with (s_len Ijb) in * by (unfold t; cbn; lia).
  rewrite Rj in *. pose proof (rd_length h Ijb W) as Lj. rewrite firstn_all2 in * by lia. unfold mbind at 1 in EX. rewrite E3 in EX. clear E3.
  unfold t in *. rewrite poked_sub in *. rewrite Nat.add_0_r in *. change (s_arr (subS b (v - s_len Ijb) (s_len b))) with (s_arr b) in *.
  exists (poked h2 b (v - s_len Ijb) (rd h Ijb)), b, (Some b). split; [exact EX|]. split; [apply (keeps_wf _ _ _ _ K3 W2)|].
  split; [|split; [|split; [split; [apply (keeps_wf _ _ _ _ K3 W2)|exact L1]|exact X1]]].
  - rewrite poked_rd by (auto; lia). rewrite R2. pose proof (rd_length h1 b W1) as Lb.
    replace (put (put (rd h1 b) 0 (repeat 0%Z (v - s_len Ijb))) (v - s_len Ijb) (rd h Ijb)) with (put (rd h1 b) 0 (repeat 0%Z (v - s_len Ijb) ++ rd h Ijb)).
    + apply put_all. rewrite app_length, repeat_length. lia.
    + rewrite <- put_put by (rewrite repeat_length; lia). now rewrite repeat_length.
  - apply (keeps_trans h h2 _ (obs o) [s_arr b]); [|exact K3|auto|intros a [<-|[]]; auto].
    apply (keeps_trans h h1 _ [] [s_arr b]); [exact K1|exact K2|intros a []|intros a [<-|[]]; auto].
Qed.

Lemma mstep_spec v j h Is Bb o : wf h Is -> (j + 1) * v <= s_len Is -> bufok h v o -> ~ In (s_arr Is) (obs o) ->
  exists h' o', mstep v j Is (be_to_Z Bb) o h = (h', Ret o') /\
    rd h' Is = put (rd h Is) (j * v) (add_block v (firstn v (skipn (j * v) (rd h Is))) Bb) /\
    keeps h h' (s_arr Is :: obs o) /\ bufok h' v o' /\ bufnext h o o'.
Proof.
  intros W L B N. pose proof W as (Wa & Wc & _). unfold mstep. remember (mbind _ _ h) as X eqn:EX. unfold mbind at 1 in EX. rewrite sub_ok in EX by lia.
  unfold mbind at 1, load in EX. rewrite sub_rd in EX by lia. replace ((j + 1) * v - j * v) with v in EX by lia.
  set (ij := firstn v (skipn (j * v) (rd h Is))) in *. set (z := big_bytes (be_to_Z ij + be_to_Z Bb + 1)) in *.
  destruct (new_fresh h z) as (h1 & x & E1 & W1 & R1 & A1 & K1). unfold mbind at 1 in EX. rewrite E1 in EX. clear E1.
  pose proof (rd_length h1 x W1) as Lx. rewrite R1 in Lx. pose proof W1 as (_ & Wxc & _).
  set (z' := if v <? List.length z then skipn (List.length z - v) z else z).
  assert (G : exists y, (if v <? s_len x then from x (s_len x - v) else mret x) h1 = (h1, Ret y) /\ wf h1 y /\ rd h1 y = z' /\ s_arr y = s_arr x /\ s_len y <= v).
  { unfold z'. rewrite Lx. destruct (Nat.ltb_spec v (s_len x)).
    - unfold from. rewrite sub_ok by lia. eexists. split; [reflexivity|]. split; [apply sub_wf; auto; lia|]. rewrite sub_rd by lia. rewrite R1.
      split; [|split; [reflexivity|cbn; lia]]. rewrite firstn_all2; [reflexivity|]. rewrite skipn_length. lia.
    - exists x. auto. }
  destruct G as (y & E2 & W2 & R2 & A2 & L2). unfold mbind at 1 in EX. rewrite E2 in EX. clear E2. pose proof (rd_length h1 y W2) as Ly.
  assert (B1 : bufok h1 v o). { destruct o as [b|]; [|exact B]. destruct B. split; [eapply keeps_wf; eauto|auto]. }
  assert (N2 : ~ In (s_arr y) (obs o)). { rewrite A2. destruct o as [b|]; cbn; [|auto]. destruct B as ((Bw & _) & _). intros [E|[]]. lia. }
  destruct (mpad_spec v h1 y o W2 L2 B1 N2) as (h2 & p & o' & E3 & W3 & R3 & K3 & B3 & X3). unfold mbind at 1 in EX. rewrite E3 in EX. clear E3.
  assert (K2 : keeps h h2 (obs o)) by (apply (keeps_trans h h1 h2 [] (obs o)); [exact K1|exact K3|intros a []|intros a Ia; now left]).
  pose proof (keeps_wf _ _ _ _ K2 W) as WI. unfold mbind at 1 in EX. rewrite sub_ok in EX by lia. set (w := subS Is (j * v) ((j + 1) * v)) in *.
  assert (Ww : wf h2 w) by (apply sub_wf; auto; lia).
  assert (Rp : rd h2 p = add_block v ij Bb).
  { rewrite R3. unfold add_block. fold z. fold z'. rewrite <- R2. rewrite Ly. destruct (Nat.ltb_spec (s_len y) v); [reflexivity|].
    replace (v - s_len y) with 0 by lia. reflexivity. }
  assert (Lp : s_len p = v). { rewrite <- (rd_length _ _ W3), R3, app_length, repeat_length. lia. }
  destruct (copyS_spec h2 w p Ww W3) as (E4 & _ & K4). replace (Nat.min (s_len w) (s_len p)) with v in * by (unfold w; cbn [subS s_len]; lia).
  rewrite firstn_all2 in * by (rewrite (rd_length _ _ W3); lia). rewrite Rp in *. unfold mbind in EX. rewrite E4 in EX. clear E4. unfold w in *. rewrite poked_sub in *. rewrite Nat.add_0_r in *. cbn [subS s_arr] in K4.
  pose proof (rd_length h2 p W3) as Lrp. rewrite Rp in Lrp.
  eexists _, o'. split; [exact EX|]. split; [|split; [|split]].
  - rewrite poked_rd by (auto; lia). f_equal. apply (keeps_rd _ _ _ _ K2 W N).
  - apply (keeps_trans h h2 _ (obs o) [s_arr Is]); [exact K2|exact K4|intros a Ia; left; now right|intros a [<-|[]]; left; now left].
  - destruct o' as [b|]; [|exact B3]. destruct B3. split; [eapply keeps_wf; eauto|auto].
  - destruct X3 as [->|(-> & b & -> & Hb)]; [now left|right]. split; [auto|]. exists b. split; [auto|]. pose proof (proj1 K1). lia.
Qed.

Lemma add_block_length v ij B : List.length (add_block v ij B) = v.
Proof.
  unfold add_block. set (z := big_bytes _). destruct (Nat.ltb_spec v (List.length z)).
  - destruct (Nat.ltb_spec (List.length (skipn (List.length z - v) z)) v); rewrite ?app_length, ?repeat_length, ?skipn_length in *; lia.
  - destruct (Nat.ltb_spec (List.length z) v); rewrite ?app_length, ?repeat_length; lia.
Qed.
Lemma bufnext_trans h h' o o' o'' : List.length h <= List.length h' -> bufnext h o o' -> bufnext h' o' o'' -> bufnext h o o''.
Proof.
  intros L [->|(-> & b & -> & Hb)] [->|(E & b' & -> & Hb')]; unfold bufnext; [now left| |right; eauto|discriminate].
  subst. right. split; [auto|]. exists b'. split; [auto|lia].
Qed.
Lemma bufnext_in h o o' a : bufnext h o o' -> In a (obs o') -> In a (obs o) \/ List.length h <= a.
Proof. intros [->|(-> & b & -> & Hb)] H; [now left|]. destruct H as [<-|[]]. now right. Qed.

Lemma mblocks_spec v Bb : forall n j h Is o, wf h Is -> (j + n) * v <= s_len Is -> bufok h v o -> ~ In (s_arr Is) (obs o) ->
  exists h' o', mblocks n j v Is (be_to_Z Bb) o h = (h', Ret o') /\ rd h' Is = blocks_loop n j v Bb (rd h Is) /\
    keeps h h' (s_arr Is :: obs o) /\ bufok h' v o' /\ bufnext h o o'.
Proof.
  induction n as [|n IH]; intros j h Is o W L B N.
  - exists h, o. split; [reflexivity|]. split; [reflexivity|]. split; [apply keeps_refl|]. split; [exact B|now left].
  - cbn [mblocks blocks_loop]. destruct (mstep_spec v j h Is Bb o W ltac:(nia) B N) as (h1 & o1 & E1 & R1 & K1 & B1 & X1).
    unfold mbind. rewrite E1. pose proof (proj1 K1) as L1. pose proof W as (Wa & _).
    destruct (IH (j + 1) h1 Is o1) as (h2 & o2 & E2 & R2 & K2 & B2 & X2).
    { apply (keeps_wf _ _ _ _ K1 W). } { lia. } { exact B1. } { intros C. destruct (bufnext_in _ _ _ _ X1 C); [auto|lia]. }
    exists h2, o2. split; [exact E2|]. split; [|split; [|split; [exact B2|exact (bufnext_trans _ _ _ _ _ L1 X1 X2)]]].
    + rewrite R2, R1. unfold put. rewrite add_block_length. replace (j * v + v) with ((j + 1) * v) by lia. reflexivity.
    + apply (keeps_trans h h1 h2 (s_arr Is :: obs o) (s_arr Is :: obs o1)); [exact K1|exact K2|auto|].
      intros a [<-|C]; [left; now left|]. destruct (bufnext_in _ _ _ _ X1 C); [left; now right|now right].
Qed.

Definition next_I (v i c : nat) (Ab Ib : bytes) : bytes :=
  if i <? c - 1 then blocks_loop (List.length Ib / v) 0 v (firstn v (repeat_to v v Ab [])) Ib else Ib.
Lemma mupdate_spec extra v i c h Ai Is o : 0 < v -> wf h Ai -> rd h Ai <> [] -> wf h Is -> bufok h v o -> ~ In (s_arr Is) (obs o) ->
  exists h' o', mupdate extra v i c Ai Is o h = (h', Ret o') /\ rd h' Is = next_I v i c (rd h Ai) (rd h Is) /\
    keeps h h' (s_arr Is :: obs o) /\ bufok h' v o' /\ bufnext h o o'.
Proof.
  intros Hv WA NA W B N. remember (mupdate extra v i c Ai Is o h) as X eqn:EX. unfold mupdate in EX. unfold next_I. destruct (i <? c - 1).
  2:{ exists h, o. split; [exact EX|]. split; [reflexivity|]. split; [apply keeps_refl|]. split; [exact B|now left]. }
  destruct (new_fresh h []) as (h1 & b & E1 & W1 & R1 & A1 & K1). unfold emptyS in EX. unfold mbind at 1 in EX. rewrite E1 in EX. clear E1.
  destruct (mrepB_spec extra v (rd h Ai) v h h1 Ai b [] (keeps_ext _ _ K1) ltac:(split; auto) WA eq_refl) as (h2 & b2 & E2 & (A2 & W2 & R2) & X2).
  unfold mbind at 1 in EX. rewrite E2 in EX. clear E2. set (Bf := repeat_to v v (rd h Ai) []) in *.
  assert (LB : v <= List.length Bf) by (apply repeat_to_len; [exact NA|cbn; lia]). pose proof (rd_length _ _ W2) as L2. rewrite R2 in L2. pose proof W2 as (_ & W2c & _).
  unfold mbind at 1 in EX. rewrite sub_ok in EX by lia. unfold mbind at 1, load in EX. rewrite sub_rd in EX by lia. rewrite R2, Nat.sub_0_r in EX. cbn [skipn] in EX.
  pose proof (ext_is_keeps h h2 [] X2) as K2. pose proof W as (Wa & _).
  destruct (mblocks_spec v (firstn v Bf) (s_len Is / v) 0 h2 Is o) as (h3 & o3 & E3 & R3 & K3 & B3 & X3).
  { eapply ext_wf; eauto. } { rewrite Nat.add_0_l, Nat.mul_comm. apply Nat.mul_div_le. lia. }
  { destruct o as [bb|]; [|exact B]. destruct B. split; [eapply ext_wf; eauto|auto]. } { exact N. }
  exists h3, o3. split; [rewrite EX; exact E3|]. rewrite (ext_rd _ _ _ X2 W) in R3. rewrite (rd_length _ _ W). split; [exact R3|].
  split; [|split; [exact B3|]].
  - apply (keeps_trans h h2 h3 [] (s_arr Is :: obs o)); [exact K2|exact K3|intros a []|auto].
  - destruct X3 as [->|(-> & bb & -> & Hb)]; [now left|right]. split; [auto|]. exists bb. split; [auto|]. pose proof (ext_length _ _ X2). lia.
Qed.

Lemma hash_loop_ne hash : (forall b, hash b <> []) -> forall n b, b <> [] -> hash_loop hash n b <> [].
Proof. intros H. induction n; intros b Hb; cbn [hash_loop]; auto. Qed.

Lemma mpbkdf_loop_spec extra hash c v r : 0 < v -> (forall b, hash b <> []) -> forall n i h D Is A o,
  wf h D -> wf h Is -> wf h A -> s_arr D <> s_arr Is -> s_arr D <> s_arr A -> s_arr Is <> s_arr A ->
  bufok h v o -> ~ In (s_arr D) (obs o) -> ~ In (s_arr Is) (obs o) -> ~ In (s_arr A) (obs o) -> (i + n) * 20 <= s_len A ->
  exists h', mpbkdf_loop extra hash n i c v r D Is A o h = (h', Ret tt) /\
    rd h' A = pbkdf_loop hash n i c v r (rd h D) (rd h Is) (rd h A) /\
    keeps h h' (s_arr D :: s_arr Is :: s_arr A :: obs o).
Proof.
  intros Hv Hh. induction n as [|n IH]; intros i h D Is A o WD WI WA N1 N2 N3 B ND NI NA L.
  { exists h. split; [reflexivity|]. split; [reflexivity|apply keeps_refl]. }
  cbn [pbkdf_loop]. remember (mpbkdf_loop extra hash (S n) i c v r D Is A o h) as X eqn:EX. cbn [mpbkdf_loop] in EX.
  destruct (appendS_spec extra h D Is WD) as (h1 & DI & E1 & W1 & R1 & RD1 & K1 & A1). unfold mbind at 1 in EX. rewrite E1 in EX. clear E1.
  destruct (mhash_fresh hash h1 DI _ R1) as (h2 & a & E2 & W2 & R2 & A2 & K2). unfold mbind at 1 in EX. rewrite E2 in EX. clear E2.
  destruct (mhash_loop_spec hash (Z.to_nat (r - 1)) h2 a _ W2 R2) as (h3 & Ai & E3 & W3 & R3 & K3 & A3). unfold mbind at 1 in EX. rewrite E3 in EX. clear E3.
  set (Ab := hash_loop hash (Z.to_nat (r - 1)) (hash (rd h D ++ rd h Is))) in *.
  assert (K23 : keeps h1 h3 []) by (apply (keeps_trans h1 h2 h3 [] []); auto).
  assert (K03 : keeps h h3 [s_arr D]) by (apply (keeps_trans h h1 h3 [s_arr D] []); [exact K1|exact K23|auto|intros x []]).
  pose proof (keeps_wf _ _ _ _ K1 WD) as WD1. pose proof (keeps_wf _ _ _ _ K03 WD) as WD3. pose proof (keeps_wf _ _ _ _ K03 WI) as WI3. pose proof (keeps_wf _ _ _ _ K03 WA) as WA3.
  assert (RD3 : rd h3 D = rd h D). { rewrite (keeps_rd _ _ _ _ K23 WD1) by auto. exact RD1. }
  assert (RI3 : rd h3 Is = rd h Is). { apply (keeps_rd _ _ _ _ K03 WI). cbn. tauto. }
  assert (RA3 : rd h3 A = rd h A). { apply (keeps_rd _ _ _ _ K03 WA). cbn. tauto. }
  pose proof (proj1 K1) as L1. pose proof (proj1 K2) as L2. pose proof (proj1 K3) as L3. pose proof WD as (WDa & _). pose proof WI as (WIa & _). pose proof WA as (WAa & WAc & _).
  assert (FA : List.length h <= s_arr Ai) by (destruct A3; lia).
  unfold from in EX. unfold mbind at 1 in EX. rewrite sub_ok in EX by lia. set (t := subS A (i * 20) (s_len A)) in *.
  assert (Wt : wf h3 t) by (apply sub_wf; auto; lia).
  destruct (copyS_spec h3 t Ai Wt W3) as (E4 & _ & K4). unfold mbind at 1 in EX. rewrite E4 in EX. clear E4.
  set (m := Nat.min (s_len t) (s_len Ai)) in *. rewrite R3 in *. unfold t in K4, EX. rewrite poked_sub in *. rewrite Nat.add_0_r in *. cbn [subS s_arr] in K4.
  set (h4 := poked h3 A (i * 20) (firstn m Ab)) in *.
  assert (LAb : List.length Ab = s_len Ai) by (rewrite <- R3; now apply rd_length).
  assert (Lm : List.length (firstn m Ab) = m) by (rewrite firstn_length; unfold m; lia).
  assert (mt : m <= s_len A - i * 20) by (unfold m, t; cbn [subS s_len]; lia).
  assert (RA4 : rd h4 A = copy_at (rd h A) (i * 20) Ab).
  { unfold h4. rewrite poked_rd by (auto; lia). rewrite RA3. unfold put, copy_at. rewrite Lm, (rd_length _ _ WA), LAb. reflexivity. }
  assert (K04 : keeps h h4 [s_arr D; s_arr A]).
  { apply (keeps_trans h h3 h4 [s_arr D] [s_arr A]); [exact K03|exact K4|intros x [<-|[]]; left; now left|intros x [<-|[]]; left; right; now left]. }
  pose proof (keeps_wf _ _ _ _ K4 W3) as W4. pose proof (keeps_wf _ _ _ _ K04 WI) as WI4. pose proof (keeps_wf _ _ _ _ K04 WD) as WD4. pose proof (keeps_wf _ _ _ _ K04 WA) as WA4.
  assert (R4 : rd h4 Ai = Ab). { rewrite (keeps_rd _ _ _ _ K4 W3); [exact R3|]. intros [C|[]]. lia. }
  assert (RI4 : rd h4 Is = rd h Is). { rewrite (keeps_rd _ _ _ _ K04 WI); [auto|]. cbn. intuition congruence. }
  assert (RD4 : rd h4 D = rd h D). { rewrite (keeps_rd _ _ _ _ K4 WD3); [auto|]. cbn. intuition congruence. }
  assert (B4 : bufok h4 v o). { destruct o as [b|]; [|exact B]. destruct B. split; [eapply keeps_wf; eauto|auto]. }
  assert (Ane : rd h4 Ai <> []). { rewrite R4. apply hash_loop_ne; auto. }
  destruct (mupdate_spec extra v i c h4 Ai Is o Hv W4 Ane WI4 B4 NI) as (h5 & o5 & E5 & R5 & K5 & B5 & X5). unfold mbind at 1 in EX. rewrite E5 in EX. clear E5.
  rewrite R4, RI4 in R5.
  assert (K05 : keeps h h5 (s_arr D :: s_arr Is :: s_arr A :: obs o)).
  { apply (keeps_trans h h4 h5 [s_arr D; s_arr A] (s_arr Is :: obs o)); [exact K04|exact K5| |].
    - intros x [<-|[<-|[]]]; left; cbn; auto.
    - intros x [<-|Hx]; left; cbn; auto. }
  assert (L4 : List.length h <= List.length h4) by (exact (proj1 K04)).
  assert (RA5 : rd h5 A = copy_at (rd h A) (i * 20) Ab). { rewrite (keeps_rd _ _ _ _ K5 WA4); [exact RA4|]. cbn. intuition congruence. }
  assert (RD5 : rd h5 D = rd h D). { rewrite (keeps_rd _ _ _ _ K5 WD4); [exact RD4|]. cbn. intuition congruence. }
  assert (Nx : forall s, s_arr s < List.length h -> ~ In (s_arr s) (obs o) -> ~ In (s_arr s) (obs o5)).
  { intros s Hs Hn Hi. destruct (bufnext_in _ _ _ _ X5 Hi); [auto|lia]. }
  destruct (IH (i + 1) h5 D Is A o5) as (h6 & E6 & R6 & K6); auto.
  { apply (keeps_wf _ _ _ _ K05 WD). } { apply (keeps_wf _ _ _ _ K05 WI). } { apply (keeps_wf _ _ _ _ K05 WA). } { lia. }
  exists h6. split; [rewrite EX; exact E6|]. split.
  - rewrite R6, RD5, RA5, R5. reflexivity.
  - apply (keeps_trans h h5 h6 _ _ _ K05 K6); [auto|]. intros x [<-|[<-|[<-|Hx]]]; [left; cbn; auto..|].
    destruct (bufnext_in _ _ _ _ X5 Hx); [left; cbn; auto|right; lia].
Qed.

(** pbkdf.go:33-163 *)
Lemma mpbkdf_sim extra hash h0 u v salt password r ID size :
  (forall b, hash b <> []) -> (0 < u)%Z -> 0 < v -> wf h0 salt -> wf h0 password ->
  sim h0 (mpbkdf extra hash u v salt password r ID size h0)
         (pbkdf hash u (Z.of_nat v) (rd h0 salt) (rd h0 password) r ID size) (own h0).
Proof.
  intros Hh Hu Hv Ws Wp. unfold mpbkdf, pbkdf. rewrite Nat2Z.id.
  set (Sb := fillWithRepeats (rd h0 salt) (Z.of_nat v)). set (Pb := fillWithRepeats (rd h0 password) (Z.of_nat v)).
  destruct (new_fresh h0 []) as (h1 & D0 & E1 & W1 & R1 & A1 & K1). eapply sim_step; [exact E1|]. clear E1.
  destruct (mrepD_spec extra h0 ID v h1 D0 [] (keeps_ext _ _ K1) ltac:(split; auto)) as (h2 & D & E2 & (AD & WD & RD) & X2). eapply sim_step; [exact E2|]. clear E2. cbn [app] in RD.
  pose proof (ext_wf _ _ _ X2 Ws) as Ws2. pose proof (mfill_fresh h2 salt v Hv Ws2) as F3. rewrite (ext_rd _ _ _ X2 Ws) in F3. fold Sb in F3.
  destruct F3 as (h3 & Sl & E3 & W3 & R3 & A3 & K3). eapply sim_step; [exact E3|]. clear E3.
  assert (X3 : ext h0 h3) by (apply (ext_keeps _ _ _ _ X2 K3); intros a []).
  pose proof (ext_wf _ _ _ X3 Wp) as Wp3. pose proof (mfill_fresh h3 password v Hv Wp3) as F4. rewrite (ext_rd _ _ _ X3 Wp) in F4. fold Pb in F4.
  destruct F4 as (h4 & Pl & E4 & W4 & R4 & A4 & K4). eapply sim_step; [exact E4|]. clear E4.
  assert (X4 : ext h0 h4) by (apply (ext_keeps _ _ _ _ X3 K4); intros a []).
  pose proof (ext_length _ _ X2) as L2. pose proof (ext_length _ _ X3) as L3. pose proof (proj1 K3) as L23. pose proof (proj1 K4) as L34.
  assert (K24 : keeps h2 h4 []) by (apply (keeps_trans h2 h3 h4 [] []); auto).
  pose proof (keeps_wf _ _ _ _ K4 W3) as W3'. assert (R3' : rd h4 Sl = Sb) by (rewrite (keeps_rd _ _ _ _ K4 W3) by auto; exact R3).
  destruct (appendS_spec extra h4 Sl Pl W3') as (h5 & Ib & E5 & W5 & R5 & _ & K5 & A5). eapply sim_step; [exact E5|]. clear E5. rewrite R3', R4 in R5.
  assert (K25 : keeps h2 h5 []). { apply (keeps_trans h2 h4 h5 [] [s_arr Sl]); [exact K24|exact K5|intros a []|intros a [<-|[]]; right; lia]. }
  assert (X5 : ext h0 h5) by (apply (ext_keeps _ _ _ _ X2 K25); intros a []).
  assert (AI : List.length h2 <= s_arr Ib) by (destruct A5; lia). pose proof WD as (WDa & _).
  cbv zeta. set (cz := Z.quot (size + u - 1) u). destruct (Z.ltb_spec cz 0) as [Hc|Hc].
  - assert (size < 0)%Z. { destruct (Z.ltb_spec size 0); [auto|]. exfalso. assert (0 <= cz)%Z by (apply Z.quot_pos; lia). lia. }
    destruct (Z.ltb_spec size 0); [|lia]. split; [exact X5|exact Logic.I].
  - destruct (new_fresh h5 (repeat 0%Z (Z.to_nat cz * 20))) as (h6 & A & E6 & W6 & R6 & A6 & K6). pose proof E6 as E6'. eapply sim_step; [exact E6|].
    assert (CA : s_cap A = Z.to_nat cz * 20). { unfold new, alloc in E6'. injection E6' as _ <-. cbn [s_cap]. apply repeat_length. } clear E6 E6'.
    pose proof (rd_length _ _ W6) as L6. rewrite R6, repeat_length in L6.
    pose proof (proj1 K25) as L25. pose proof W5 as (W5a & _). pose proof (ext_length _ _ X5) as L05.
    assert (K26 : keeps h2 h6 []) by (apply (keeps_trans h2 h5 h6 [] []); [exact K25|exact K6|intros a []|intros a []]).
    destruct (mpbkdf_loop_spec extra hash (Z.to_nat cz) v r Hv Hh (Z.to_nat cz) 0 h6 D Ib A None) as (h7 & E7 & R7 & K7); cbn; auto.
    { apply (keeps_wf _ _ _ _ K26 WD). } { apply (keeps_wf _ _ _ _ K6 W5). } { lia. } { lia. } { lia. } { lia. }
    eapply sim_step; [exact E7|]. clear E7.
    rewrite (keeps_rd _ _ _ _ K26 WD), (keeps_rd _ _ _ _ K6 W5), RD, R5, R6 in R7 by auto. rewrite <- R7. set (Af := rd h7 A) in *.
    assert (X6 : ext h0 h6) by (apply (ext_keeps _ _ _ _ X5 K6); intros a []).
    assert (X7 : ext h0 h7). { apply (ext_keeps _ _ _ _ X6 K7). cbn. intros a [<-|[<-|[<-|[]]]]; lia. }
    pose proof (keeps_wf _ _ _ _ K7 W6) as W7. pose proof (rd_length _ _ W7) as L7. fold Af in L7. unfold zlen. rewrite L7, <- L6.
    destruct (Z.ltb_spec size 0); cbn [orb]; [split; [exact X7|exact Logic.I]|]. unfold sub. rewrite CA. cbn [Nat.leb andb].
    destruct (Nat.leb_spec (Z.to_nat size) (Z.to_nat cz * 20)) as [Hs|Hs].
    + destruct (Z.ltb_spec (Z.of_nat (Z.to_nat cz * 20)) size); [lia|]. change (mkS (s_arr A) (s_off A + 0) (Z.to_nat size - 0) (Z.to_nat cz * 20 - 0)) with (mkS (s_arr A) (s_off A + 0) (Z.to_nat size - 0) (Z.to_nat cz * 20 - 0)).
      rewrite <- CA. change (mkS (s_arr A) (s_off A + 0) (Z.to_nat size - 0) (s_cap A - 0)) with (subS A 0 (Z.to_nat size)).
      split; [exact X7|]. cbn [snd mret fst]. split; [cbn [subS s_arr]; lia|]. split; [apply sub_wf; auto; lia|].
      rewrite sub_rd by lia. rewrite Nat.sub_0_r. reflexivity.
    + destruct (Z.ltb_spec (Z.of_nat (Z.to_nat cz * 20)) size); [|lia]. split; [exact X7|exact Logic.I].
Qed.
