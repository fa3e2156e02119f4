(** * The memory models of sm3.go and sm2.go (MemSM) compute what the list models compute *)
From Coq Require Import PeanoNat.
From Verif Require Import Base Words SM3Spec SM3Model SM3Proofs ECModel SM2Model SM2EncProofs Mem MemSM.
Local Open Scope nat_scope.

Lemma keeps_view h h' A d : keeps h h' A -> m_x d < List.length h -> ~ In (m_x d) A -> view h' d = view h d.
Proof. intros K H N. unfold view. now rewrite (keeps_arr _ _ _ _ K). Qed.
Lemma keeps_obj h h' A d : keeps h h' A -> obj h d -> obj h' d.
Proof. intros [L K] [A1 A2]. split; [lia|]. destruct (K _ A1) as [E _]. lia. Qed.
Ltac notin := intros [?|[]]; congruence || lia.

(** sm3.go:87-118 *)
Lemma mcheckSum_spec h d : obj h d ->
  match sm3_checkSum (view h d) with
  | Ret b => exists h' s, mcheckSum d h = (h', Ret s) /\ wf h' s /\ rd h' s = b /\ List.length h <= s_arr s /\ keeps h h' [m_x d]
  | Panic => exists h', mcheckSum d h = (h', Panic) /\ keeps h h' [m_x d]
  | Err _ => False
  end.
Proof.
  intros O. pose proof O as [Ox _]. remember (mcheckSum d h) as X eqn:EX. unfold sm3_checkSum. unfold mcheckSum in EX. cbn [view d_len].
  set (k := (if (m_len d mod 64 <? 56)%Z then 56 - m_len d mod 64 else 64 + 56 - m_len d mod 64)%Z).
  fold k in EX. set (tb := (0x80%Z :: repeat 0%Z 63)) in *. assert (Ltb : List.length tb = 64) by reflexivity.
  set (h1 := h ++ [tb]). set (tmp := mkS (List.length h) 0 64 64).
  assert (E1 : new tb h = (h1, Ret tmp)) by (unfold new, alloc; rewrite Ltb; reflexivity).
  unfold mbind at 1 in EX. rewrite E1 in EX.
  assert (K1 : keeps h h1 []) by apply keeps_alloc.
  assert (Wt : wf h1 tmp) by (unfold tmp; rewrite <- Ltb at 1; rewrite <- Ltb; apply new_wf; lia).
  assert (Rt : rd h1 tmp = tb). { unfold tmp. rewrite <- Ltb. unfold h1. rewrite new_rd. apply firstn_all. }
  destruct ((0 <=? k) && (k <=? 64))%Z eqn:Ek; cbn [negb] in *.
  2:{ exists h1. split; [exact EX|]. now apply keeps_nil_any. }
  apply andb_prop in Ek as [Ek1 Ek2]. apply Z.leb_le in Ek1, Ek2.
  unfold mbind at 1 in EX. rewrite sub_ok in EX by (cbn; lia). set (t := subS tmp 0 (Z.to_nat k)) in *.
  assert (Wt1 : wf h1 t) by (apply sub_wf; auto; cbn; lia).
  assert (Rt1 : rd h1 t = firstn (Z.to_nat k) tb) by (unfold t; rewrite sub_rd by (cbn; lia); rewrite Rt, Nat.sub_0_r; reflexivity).
  pose proof (mWrite_spec h1 d t (keeps_obj _ _ _ _ K1 O) Wt1) as W1. cbn [t subS s_arr tmp] in W1. specialize (W1 ltac:(lia)).
  fold tmp t in W1. rewrite Rt1, (keeps_view _ _ _ _ K1 Ox) in W1 by (intros []).
  unfold mbind at 1 in EX. clearbody tb.
  destruct (sm3_Write (view h d) (firstn (Z.to_nat k) tb)) as [[dg1 n1]| |]; [|contradiction|].
  2:{ cbn [bind]. rewrite W1 in EX. exists h1. split; [exact EX|]. now apply keeps_nil_any. }
  destruct W1 as (h2 & d2 & W1 & V2 & X2 & O2 & K2 & L2). rewrite W1 in EX. cbn [bind].
  set (len := (Z.shiftl (m_len d) 3 mod 2 ^ 64)%Z). fold len in EX. set (pb := PutUint64 len) in *.
  assert (Lpb : List.length pb = 8) by (unfold pb, PutUint64; apply Z_to_be_length). clearbody pb.
  assert (Wt2 : wf h2 tmp) by (eapply keeps_wf; eauto).
  unfold mbind at 1 in EX. unfold poke at 1 in EX. fold (poked h2 tmp 0 pb) in EX. set (h3 := poked h2 tmp 0 pb) in *.
  assert (K3 : keeps h2 h3 [List.length h]) by (apply (keeps_poked h2 tmp 0 pb); auto; rewrite Lpb; cbn; lia).
  assert (R3 : rd h3 tmp = put (rd h2 tmp) 0 pb) by (apply poked_rd; auto; rewrite Lpb; cbn; lia).
  unfold mbind at 1 in EX. rewrite sub_ok in EX by (cbn; lia). set (t' := subS tmp 0 8) in *.
  assert (W3 : wf h3 t') by (apply sub_wf; [eapply keeps_wf; eauto| |]; cbn; lia).
  assert (Rt' : rd h3 t' = pb).
  { unfold t'. rewrite sub_rd by (cbn; lia). rewrite R3. rewrite Nat.sub_0_r. rewrite <- Lpb at 1. apply put_read. lia. }
  assert (M2 : m_x d2 < List.length h2) by apply O2.
  assert (N2 : m_x d2 <> List.length h) by lia.
  pose proof (mWrite_spec h3 d2 t' (keeps_obj _ _ _ _ K3 O2) W3) as W2. cbn [t' subS s_arr tmp] in W2. specialize (W2 ltac:(lia)).
  fold tmp t' in W2. rewrite Rt', (keeps_view _ _ _ _ K3 M2), V2 in W2 by notin.
  unfold mbind at 1 in EX.
  assert (K13 : keeps h h3 [m_x d]).
  { apply (keeps_trans h h1 h3 [] [m_x d; List.length h] [m_x d]); auto.
    - apply (keeps_trans h1 h2 h3 [m_x d] [List.length h]); auto; intros a [<-|[]]; left; [now left|right; now left].
    - intros a []. 
    - intros a [<-|[<-|[]]]; [left; now left|right; lia]. }
  destruct (sm3_Write dg1 pb) as [[dg2 n2]| |]; [|contradiction|].
  2:{ cbn [bind]. rewrite W2 in EX. exists h3. split; [exact EX|]. exact K13. }
  destruct W2 as (h4 & d4 & W2 & V4 & X4 & O4 & K4 & L4). rewrite W2 in EX. cbn [bind].
  assert (K14 : keeps h h4 [m_x d]).
  { apply (keeps_trans h h3 h4 [m_x d] [m_x d2]); auto. intros a [<-|[]]. left. rewrite X2. now left. }
  subst dg2. cbn [view d_nx d_h].
  destruct (m_nx d4 =? 0) eqn:E4; rewrite ?E4 in EX; cbn [negb] in *; [|exists h4; split; [exact EX|exact K14]].
  set (b := PutUint32 _ ++ _) in *. unfold new, alloc in EX. eexists _, _. split; [exact EX|].
  split; [now apply new_wf|]. split; [rewrite new_rd; apply firstn_all|]. split; [cbn; destruct K14; lia|].
  apply (keeps_trans h h4 _ [m_x d] []); auto; [apply keeps_alloc|intros ? []].
Qed.

(** sm3.go:80-85 *)
Lemma mSum_spec extra h d inp : obj h d -> wf h inp ->
  match sm3_Sum_method (view h d) (rd h inp) with
  | Ret b => exists h' s, mSum extra d inp h = (h', Ret s) /\ wf h' s /\ rd h' s = b /\ rd h' inp = rd h inp /\
      keeps h h' [s_arr inp] /\ (s_arr s = s_arr inp \/ List.length h <= s_arr s)
  | Panic => exists h', mSum extra d inp h = (h', Panic) /\ keeps h h' [s_arr inp]
  | Err _ => False
  end.
Proof.
  intros O W. pose proof O as [Ox Oy]. remember (mSum extra d inp h) as X eqn:EX. unfold mSum in EX. unfold sm3_Sum_method. unfold mbind at 1, load at 1 in EX. rewrite buf_rd in EX by auto.
  unfold mbind at 1 in EX. unfold new at 1, alloc at 1 in EX. cbn [s_arr] in EX. set (h1 := h ++ [arr h (m_x d)]) in *.
  set (d1 := mkM (m_h d) (List.length h) (m_nx d) (m_len d)) in *.
  assert (K1 : keeps h h1 []) by apply keeps_alloc.
  assert (O1 : obj h1 d1). { split; cbn; unfold h1; [rewrite app_length; cbn; lia|]. rewrite arr_app_new. exact Oy. }
  assert (V1 : view h1 d1 = view h d). { unfold view, d1, h1. cbn [m_h m_x m_nx m_len]. now rewrite arr_app_new. }
  pose proof (mcheckSum_spec h1 d1 O1) as C. rewrite V1 in C. unfold mbind in EX.
  destruct (sm3_checkSum (view h d)) as [hash| |]; [|contradiction|].
  - destruct C as (h2 & s & C & Ws & Rs & As & K2). rewrite C in EX. cbn [bind].
    assert (K12 : keeps h h2 []).
    { apply (keeps_trans h h1 h2 [] [List.length h]); auto. intros a [<-|[]]. right. lia. }
    assert (Wi : wf h2 inp) by (eapply keeps_wf; eauto).
    destruct (appendS_spec extra h2 inp s Wi) as (h3 & s3 & A & W3 & R3 & R3' & K3 & A3). rewrite A in EX.
    assert (Ri : rd h2 inp = rd h inp) by (eapply keeps_rd; eauto; intros []).
    exists h3, s3. split; [exact EX|]. split; [exact W3|]. split; [congruence|]. split; [congruence|]. split.
    + apply (keeps_trans h h2 h3 [] [s_arr inp]); auto. intros a [].
    + destruct A3 as [A3|A3]; [now left|]. right. destruct K12; lia.
  - destruct C as (h2 & C & K2). rewrite C in EX. cbn [bind]. exists h2. split; [exact EX|].
    apply (keeps_trans h h1 h2 [] [List.length h]); auto; intros a I; [destruct I|]. destruct I as [<-|[]]. right. lia.
Qed.

Lemma mNew_spec h : exists h' d, mNew h = (h', Ret d) /\ obj h' d /\ view h' d = sm3_New /\ m_x d = List.length h /\ keeps h h' [].
Proof.
  unfold mNew, mbind, new, alloc, mret. eexists _, _. split; [reflexivity|].
  split; [split; cbn [mReset m_x s_arr]; [rewrite app_length; cbn; lia|rewrite arr_app_new; reflexivity]|].
  split; [unfold view; cbn [mReset m_h m_x m_nx m_len s_arr]; rewrite arr_app_new; reflexivity|]. split; [reflexivity|]. apply keeps_alloc.
Qed.

(** sm3.go:193-198: reads the argument, changes nothing that was there, and the digest is new memory *)
Lemma mSum3_spec h p : wf h p ->
  match sm3_Sum (rd h p) with
  | Ret b => exists h' s, mSum3 p h = (h', Ret s) /\ wf h' s /\ rd h' s = b /\ List.length h <= s_arr s /\ keeps h h' []
  | Panic => exists h', mSum3 p h = (h', Panic) /\ keeps h h' []
  | Err _ => False
  end.
Proof.
  intros W. remember (mSum3 p h) as X eqn:EX. unfold mSum3 in EX. unfold sm3_Sum. destruct (mNew_spec h) as (h1 & d & E1 & O1 & V1 & X1 & K1). unfold mbind at 1 in EX. rewrite E1 in EX.
  assert (W1 : wf h1 p) by (eapply keeps_wf; eauto). pose proof W as (Wa & _).
  pose proof (mWrite_spec h1 d p O1 W1 ltac:(lia)) as Wr. rewrite V1 in Wr.
  rewrite (keeps_rd _ _ _ p K1 W) in Wr by (intros []). change (sm3_Reset zero_digest) with sm3_New. unfold mbind in EX.
  destruct (sm3_Write sm3_New (rd h p)) as [[dg n]| |]; [|contradiction|].
  2:{ rewrite Wr in EX. exists h1. split; [exact EX|]. exact K1. }
  destruct Wr as (h2 & d2 & E2 & V2 & X2 & O2 & K2 & L2). rewrite E2 in EX. cbn [bind].
  assert (K12 : keeps h h2 []).
  { apply (keeps_trans h h1 h2 [] [m_x d]); auto. intros a [<-|[]]. right. lia. }
  pose proof (mcheckSum_spec h2 d2 O2) as C. rewrite V2 in C.
  destruct (sm3_checkSum dg) as [b| |]; [|contradiction|].
  - destruct C as (h3 & s & C & Ws & Rs & As & K3). exists h3, s. split; [congruence|]. split; [exact Ws|]. split; [exact Rs|].
    split; [destruct K12; lia|]. apply (keeps_trans h h2 h3 [] [m_x d2]); auto. intros a [<-|[]]. right. lia.
  - destruct C as (h3 & C & K3). exists h3. split; [congruence|]. apply (keeps_trans h h2 h3 [] [m_x d2]); auto. intros a [<-|[]]. right. lia.
Qed.

(** ** sm2.go *)
Lemma checkSum_len d b : sm3_checkSum d = Ret b -> List.length b = 32.
Proof.
  unfold sm3_checkSum. destruct (negb _); [discriminate|]. destruct (sm3_Write d _) as [[d1 n1]| |]; cbn [bind]; try discriminate.
  destruct (sm3_Write d1 _) as [[d2 n2]| |]; cbn [bind]; try discriminate. destruct (negb _); [discriminate|]. intros [= <-]. reflexivity.
Qed.
(** a call that returns new memory and changes nothing that was there *)
Definition fresh (h : heap) (x : heap * outcome slc) (b : bytes) : Prop :=
  exists h' s, x = (h', Ret s) /\ wf h' s /\ rd h' s = b /\ List.length h <= s_arr s /\ keeps h h' [].
Lemma new_fresh h b : fresh h (new b h) b.
Proof.
  unfold new, alloc. eexists _, _. split; [reflexivity|]. split; [now apply new_wf|]. split; [rewrite new_rd; apply firstn_all|].
  split; [cbn; lia|]. apply keeps_alloc.
Qed.
Lemma mAppendBig_spec extra bn h : fresh h (mAppendBig extra bn h) (appendBigIntTo32Bytes bn).
Proof.
  unfold mAppendBig, appendBigIntTo32Bytes. destruct (new_fresh h (big_bytes bn)) as (h1 & s & E1 & W1 & R1 & A1 & K1).
  unfold mbind at 1. rewrite E1. assert (L : s_len s = List.length (big_bytes bn)) by (rewrite <- R1; symmetry; apply rd_length; auto).
  rewrite <- L. destruct (Nat.ltb_spec (s_len s) 32) as [Hs|Hs].
  2:{ exists h1, s. unfold mret. auto 10. }
  destruct (new_fresh h1 (repeat 0%Z 32)) as (h2 & z & E2 & W2 & R2 & A2 & K2). unfold mbind at 1. rewrite E2.
  assert (Lz : s_len z = 32) by (rewrite <- (rd_length h2 z W2), R2; reflexivity).
  pose proof W2 as (_ & Wc & _). unfold mbind at 1. rewrite sub_ok by lia. set (z' := subS z 0 (32 - s_len s)).
  assert (Wz : wf h2 z') by (apply sub_wf; auto; lia).
  destruct (appendS_spec extra h2 z' s Wz) as (h3 & r & E3 & W3 & R3 & _ & K3 & A3). rewrite E3.
  assert (Rs : rd h2 s = big_bytes bn) by (rewrite (keeps_rd _ _ _ s K2 W1); [exact R1|intros []]).
  pose proof (proj1 K1). pose proof (proj1 K2).
  assert (K12 : keeps h h2 []) by (apply (keeps_trans h h1 h2 [] []); auto).
  exists h3, r. split; [reflexivity|]. split; [exact W3|]. split; [|split].
  - rewrite R3, Rs. f_equal. unfold z'. rewrite sub_rd by lia. rewrite R2, Nat.sub_0_r. cbn [skipn].
    rewrite firstn_repeat. f_equal. lia.
  - cbn [z' subS s_arr] in A3. destruct A3; lia.
  - apply (keeps_trans h h2 h3 [] [s_arr z']); auto. intros a [<-|[]]. right. cbn. lia.
Qed.

Lemma mkdf_loop_sim extra h0 klen xb yb : forall n h d ct x y out,
  ext h0 h -> obj h d -> List.length h0 <= m_x d -> wf h x -> wf h y -> wf h out -> List.length h0 <= s_arr out ->
  s_arr x <> m_x d -> s_arr y <> m_x d -> s_arr out <> m_x d -> s_arr out <> s_arr x -> s_arr out <> s_arr y ->
  rd h x = xb -> rd h y = yb ->
  sim h0 (mkdf_loop extra n d klen ct x y out h) (kdf_loop n (view h d) klen ct xb yb (rd h out)) (fun h' s b => own h0 h' s b).
Proof.
  induction n as [|n IH]; intros h d ct x y out E O Od Wx Wy Wo Oo Nx Ny No Nox Noy Rx Ry; cbn [mkdf_loop kdf_loop].
  { apply sim_ret; [exact E|]. split; [exact Oo|]. auto. }
  unfold dWrite at 1.
  (* Write(xBytes) *)
  pose proof (mWrite_spec h d x O Wx Nx) as S1. rewrite Rx in S1.
  destruct (sm3_Write (view h d) xb) as [[dg1 n1]| |]; [|contradiction|].
  2:{ cbn [bind]. unfold mbind at 1. rewrite S1. split; [exact E|exact I]. }
  destruct S1 as (h1 & d1 & S1 & V1 & X1 & O1 & K1 & L1). cbn [bind].
  eapply sim_step; [exact S1|]. cbv beta iota.
  assert (E1 : ext h0 h1) by (eapply ext_keeps; eauto; intros a [<-|[]]; auto).
  assert (Wx1 : wf h1 x) by (eapply keeps_wf; eauto). assert (Wy1 : wf h1 y) by (eapply keeps_wf; eauto). assert (Wo1 : wf h1 out) by (eapply keeps_wf; eauto).
  assert (Rx1 : rd h1 x = xb) by (rewrite (keeps_rd _ _ _ x K1 Wx); [auto|notin]). assert (Ry1 : rd h1 y = yb) by (rewrite (keeps_rd _ _ _ y K1 Wy); [auto|notin]).
  assert (Ro1 : rd h1 out = rd h out) by (apply (keeps_rd _ _ _ out K1 Wo); notin).
  (* Write(yBytes) *)
  unfold dWrite at 1.
  pose proof (mWrite_spec h1 d1 y O1 Wy1 ltac:(congruence)) as S2. rewrite Ry1, V1 in S2.
  destruct (sm3_Write dg1 yb) as [[dg2 n2]| |]; [|contradiction|].
  2:{ cbn [bind]. unfold mbind at 1. rewrite S2. split; [exact E1|exact I]. }
  destruct S2 as (h2 & d2 & S2 & V2 & X2 & O2 & K2 & L2). cbn [bind].
  eapply sim_step; [exact S2|]. cbv beta iota. rewrite X1 in *.
  assert (E2 : ext h0 h2) by (eapply ext_keeps; eauto; intros a [<-|[]]; auto).
  assert (Wx2 : wf h2 x) by (eapply keeps_wf; eauto). assert (Wy2 : wf h2 y) by (eapply keeps_wf; eauto). assert (Wo2 : wf h2 out) by (eapply keeps_wf; eauto).
  assert (Rx2 : rd h2 x = xb) by (rewrite (keeps_rd _ _ _ x K2 Wx1); [auto|notin]). assert (Ry2 : rd h2 y = yb) by (rewrite (keeps_rd _ _ _ y K2 Wy1); [auto|notin]).
  assert (Ro2 : rd h2 out = rd h out) by (rewrite (keeps_rd _ _ _ out K2 Wo1); [auto|notin]).
  (* Write(intToBytes(ct)) *)
  unfold dWrite at 1. unfold mIntToBytes. destruct (new_fresh h2 (intToBytes ct)) as (h3 & ib & S3 & W3 & R3 & A3 & K3).
  eapply sim_step; [exact S3|]. cbv beta.
  assert (E3 : ext h0 h3) by (eapply ext_keeps; eauto; intros a []).
  assert (Wx3 : wf h3 x) by (eapply keeps_wf; eauto). assert (Wy3 : wf h3 y) by (eapply keeps_wf; eauto). assert (Wo3 : wf h3 out) by (eapply keeps_wf; eauto).
  assert (Rx3 : rd h3 x = xb) by (rewrite (keeps_rd _ _ _ x K3 Wx2); [auto|intros []]). assert (Ry3 : rd h3 y = yb) by (rewrite (keeps_rd _ _ _ y K3 Wy2); [auto|intros []]).
  assert (Ro3 : rd h3 out = rd h out) by (rewrite (keeps_rd _ _ _ out K3 Wo2); [auto|intros []]).
  assert (Ox2 : m_x d2 < List.length h2) by apply O2.
  pose proof (mWrite_spec h3 d2 ib (keeps_obj _ _ _ _ K3 O2) W3 ltac:(lia)) as S4.
  rewrite R3, (keeps_view _ _ _ _ K3 Ox2), V2 in S4 by (intros []).
  destruct (sm3_Write dg2 (intToBytes ct)) as [[dg4 n4]| |]; [|contradiction|].
  2:{ cbn [bind]. unfold mbind at 1. rewrite S4. split; [exact E3|exact I]. }
  destruct S4 as (h4 & d4 & S4 & V4 & X4 & O4 & K4 & L4). cbn [bind].
  eapply sim_step; [exact S4|]. cbv beta iota. rewrite X2 in *.
  assert (E4 : ext h0 h4) by (eapply ext_keeps; eauto; intros a [<-|[]]; auto).
  assert (Wx4 : wf h4 x) by (eapply keeps_wf; eauto). assert (Wy4 : wf h4 y) by (eapply keeps_wf; eauto). assert (Wo4 : wf h4 out) by (eapply keeps_wf; eauto).
  assert (Rx4 : rd h4 x = xb) by (rewrite (keeps_rd _ _ _ x K4 Wx3); [auto|notin]). assert (Ry4 : rd h4 y = yb) by (rewrite (keeps_rd _ _ _ y K4 Wy3); [auto|notin]).
  assert (Ro4 : rd h4 out = rd h out) by (rewrite (keeps_rd _ _ _ out K4 Wo3); [auto|notin]).
  (* Sum(nil) *)
  destruct (new_fresh h4 []) as (h5 & e & S5 & W5 & R5 & A5 & K5). eapply sim_step; [exact S5|]. cbv beta.
  assert (E5 : ext h0 h5) by (eapply ext_keeps; eauto; intros a []).
  assert (Ox4 : m_x d4 < List.length h4) by apply O4.
  pose proof (mSum_spec extra h5 d4 e (keeps_obj _ _ _ _ K5 O4) W5) as S6.
  rewrite R5, (keeps_view _ _ _ _ K5 Ox4), V4 in S6 by (intros []).
  destruct (sm3_Sum_method dg4 []) as [hb| |] eqn:Eh; [|contradiction|].
  2:{ cbn [bind]. destruct S6 as (h6 & S6 & K6). unfold mbind at 1. rewrite S6. split; [|exact I]. eapply ext_keeps; eauto. intros a [<-|[]]. destruct (ext_length _ _ E4). lia. lia. }
  assert (Lh : List.length hb = 32).
  { unfold sm3_Sum_method in Eh. destruct (sm3_checkSum dg4) eqn:Ec; cbn [bind] in Eh; try discriminate. injection Eh as <-. eapply checkSum_len; eauto. }
  destruct S6 as (h6 & hs & S6 & W6 & R6 & _ & K6 & A6). cbn [bind]. eapply sim_step; [exact S6|]. cbv beta.
  assert (Lh0 : List.length h0 <= List.length h4) by (apply ext_length; auto).
  pose proof (proj1 K5) as L5. pose proof (proj1 K6) as L6.
  assert (Ahs : List.length h4 <= s_arr hs) by (destruct A6; lia).
  assert (K46 : keeps h4 h6 []).
  { apply (keeps_trans h4 h5 h6 [] [s_arr e]); auto. intros a [<-|[]]. right. lia. }
  assert (E6 : ext h0 h6) by (apply (ext_keeps h0 h4 h6 [] E4 K46); intros a []).
  assert (Wx6 : wf h6 x) by (exact (keeps_wf _ _ _ _ K46 Wx4)). assert (Wy6 : wf h6 y) by (exact (keeps_wf _ _ _ _ K46 Wy4)). assert (Wo6 : wf h6 out) by (exact (keeps_wf _ _ _ _ K46 Wo4)).
  assert (Rx6 : rd h6 x = xb) by (rewrite (keeps_rd _ _ _ x K46 Wx4); [auto|intros []]). assert (Ry6 : rd h6 y = yb) by (rewrite (keeps_rd _ _ _ y K46 Wy4); [auto|intros []]).
  assert (Ro6 : rd h6 out = rd h out) by (rewrite (keeps_rd _ _ _ out K46 Wo4); [auto|intros []]).
  assert (O6 : obj h6 d4) by (exact (keeps_obj _ _ _ _ K46 O4)).
  assert (V6 : view h6 d4 = dg4) by (rewrite (keeps_view _ _ _ _ K46 Ox4); [exact V4|intros []]).
  assert (Lhs : s_len hs = 32) by (rewrite <- (rd_length h6 hs W6), R6; exact Lh). pose proof W6 as (_ & Wc6 & _).
  (* out = append(out, hash[...]...) *)
  assert (App : forall p pb, wf h6 p -> rd h6 p = pb -> forall g, (forall h' s', ext h0 h' -> wf h' s' -> rd h' s' = rd h out ++ pb -> keeps h6 h' [s_arr out] ->
              (s_arr s' = s_arr out \/ List.length h6 <= s_arr s') -> sim h0 (mkdf_loop extra n d4 klen (ct + 1) x y s' h') g (fun h' s b => own h0 h' s b)) ->
            exists h' s', appendS extra out p h6 = (h', Ret s') /\ sim h0 (mkdf_loop extra n d4 klen (ct + 1) x y s' h') g (fun h' s b => own h0 h' s b)).
  { intros p pb Wp Rp g Hg. destruct (appendS_spec extra h6 out p Wo6) as (h7 & s' & S7 & W7 & R7 & _ & K7 & A7).
    exists h7, s'. split; [exact S7|]. apply Hg; auto.
    - eapply ext_keeps; eauto. intros a [<-|[]]; auto.
    - now rewrite R7, Ro6, Rp.
    - destruct A7; [now left|right; lia]. }
  assert (Fin : forall pb, forall h' s', ext h0 h' -> wf h' s' -> rd h' s' = rd h out ++ pb -> keeps h6 h' [s_arr out] ->
              (s_arr s' = s_arr out \/ List.length h6 <= s_arr s') ->
              sim h0 (mkdf_loop extra n d4 klen (ct + 1) x y s' h') (kdf_loop n dg4 klen (ct + 1) xb yb (rd h out ++ pb)) (fun h' s b => own h0 h' s b)).
  { intros pb h' s' E7 W7 R7 K7 A7. rewrite <- R7. assert (Vd : view h' d4 = dg4) by (rewrite (keeps_view _ _ _ _ K7); [exact V6|apply O6|notin]).
    rewrite <- Vd. pose proof (proj1 Wx) as Bx. pose proof (proj1 Wy) as By. pose proof (proj1 Wo) as Bo. pose proof (proj1 K4) as L4'. pose proof (proj1 K3) as L3'.
    apply IH; auto; try (eapply keeps_wf; eauto; fail); try congruence.
    - eapply keeps_obj; eauto.
    - destruct A7 as [->|A7]; lia.
    - destruct A7 as [->|A7]; [congruence|]. destruct O6; lia.
    - destruct A7 as [->|A7]; [congruence|]. lia.
    - destruct A7 as [->|A7]; [congruence|]. lia.
    - rewrite (keeps_rd _ _ _ x K7 Wx6); [auto|notin].
    - rewrite (keeps_rd _ _ _ y K7 Wy6); [auto|notin]. }
  destruct (Z.rem klen 32 =? 0)%Z eqn:Er; cbn [negb].
  - destruct (App hs hb W6 R6 _ (Fin hb)) as (h7 & s' & S7 & G). eapply sim_step; [exact S7|]. exact G.
  - assert (Bk : Z.to_nat (Z.rem klen 32) <= 32).
    { destruct (Z.le_gt_cases 0 klen) as [P|P]; [pose proof (Z.rem_bound_pos klen 32 P ltac:(lia)); lia|].
      pose proof (Z.rem_nonpos klen 32 ltac:(discriminate) ltac:(lia)). lia. }
    set (q := subS hs 0 (Z.to_nat (Z.rem klen 32))).
    assert (Wq : wf h6 q) by (apply sub_wf; auto; lia).
    assert (Rq : rd h6 q = firstn (Z.to_nat (Z.rem klen 32)) hb) by (unfold q; rewrite sub_rd by lia; rewrite R6, Nat.sub_0_r; reflexivity).
    destruct (App q _ Wq Rq _ (Fin _)) as (h7 & s' & S7 & G). eapply sim_step; [|exact G].
    unfold mbind. rewrite sub_ok by lia. exact S7.
Qed.

Definition oown (h0 : heap) (h : heap) (s : option slc) (b : option bytes) : Prop :=
  match s, b with Some s, Some b => own h0 h s b | None, None => True | _, _ => False end.
(** sm2.go:419-445 *)
Lemma mkdf_sim extra h0 klen x y : sim h0 (mkdf extra klen x y h0) (kdf klen x y) (oown h0).
Proof.
  unfold mkdf, kdf. cbv zeta. destruct (new_fresh h0 []) as (h1 & o & S1 & W1 & R1 & A1 & K1). eapply sim_step; [exact S1|].
  destruct (mNew_spec h1) as (h2 & d & S2 & O2 & V2 & X2 & K2). eapply sim_step; [exact S2|].
  destruct (mAppendBig_spec extra x h2) as (h3 & xs & S3 & W3 & R3 & A3 & K3). eapply sim_step; [exact S3|].
  destruct (mAppendBig_spec extra y h3) as (h4 & ys & S4 & W4 & R4 & A4 & K4). eapply sim_step; [exact S4|].
  cbv beta. pose proof (proj1 K1) as L1. pose proof (proj1 K2) as L2. pose proof (proj1 K3) as L3. pose proof (proj1 K4) as L4.
  pose proof (proj1 W1) as B1. pose proof (proj1 W3) as B3. pose proof (proj1 O2) as B2.
  assert (K24 : keeps h2 h4 []) by (apply (keeps_trans h2 h3 h4 [] []); auto).
  assert (K14 : keeps h1 h4 []) by (apply (keeps_trans h1 h2 h4 [] []); auto).
  assert (K04 : keeps h0 h4 []) by (apply (keeps_trans h0 h1 h4 [] []); auto).
  assert (Ro : rd h4 o = []) by (rewrite (keeps_rd _ _ _ o K14 W1); [exact R1|intros []]).
  assert (Rx : rd h4 xs = appendBigIntTo32Bytes x) by (rewrite (keeps_rd _ _ _ xs K4 W3); [exact R3|intros []]).
  assert (Vd : view h4 d = sm3_New) by (rewrite (keeps_view _ _ _ _ K24); auto).
  rewrite <- Vd, <- Ro at 1.
  eapply sim_bind; [apply mkdf_loop_sim; auto|].
  all: try (now apply keeps_ext); try exact (keeps_obj _ _ _ _ K24 O2); try exact (keeps_wf _ _ _ _ K4 W3); try exact (keeps_wf _ _ _ _ K14 W1); try lia.
  cbv beta. intros h' s b E' (A & W & R). unfold mbind, load, mret. rewrite R. split; [exact E'|]. cbn [snd fst].
    destruct (existsb _ b); [|exact I]. split; auto.
Qed.
