(** * Properties C105, C106: memory (package sm3 and sm2).  Slices are windows on arrays that may overlap and have spare
    capacity; [extra], the growth policy of append, is arbitrary. *)
From Coq Require Import PeanoNat String.
From Verif Require Import Base Words SM3Spec SM3Model SM3Proofs ECModel SM2Model SM2EncProofs Mem MemSM MemSMProofs MemEnc.
Local Open Scope nat_scope.

(** ** C105.  One hash object in a memory that everybody else uses, too.
    A history: calls on the object with arbitrary slices of the caller's memory (they may overlap each other, earlier
    arguments and earlier results in any way), and in between arbitrary changes of all memory but the object's buffer. *)
Definition out_write (o : outcome (mdig * Z)) : sm3_out := match o with Ret (_, n) => OutCount n | _ => OutPanic end.
Definition out_sum (h : heap) (o : outcome slc) : sm3_out := match o with Ret s => OutBytes (rd h s) | _ => OutPanic end.
Definition next_dig (d : mdig) (o : outcome (mdig * Z)) : mdig := match o with Ret (d', _) => d' | _ => d end.
Inductive mhist (extra : nat -> nat -> nat) : mdig -> heap -> list sm3_op -> list sm3_out -> Prop :=
  | mh_end d h : mhist extra d h [] []
  | mh_write d h p h' o ops outs : wf h p -> s_arr p <> m_x d -> mWrite d p h = (h', o) ->
      mhist extra (next_dig d o) h' ops outs -> mhist extra d h (OpWrite (rd h p) :: ops) (out_write o :: outs)
  | mh_sum d h inp h' o ops outs : wf h inp -> s_arr inp <> m_x d -> mSum extra d inp h = (h', o) ->
      mhist extra d h' ops outs -> mhist extra d h (OpSum (rd h inp) :: ops) (out_sum h' o :: outs)
  | mh_reset d h ops outs : mhist extra (mReset d) h ops outs -> mhist extra d h (OpReset :: ops) (OutUnit :: outs)
  | mh_others d h h' ops outs : m_x d < List.length h' -> arr h' (m_x d) = arr h (m_x d) ->
      mhist extra d h' ops outs -> mhist extra d h ops outs.

Lemma mhist_spec extra d h ops outs : mhist extra d h ops outs -> forall m, obj h d -> Rep (view h d) m -> Forall op_ok ops ->
  outs = sm3_history_spec m ops.
Proof.
  induction 1 as [d h|d h p h' o ops outs W N E _ IH|d h inp h' o ops outs W N E _ IH|d h ops outs _ IH|d h h' ops outs L E _ IH]; intros m O R F.
  - reflexivity.
  - apply Forall_cons_iff in F as [Fp F]. pose proof (mWrite_spec h d p O W N) as S. destruct (write_rep _ _ (rd h p) R Fp) as (dg & E1 & R1).
    rewrite E1 in S. destruct S as (h2 & d2 & S & V & X & O2 & _). rewrite E in S. injection S as <- ->. cbn [out_write sm3_history_spec next_dig] in *.
    f_equal. apply IH; auto. now rewrite V.
  - apply Forall_cons_iff in F as [_ F]. pose proof (mSum_spec extra h d inp O W) as S. unfold sm3_Sum_method in S. rewrite (checkSum_spec _ _ R) in S. cbn [bind] in S.
    destruct S as (h2 & s & S & _ & Rs & _ & K & _). rewrite E in S. injection S as <- ->. cbn [out_sum sm3_history_spec]. rewrite Rs. f_equal.
    apply IH; auto; [eapply keeps_obj; eauto|]. rewrite (keeps_view _ _ _ _ K); [exact R|apply O|]. intros [I|[]]. congruence.
  - apply Forall_cons_iff in F as [_ F]. cbn [sm3_history_spec]. f_equal. apply IH; auto. change (view h (mReset d)) with (sm3_Reset (view h d)). eapply rep_reset; eauto.
  - apply IH; auto; [split; [exact L|]; rewrite E; apply O|]. unfold view. rewrite E. exact R.
Qed.
(** every call returns what the specification says about the bytes the arguments showed at the time of the calls: no call
    panics, and what happens to the caller's memory afterwards does not matter *)
Theorem C105_history : forall extra h0 h d ops outs, mNew h0 = (h, Ret d) -> mhist extra d h ops outs -> Forall op_ok ops ->
  outs = sm3_history_spec [] ops.
Proof.
  intros extra h0 h d ops outs E H F. destruct (mNew_spec h0) as (h' & d' & E' & O & V & _). rewrite E in E'. injection E' as <- <-.
  eapply mhist_spec; eauto. rewrite V. exact new_rep.
Qed.
Print Assumptions C105_history.
(** the buffer is memory of its own, and no result ever shows it: callers cannot get hold of it *)
Theorem C105_private : forall extra h0,
  (exists h d, mNew h0 = (h, Ret d) /\ m_x d = List.length h0 /\ ext h0 h) /\
  (forall h d inp h' s, obj h d -> wf h inp -> s_arr inp <> m_x d -> mSum extra d inp h = (h', Ret s) -> s_arr s <> m_x d) /\
  (forall h p h' s, wf h p -> mSum3 p h = (h', Ret s) -> List.length h <= s_arr s).
Proof.
  intros extra h0. split; [|split].
  - destruct (mNew_spec h0) as (h & d & E & _ & _ & X & K). exists h, d. split; [exact E|]. split; [exact X|now apply keeps_ext].
  - intros h d inp h' s O W N E. pose proof (mSum_spec extra h d inp O W) as S. rewrite E in S. destruct (sm3_Sum_method _ _); [|contradiction|].
    + destruct S as (h2 & s2 & S & _ & _ & _ & _ & A). injection S as <- <-. destruct A; [congruence|]. destruct O. lia.
    + destruct S as (? & S & _). discriminate S.
  - intros h p h' s W E. pose proof (mSum3_spec h p W) as S. rewrite E in S. destruct (sm3_Sum _); [|contradiction|].
    + destruct S as (h2 & s2 & S & _ & _ & A & _). injection S as <- <-. exact A.
    + destruct S as (? & S & _). discriminate S.
Qed.
Print Assumptions C105_private.
(** Write changes no memory but the private buffer; the package function Sum changes none at all *)
Theorem C105_write_frame : forall h d p h' o t, obj h d -> wf h p -> s_arr p <> m_x d -> mWrite d p h = (h', o) ->
  wf h t -> s_arr t <> m_x d -> wf h' t /\ rd h' t = rd h t.
Proof.
  intros h d p h' o t O W N E Wt Nt. pose proof (mWrite_spec h d p O W N) as S. rewrite E in S. destruct (sm3_Write _ _) as [[dg n]| |]; [|contradiction|].
  - destruct S as (h2 & d2 & S & _ & _ & _ & K & _). injection S as <- ->. split; [eapply keeps_wf; eauto|]. eapply keeps_rd; eauto. intros [I|[]]. congruence.
  - injection S as -> ->. auto.
Qed.
Print Assumptions C105_write_frame.
Theorem C105_sum3_frame : forall h p h' o, wf h p -> mSum3 p h = (h', o) -> ext h h'.
Proof.
  intros h p h' o W E. pose proof (mSum3_spec h p W) as S. rewrite E in S. destruct (sm3_Sum _); [|contradiction|].
  - destruct S as (h2 & s2 & S & _ & _ & _ & K). injection S as <- ->. now apply keeps_ext.
  - destruct S as (h2 & S & K). injection S as <- ->. now apply keeps_ext.
Qed.
Print Assumptions C105_sum3_frame.
(** Sum(in) appends to in as append does: the 32 bytes behind in are overwritten when its capacity has room for them, and
    nothing else is; without room nothing at all is changed *)
Theorem C105_sum_frame : forall extra h d inp h' s t, obj h d -> wf h inp -> s_arr inp <> m_x d -> mSum extra d inp h = (h', Ret s) ->
  wf h t -> (s_arr t <> s_arr inp \/ s_off t + s_len t <= s_off inp + s_len inp \/ s_off inp + s_len inp + 32 <= s_off t \/ s_cap inp < s_len inp + 32) ->
  rd h' t = rd h t.
Proof.
  intros extra h d inp h' s t O W N E Wt Ht. pose proof O as [Ox Oy]. unfold mSum in E. unfold mbind at 1, load at 1 in E. rewrite buf_rd in E by auto.
  unfold mbind at 1 in E. unfold new at 1, alloc at 1 in E. cbn [s_arr] in E. set (h1 := h ++ [arr h (m_x d)]) in *.
  set (d1 := mkM (m_h d) (List.length h) (m_nx d) (m_len d)) in *.
  assert (O1 : obj h1 d1). { split; cbn; unfold h1; [rewrite app_length; cbn; lia|]. rewrite arr_app_new. exact Oy. }
  pose proof (mcheckSum_spec h1 d1 O1) as C. unfold mbind in E. destruct (sm3_checkSum (view h1 d1)) as [hash| |] eqn:Ec; [|contradiction|].
  2:{ destruct C as (h2 & C & _). rewrite C in E. discriminate E. }
  destruct C as (h2 & hs & C & Ws & Rs & As & K2). rewrite C in E. apply checkSum_len in Ec.
  assert (K12 : keeps h h2 []).
  { apply (keeps_trans h h1 h2 [] [List.length h]); auto; [apply keeps_alloc|]. intros a [<-|[]]. right. lia. }
  assert (Wi : wf h2 inp) by (eapply keeps_wf; eauto). assert (Wt2 : wf h2 t) by (eapply keeps_wf; eauto).
  assert (Rt : rd h2 t = rd h t) by (eapply keeps_rd; eauto; intros []). rewrite <- Rt.
  unfold appendS, mbind, load in E. rewrite Rs in E. unfold appendB in E. rewrite Ec in E.
  destruct (Nat.leb_spec (s_len inp + 32) (s_cap inp)) as [Lc|Lc].
  - unfold mbind, poke, mret in E. injection E as <- _. fold (poked h2 inp (s_len inp) hash). destruct Ht as [Ht|[Ht|[Ht|Ht]]]; [| | |lia].
    + apply poked_other. congruence.
    + apply poked_before; auto; lia.
    + apply poked_behind; auto; lia.
  - unfold alloc in E. injection E as <- _. apply alloc_rd. apply Wt2.
Qed.
Print Assumptions C105_sum_frame.
(** the caller's memory holds "abc" in an array with 61 spare bytes; Sum's argument is the front of the same array *)
Example C105_instance : exists d h, mNew [[97; 98; 99]%Z ++ repeat 0%Z 61] = (h, Ret d) /\ obj h d /\ wf h (mkS 0 0 3 64) /\
  mhist (fun _ _ => 5) d h [OpWrite [97; 98; 99]%Z; OpSum [97; 98; 99]%Z] [OutCount 3; OutBytes ([97; 98; 99]%Z ++ SM3 [97; 98; 99]%Z)].
Proof.
  set (m0 := [[97; 98; 99]%Z ++ repeat 0%Z 61]). destruct (mNew_spec m0) as (h & d & E & O & V & X & K).
  assert (W : wf h (mkS 0 0 3 64)) by (eapply keeps_wf; [exact K|]; split; [|split]; cbn; lia).
  assert (Rd : rd h (mkS 0 0 3 64) = [97; 98; 99]%Z) by (rewrite (keeps_rd _ _ _ _ K); [reflexivity|split; [|split]; cbn; lia|intros []]).
  pose proof (mWrite_spec h d _ O W ltac:(rewrite X; cbn; lia)) as S. pose proof new_rep as NR. rewrite <- V in NR.
  destruct (write_rep _ _ (rd h (mkS 0 0 3 64)) NR ltac:(rewrite Rd; apply bytes_okb_spec; reflexivity)) as (dg & E1 & R1).
  rewrite E1 in S. destruct S as (h2 & d2 & S & V2 & X2 & O2 & K2 & L2). rewrite Rd in R1. cbn [app] in R1.
  assert (W2 : wf h2 (mkS 0 0 3 64)) by (eapply keeps_wf; eauto).
  assert (Rd2 : rd h2 (mkS 0 0 3 64) = [97; 98; 99]%Z) by (rewrite (keeps_rd _ _ _ _ K2 W); [exact Rd|rewrite X; cbn; intros [I|[]]; discriminate]).
  pose proof (mSum_spec (fun _ _ => 5) h2 d2 _ O2 W2) as T. unfold sm3_Sum_method in T. rewrite V2, (checkSum_spec _ _ R1) in T. cbn [bind] in T.
  destruct T as (h3 & s & T & Ws & Rs & _ & K3 & As). rewrite Rd2 in Rs.
  exists d, h. split; [exact E|]. split; [exact O|]. split; [exact W|].
  rewrite <- Rd at 1. change (OutCount 3) with (out_write (Ret (d2, 3%Z))). eapply mh_write; [exact W|rewrite X; cbn; lia| |].
  { rewrite S. unfold zlen. rewrite rd_length by auto. reflexivity. }
  cbn [next_dig]. rewrite <- Rd2 at 1. assert (Hs : OutBytes ([97; 98; 99]%Z ++ SM3 [97; 98; 99]%Z) = out_sum h3 (Ret s)) by (cbn [out_sum]; now rewrite Rs). rewrite Hs.
  eapply mh_sum; [exact W2|rewrite X2, X; cbn; lia|exact T|constructor].
Qed.
(** there the digest is written into the caller's spare capacity *)
Example C105_in_place : let s := mkS 0 0 3 64 in
  let '(h, o) := (mdo d <- mNew; mdo (d, _) <- mWrite d s; mSum (fun _ _ => 5) d s) [[97; 98; 99]%Z ++ repeat 0%Z 61] in
  o = Ret (mkS 0 0 35 64) /\ arr h 0 = [97; 98; 99]%Z ++ SM3 [97; 98; 99]%Z ++ repeat 0%Z 29.
Proof. vm_compute. split; reflexivity. Qed.

(** ** C106.  Encryt and Decryt on the caller's memory *)
(** Encryt returns what the list model (C25-C33) returns for the bytes of the message, in an array of its own, and changes no
    byte of the caller's memory, whatever the message overlaps and whatever its capacity *)
Theorem C106_encryt : forall extra h rand pub msg h' o, wf h msg -> mEncryt extra rand pub msg h = (h', o) ->
  ext h h' /\
  match Encryt rand pub (rd h msg) with
  | Ret (c, rest) => exists s, o = Ret (s, rest) /\ rd h' s = c /\ wf h' s /\ List.length h <= s_arr s
  | Err e => o = Err e
  | Panic => o = Panic
  end.
Proof.
  intros extra h rand pub msg h' o W E. pose proof (mEncryt_sim extra h rand pub msg W) as [X S]. rewrite E in X, S. cbn [fst snd] in X, S.
  split; [exact X|]. destruct (Encryt rand pub (rd h msg)) as [[c rest]|e|]; destruct o as [[s r]|e'|]; try contradiction; try congruence.
  destruct S as ((A & Ws & R) & Er). cbn [fst snd] in *. exists s. split; [congruence|]. auto.
Qed.
Print Assumptions C106_encryt.
(** Decryt of 65 bytes or more: likewise *)
Theorem C106_decryt : forall extra h priv data h' o, wf h data -> 65 <= s_len data -> mDecryt extra priv data h = (h', o) ->
  ext h h' /\
  match Decryt priv (rd h data) with
  | Ret (m, err) => exists s, o = Ret (s, err) /\
      match s with Some s => rd h' s = m /\ wf h' s /\ List.length h <= s_arr s | None => m = [] /\ err <> None end
  | Err e => o = Err e
  | Panic => o = Panic
  end.
Proof.
  intros extra h priv data h' o W L E. pose proof (mDecryt_sim extra h priv data W L) as [X S]. rewrite E in X, S. cbn [fst snd] in X, S.
  split; [exact X|]. destruct (Decryt priv (rd h data)) as [[m err]|e|]; destruct o as [[s r]|e'|]; try contradiction; try congruence.
  destruct S as (Er & S). cbn [fst snd] in *. exists s. split; [congruence|]. destruct s as [s|]; [|exact S]. destruct S as (A & Ws & R). auto.
Qed.
Print Assumptions C106_decryt.
(** Decryt of fewer bytes: it panics or reports an error, in every memory; it never returns a plaintext and changes nothing *)
Theorem C106_decryt_short : forall extra h priv data, wf h data -> s_len data < 65 ->
  exists h', ext h h' /\ (mDecryt extra priv data h = (h', Panic) \/ exists e, mDecryt extra priv data h = (h', Ret (None, Some e))).
Proof. exact mDecryt_short. Qed.
Print Assumptions C106_decryt_short.
(** which of the two depends on the capacity of the slice: 33 bytes panic on their own, but as the front of a longer array they
    give an error, because data[:32] and data[32:64] are checked against the capacity only *)
Theorem C106_short_depends_on_capacity : forall extra priv, let b := repeat 255%Z 65 in
  mDecryt extra priv (mkS 0 0 33 33) [b] = ([b], Panic) /\
  mDecryt extra priv (mkS 0 0 33 65) [b] = ([b], Ret (None, Some "C1 is not on the curve"%string)).
Proof. intros extra priv. split; [reflexivity|]. vm_compute. reflexivity. Qed.
Print Assumptions C106_short_depends_on_capacity.
Example C106_instance : wf [repeat 1%Z 100; [9]%Z] (mkS 0 3 20 60) /\ wf [repeat 1%Z 100] (mkS 0 2 97 98) /\ 65 <= s_len (mkS 0 2 97 98) /\ wf [repeat 255%Z 65] (mkS 0 0 33 65).
Proof. repeat split; cbn; lia. Qed.
