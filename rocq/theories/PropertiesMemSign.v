(** * Property C130: signing and verifying in memory that everybody uses.  Slices are windows on arrays that may overlap and
    have spare capacity; [extra], the growth policy of append, is arbitrary; [dflt] is the package variable
    sm2SignDefaultUserId, itself a slice. *)
From Coq Require Import PeanoNat String.
From Verif Require Import Base SM3Spec SM3Model ECModel SM2Spec SM2Model SM2SigProofs Mem MemSM MemSMProofs MemSign.
Local Open Scope nat_scope.
Opaque SM3Digest Sign SignDigest Verify VerifyDigest mSM3Digest mSign mSignDigest mVerify mVerifyDigest.

(** the package variable, as its initialiser leaves it *)
Definition default_uid_at (h : heap) (dflt : slc) : Prop :=
  wf h dflt /\ rd h dflt = [49; 50; 51; 52; 53; 54; 55; 56; 49; 50; 51; 52; 53; 54; 55; 56]%Z.

(** ** The calls, their results for given bytes, and what they do in memory *)
Inductive scall (B : Type) : Type :=
  | Digest (pub : PublicKey) (msg uid : B)
  | SignMsg (rand : bytes) (priv : PrivateKey) (msg uid : B)
  | SignDgst (rand : bytes) (priv : PrivateKey) (digest : B)
  | VerifyMsg (pub : PublicKey) (msg uid sig : B)
  | VerifyDgst (pub : PublicKey) (digest sig : B).
Arguments Digest {B}. Arguments SignMsg {B}. Arguments SignDgst {B}. Arguments VerifyMsg {B}. Arguments VerifyDgst {B}.
Definition args {B} (c : scall B) : list B :=
  match c with
  | Digest _ m u => [m; u] | SignMsg _ _ m u => [m; u] | SignDgst _ _ d => [d] | VerifyMsg _ m u s => [m; u; s] | VerifyDgst _ d s => [d; s]
  end.
Definition show {B C} (f : B -> C) (c : scall B) : scall C :=
  match c with
  | Digest p m u => Digest p (f m) (f u) | SignMsg r k m u => SignMsg r k (f m) (f u) | SignDgst r k d => SignDgst r k (f d)
  | VerifyMsg p m u s => VerifyMsg p (f m) (f u) (f s) | VerifyDgst p d s => VerifyDgst p (f d) (f s)
  end.
(** a result: bytes with the rest of the random source, or a verdict *)
Inductive sres (B : Type) : Type := Bytes (b : B) (rest : bytes) | Verdict (v : bool).
Arguments Bytes {B}. Arguments Verdict {B}.
Definition omap {A B} (f : A -> B) (o : outcome A) : outcome B := match o with Ret a => Ret (f a) | Err e => Err e | Panic => Panic end.
(** the byte-level functions, the subject of C05-C22 *)
Definition pure_call (c : scall bytes) : outcome (sres bytes) :=
  match c with
  | Digest p m u => omap (fun b => Bytes b []) (SM3Digest p m u)
  | SignMsg r k m u => omap (fun x => Bytes (fst x) (snd x)) (Sign r k m u)
  | SignDgst r k d => omap (fun x => Bytes (fst x) (snd x)) (SignDigest r k d)
  | VerifyMsg p m u s => omap Verdict (Verify p m u s)
  | VerifyDgst p d s => omap Verdict (VerifyDigest p d s)
  end.
Definition mmap {A B} (f : A -> B) (x : heap * outcome A) : heap * outcome B := (fst x, omap f (snd x)).
Definition mem_call (extra : nat -> nat -> nat) (dflt : slc) (c : scall slc) (h : heap) : heap * outcome (sres slc) :=
  match c with
  | Digest p m u => mmap (fun b => Bytes b []) (mSM3Digest extra dflt p m u h)
  | SignMsg r k m u => mmap (fun x => Bytes (fst x) (snd x)) (mSign extra dflt r k m u h)
  | SignDgst r k d => mmap (fun x => Bytes (fst x) (snd x)) (mSignDigest extra r k d h)
  | VerifyMsg p m u s => mmap Verdict (mVerify extra dflt p m u s h)
  | VerifyDgst p d s => mmap Verdict (mVerifyDigest p d s h)
  end.

Lemma sim_map {A B C D} h0 x (o : outcome B) (Q : heap -> A -> B -> Prop) (f : A -> C) (g : B -> D) (R : heap -> C -> D -> Prop) :
  sim h0 x o Q -> (forall h a b, Q h a b -> R h (f a) (g b)) -> sim h0 (mmap f x) (omap g o) R.
Proof. intros [E S] H. split; [exact E|]. unfold mmap. cbn [fst snd]. destruct (snd x), o; cbn in *; auto. Qed.
Definition res_rel (h0 h : heap) (a : sres slc) (b : sres bytes) : Prop :=
  match a, b with
  | Bytes s r, Bytes b r' => own h0 h s b /\ r = r'
  | Verdict v, Verdict w => v = w
  | _, _ => False
  end.
Lemma mem_call_sim extra dflt h c : default_uid_at h dflt -> Forall (wf h) (args c) ->
  sim h (mem_call extra dflt c h) (pure_call (show (rd h) c)) (res_rel h).
Proof.
  intros [Wd Rd] F. destruct c; cbn [args] in F; repeat (match goal with F : Forall _ (_ :: _) |- _ => apply Forall_cons_iff in F as [? F] end); cbn [mem_call pure_call show].
  - eapply sim_map; [now apply mSM3Digest_sim|]. cbn. auto.
  - eapply sim_map; [now apply mSign_sim|]. intros ? ? ? [X Y]. cbn. auto.
  - eapply sim_map; [now apply mSignDigest_sim|]. intros ? ? ? [X Y]. cbn. auto.
  - eapply sim_map; [now apply mVerify_sim|]. cbn. auto.
  - eapply sim_map; [now apply mVerifyDigest_sim|]. cbn. auto.
Qed.

(** ** C130.  One call: whatever the arguments overlap and whatever their capacities, it gives what the byte-level function
    gives for the bytes they show, in an array of its own, and changes no byte of memory that was there before (the
    arguments, what lies behind them, the default identity). *)
Theorem C130_call : forall extra dflt h c h' o, default_uid_at h dflt -> Forall (wf h) (args c) ->
  mem_call extra dflt c h = (h', o) ->
  ext h h' /\
  match pure_call (show (rd h) c) with
  | Ret (Bytes b rest) => exists s, o = Ret (Bytes s rest) /\ wf h' s /\ rd h' s = b /\ List.length h <= s_arr s
  | Ret (Verdict v) => o = Ret (Verdict v)
  | Err e => o = Err e
  | Panic => o = Panic
  end.
Proof.
  intros extra dflt h c h' o D F E. destruct (mem_call_sim extra dflt h c D F) as [X S]. rewrite E in X, S. cbn [fst snd] in X, S.
  split; [exact X|]. destruct (pure_call _) as [[b rest|v]|e|]; destruct o as [[s r|w]|e'|]; cbn in S; try contradiction; try congruence.
  destruct S as ((A & W & R) & <-). exists s. auto.
Qed.
Print Assumptions C130_call.
(** the digest in particular is the one of the standard, for the bytes the slices show *)
Theorem C130_digest : forall extra dflt h pub msg uid h' o, default_uid_at h dflt -> wf h msg -> wf h uid ->
  (0 <= pk_X pub < 2 ^ 256)%Z -> (0 <= pk_Y pub < 2 ^ 256)%Z -> bytes_ok (rd h msg) -> bytes_ok (rd h uid) -> 0 < s_len uid -> (Z.of_nat (s_len uid) < 8192)%Z ->
  mem_call extra dflt (Digest pub msg uid) h = (h', o) ->
  exists s, o = Ret (Bytes s []) /\ rd h' s = sm2_digest (rd h uid) (pk_X pub) (pk_Y pub) (rd h msg) /\ List.length h <= s_arr s /\ ext h h'.
Proof.
  intros extra dflt h pub msg uid h' o D Wm Wu Hx Hy Bm Bu L L' E.
  destruct (C130_call extra dflt h (Digest pub msg uid) h' o D (Forall_cons _ Wm (Forall_cons _ Wu (Forall_nil _))) E) as [X S].
  cbn [show pure_call] in S.
  rewrite SM3Digest_correct in S; auto.
  - cbn [omap] in S. destruct S as (s & -> & W & R & A). exists s. auto.
  - intros Z0. pose proof (rd_length _ _ Wu) as Lr. rewrite Z0 in Lr. cbn in Lr. lia.
  - unfold zlen. rewrite rd_length by exact Wu. exact L'.
Qed.
Print Assumptions C130_digest.

(** ** Histories: calls on arbitrary slices (earlier results included), and in between arbitrary changes of all memory but
    the array of the default identity, of which no caller has a slice (C130_private) *)
Inductive shist (extra : nat -> nat -> nat) (dflt : slc) : heap -> list (scall bytes) -> list (outcome (sres bytes)) -> Prop :=
  | sh_end h : shist extra dflt h [] []
  | sh_call h c h' o cs os : Forall (wf h) (args c) -> mem_call extra dflt c h = (h', o) -> shist extra dflt h' cs os ->
      shist extra dflt h (show (rd h) c :: cs) (omap (fun r => match r with Bytes s rest => Bytes (rd h' s) rest | Verdict v => Verdict v end) o :: os)
  | sh_others h h' cs os : s_arr dflt < List.length h' -> arr h' (s_arr dflt) = arr h (s_arr dflt) -> shist extra dflt h' cs os ->
      shist extra dflt h cs os.
Theorem C130_history : forall extra dflt h cs os, default_uid_at h dflt -> shist extra dflt h cs os -> os = map pure_call cs.
Proof.
  intros extra dflt h cs os D H. revert D. induction H as [h|h c h' o cs os F E _ IH|h h' cs os L A _ IH]; intros D.
  - reflexivity.
  - destruct (C130_call _ _ _ _ _ _ D F E) as [X S]. cbn [map]. rewrite IH.
    + f_equal. destruct (pure_call _) as [[b rest|v]|e|]; [|subst; reflexivity..]. destruct S as (s & -> & _ & R & _). cbn. now rewrite R.
    + destruct D as [W R]. split; [eapply ext_wf; eauto|]. now rewrite (ext_rd _ _ _ X W).
  - apply IH. destruct D as [(W1 & W2 & W3) R]. split.
    + split; [exact L|]. split; [exact W2|]. now rewrite A.
    + rewrite <- R. unfold rd. now rewrite A.
Qed.
Print Assumptions C130_history.
(** no result shows the array of the default identity, nor any array of an argument *)
Theorem C130_private : forall extra dflt h c h' s rest, default_uid_at h dflt -> Forall (wf h) (args c) ->
  mem_call extra dflt c h = (h', Ret (Bytes s rest)) -> s_arr s <> s_arr dflt /\ Forall (fun a => s_arr s <> s_arr a) (args c).
Proof.
  intros extra dflt h c h' s rest D F E. destruct (C130_call _ _ _ _ _ _ D F E) as [X S].
  assert (A : List.length h <= s_arr s).
  { destruct (pure_call _) as [[b r|v]|e|]; try discriminate. destruct S as (s' & S & _ & _ & A). injection S as <- <-. exact A. }
  split; [destruct D as [(W & _) _]; lia|]. eapply Forall_impl; [|exact F]. intros a (W & _). lia.
Qed.
Print Assumptions C130_private.
(** a history: the message and the identity are overlapping windows with spare capacity on one array, the second call has
    the empty identity *)
Definition ex_heap : heap := [[49; 50; 51; 52; 53; 54; 55; 56; 49; 50; 51; 52; 53; 54; 55; 56]%Z; [1; 2; 3; 4; 5; 6; 7; 8]%Z].
Definition ex_pub : PublicKey := mkPub 0 5 7.
Example C130_instance : default_uid_at ex_heap (mkS 0 0 16 16) /\ Forall (wf ex_heap) (args (Digest ex_pub (mkS 1 1 3 7) (mkS 1 2 3 6))) /\
  exists os, shist (fun _ _ => 3) (mkS 0 0 16 16) ex_heap [Digest ex_pub [2; 3; 4]%Z [3; 4; 5]%Z; Digest ex_pub [2; 3; 4]%Z []] os.
Proof.
  assert (D : default_uid_at ex_heap (mkS 0 0 16 16)) by (split; [split; [|split]; cbn; lia|reflexivity]).
  assert (F : Forall (wf ex_heap) (args (Digest ex_pub (mkS 1 1 3 7) (mkS 1 2 3 6)))) by (repeat constructor; cbn; lia).
  split; [exact D|]. split; [exact F|].
  destruct (mem_call (fun _ _ => 3) (mkS 0 0 16 16) (Digest ex_pub (mkS 1 1 3 7) (mkS 1 2 3 6)) ex_heap) as [h1 o1] eqn:E1.
  destruct (C130_call _ _ _ _ _ _ D F E1) as [X _].
  assert (Wm : wf ex_heap (mkS 1 1 3 7)) by (split; [|split]; cbn; lia). assert (Wu : wf ex_heap (mkS 1 0 0 8)) by (split; [|split]; cbn; lia).
  destruct (mem_call (fun _ _ => 3) (mkS 0 0 16 16) (Digest ex_pub (mkS 1 1 3 7) (mkS 1 0 0 8)) h1) as [h2 o2] eqn:E2.
  eexists. change (Digest ex_pub [2; 3; 4]%Z [3; 4; 5]%Z) with (show (rd ex_heap) (Digest ex_pub (mkS 1 1 3 7) (mkS 1 2 3 6))).
  eapply sh_call; [exact F|exact E1|].
  replace (Digest ex_pub [2; 3; 4]%Z []) with (show (rd h1) (Digest ex_pub (mkS 1 1 3 7) (mkS 1 0 0 8))).
  - eapply sh_call; [|exact E2|apply sh_end]. repeat constructor; eapply ext_wf; eauto.
  - cbn [show]. rewrite (ext_rd _ _ _ X Wm), (ext_rd _ _ _ X Wu). reflexivity.
Qed.
