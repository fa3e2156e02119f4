(** * C123: no call changes a key, a curve parameter or another integer that existed before *)
From Coq Require Import String ZifyBool ZifyNat.
From Verif Require Import Base Words SM3Model ECModel SM2Model BigMem.
Open Scope Z_scope.

(** ** Specification *)
(** the shared integers hold the SM2 parameters and 1 *)
Definition glob_ok (h : bheap) (g : globals) : Prop :=
  Forall (fun p => (p < List.length h)%nat) [gP g; gA g; gB g; gN g; gGx g; gGy g; gOne g] /\
  get h (gP g) = sm2_P /\ get h (gA g) = sm2_A /\ get h (gB g) = sm2_B /\ get h (gN g) = sm2_N /\ get h (gGx g) = sm2_Gx /\ get h (gGy g) = sm2_Gy /\ get h (gOne g) = 1.
(** what a key in memory is *)
Definition pubV (h : bheap) (k : pPub) : PublicKey := mkPub (pp_Curve k) (get h (pp_X k)) (get h (pp_Y k)).
Definition privV (h : bheap) (k : pPriv) : PrivateKey := mkPriv (pubV h (ps_Pub k)) (get h (ps_D k)).
Definition here (h : bheap) (p : ptr) : Prop := (p < List.length h)%nat.
Definition pub_here (h : bheap) (k : pPub) : Prop := here h (pp_X k) /\ here h (pp_Y k).
Definition priv_here (h : bheap) (k : pPriv) : Prop := pub_here h (ps_Pub k) /\ here h (ps_D k).

(** the calls of the API *)
Inductive call :=
| CGenerateKey (rand : bytes)
| CSignRS (rand : bytes) (priv : pPriv) (inp uid : bytes)
| CSignDigestRS (rand : bytes) (priv : pPriv) (digest : bytes)
| CVerifyRS (pub : pPub) (inp uid : bytes) (r s : ptr)
| CVerifyDigestRS (pub : pPub) (digest : bytes) (r s : ptr)
| CEncryt (rand : bytes) (pub : pPub) (msg : bytes)
| CDecryt (priv : pPriv) (data : bytes).
Definition call_here (h : bheap) (c : call) : Prop :=
  match c with
  | CGenerateKey _ => True
  | CSignRS _ k _ _ | CSignDigestRS _ k _ | CDecryt k _ => priv_here h k
  | CVerifyRS k _ _ r s | CVerifyDigestRS k _ r s => pub_here h k /\ here h r /\ here h s
  | CEncryt _ k _ => pub_here h k
  end.
Inductive result :=
| RKey (o : outcome (pPriv * bytes))
| RSig (o : outcome (ptr * ptr * bytes))
| RBool (o : outcome bool)
| REnc (o : outcome (bytes * bytes))
| RDec (o : outcome (bytes * option string)).
Definition wrap {A} (f : outcome A -> result) (x : bheap * outcome A) : bheap * result := (fst x, f (snd x)).
Definition exec (g : globals) (c : call) (h : bheap) : bheap * result :=
  match c with
  | CGenerateKey rand => wrap RKey (bGenerateKey g rand h)
  | CSignRS rand k i u => wrap RSig (bSignRS g rand k i u h)
  | CSignDigestRS rand k d => wrap RSig (bSignDigestRS g rand k d h)
  | CVerifyRS k i u r s => wrap RBool (bVerifyRS g k i u r s h)
  | CVerifyDigestRS k d r s => wrap RBool (bVerifyDigestRS g k d r s h)
  | CEncryt rand k m => wrap REnc (bEncryt g rand k m h)
  | CDecryt k d => wrap RDec (bDecryt g k d h)
  end.
(** the result, read in the memory [h], is the one the functions on numbers give for the arguments, read in [h] *)
Definition omap {A B} (f : A -> B) (o : outcome A) : outcome B := match o with Ret a => Ret (f a) | Err e => Err e | Panic => Panic end.
Definition agrees (h : bheap) (c : call) (r : result) : Prop :=
  match c, r with
  | CGenerateKey rand, RKey o => omap (fun x => (privV h (fst x), snd x)) o = GenerateKey rand /\ forall k w, o = Ret (k, w) -> priv_here h k
  | CSignRS rand k i u, RSig o => omap (fun x => (get h (fst (fst x)), get h (snd (fst x)), snd x)) o = SignRS rand (privV h k) i u /\ forall r s w, o = Ret (r, s, w) -> here h r /\ here h s /\ r <> s
  | CSignDigestRS rand k d, RSig o => omap (fun x => (get h (fst (fst x)), get h (snd (fst x)), snd x)) o = SignDigestRS rand (privV h k) d /\ forall r s w, o = Ret (r, s, w) -> here h r /\ here h s /\ r <> s
  | CVerifyRS k i u r s, RBool o => o = VerifyRS (pubV h k) i u (get h r) (get h s)
  | CVerifyDigestRS k d r s, RBool o => o = VerifyDigestRS (pubV h k) d (get h r) (get h s)
  | CEncryt rand k m, REnc o => o = Encryt rand (pubV h k) m
  | CDecryt k d, RDec o => o = Decryt (privV h k) d
  | _, _ => False
  end.
(** a history of calls: each may use integers that were there at the start or that earlier calls returned *)
Inductive runs (g : globals) : bheap -> list (call * result) -> bheap -> Prop :=
| runs_nil h : runs g h [] h
| runs_cons h c h1 r t h2 : call_here h c -> exec g c h = (h1, r) -> runs g h1 t h2 -> runs g h ((c, r) :: t) h2.

(** ** Proofs *)
Lemma get_old h l p : here h p -> get (h ++ l) p = get h p.
Proof. intros H. unfold get. apply app_nth1. exact H. Qed.
Lemma get_new0 (h l : bheap) : get (h ++ l) (List.length h) = nth 0 l 0.
Proof. unfold get. rewrite app_nth2, Nat.sub_diag by lia. reflexivity. Qed.
Lemma get_new (h l : bheap) (i : nat) : get (h ++ l) (List.length h + i)%nat = nth i l 0.
Proof. unfold get. rewrite app_nth2 by lia. f_equal. lia. Qed.
Lemma upd_new (h l : bheap) (i : nat) v : upd (h ++ l) (List.length h + i)%nat v = h ++ upd l i v.
Proof. induction h as [|x h IH]; cbn [app List.length Nat.add upd]; [reflexivity|]. rewrite IH. reflexivity. Qed.
Lemma upd_new0 (h l : bheap) v : upd (h ++ l) (List.length h) v = h ++ upd l 0 v.
Proof. rewrite <- (upd_new h l 0 v), Nat.add_0_r. reflexivity. Qed.
Lemma here_app h l p : here h p -> here (h ++ l) p.
Proof. unfold here. rewrite app_length. lia. Qed.
Lemma glob_app h l g : glob_ok h g -> glob_ok (h ++ l) g.
Proof.
  intros (F & E). rewrite !Forall_cons_iff in F. destruct F as (F1 & F2 & F3 & F4 & F5 & F6 & F7 & _). split.
  - repeat (apply Forall_cons; [apply (here_app h l); assumption|]). apply Forall_nil.
  - rewrite !get_old by assumption. exact E.
Qed.
Lemma glob_get h g : glob_ok h g -> (here h (gP g) /\ here h (gA g) /\ here h (gB g) /\ here h (gN g) /\ here h (gGx g) /\ here h (gGy g) /\ here h (gOne g)) /\
  get h (gP g) = sm2_P /\ get h (gA g) = sm2_A /\ get h (gB g) = sm2_B /\ get h (gN g) = sm2_N /\ get h (gGx g) = sm2_Gx /\ get h (gGy g) = sm2_Gy /\ get h (gOne g) = 1.
Proof. intros (F & E). split; [|exact E]. rewrite !Forall_cons_iff in F. unfold here. tauto. Qed.
Lemma N_pos : 1 < sm2_N. Proof. reflexivity. Qed.
Opaque sm2_N sm2_P sm2_B sm2_A sm2_Gx sm2_Gy.

Ltac heap := repeat first
  [ rewrite upd_new | rewrite upd_new0 | rewrite get_new | rewrite get_new0
  | match goal with H : here ?h ?p |- context [get (?h ++ ?l) ?p] => rewrite (get_old h l p H) end
  | rewrite app_length | rewrite <- app_assoc | rewrite <- Nat.add_assoc | progress cbn [app List.length nth upd fst snd Nat.add] ].
Lemma bAdd_eq z x y h : bAdd z x y h = (upd h z (get h x + get h y), Ret tt). Proof. reflexivity. Qed.
Lemma bSub_eq z x y h : bSub z x y h = (upd h z (get h x - get h y), Ret tt). Proof. reflexivity. Qed.
Lemma bMul_eq z x y h : bMul z x y h = (upd h z (get h x * get h y), Ret tt). Proof. reflexivity. Qed.
Lemma bMod_eq z x y h : 0 < get h y -> bMod z x y h = (upd h z (get h x mod get h y), Ret tt).
Proof. intros H. unfold bMod, bbind, bGet. replace (get h y =? 0) with false by lia. rewrite Z.abs_eq by lia. reflexivity. Qed.
Lemma bModInverse_eq z a n h : bModInverse z a n h = match ModInverse (get h a) (get h n) with Some i => (upd h z i, Ret (Some z)) | None => (h, Ret None) end.
Proof. unfold bModInverse, bbind, bGet. destruct (ModInverse _ _); reflexivity. Qed.
Lemma bind_run {A B} (m : BM A) (f : A -> BM B) h h' a : m h = (h', Ret a) -> bbind m f h = f a h'.
Proof. intros E. unfold bbind. rewrite E. reflexivity. Qed.
Ltac bget := erewrite bind_run by (unfold bGet; heap; reflexivity); cbv beta.
Ltac bnew := erewrite bind_run by (unfold bNew; heap; reflexivity); cbv beta.
Ltac barith := erewrite bind_run by (first [rewrite bAdd_eq | rewrite bSub_eq | rewrite bMul_eq]; heap; reflexivity); cbv beta.

Lemma bnextk_eq g h rand : glob_ok h g ->
  bnextk g rand h = match nextk rand with Ret (k, w) => (h ++ [k; sm2_N - 1], Ret (List.length h, w)) | Err e => (h, Err e) | Panic => (h, Panic) end.
Proof.
  intros G. destruct (glob_get h g G) as ((HP & HA & HB & HN & HX & HY & HO) & EP & EA & EB & EN & EX & EY & EO).
  unfold bnextk, nextk. unfold bbind at 1, blift. destruct (ReadFull _ rand) as [[b w]| |]; cbn [bind]; [|reflexivity|reflexivity]. cbv zeta.
  pose proof N_pos. bnew. bnew. barith. rewrite EN, EO. erewrite bind_run by (rewrite bMod_eq by (heap; lia); heap; reflexivity). cbv beta. barith. rewrite EO. reflexivity.
Qed.
Lemma bScalarMult_eq g h x y k : glob_ok h g ->
  bScalarMult g x y k h = match sm2_ScalarMult (get h x) (get h y) k with Ret (a, b) => (h ++ [a; b], Ret (List.length h, List.length h + 1)%nat) | Err e => (h, Err e) | Panic => (h, Panic) end.
Proof.
  intros G. destruct (glob_get h g G) as (_ & EP & _). unfold bScalarMult, two. unfold bbind, bGet, bNew, blift, bret. rewrite EP. unfold sm2_ScalarMult. destruct (ScalarMult sm2_P _ _ k) as [[a b]| |]; [|reflexivity|reflexivity].
  cbn [fst snd]. heap. reflexivity.
Qed.
Lemma bScalarBaseMult_eq g h k : glob_ok h g ->
  bScalarBaseMult g k h = match sm2_ScalarBaseMult k with Ret (a, b) => (h ++ [a; b], Ret (List.length h, List.length h + 1)%nat) | Err e => (h, Err e) | Panic => (h, Panic) end.
Proof.
  intros G. destruct (glob_get h g G) as (_ & _ & _ & _ & _ & EX & EY & _). unfold bScalarBaseMult. rewrite bScalarMult_eq by exact G. rewrite EX, EY. reflexivity.
Qed.
Lemma bPointAdd_eq g h x1 y1 x2 y2 : glob_ok h g ->
  bPointAdd g x1 y1 x2 y2 h = match sm2_Add (get h x1) (get h y1) (get h x2) (get h y2) with Ret (a, b) => (h ++ [a; b], Ret (List.length h, List.length h + 1)%nat) | Err e => (h, Err e) | Panic => (h, Panic) end.
Proof.
  intros G. destruct (glob_get h g G) as (_ & EP & _). unfold bPointAdd, two. unfold bbind, bGet, bNew, blift, bret. rewrite EP. unfold sm2_Add. destruct (Add sm2_P _ _ _ _) as [[a b]| |]; [|reflexivity|reflexivity].
  cbn [fst snd]. heap. reflexivity.
Qed.
Lemma bSM3Digest_eq g h pub i u : glob_ok h g -> bSM3Digest g pub i u h = (h, SM3Digest (pubV h pub) i u).
Proof.
  intros G. destruct (glob_get h g G) as (_ & EP & EA & EB & EN & EX & EY & EO). unfold bSM3Digest. unfold bbind, bGet, blift. rewrite EA, EB, EX, EY. unfold digestOf, SM3Digest, zOf, z. cbn [pubV pk_X pk_Y]. reflexivity.
Qed.

Lemma bsign_inner_eq g fuel : forall h e rand, glob_ok h g -> here h e ->
  exists ext o, bsign_inner g fuel e rand h = (h ++ ext, o) /\
  match sign_inner fuel (get h e) rand with
  | Ret (k, r, w) => exists kp rp, o = Ret (kp, rp, w) /\ here (h ++ ext) kp /\ here (h ++ ext) rp /\ (List.length h <= kp)%nat /\ (List.length h <= rp)%nat /\ get (h ++ ext) kp = k /\ get (h ++ ext) rp = r
  | Err x => o = Err x | Panic => o = Panic
  end.
Proof.
  induction fuel as [|fuel IH]; intros h e rand G He; cbn [bsign_inner sign_inner]; [exists [], (Err "out of fuel"); rewrite app_nil_r; split; reflexivity|].
  unfold bbind at 1. rewrite bnextk_eq by exact G. destruct (nextk rand) as [[k w]|x|]; cbn [bind]; [|exists [], (Err x); rewrite app_nil_r; split; reflexivity|exists [], Panic; rewrite app_nil_r; split; reflexivity].
  unfold bbind at 1, bGet at 1. heap. unfold bbind at 1. rewrite bScalarBaseMult_eq by (apply glob_app; exact G).
  destruct (sm2_ScalarBaseMult (big_bytes k)) as [[a b]|x|]; cbn [bind]; [|exists [k; sm2_N - 1], (Err x); split; reflexivity|exists [k; sm2_N - 1], Panic; split; reflexivity].
  destruct (glob_get h g G) as ((HP & HA & HB & HN & HX & HY & HO) & EP & EA & EB & EN & EX & EY & EO). pose proof N_pos.
  cbv zeta. heap. barith. erewrite bind_run by (rewrite bMod_eq by (heap; lia); heap; rewrite EN; reflexivity). cbv beta. bget.
  set (r := (get h e + a) mod sm2_N).
  assert (Again : forall l, exists ext o, bsign_inner g fuel e w (h ++ l) = (h ++ ext, o) /\
    match sign_inner fuel (get h e) w with
    | Ret (k, r, w) => exists kp rp, o = Ret (kp, rp, w) /\ here (h ++ ext) kp /\ here (h ++ ext) rp /\ (List.length h <= kp)%nat /\ (List.length h <= rp)%nat /\ get (h ++ ext) kp = k /\ get (h ++ ext) rp = r
    | Err x => o = Err x | Panic => o = Panic end).
  { intros l. destruct (IH (h ++ l) e w (glob_app h l g G) (here_app h l e He)) as (ext & o & E & Q). rewrite get_old in Q by exact He.
    rewrite <- app_assoc in E. exists (l ++ ext), o. split; [exact E|]. destruct (sign_inner fuel (get h e) w) as [[[k' r'] w']|x|]; [|exact Q|exact Q].
    rewrite <- app_assoc in Q. rewrite app_length in Q. destruct Q as (kp & rp & Q). exists kp, rp. intuition lia. }
  destruct (r =? 0) eqn:Er; cbn [negb andb]; [apply Again|]. bnew. barith. bget. bget. rewrite EN. destruct (r + k =? sm2_N); cbn [negb]; [apply Again|].
  eexists _, _. split; [reflexivity|]. eexists _, _. split; [reflexivity|]. unfold here. heap. split; [lia|]. split; [lia|]. split; [lia|]. split; [lia|]. split; reflexivity.
Qed.
(** the result of signing *)
Definition sig_res (h : bheap) (ext : list Z) (o : outcome (ptr * ptr * bytes)) (v : outcome (Z * Z * bytes)) : Prop :=
  match v with
  | Ret (r, s, w) => exists rp sp, o = Ret (rp, sp, w) /\ here (h ++ ext) rp /\ here (h ++ ext) sp /\ rp <> sp /\ get (h ++ ext) rp = r /\ get (h ++ ext) sp = s
  | Err x => o = Err x | Panic => o = Panic
  end.
Lemma bsign_outer_eq g fuel : forall h D e rand, glob_ok h g -> here h D -> here h e ->
  exists ext o, bsign_outer g fuel D e rand h = (h ++ ext, o) /\ sig_res h ext o (sign_outer fuel (get h D) (get h e) rand).
Proof.
  induction fuel as [|fuel IH]; intros h D e rand G HD He; cbn [bsign_outer sign_outer]; [exists [], (Err "out of fuel"); rewrite app_nil_r; split; reflexivity|].
  destruct (bsign_inner_eq g (S (List.length rand)) h e rand G He) as (ext & o & E & Q). unfold bbind at 1. rewrite E. clear E.
  destruct (sign_inner (S (List.length rand)) (get h e) rand) as [[[k r] w]|x|]; cbn [bind]; [|subst o; exists ext, (Err x); split; reflexivity|subst o; exists ext, Panic; split; reflexivity].
  destruct Q as (kp & rp & -> & Hk & Hr & Lk & Lr & Ek & Er).
  assert (G1 := glob_app h ext g G). assert (HD1 := here_app h ext D HD). assert (He1 := here_app h ext e He).
  rewrite <- (get_old h ext D HD), <- (get_old h ext e He).
  assert (Base : forall l o v, sig_res (h ++ ext) l o v -> sig_res h (ext ++ l) o v) by (intros l o v; unfold sig_res; rewrite app_assoc; auto).
  remember (h ++ ext) as h1 eqn:Eh1.
  destruct (glob_get h1 g G1) as ((HP & HA & HB & HN & HX & HY & HO) & EP & EA & EB & EN & EX & EY & EO). pose proof N_pos.
  bnew. barith. bnew. barith. bnew. barith. bnew. unfold bbind at 1. rewrite bModInverse_eq. heap. rewrite EO, EN, Ek, Er.
  destruct (ModInverse (get h1 D + 1) sm2_N) as [i|].
  2:{ exists (ext ++ [r * get h1 D; k - r * get h1 D; get h1 D + 1; 0]), Panic. split; [rewrite Eh1, <- !app_assoc; reflexivity|reflexivity]. }
  heap. barith. erewrite bind_run by (rewrite bMod_eq by (heap; lia); heap; rewrite EN; reflexivity). cbv beta. bget. cbv zeta.
  set (s := ((k - r * get h1 D) * i) mod sm2_N). destruct (s =? 0) eqn:Es; cbn [negb].
  - set (l := [r * get h1 D; s; get h1 D + 1; i]).
    destruct (IH (h1 ++ l) D e w (glob_app h1 l g G1) (here_app h1 l D HD1) (here_app h1 l e He1)) as (ext2 & o & E & Q).
    rewrite (get_old h1 l D HD1), (get_old h1 l e He1) in Q. exists (ext ++ l ++ ext2), o. split; [change (h1 ++ [r * get h1 D; s; get h1 D + 1; i]) with (h1 ++ l) in *; rewrite E, Eh1, <- !app_assoc; reflexivity|].
    apply Base. unfold sig_res in *. rewrite <- app_assoc in Q. exact Q.
  - exists (ext ++ [r * get h1 D; s; get h1 D + 1; i]), (Ret (rp, (List.length h1 + 1)%nat, w)). split; [rewrite app_assoc, <- Eh1; reflexivity|].
    apply Base. eexists _, _. split; [reflexivity|]. heap. rewrite Er. unfold here in *. heap. repeat split; try lia.
Qed.
Lemma bSignDigestRS_eq g h rand k d : glob_ok h g -> priv_here h k ->
  exists ext o, bSignDigestRS g rand k d h = (h ++ ext, o) /\ sig_res h ext o (SignDigestRS rand (privV h k) d).
Proof.
  intros G (_ & HD). destruct (glob_get h g G) as ((HP & HA & HB & HN & HX & HY & HO) & EP & EA & EB & EN & EX & EY & EO). pose proof N_pos.
  unfold bSignDigestRS, SignDigestRS. unfold bbind, bNew, bGet. heap. rewrite EN. replace (sm2_N =? 0) with false by lia. cbv zeta.
  destruct (bsign_outer_eq g (S (List.length rand)) (h ++ [be_to_Z d]) (ps_D k) (List.length h) rand (glob_app _ _ g G) (here_app _ _ _ HD) ltac:(unfold here; heap; lia)) as (ext & o & E & Q).
  rewrite (get_old h _ _ HD), get_new0 in Q. cbn [nth] in Q. exists ([be_to_Z d] ++ ext), o. split; [rewrite E, <- app_assoc; reflexivity|]. unfold sig_res in *. rewrite <- app_assoc in Q. exact Q.
Qed.
Lemma bSignRS_eq g h rand k i u : glob_ok h g -> priv_here h k ->
  exists ext o, bSignRS g rand k i u h = (h ++ ext, o) /\ sig_res h ext o (SignRS rand (privV h k) i u).
Proof.
  intros G H. unfold bSignRS, SignRS. unfold bbind. rewrite bSM3Digest_eq by exact G. change (sk_Pub (privV h k)) with (pubV h (ps_Pub k)).
  destruct (SM3Digest (pubV h (ps_Pub k)) i u) as [hash|x|]; cbn [bind]; [apply bSignDigestRS_eq; auto|exists [], (Err x); rewrite app_nil_r; split; reflexivity|exists [], Panic; rewrite app_nil_r; split; reflexivity].
Qed.

(** ** verification *)
Definition check (pub : PublicKey) (digest : bytes) (r s : Z) : outcome bool :=
  let e := be_to_Z digest in
  let t := r + s in
  let t := t mod sm2_N in
  if t =? 0 then Ret false else
  do xy1 <- sm2_ScalarBaseMult (big_bytes s);
  do xy2 <- sm2_ScalarMult (pk_X pub) (pk_Y pub) (big_bytes t);
  do xy <- sm2_Add (fst xy1) (snd xy1) (fst xy2) (snd xy2);
  let x := fst xy in let y := snd xy in
  if (x =? 0) || (y =? 0) then Ret false else
  let x := x + e in
  let x := x mod sm2_N in
  Ret (x =? r).
Lemma bcheck_eq g h k d r s : glob_ok h g -> pub_here h k -> here h r -> here h s ->
  exists ext, bcheck g k d r s h = (h ++ ext, check (pubV h k) d (get h r) (get h s)).
Proof.
  intros G (HkX & HkY) Hr Hs. destruct (glob_get h g G) as ((HP & HA & HB & HN & HX & HY & HO) & EP & EA & EB & EN & EX & EY & EO). pose proof N_pos.
  unfold bcheck, check. bnew. bnew. barith. erewrite bind_run by (rewrite bMod_eq by (heap; lia); heap; rewrite EN; reflexivity). cbv beta zeta. bget.
  set (t := (get h r + get h s) mod sm2_N). destruct (t =? 0); [eexists; reflexivity|].
  bget. unfold bbind at 1. rewrite bScalarBaseMult_eq by (apply glob_app; exact G). destruct (sm2_ScalarBaseMult (big_bytes (get h s))) as [[x1 y1]|x|]; cbn [bind]; [|eexists; reflexivity|eexists; reflexivity].
  heap. unfold bbind at 1. rewrite bScalarMult_eq by (apply glob_app; exact G). rewrite !get_old by assumption. cbn [pubV pk_X pk_Y].
  destruct (sm2_ScalarMult (get h (pp_X k)) (get h (pp_Y k)) (big_bytes t)) as [[x2 y2]|x|]; cbn [bind]; [|eexists; reflexivity|eexists; reflexivity].
  heap. unfold bbind at 1. rewrite bPointAdd_eq by (apply glob_app; exact G). heap. destruct (sm2_Add x1 y1 x2 y2) as [[x y]|z|]; cbn [bind fst snd]; [|eexists; reflexivity|eexists; reflexivity].
  heap. bget. bget. destruct ((x =? 0) || (y =? 0)); [eexists; reflexivity|]. barith. erewrite bind_run by (rewrite bMod_eq by (heap; lia); heap; rewrite EN; reflexivity). cbv beta. bget. bget. eexists; reflexivity.
Qed.
Lemma brange_eq g h r : glob_ok h g -> brange g r h = (h, Ret ((get h r <? 1) || (sm2_N <=? get h r))).
Proof. intros G. destruct (glob_get h g G) as (_ & EP & EA & EB & EN & EX & EY & EO). unfold brange. unfold bbind, bGet, bret. rewrite EO, EN. reflexivity. Qed.
Lemma bVerifyDigestRS_eq g h k d r s : glob_ok h g -> pub_here h k -> here h r -> here h s ->
  exists ext, bVerifyDigestRS g k d r s h = (h ++ ext, VerifyDigestRS (pubV h k) d (get h r) (get h s)).
Proof.
  intros G Hk Hr Hs. unfold bVerifyDigestRS, VerifyDigestRS. unfold bbind at 1. rewrite brange_eq by exact G. destruct (_ || _); [exists []; rewrite app_nil_r; reflexivity|].
  unfold bbind at 1. rewrite brange_eq by exact G. destruct (_ || _); [exists []; rewrite app_nil_r; reflexivity|]. exact (bcheck_eq g h k d r s G Hk Hr Hs).
Qed.
Lemma bVerifyRS_eq g h k i u r s : glob_ok h g -> pub_here h k -> here h r -> here h s ->
  exists ext, bVerifyRS g k i u r s h = (h ++ ext, VerifyRS (pubV h k) i u (get h r) (get h s)).
Proof.
  intros G Hk Hr Hs. unfold bVerifyRS, VerifyRS. unfold bbind at 1. rewrite brange_eq by exact G. destruct (_ || _); [exists []; rewrite app_nil_r; reflexivity|].
  unfold bbind at 1. rewrite brange_eq by exact G. destruct (_ || _); [exists []; rewrite app_nil_r; reflexivity|]. rewrite bSM3Digest_eq by exact G.
  destruct (SM3Digest (pubV h k) i u) as [hash|x|]; [exact (bcheck_eq g h k hash r s G Hk Hr Hs)|exists []; rewrite app_nil_r; reflexivity|exists []; rewrite app_nil_r; reflexivity].
Qed.

(** ** key generation, encryption, decryption *)
Lemma bGen_eq g fuel : forall h rand, glob_ok h g ->
  bGen g fuel rand h = match elliptic_GenerateKey fuel rand with
    | Ret (d, (x, y), w) => (h ++ [x; y], Ret (d, (List.length h, List.length h + 1)%nat, w)) | Err e => (h, Err e) | Panic => (h, Panic) end.
Proof.
  induction fuel as [|fuel IH]; intros h rand G; cbn [bGen elliptic_GenerateKey]; [reflexivity|]. unfold bbind at 1, blift at 1. destruct (ReadFull 32 rand) as [[p w]|x|]; cbn [bind]; [|reflexivity|reflexivity].
  cbv zeta. destruct (glob_get h g G) as (_ & EP & EA & EB & EN & EX & EY & EO). unfold bbind at 1, bGet at 1. rewrite EN. destruct (_ <=? _); [apply IH; exact G|].
  unfold bbind at 1. rewrite bScalarBaseMult_eq by exact G. match goal with |- context [sm2_ScalarBaseMult ?q] => destruct (sm2_ScalarBaseMult q) as [[x y]|e|] end; cbn [bind]; reflexivity.
Qed.
Lemma bGenerateKey_eq g h rand : glob_ok h g ->
  exists ext o, bGenerateKey g rand h = (h ++ ext, o) /\ omap (fun x => (privV (h ++ ext) (fst x), snd x)) o = GenerateKey rand /\ forall k w, o = Ret (k, w) -> priv_here (h ++ ext) k.
Proof.
  intros G. unfold bGenerateKey, GenerateKey. unfold bbind at 1. rewrite bGen_eq by exact G.
  destruct (elliptic_GenerateKey _ rand) as [[[d [x y]] w]|e|]; cbn [bind].
  - unfold bbind, bNew, bret. heap. exists [x; y; be_to_Z d]. eexists. split; [reflexivity|]. cbn [omap fst snd]. unfold privV, pubV. cbn [ps_Pub ps_D pp_X pp_Y pp_Curve]. heap. split; [reflexivity|].
    intros k w' [= <- <-]. unfold priv_here, pub_here, here. cbn [ps_Pub ps_D pp_X pp_Y]. heap. lia.
  - exists [], (Err e). rewrite app_nil_r. split; [reflexivity|]. split; [reflexivity|]. intros k w X. discriminate X.
  - exists [], Panic. rewrite app_nil_r. split; [reflexivity|]. split; [reflexivity|]. intros k w X. discriminate X.
Qed.
Lemma bencrypt_eq g fuel : forall h rand k m, glob_ok h g -> pub_here h k -> exists ext, bencrypt_loop g fuel rand k m h = (h ++ ext, encrypt_loop fuel rand (pubV h k) m).
Proof.
  induction fuel as [|fuel IH]; intros h rand k m G Hk; cbn [bencrypt_loop encrypt_loop]; [exists []; rewrite app_nil_r; reflexivity|].
  unfold bbind at 1. rewrite bnextk_eq by exact G. destruct (nextk rand) as [[kv w]|x|]; cbn [bind]; [|exists []; rewrite app_nil_r; reflexivity|exists []; rewrite app_nil_r; reflexivity].
  unfold bbind at 1, bGet at 1. heap. cbv zeta. unfold bbind at 1. rewrite bScalarBaseMult_eq by (apply glob_app; exact G).
  destruct (sm2_ScalarBaseMult (big_bytes kv)) as [[a b]|x|]; cbn [bind]; [|eexists; reflexivity|eexists; reflexivity]. unfold bbind at 1 2, bGet at 1 2. heap.
  unfold bbind at 1. rewrite bScalarMult_eq by (apply glob_app; exact G). destruct Hk as [HkX HkY]. rewrite !get_old by assumption. cbn [pubV pk_X pk_Y].
  destruct (sm2_ScalarMult (get h (pp_X k)) (get h (pp_Y k)) (big_bytes kv)) as [[c d]|x|]; cbn [bind]; [|eexists; reflexivity|eexists; reflexivity]. unfold bbind at 1 2, bGet at 1 2. heap.
  unfold bbind at 1, blift at 1. destruct (sm3_Sum _) as [c3|x|]; cbn [bind]; [|eexists; reflexivity|eexists; reflexivity].
  unfold bbind at 1, blift at 1. destruct (kdf (zlen m) c d) as [[t|]|x|]; cbn [bind]; [| |eexists; reflexivity|eexists; reflexivity].
  - unfold bbind, blift. destruct (xor_loop _ 96 m) as [cc|x|]; cbn [bind]; eexists; reflexivity.
  - match goal with |- exists ext, bencrypt_loop g fuel w k m (h ++ ?l) = _ => destruct (IH (h ++ l) w k m (glob_app h l g G) (conj (here_app _ _ _ HkX) (here_app _ _ _ HkY))) as [ext E]; exists (l ++ ext); rewrite E, <- app_assoc end.
    unfold pubV. rewrite !get_old by assumption. reflexivity.
Qed.
Lemma bDecryt_eq g h k d : glob_ok h g -> priv_here h k -> exists ext, bDecryt g k d h = (h ++ ext, Decryt (privV h k) d).
Proof.
  intros G (_ & HD). destruct (glob_get h g G) as ((HP & HA & HB & HN & HX & HY & HO) & EP & EA & EB & EN & EX & EY & EO).
  unfold bDecryt, Decryt. unfold bbind at 1, blift at 1. destruct (slice d 1 _) as [data|x|]; cbn [bind]; [|exists []; rewrite app_nil_r; reflexivity|exists []; rewrite app_nil_r; reflexivity].
  unfold bbind at 1, blift at 1. destruct (slice data 0 32) as [xb|x|]; cbn [bind]; [|exists []; rewrite app_nil_r; reflexivity|exists []; rewrite app_nil_r; reflexivity].
  unfold bbind at 1, bNew at 1. unfold bbind at 1, blift at 1. destruct (slice data 32 64) as [yb|x|]; cbn [bind]; [|eexists; reflexivity|eexists; reflexivity].
  unfold bbind at 1, bNew at 1. unfold bbind at 1 2 3, bGet at 1 2 3. heap. rewrite EP. cbv zeta.
  destruct (_ || _); [eexists; reflexivity|]. unfold bbind at 1. unfold bIsOnCurve. unfold bbind at 1 2 3 4, bGet at 1 2 3 4, bret at 1. heap. rewrite EP, EB. unfold sm2_IsOnCurve.
  destruct (IsOnCurve sm2_P sm2_B _ _); cbn [negb]; [|eexists; reflexivity]. unfold bbind at 1, bGet at 1. heap. rewrite EO.
  unfold bbind at 1. rewrite bScalarMult_eq by (apply glob_app; exact G). heap. destruct (sm2_ScalarMult (be_to_Z xb) (be_to_Z yb) (big_bytes 1)) as [[sx sy]|x|]; cbn [bind]; [|eexists; reflexivity|eexists; reflexivity].
  unfold bbind at 1 2, bGet at 1 2. heap. destruct (_ && _); [eexists; reflexivity|]. unfold bbind at 1, bGet at 1. heap. cbn [privV sk_D].
  unfold bbind at 1. rewrite bScalarMult_eq by (apply glob_app; exact G). heap. destruct (sm2_ScalarMult (be_to_Z xb) (be_to_Z yb) (big_bytes (get h (ps_D k)))) as [[x2 y2]|x|]; cbn [bind]; [|eexists; reflexivity|eexists; reflexivity].
  unfold bbind at 1 2, bGet at 1 2. heap. unfold bbind at 1, blift at 1. destruct (kdf _ x2 y2) as [[c|]|x|]; cbn [bind]; [|eexists; reflexivity|eexists; reflexivity|eexists; reflexivity].
  unfold bbind, blift. destruct (xor_loop c 0 _) as [cc|x|]; cbn [bind]; [|eexists; reflexivity|eexists; reflexivity].
  destruct (sm3_Sum _) as [hash|x|]; cbn [bind]; [|eexists; reflexivity|eexists; reflexivity]. destruct (slice data 64 96) as [c3|x|]; cbn [bind]; [|eexists; reflexivity|eexists; reflexivity].
  destruct (bytes_eqb hash c3); cbn [negb]; eexists; reflexivity.
Qed.

Lemma pubV_app h l k : pub_here h k -> pubV (h ++ l) k = pubV h k.
Proof. intros [A B]. unfold pubV. rewrite !get_old by assumption. reflexivity. Qed.
Lemma privV_app h l k : priv_here h k -> privV (h ++ l) k = privV h k.
Proof. intros [A B]. unfold privV. rewrite pubV_app, get_old by assumption. reflexivity. Qed.
Lemma priv_here_app h l k : priv_here h k -> priv_here (h ++ l) k.
Proof. intros ((A & B) & C). unfold priv_here, pub_here. auto using here_app. Qed.
Lemma sig_agrees h ext o v : sig_res h ext o v ->
  omap (fun x : ptr * ptr * bytes => (get (h ++ ext) (fst (fst x)), get (h ++ ext) (snd (fst x)), snd x)) o = v /\ forall r s w, o = Ret (r, s, w) -> here (h ++ ext) r /\ here (h ++ ext) s /\ r <> s.
Proof.
  unfold sig_res. destruct v as [[[r s] w]|e|].
  - intros (rp & sp & -> & A & B & C & D & E). cbn [omap fst snd]. rewrite D, E. split; [reflexivity|]. intros r' s' w' [= <- <- <-]. auto.
  - intros ->. split; [reflexivity|]. intros r s w X. discriminate X.
  - intros ->. split; [reflexivity|]. intros r s w X. discriminate X.
Qed.
(** C123: one call *)
Theorem C123_call : forall g h c, glob_ok h g -> call_here h c ->
  exists new r, exec g c h = (h ++ new, r) /\ agrees (h ++ new) c r.
Proof.
  intros g h c G H. destruct c as [rand|rand k i u|rand k d|k i u r s|k d r s|rand k m|k d]; cbn [call_here exec] in *; unfold wrap.
  - destruct (bGenerateKey_eq g h rand G) as (ext & o & -> & Q). exists ext, (RKey o). split; [reflexivity|]. exact Q.
  - destruct (bSignRS_eq g h rand k i u G H) as (ext & o & -> & Q). exists ext, (RSig o). split; [reflexivity|]. cbn [agrees]. rewrite (privV_app h ext k H). exact (sig_agrees _ _ _ _ Q).
  - destruct (bSignDigestRS_eq g h rand k d G H) as (ext & o & -> & Q). exists ext, (RSig o). split; [reflexivity|]. cbn [agrees]. rewrite (privV_app h ext k H). exact (sig_agrees _ _ _ _ Q).
  - destruct H as (Hk & Hr & Hs). destruct (bVerifyRS_eq g h k i u r s G Hk Hr Hs) as (ext & ->). eexists ext, (RBool _). split; [reflexivity|]. cbn [agrees snd]. rewrite (pubV_app h ext k Hk), (get_old h ext r Hr), (get_old h ext s Hs). reflexivity.
  - destruct H as (Hk & Hr & Hs). destruct (bVerifyDigestRS_eq g h k d r s G Hk Hr Hs) as (ext & ->). eexists ext, (RBool _). split; [reflexivity|]. cbn [agrees snd]. rewrite (pubV_app h ext k Hk), (get_old h ext r Hr), (get_old h ext s Hs). reflexivity.
  - unfold bEncryt. destruct (bencrypt_eq g (S (List.length rand)) h rand k m G H) as (ext & ->). eexists ext, (REnc _). split; [reflexivity|]. cbn [agrees snd]. rewrite (pubV_app h ext k H). reflexivity.
  - destruct (bDecryt_eq g h k d G H) as (ext & ->). eexists ext, (RDec _). split; [reflexivity|]. cbn [agrees snd]. rewrite (privV_app h ext k H). reflexivity.
Qed.
Print Assumptions C123_call.
Lemma agrees_app h l c r : call_here h c -> agrees h c r -> agrees (h ++ l) c r.
Proof.
  intros H. destruct c as [rand|rand k i u|rand k d|k i u a b|k d a b|rand k m|k d]; destruct r as [o|o|o|o|o]; cbn [agrees call_here] in *; auto.
  - intros [E F]. destruct o as [[k w]|e|]; cbn [omap fst snd] in *; [|split; auto; intros k w X; discriminate X|split; auto; intros k w X; discriminate X].
    specialize (F k w eq_refl). rewrite (privV_app h l k F). split; [exact E|]. intros k' w' [= <- <-]. apply priv_here_app, F.
  - intros [E F]. rewrite (privV_app h l k H). destruct o as [[[x y] w]|e|]; cbn [omap fst snd] in *; [|split; auto; intros x y w X; discriminate X|split; auto; intros x y w X; discriminate X].
    destruct (F x y w eq_refl) as (A & B & C). rewrite (get_old h l x A), (get_old h l y B). split; [exact E|]. intros x' y' w' [= <- <- <-]. auto using here_app.
  - intros [E F]. rewrite (privV_app h l k H). destruct o as [[[x y] w]|e|]; cbn [omap fst snd] in *; [|split; auto; intros x y w X; discriminate X|split; auto; intros x y w X; discriminate X].
    destruct (F x y w eq_refl) as (A & B & C). rewrite (get_old h l x A), (get_old h l y B). split; [exact E|]. intros x' y' w' [= <- <- <-]. auto using here_app.
  - destruct H as (Hk & Hr & Hs). rewrite (pubV_app h l k Hk), (get_old h l a Hr), (get_old h l b Hs). auto.
  - destruct H as (Hk & Hr & Hs). rewrite (pubV_app h l k Hk), (get_old h l a Hr), (get_old h l b Hs). auto.
  - rewrite (pubV_app h l k H). auto.
  - rewrite (privV_app h l k H). auto.
Qed.
(** C123: every history of calls.  The memory only grows: every integer (of a key, a signature, a curve parameter) that was
    there at some point keeps its value; and every result is, also in the final memory, the one the functions on numbers
    give for its arguments. *)
Theorem C123_history : forall g h t h', glob_ok h g -> runs g h t h' ->
  exists new, h' = h ++ new /\ Forall (fun cr => agrees h' (fst cr) (snd cr)) t.
Proof.
  intros g h t h' G R. revert G. induction R as [h|h c h1 r t h2 Hc E R IH]; intros G; [exists []; rewrite app_nil_r; split; [reflexivity|constructor]|].
  destruct (C123_call g h c G Hc) as (ext & r' & E' & A). rewrite E in E'. injection E' as -> ->. destruct (IH (glob_app h ext g G)) as (ext' & -> & F).
  exists (ext ++ ext'). rewrite app_assoc. split; [reflexivity|]. constructor; [|exact F]. cbn [fst snd]. apply agrees_app; [|exact A].
  clear - Hc. destruct c; cbn [call_here] in *; unfold priv_here, pub_here in *; intuition auto using here_app.
Qed.
Print Assumptions C123_history.

(** not vacuous: the parameters in memory, then a history in which the integers of earlier results are used: generate
    (D = 5), sign, encrypt *)
Transparent sm2_N sm2_P sm2_B sm2_A sm2_Gx sm2_Gy.
Definition g0 : globals := mkG 0%nat 1%nat 2%nat 3%nat 4%nat 5%nat 6%nat.
Definition heap0 : bheap := [sm2_P; sm2_A; sm2_B; sm2_N; sm2_Gx; sm2_Gy; 1].
Definition rand0 : bytes := [0; 0x42] ++ repeat 0 29 ++ [5].
Definition rand1 : bytes := repeat 0 39 ++ [2].
Definition key0 : pPriv := mkPS (mkPP SM2P256V1_id 7%nat 8%nat) 9%nat.
Definition heap1 := Eval vm_compute in fst (exec g0 (CGenerateKey rand0) heap0).
Definition heap2 := Eval vm_compute in fst (exec g0 (CSignDigestRS rand1 key0 [7]) heap1).
Definition last3 := Eval vm_compute in exec g0 (CEncryt rand1 (ps_Pub key0) [1; 2; 3]) heap2.
Example C123_instance : glob_ok heap0 g0 /\
  runs g0 heap0 [(CGenerateKey rand0, RKey (Ret (key0, []))); (CSignDigestRS rand1 key0 [7], RSig (Ret (13, 17, [])%nat)); (CEncryt rand1 (ps_Pub key0) [1; 2; 3], snd last3)] (fst last3) /\
  match snd last3 with REnc (Ret (c, w)) => List.length c = 100%nat /\ w = [] | _ => False end.
Proof.
  split; [|split].
  - split; [|vm_compute; repeat split]. repeat (apply Forall_cons; [vm_compute; repeat constructor|]). apply Forall_nil.
  - apply runs_cons with (h1 := heap1); [exact Logic.I|vm_cast_no_check (eq_refl (heap1, RKey (Ret (key0, []))))|].
    apply runs_cons with (h1 := heap2); [vm_compute; repeat constructor|vm_cast_no_check (eq_refl (heap2, RSig (Ret (13, 17, [])%nat)))|].
    apply runs_cons with (h1 := fst last3); [vm_compute; repeat constructor|vm_cast_no_check (eq_refl last3)|apply runs_nil].
  - split; reflexivity.
Qed.
