(** * C125: any number of goroutines may use the same keys *)
From Coq Require Import String ZifyBool ZifyNat Relations Permutation.
From Verif Require Import Base Words SM3Model ECModel SM2Model BigMem ConcModel PropertiesBig ConcProofs.
Open Scope Z_scope.

(** ** Goroutines *)
(** the program a call executes *)
Definition fin {A} (R : outcome A -> result) (m : prog A) : prog result := pbindO m (fun o => PRet (Ret (R o))).
Definition program (g : globals) (c : call) : prog result :=
  match c with
  | CGenerateKey rand => fin RKey (pGenerateKey g rand)
  | CSignRS rand k i u => fin RSig (pSignRS g rand k i u)
  | CSignDigestRS rand k d => fin RSig (pSignDigestRS g rand k d)
  | CVerifyRS k i u r s => fin RBool (pVerifyRS g k i u r s)
  | CVerifyDigestRS k d r s => fin RBool (pVerifyDigestRS g k d r s)
  | CEncryt rand k m => fin REnc (pEncryt g rand k m)
  | CDecryt k d => fin RDec (pDecryt g k d)
  end.
(** the integers a call is given, and those in a result *)
Definition args (c : call) : list ptr :=
  match c with
  | CGenerateKey _ => []
  | CSignRS _ k _ _ | CSignDigestRS _ k _ | CDecryt k _ => [pp_X (ps_Pub k); pp_Y (ps_Pub k); ps_D k]
  | CVerifyRS k _ _ r s | CVerifyDigestRS k _ r s => [pp_X k; pp_Y k; r; s]
  | CEncryt _ k _ => [pp_X k; pp_Y k]
  end.
Definition results (r : result) : list ptr :=
  match r with
  | RKey (Ret (k, _)) => [pp_X (ps_Pub k); pp_Y (ps_Pub k); ps_D k]
  | RSig (Ret (r, s, _)) => [r; s]
  | _ => []
  end.
(** memory, the calls in progress each with what remains to be done, and the calls that have returned *)
Record pool := mkPool { mem : bheap; active : list (call * prog result); finished : list (call * result) }.
(** the integers goroutines know: the first [n0], and those in results *)
Definition knows (n0 : nat) (st : pool) (p : ptr) : Prop := (p < n0)%nat \/ exists cr, In cr (finished st) /\ In p (results (snd cr)).
(** the next thing to happen: somebody starts a call, or one of the calls in progress accesses memory once or returns *)
Inductive inner : pool -> pool -> Prop :=
| i_new h a1 c z k a2 f : inner (mkPool h (a1 ++ (c, PNew z k) :: a2) f) (mkPool (h ++ [z]) (a1 ++ (c, k (List.length h)) :: a2) f)
| i_get h a1 c p k a2 f : inner (mkPool h (a1 ++ (c, PGet p k) :: a2) f) (mkPool h (a1 ++ (c, k (get h p)) :: a2) f)
| i_put h a1 c p z k a2 f : inner (mkPool h (a1 ++ (c, PPut p z k) :: a2) f) (mkPool (upd h p z) (a1 ++ (c, k) :: a2) f)
| i_end h a1 c r a2 f : inner (mkPool h (a1 ++ (c, PRet (Ret r)) :: a2) f) (mkPool h (a1 ++ a2) (f ++ [(c, r)])).
Inductive move (g : globals) (n0 : nat) : pool -> pool -> Prop :=
| m_start h a f c : (forall p, In p (args c) -> knows n0 (mkPool h a f) p) -> move g n0 (mkPool h a f) (mkPool h (a ++ [(c, program g c)]) f)
| m_inner st st' : inner st st' -> move g n0 st st'.
Definition reach (g : globals) (h0 : bheap) : pool -> Prop := clos_refl_trans_n1 _ (move g (List.length h0)) (mkPool h0 [] []).

(** ** Alone, the programs are the functions of BigMem.v *)
Lemma run_bindO {A B} (m : prog A) (f : outcome A -> prog B) : forall h, run (pbindO m f) h = run (f (snd (run m h))) (fst (run m h)).
Proof. induction m as [o|z k IH|p k IH|p z k IH]; intros h; cbn [pbindO run fst snd]; auto. Qed.
Definition is {A} (m : prog A) (b : BM A) : Prop := forall h, run m h = b h.
Lemma is_bind {A B} (m : prog A) (b : BM A) (f : A -> prog B) (k : A -> BM B) : is m b -> (forall a, is (f a) (k a)) -> is (pbind m f) (bbind b k).
Proof. intros H K h. unfold pbind, bbind. rewrite run_bindO, H. destruct (b h) as [h' [a|e|]]; cbn [fst snd run]; [apply K|reflexivity|reflexivity]. Qed.
Lemma is_lift {A} (o : outcome A) : is (plift o) (blift o). Proof. intros h. reflexivity. Qed.
Lemma is_ret {A} (a : A) : is (pret a) (bret a). Proof. intros h. reflexivity. Qed.
Lemma is_new z : is (pNew z) (bNew z). Proof. intros h. reflexivity. Qed.
Lemma is_get p : is (pGet p) (bGet p). Proof. intros h. reflexivity. Qed.
Lemma is_put p z : is (pPut p z) (bPut p z). Proof. intros h. reflexivity. Qed.
Ltac same_step := first
  [ assumption | apply is_lift | apply is_ret | apply is_new | apply is_get | apply is_put
  | apply is_bind; [|let a := fresh "a" in intros a; repeat match goal with x : (_ * _)%type |- _ => destruct x | x : unit |- _ => destruct x end; cbn [fst snd] ]
  | match goal with |- context [if ?c then _ else _] => destruct c end
  | match goal with |- context [match ?c with Some _ => _ | None => _ end] => destruct c end ].
Ltac same := repeat same_step.
Lemma is_Add z x y : is (pAdd z x y) (bAdd z x y). Proof. unfold pAdd, bAdd. same. Qed.
Lemma is_Sub z x y : is (pSub z x y) (bSub z x y). Proof. unfold pSub, bSub. same. Qed.
Lemma is_Mul z x y : is (pMul z x y) (bMul z x y). Proof. unfold pMul, bMul. same. Qed.
Lemma is_Mod z x y : is (pMod z x y) (bMod z x y). Proof. unfold pMod, bMod. same. Qed.
Lemma is_Inv z x y : is (pModInverse z x y) (bModInverse z x y). Proof. unfold pModInverse, bModInverse. same. Qed.
Ltac same2 := repeat first [apply is_Add | apply is_Sub | apply is_Mul | apply is_Mod | apply is_Inv | same_step].
Section Alone.
Variable g : globals.
Lemma is_two v : is (ptwo v) (two v). Proof. unfold ptwo, two. same. Qed.
Lemma is_mult x y k : is (pScalarMult g x y k) (bScalarMult g x y k). Proof. unfold pScalarMult, bScalarMult. repeat first [apply is_two | same_step]. Qed.
Lemma is_base k : is (pScalarBaseMult g k) (bScalarBaseMult g k). Proof. apply is_mult. Qed.
Lemma is_padd a b c d : is (pPointAdd g a b c d) (bPointAdd g a b c d). Proof. unfold pPointAdd, bPointAdd. repeat first [apply is_two | same_step]. Qed.
Lemma is_on x y : is (pIsOnCurve g x y) (bIsOnCurve g x y). Proof. unfold pIsOnCurve, bIsOnCurve. same. Qed.
Ltac same3 := repeat first [apply is_base | apply is_mult | apply is_padd | apply is_on | apply is_Add | apply is_Sub | apply is_Mul | apply is_Mod | apply is_Inv | same_step].
Lemma is_gen fuel : forall rand, is (pGen g fuel rand) (bGen g fuel rand).
Proof. induction fuel as [|n IH]; intros rand; cbn [pGen bGen]; [apply is_lift|]. cbv zeta. repeat first [apply IH | same3]. Qed.
Lemma is_genkey rand : is (pGenerateKey g rand) (bGenerateKey g rand).
Proof. unfold pGenerateKey, bGenerateKey. apply is_bind; [apply is_gen|]. intros [[d [x y]] w]. same. Qed.
Lemma is_digest k i u : is (pSM3Digest g k i u) (bSM3Digest g k i u). Proof. unfold pSM3Digest, bSM3Digest. same. Qed.
Lemma is_nextk rand : is (pnextk g rand) (bnextk g rand). Proof. unfold pnextk, bnextk. same3. Qed.
Lemma is_inner fuel : forall e rand, is (psign_inner g fuel e rand) (bsign_inner g fuel e rand).
Proof. induction fuel as [|n IH]; intros e rand; cbn [psign_inner bsign_inner]; [apply is_lift|]. repeat first [apply IH | apply is_nextk | same3]. Qed.
Lemma is_outer fuel : forall D e rand, is (psign_outer g fuel D e rand) (bsign_outer g fuel D e rand).
Proof. induction fuel as [|n IH]; intros D e rand; cbn [psign_outer bsign_outer]; [apply is_lift|]. repeat first [apply IH | apply is_inner | same3]. Qed.
Lemma is_signdigest rand k d : is (pSignDigestRS g rand k d) (bSignDigestRS g rand k d).
Proof. unfold pSignDigestRS, bSignDigestRS. apply is_bind; [apply is_new|]. intros e. apply is_bind; [apply is_get|]. intros n. destruct (n =? 0); [apply is_lift|apply is_outer]. Qed.
Lemma is_sign rand k i u : is (pSignRS g rand k i u) (bSignRS g rand k i u).
Proof. unfold pSignRS, bSignRS. apply is_bind; [apply is_digest|]. intros d. apply is_signdigest. Qed.
Lemma is_check k d r s : is (pcheck g k d r s) (bcheck g k d r s). Proof. unfold pcheck, bcheck. same3. Qed.
Lemma is_range r : is (prange g r) (brange g r). Proof. unfold prange, brange. same. Qed.
Lemma is_verifydigest k d r s : is (pVerifyDigestRS g k d r s) (bVerifyDigestRS g k d r s).
Proof. unfold pVerifyDigestRS, bVerifyDigestRS. repeat first [apply is_range | apply is_check | same_step]. Qed.
Lemma is_verify k i u r s : is (pVerifyRS g k i u r s) (bVerifyRS g k i u r s).
Proof.
  unfold pVerifyRS, bVerifyRS. apply is_bind; [apply is_range|]. intros [|]; [apply is_ret|]. apply is_bind; [apply is_range|]. intros [|]; [apply is_ret|]. intros h. rewrite run_bindO, is_digest.
  destruct (bSM3Digest g k i u h) as [h' [d|e|]]; cbn [fst snd]; [apply is_check|reflexivity|reflexivity].
Qed.
Lemma is_encrypt fuel : forall rand k m, is (pencrypt_loop g fuel rand k m) (bencrypt_loop g fuel rand k m).
Proof. induction fuel as [|n IH]; intros rand k m; cbn [pencrypt_loop bencrypt_loop]; [apply is_lift|]. cbv zeta. repeat first [apply IH | apply is_nextk | same3]. Qed.
Lemma is_decrypt k d : is (pDecryt g k d) (bDecryt g k d).
Proof. unfold pDecryt, bDecryt. cbv zeta. same3. Qed.
Lemma is_fin {A} (R : outcome A -> result) m b h : is m b -> run (fin R m) h = (fst (wrap R (b h)), Ret (snd (wrap R (b h)))).
Proof. intros H. unfold fin. rewrite run_bindO, H. reflexivity. Qed.
End Alone.
Theorem C125_alone : forall g c h, run (program g c) h = (fst (exec g c h), Ret (snd (exec g c h))).
Proof.
  intros g c h. destruct c; cbn [program exec]; apply is_fin; [apply is_genkey|apply is_sign|apply is_signdigest|apply is_verify|apply is_verifydigest|apply is_encrypt|apply is_decrypt].
Qed.
Print Assumptions C125_alone.

(** ** The invariant *)
Section Inv.
Variables (g : globals) (h0 : bheap).
Hypothesis G0 : glob_ok h0 g.
Let n0 := List.length h0.
Definition holds (h : bheap) (p : ptr) (z : Z) : Prop := here h p /\ get h p = z.
Definition good (F : ptr -> Z -> Prop) (own : owned) (c : call) (r : result) : Prop :=
  (forall p, In p (results r) -> own p <> None) /\
  forall h, (forall p z, F p z -> holds h p z) -> (forall p z, own p = Some z -> holds h p z) -> agrees h c r.
Definition frozen (st : pool) (p : ptr) (z : Z) : Prop := knows n0 st p /\ get (mem st) p = z.
Definition own_ok (st : pool) (own : owned) : Prop := forall p z, own p = Some z -> holds (mem st) p z /\ ~ knows n0 st p.
Definition thread_ok (st : pool) (t : call * prog result * owned) : Prop :=
  (forall p, In p (args (fst (fst t))) -> knows n0 st p) /\ own_ok st (snd t) /\
  exists F : ptr -> Z -> Prop, (forall p z, F p z -> frozen st p z) /\ safe F (snd t) (snd (fst t)) (fun own' o => exists r, o = Ret r /\ good F own' (fst (fst t)) r).
Definition disj (a b : call * prog result * owned) : Prop := forall p, snd a p = None \/ snd b p = None.
Definition done_ok (st : pool) (cr : call * result) : Prop := agrees (mem st) (fst cr) (snd cr) /\ forall p, In p (args (fst cr)) -> knows n0 st p.
Record Inv (st : pool) : Prop := {
  inv_old : forall p, (p < n0)%nat -> get (mem st) p = get h0 p;
  inv_known : forall p, knows n0 st p -> here (mem st) p;
  inv_done : Forall (done_ok st) (finished st);
  inv_threads : exists L, active st = map fst L /\ Forall (thread_ok st) L /\ ForallOrdPairs disj L }.

Lemma disj_sym a b : disj a b -> disj b a. Proof. intros H p. destruct (H p); auto. Qed.
Lemma fop_mid (l1 : list (call * prog result * owned)) x l2 : ForallOrdPairs disj (l1 ++ x :: l2) <-> ForallOrdPairs disj (l1 ++ l2) /\ Forall (disj x) (l1 ++ l2).
Proof.
  induction l1 as [|y l1 IH]; cbn [app].
  - split; [intros H; inversion H; subst; auto|intros [H1 H2]; constructor; auto].
  - split.
    + intros H. inversion H as [|? ? H1 H2]; subst. apply IH in H2 as [H2 H3]. apply Forall_app in H1 as [H1 H4]. inversion H4; subst. split; [constructor; [apply Forall_app; auto|exact H2]|]. constructor; [apply disj_sym; assumption|exact H3].
    + intros [H1 H2]. inversion H1 as [|? ? H3 H4]; subst. inversion H2 as [|? ? H5 H6]; subst. constructor; [|apply IH; auto]. apply Forall_app in H3 as [H3 H7]. apply Forall_app. split; [exact H3|]. constructor; [apply disj_sym; exact H5|exact H7].
Qed.
Lemma all_mid {T} (P : T -> Prop) l1 x l2 : Forall P (l1 ++ x :: l2) <-> P x /\ Forall P (l1 ++ l2).
Proof. rewrite !Forall_app, Forall_cons_iff. tauto. Qed.
Lemma agrees_same h h' c r : (forall p, In p (args c ++ results r) -> get h' p = get h p /\ (here h p -> here h' p)) -> agrees h c r -> agrees h' c r.
Proof.
  intros E. assert (A : forall p, In p (args c) -> get h' p = get h p) by (intros p Hp; apply E; apply in_app_iff; auto). assert (B : forall p, In p (results r) -> get h' p = get h p /\ (here h p -> here h' p)) by (intros p Hp; apply E; apply in_app_iff; auto). clear E.
  destruct c, r; cbn [agrees args results] in *; try tauto; unfold privV, pubV in *; cbn [In] in *; try (rewrite !A by tauto; tauto).
  - intros [H1 H2]. destruct o as [[k w]|e|]; cbn [omap fst snd] in *; [|split; [exact H1|intros; discriminate]|split; [exact H1|intros; discriminate]]. destruct (H2 k w eq_refl) as ((X & Y) & Z).
    cbn [In] in B. rewrite (proj1 (B (pp_X (ps_Pub k)) ltac:(tauto))), (proj1 (B (pp_Y (ps_Pub k)) ltac:(tauto))), (proj1 (B (ps_D k) ltac:(tauto))). split; [exact H1|]. intros k' w' [= <- <-]. split; [split|]; apply B; tauto.
  - intros [H1 H2]. rewrite !A by tauto. destruct o as [[[r s] w]|e|]; cbn [omap fst snd] in *; [|split; [exact H1|intros; discriminate]|split; [exact H1|intros; discriminate]]. destruct (H2 r s w eq_refl) as (X & Y & Z).
    cbn [In] in B. rewrite (proj1 (B r ltac:(tauto))), (proj1 (B s ltac:(tauto))). split; [exact H1|]. intros r' s' w' [= <- <- <-]. split; [|split; [|exact Z]]; apply B; tauto.
  - intros [H1 H2]. rewrite !A by tauto. destruct o as [[[r s] w]|e|]; cbn [omap fst snd] in *; [|split; [exact H1|intros; discriminate]|split; [exact H1|intros; discriminate]]. destruct (H2 r s w eq_refl) as (X & Y & Z).
    cbn [In] in B. rewrite (proj1 (B r ltac:(tauto))), (proj1 (B s ltac:(tauto))). split; [exact H1|]. intros r' s' w' [= <- <- <-]. split; [|split; [|exact Z]]; apply B; tauto.
Qed.
(** memory changes at integers nobody knows, and perhaps grows *)
Definition keeps_known (st : pool) (h' : bheap) : Prop := (List.length (mem st) <= List.length h')%nat /\ forall p, knows n0 st p -> get h' p = get (mem st) p.
Lemma done_keeps st h' a' : Inv st -> keeps_known st h' -> Forall (done_ok (mkPool h' a' (finished st))) (finished st).
Proof.
  intros I [Kl K]. pose proof (inv_done st I) as D. apply Forall_forall. intros [c r] Hcr. rewrite Forall_forall in D. destruct (D _ Hcr) as [D1 D2]. split; [|exact D2]. cbn [mem fst snd] in *.
  eapply agrees_same; [|exact D1]. intros p Hp. split; [|unfold here; lia]. apply K. apply in_app_iff in Hp as [Hp|Hp]; [apply D2; exact Hp|]. right. exists (c, r). auto.
Qed.
Lemma thread_keeps st h' a' t : keeps_known st h' -> (forall p z, snd t p = Some z -> get h' p = get (mem st) p) -> thread_ok st t -> thread_ok (mkPool h' a' (finished st)) t.
Proof.
  intros [Kl K] Ko (T1 & T2 & F & T3 & T4). split; [exact T1|]. split.
  - intros p z Hp. destruct (T2 p z Hp) as [[H1 H2] H3]. split; [|exact H3]. split; cbn [mem]; [unfold here in *; lia|]. rewrite (Ko p z Hp). exact H2.
  - exists F. split; [|exact T4]. intros p z Hp. destruct (T3 p z Hp) as [H1 H2]. split; [exact H1|]. cbn [mem]. rewrite (K p H1). exact H2.
Qed.
Lemma get_upd_neq (h : bheap) p q z : q <> p -> get (upd h p z) q = get h q.
Proof. unfold get. revert p q. induction h as [|x h IH]; intros [|p] [|q] H; cbn [upd nth]; try reflexivity; try congruence. apply IH. congruence. Qed.
Lemma get_upd_eq (h : bheap) p z : here h p -> get (upd h p z) p = z.
Proof. unfold get, here. revert p. induction h as [|x h IH]; intros [|p] H; cbn [upd nth List.length] in *; try lia. apply IH. lia. Qed.
Lemma upd_len (h : bheap) p z : List.length (upd h p z) = List.length h.
Proof. revert p. induction h as [|x h IH]; intros [|p]; cbn [upd List.length]; auto. Qed.
Lemma start_ok st c : Inv st -> (forall p, In p (args c) -> knows n0 st p) -> thread_ok st (c, program g c, fun _ => None).
Proof.
  intros I H. split; [exact H|]. split; [intros p z Hp; discriminate Hp|]. exists (frozen st). split; [auto|]. cbn [fst snd].
  assert (K : forall p, (p < n0)%nat -> frozen st p (get h0 p)) by (intros p Hp; split; [left; exact Hp|exact (inv_old st I p Hp)]).
  assert (GF : FG (frozen st) g).
  { destruct (glob_get h0 g G0) as ((H1 & H2 & H3 & H4 & H5 & H6 & H7) & E1 & E2 & E3 & E4 & E5 & E6 & E7). repeat split; try (left; assumption); rewrite (inv_old st I) by assumption; assumption. }
  assert (A : forall p, In p (args c) -> frozen st p (get (mem st) p)) by (intros p Hp; split; [apply H; exact Hp|reflexivity]).
  assert (V : forall h p, (forall p z, frozen st p z -> holds h p z) -> In p (args c) -> get h p = get (mem st) p) by (intros h p X Hp; exact (proj2 (X _ _ (A p Hp)))).
  clear H. destruct c; cbn [program args] in *; unfold fin; apply safe_bindO.
  - eapply (safe_mono (frozen st) (frozen st)); [auto| |apply GenerateKey_safe; exact GF]. intros own' o [E R]. cbn [safe]. eexists. split; [reflexivity|].
    destruct (GenerateKey rand) as [[k w]|e|] eqn:Ev; [|subst o; split; [intros p []|intros h _ _; cbn [agrees omap]; rewrite Ev; split; [reflexivity|intros; discriminate]]|subst o; split; [intros p []|intros h _ _; cbn [agrees omap]; rewrite Ev; split; [reflexivity|intros; discriminate]]].
    destruct R as ([k' w'] & -> & Ew & Ec & (_ & RX) & (_ & RY) & (_ & RD)). cbn [fst snd] in *. subst w'. split; [cbn [results In]; intros p [<-|[<-|[<-|[]]]]; congruence|].
    intros h HF HO. destruct (HO _ _ RX) as [X1 X2]. destruct (HO _ _ RY) as [Y1 Y2]. destruct (HO _ _ RD) as [D1 D2]. cbn [agrees omap fst snd]. rewrite Ev. split.
    + unfold privV, pubV. rewrite X2, Y2, D2, <- Ec. destruct k as [[? ? ?] ?]. reflexivity.
    + intros k2 w2 [= <- <-]. split; [split|]; assumption.
  - eapply (safe_mono (frozen st) (frozen st)); [auto| |apply SignRS_safe; [exact GF|apply A; cbn; tauto|apply A; cbn; tauto|apply A; cbn; tauto]]. intros own' o [E R]. cbn [safe]. eexists. split; [reflexivity|].
    match type of R with match ?v with _ => _ end => destruct v as [[[r s] w]|e|] eqn:Ev end; [destruct R as ([[rp sp] w'] & -> & ((_ & R1) & (_ & S1) & Ne) & Ew); cbn [fst snd] in *; subst w'|subst o|subst o]; (split; [cbn [results In]; try tauto; try (intros p [<-|[<-|[]]]; congruence)|]);
      intros h HF HO; cbn [agrees omap fst snd]; unfold privV, pubV; repeat match goal with |- context [get h ?q] => rewrite (V h q HF) by (cbn; tauto) end; rewrite Ev; (split; [|intros; try discriminate]); try reflexivity.
    + rewrite (proj2 (HO _ _ R1)), (proj2 (HO _ _ S1)). reflexivity.
    + match goal with H : Ret _ = Ret _ |- _ => injection H as <- <- <- end. split; [exact (proj1 (HO _ _ R1))|]. split; [exact (proj1 (HO _ _ S1))|exact Ne].
  - eapply (safe_mono (frozen st) (frozen st)); [auto| |apply (SignDigestRS_safe (frozen st) g GF _ rand priv digest (get (mem st) (pp_X (ps_Pub priv))) (get (mem st) (pp_Y (ps_Pub priv)))); apply A; cbn; tauto]. intros own' o [E R]. cbn [safe]. eexists. split; [reflexivity|].
    match type of R with match ?v with _ => _ end => destruct v as [[[r s] w]|e|] eqn:Ev end; [destruct R as ([[rp sp] w'] & -> & ((_ & R1) & (_ & S1) & Ne) & Ew); cbn [fst snd] in *; subst w'|subst o|subst o]; (split; [cbn [results In]; try tauto; try (intros p [<-|[<-|[]]]; congruence)|]);
      intros h HF HO; cbn [agrees omap fst snd]; unfold privV, pubV; repeat match goal with |- context [get h ?q] => rewrite (V h q HF) by (cbn; tauto) end; rewrite Ev; (split; [|intros; try discriminate]); try reflexivity.
    + rewrite (proj2 (HO _ _ R1)), (proj2 (HO _ _ S1)). reflexivity.
    + match goal with H : Ret _ = Ret _ |- _ => injection H as <- <- <- end. split; [exact (proj1 (HO _ _ R1))|]. split; [exact (proj1 (HO _ _ S1))|exact Ne].
  - eapply (safe_mono (frozen st) (frozen st)); [auto| |apply VerifyRS_safe; [exact GF|apply A; cbn; tauto|apply A; cbn; tauto|apply A; cbn; tauto|apply A; cbn; tauto]]. intros own' o [E R]. cbn [safe]. eexists. split; [reflexivity|].
    split; [destruct o; cbn; tauto|]. intros h HF HO. cbn [agrees]. unfold pubV. repeat match goal with |- context [get h ?q] => rewrite (V h q HF) by (cbn; tauto) end.
    match type of R with match ?v with _ => _ end => destruct v eqn:Ev end; [destruct R as (b & -> & R); unfold same in R; subst; reflexivity|exact R|exact R].
  - eapply (safe_mono (frozen st) (frozen st)); [auto| |apply VerifyDigestRS_safe; [exact GF|apply A; cbn; tauto|apply A; cbn; tauto|apply A; cbn; tauto|apply A; cbn; tauto]]. intros own' o [E R]. cbn [safe]. eexists. split; [reflexivity|].
    split; [destruct o; cbn; tauto|]. intros h HF HO. cbn [agrees]. unfold pubV. repeat match goal with |- context [get h ?q] => rewrite (V h q HF) by (cbn; tauto) end.
    match type of R with match ?v with _ => _ end => destruct v eqn:Ev end; [destruct R as (b & -> & R); unfold same in R; subst; reflexivity|exact R|exact R].
  - eapply (safe_mono (frozen st) (frozen st)); [auto| |unfold pEncryt; apply encrypt_safe; [exact GF|apply A; cbn; tauto|apply A; cbn; tauto]]. intros own' o [E R]. cbn [safe]. eexists. split; [reflexivity|].
    split; [destruct o; cbn; tauto|]. intros h HF HO. cbn [agrees]. unfold pubV, Encryt. repeat match goal with |- context [get h ?q] => rewrite (V h q HF) by (cbn; tauto) end.
    match type of R with match ?v with _ => _ end => destruct v eqn:Ev end; [destruct R as (b & -> & R); unfold same in R; subst; reflexivity|exact R|exact R].
  - eapply (safe_mono (frozen st) (frozen st)); [auto| |apply (Decryt_safe (frozen st) g GF _ priv data (get (mem st) (pp_X (ps_Pub priv))) (get (mem st) (pp_Y (ps_Pub priv)))); apply A; cbn; tauto]. intros own' o [E R]. cbn [safe]. eexists. split; [reflexivity|].
    split; [destruct o; cbn; tauto|]. intros h HF HO. cbn [agrees]. unfold privV, pubV. repeat match goal with |- context [get h ?q] => rewrite (V h q HF) by (cbn; tauto) end.
    match type of R with match ?v with _ => _ end => destruct v eqn:Ev end; [destruct R as (b & -> & R); unfold same in R; subst; reflexivity|exact R|exact R].
Qed.
Lemma split_map (L : list (call * prog result * owned)) a1 x a2 : map fst L = a1 ++ x :: a2 -> exists L1 own L2, L = L1 ++ (x, own) :: L2 /\ map fst L1 = a1 /\ map fst L2 = a2.
Proof.
  intros E. apply map_eq_app in E as (L1 & L2 & -> & E1 & E2). apply map_eq_cons in E2 as ([y own] & L3 & -> & E3 & E4). cbn [fst] in E3. subst y. exists L1, own, L3. auto.
Qed.
Lemma knows_same h a h' a' f p : knows n0 (mkPool h a f) p -> knows n0 (mkPool h' a' f) p. Proof. exact (fun H => H). Qed.
(** one thread moves from [m], owning [own], to [m'], owning [own'], changing only integers it owns or owns now *)
Lemma thread_moves h h' a1 c m m' a2 f L1 own own' L2 : let st := mkPool h (a1 ++ (c, m) :: a2) f in let st' := mkPool h' (a1 ++ (c, m') :: a2) f in
  Inv st -> map fst L1 = a1 -> map fst L2 = a2 -> Forall (thread_ok st) (L1 ++ (c, m, own) :: L2) -> ForallOrdPairs disj (L1 ++ (c, m, own) :: L2) ->
  keeps_known st h' ->
  (forall p, own' p <> None -> own p <> None \/ ~ here h p) ->
  (forall p, here h p -> own p = None -> get h' p = get h p) ->
  own_ok st' own' -> (forall F, safe F own m (fun own' o => exists r, o = Ret r /\ good F own' c r) -> (forall p z, F p z -> frozen st p z) -> safe F own' m' (fun own' o => exists r, o = Ret r /\ good F own' c r)) ->
  Inv st'.
Proof.
  intros st st' I M1 M2 T D K No Ne Ok Sf. apply all_mid in T as [(T1 & T2 & F & T3 & T4) T]. apply fop_mid in D as [D D'].
  constructor.
  - intros p Hp. cbn [mem st']. destruct K as [_ K]. rewrite (K p) by (left; exact Hp). exact (inv_old st I p Hp).
  - intros p Hp. pose proof (inv_known st I p Hp) as H. destruct K as [K _]. unfold here in *. cbn [mem st'] in *. cbn [mem st] in *. lia.
  - exact (done_keeps st h' _ I K).
  - exists (L1 ++ (c, m', own') :: L2). split; [cbn [active st']; rewrite map_app; cbn [map fst]; congruence|]. split.
    + apply all_mid. split.
      * split; [exact T1|]. split; [exact Ok|]. exists F. split; [|exact (Sf F T4 T3)]. intros p z Hp. destruct (T3 p z Hp) as [H1 H2]. split; [exact H1|]. cbn [mem st']. destruct K as [_ K]. rewrite (K p H1). exact H2.
      * rewrite Forall_forall in *. intros t Ht. apply (thread_keeps st h' _ t K); [|exact (T t Ht)]. intros p z Hp. destruct (T t Ht) as (_ & To & _). destruct (To p z Hp) as [[Hh _] _]. apply Ne; [exact Hh|].
        pose proof (D' t Ht p) as X. destruct X as [X|X]; [exact X|pose proof (eq_trans (eq_sym Hp) X) as Y; discriminate Y].
    + apply fop_mid. split; [exact D|]. rewrite Forall_forall in *. intros t Ht p. cbn [snd]. destruct (own' p) as [z|] eqn:Eo; [|left; reflexivity]. right. destruct (snd t p) as [z'|] eqn:Et; [|reflexivity]. exfalso.
      destruct (T t Ht) as (_ & To & _). destruct (To p z' Et) as [[Hh _] _]. destruct (No p ltac:(congruence)) as [X|X]; [|contradiction]. destruct (D' t Ht p) as [Y|Y]; cbn [snd] in Y; congruence.
Qed.
Lemma step_inv st st' : Inv st -> move g n0 st st' -> Inv st'.
Proof.
  intros I M. destruct M as [h a f c Hc|st st' M].
  - (* a call starts *)
    set (st := mkPool h a f) in *. destruct (inv_threads st I) as (L & Ea & T & D). pose proof (start_ok st c I Hc) as S. constructor.
    + exact (inv_old st I).
    + exact (inv_known st I).
    + exact (inv_done st I).
    + exists (L ++ [(c, program g c, fun _ => None)]). split; [cbn [active]; rewrite map_app; cbn [map fst]; cbn [active st] in Ea; congruence|]. split; [apply Forall_app; split; [exact T|constructor; [exact S|constructor]]|].
      apply fop_mid. rewrite app_nil_r. split; [exact D|]. apply Forall_forall. intros t _ p. left. reflexivity.
  - destruct M as [h a1 c z k a2 f|h a1 c p k a2 f|h a1 c p z k a2 f|h a1 c r a2 f]; destruct (inv_threads _ I) as (L & Ea & T & D); cbn [active] in Ea; symmetry in Ea; destruct (split_map _ _ _ _ Ea) as (L1 & own & L2 & -> & E1 & E2);
      pose proof T as T'; apply all_mid in T' as [(T1 & T2 & F0 & T3 & T4) T']; cbn [fst snd] in *.
    + (* allocation *)
      set (p := List.length h). assert (On : own p = None) by (destruct (own p) as [v|] eqn:E; [|reflexivity]; destruct (T2 p v E) as [[X _] _]; unfold here, p in X; cbn [mem] in X; lia).
      eapply (thread_moves h (h ++ [z]) a1 c _ _ a2 f L1 own (oset own p z) L2 I E1 E2 T D).
      * split; [cbn [mem]; rewrite app_length; lia|]. intros q Hq. cbn [mem]. apply get_old. exact (inv_known _ I q Hq).
      * intros q Hq. destruct (Nat.eq_dec q p) as [->|N]; [right; unfold here, p; lia|left; rewrite oset_neq in Hq by exact N; exact Hq].
      * intros q Hq _. apply get_old. exact Hq.
      * intros q v Hq. destruct (Nat.eq_dec q p) as [->|N].
        -- rewrite oset_eq in Hq. injection Hq as <-. split; [split; cbn [mem]; [unfold here, p; rewrite app_length; cbn; lia|apply get_new0]|]. intros X. apply (knows_same _ _ h (a1 ++ (c, PNew z k) :: a2) f) in X. pose proof (inv_known _ I p X) as Y. unfold here, p in Y. cbn [mem] in Y. lia.
        -- rewrite oset_neq in Hq by exact N. destruct (T2 q v Hq) as [[X1 X2] X3]. split; [split; cbn [mem] in *; [unfold here in *; rewrite app_length; lia|rewrite get_old; assumption]|exact X3].
      * intros F SF HF. cbn [safe] in SF. apply SF; [|exact On]. intros v Hv. destruct (HF p v Hv) as [X _]. pose proof (inv_known _ I p X) as Y. unfold here, p in Y. cbn [mem] in Y. lia.
    + (* reading *)
      eapply (thread_moves h h a1 c _ _ a2 f L1 own own L2 I E1 E2 T D).
      * split; [cbn [mem]; lia|auto].
      * auto.
      * auto.
      * exact T2.
      * intros F SF HF. cbn [safe] in SF. destruct SF as (v & [S1|S1] & SF).
        -- destruct (T2 p v S1) as [[_ X] _]. cbn [mem] in X. rewrite X. exact SF.
        -- destruct (HF p v S1) as [_ X]. cbn [mem] in X. rewrite X. exact SF.
    + (* overwriting *)
      assert (Op : exists v, own p = Some v) by (cbn [safe] in T4; destruct T4 as [X _]; destruct (own p) as [v|]; [eauto|congruence]). destruct Op as [v0 Op]. destruct (T2 p v0 Op) as [[P1 _] P2]. cbn [mem] in P1.
      eapply (thread_moves h (upd h p z) a1 c _ _ a2 f L1 own (oset own p z) L2 I E1 E2 T D).
      * split; [cbn [mem]; rewrite upd_len; lia|]. intros q Hq. cbn [mem]. apply get_upd_neq. intros ->. contradiction.
      * intros q Hq. left. destruct (Nat.eq_dec q p) as [->|N]; [congruence|rewrite oset_neq in Hq by exact N; exact Hq].
      * intros q _ Hq. apply get_upd_neq. congruence.
      * intros q v Hq. destruct (Nat.eq_dec q p) as [->|N].
        -- rewrite oset_eq in Hq. injection Hq as <-. split; [|exact P2]. split; cbn [mem]; [unfold here; rewrite upd_len; exact P1|apply get_upd_eq; exact P1].
        -- rewrite oset_neq in Hq by exact N. destruct (T2 q v Hq) as [[X1 X2] X3]. split; [|exact X3]. split; cbn [mem] in *; [unfold here; rewrite upd_len; exact X1|rewrite get_upd_neq by exact N; exact X2].
      * intros F SF HF. cbn [safe] in SF. exact (proj2 SF).
    + (* return *)
      cbn [safe] in T4. destruct T4 as (r' & [= <-] & Gr & Ga). apply fop_mid in D as [D D'].
      set (st := mkPool h (a1 ++ (c, PRet (Ret r)) :: a2) f) in *. set (st' := mkPool h (a1 ++ a2) (f ++ [(c, r)])).
      assert (Kn : forall p, knows n0 st' p -> knows n0 st p \/ In p (results r)).
      { intros p [X|(cr & X & Y)]; [left; left; exact X|]. cbn [finished st'] in X. apply in_app_iff in X as [X|[<-|[]]]; [left; right; exists cr; auto|right; exact Y]. }
      assert (Km : forall p, knows n0 st p -> knows n0 st' p).
      { intros p [X|(cr & X & Y)]; [left; exact X|]. right. exists cr. split; [cbn [finished st']; apply in_app_iff; left; exact X|exact Y]. }
      assert (Own : forall p, In p (results r) -> exists v, own p = Some v) by (intros p Hp; specialize (Gr p Hp); destruct (own p); [eauto|congruence]).
      constructor.
      * exact (inv_old st I).
      * intros p Hp. destruct (Kn p Hp) as [X|X]; [exact (inv_known st I p X)|]. destruct (Own p X) as [v Hv]. exact (proj1 (proj1 (T2 p v Hv))).
      * cbn [finished st']. apply Forall_app. split.
        -- pose proof (inv_done st I) as Dn. eapply Forall_impl; [|exact Dn]. intros cr [X1 X2]. split; [exact X1|]. intros p Hp. apply Km, X2, Hp.
        -- constructor; [|constructor]. split; [|intros p Hp; apply Km, T1, Hp]. cbn [fst snd mem st']. apply Ga.
           ++ intros p z Hp. destruct (T3 p z Hp) as [X1 X2]. split; [exact (inv_known st I p X1)|exact X2].
           ++ intros p z Hp. exact (proj1 (T2 p z Hp)).
      * exists (L1 ++ L2). split; [cbn [active st']; rewrite map_app; congruence|]. split; [|exact D]. rewrite Forall_forall in *. intros t Ht. destruct (T' t Ht) as (U1 & U2 & F & U3 & U4).
        split; [intros p Hp; apply Km, U1, Hp|]. split.
        -- intros p z Hp. destruct (U2 p z Hp) as [X1 X2]. split; [exact X1|]. intros X. destruct (Kn p X) as [Y|Y]; [contradiction|]. destruct (Own p Y) as [v Hv]. destruct (D' t Ht p) as [W|W]; cbn [snd] in W; congruence.
        -- exists F. split; [|exact U4]. intros p z Hp. destruct (U3 p z Hp) as [X1 X2]. split; [exact (Km p X1)|exact X2].
Qed.
Lemma reach_inv st : reach g h0 st -> Inv st.
Proof.
  intros R. induction R as [|st st' M R IH].
  - constructor; cbn [mem active finished].
    + auto.
    + intros p [X|(cr & [] & _)]. exact X.
    + constructor.
    + exists []. split; [reflexivity|]. split; constructor.
  - exact (step_inv st st' IH M).
Qed.
End Inv.

(** ** C125 *)
(** whatever the schedule: at every moment, all integers that were there at the beginning have their values, and every call that has
    returned has returned what it returns alone (the functions on numbers, on the values of its arguments), and it still reads so *)
Theorem C125_results : forall g h0 st, glob_ok h0 g -> reach g h0 st ->
  (forall p, (p < List.length h0)%nat -> get (mem st) p = get h0 p) /\ Forall (fun cr => agrees (mem st) (fst cr) (snd cr)) (finished st).
Proof.
  intros g h0 st G R. pose proof (reach_inv g h0 G st R) as I. split; [exact (inv_old _ _ I)|]. pose proof (inv_done _ _ I) as D. eapply Forall_impl; [|exact D]. intros cr [X _]. exact X.
Qed.
Print Assumptions C125_results.
(** an integer that a goroutine knows never changes from then on *)
Theorem C125_stable : forall g h0 st st' p, glob_ok h0 g -> reach g h0 st -> clos_refl_trans_n1 _ (move g (List.length h0)) st st' -> knows (List.length h0) st p ->
  knows (List.length h0) st' p /\ get (mem st') p = get (mem st) p.
Proof.
  intros g h0 st st' p G R M Kp. induction M as [|st1 st2 M1 M IH]; [auto|]. destruct IH as [K1 E1]. rewrite <- E1. clear E1.
  assert (R1 : reach g h0 st1). { clear - R M. induction M as [|x y S M IH]; [exact R|]. eapply Relation_Operators.rtn1_trans; [exact S|exact IH]. }
  pose proof (reach_inv g h0 G _ R1) as I. destruct M1 as [h a f c Hc|st1 st2 M1]; [auto|].
  destruct M1 as [h a1 c z k a2 f|h a1 c q k a2 f|h a1 c q z k a2 f|h a1 c r a2 f]; cbn [mem].
  - split; [exact K1|]. apply get_old. exact (inv_known _ _ I p K1).
  - auto.
  - split; [exact K1|]. apply get_upd_neq. intros ->. destruct (inv_threads _ _ I) as (L & Ea & T & _). cbn [active] in Ea. symmetry in Ea. destruct (split_map _ _ _ _ Ea) as (L1 & own & L2 & -> & _). apply all_mid in T as [(_ & T2 & F & _ & T4) _]. cbn [fst snd safe] in *. destruct T4 as [X _].
    destruct (own q) as [v|] eqn:Ev; [|congruence]. exact (proj2 (T2 q v Ev) K1).
  - split; [|reflexivity]. destruct K1 as [X|(cr & X & Y)]; [left; exact X|]. right. exists cr. cbn [finished] in *. split; [apply in_app_iff; left; exact X|exact Y].
Qed.
Print Assumptions C125_stable.
(** no data race: when a call is about to overwrite an integer, no goroutine knows it and no other call is about to access it *)
Definition next_access (m : prog result) : option ptr := match m with PGet p _ | PPut p _ _ => Some p | _ => None end.
Theorem C125_no_race : forall g h0 st a1 c p z k a2, glob_ok h0 g -> reach g h0 st -> active st = a1 ++ (c, PPut p z k) :: a2 ->
  ~ knows (List.length h0) st p /\ Forall (fun t => next_access (snd t) <> Some p) (a1 ++ a2).
Proof.
  intros g h0 st a1 c p z k a2 G R E. pose proof (reach_inv g h0 G _ R) as I. destruct (inv_threads _ _ I) as (L & Ea & T & D). rewrite E in Ea. symmetry in Ea. destruct (split_map _ _ _ _ Ea) as (L1 & own & L2 & -> & <- & <-).
  apply all_mid in T as [(_ & T2 & F & _ & T4) T]. apply fop_mid in D as [_ D]. cbn [fst snd safe] in *. destruct T4 as [X _]. destruct (own p) as [v|] eqn:Ev; [|congruence]. clear X. destruct (T2 p v Ev) as [_ Np]. split; [exact Np|].
  rewrite <- map_app, Forall_map. rewrite Forall_forall in *. intros [[c' m'] own'] Ht. destruct (T _ Ht) as (_ & U2 & F' & U3 & U4). cbn [fst snd] in *. destruct (D _ Ht p) as [X|X]; cbn [snd] in X; [congruence|].
  intros N. destruct m' as [o|z' k'|q k'|q z' k']; cbn [next_access safe] in *; try discriminate; injection N as ->.
  - destruct U4 as (w & [S|S] & _); [congruence|]. exact (Np (proj1 (U3 p w S))).
  - destruct U4 as [Y _]. congruence.
Qed.
Print Assumptions C125_no_race.
(** nobody waits for anybody: every call in progress can go on at any time *)
Theorem C125_progress : forall g h0 st a1 c m a2, glob_ok h0 g -> reach g h0 st -> active st = a1 ++ (c, m) :: a2 ->
  exists st', inner st st' /\ ((exists m', active st' = a1 ++ (c, m') :: a2) \/ exists r, active st' = a1 ++ a2 /\ finished st' = finished st ++ [(c, r)]).
Proof.
  intros g h0 st a1 c m a2 G R E. pose proof (reach_inv g h0 G _ R) as I. destruct (inv_threads _ _ I) as (L & Ea & T & _). rewrite E in Ea. symmetry in Ea. destruct (split_map _ _ _ _ Ea) as (L1 & own & L2 & -> & _).
  apply all_mid in T as [(_ & T2 & F & _ & T4) _]. cbn [fst snd] in *. destruct st as [h a f]. cbn [active] in E. subst a. destruct m as [o|z k|p k|p z k].
  - destruct T4 as (r & -> & _). eexists. split; [apply i_end|]. right. exists r. auto.
  - eexists. split; [apply i_new|]. left. eexists. reflexivity.
  - eexists. split; [apply i_get|]. left. eexists. reflexivity.
  - eexists. split; [apply i_put|]. left. eexists. reflexivity.
Qed.
Print Assumptions C125_progress.
(** and every schedule of the calls in progress comes to an end *)
Inductive child : prog result -> prog result -> Prop :=
| c_new z k p : child (k p) (PNew z k) | c_get p k z : child (k z) (PGet p k) | c_put p z k : child k (PPut p z k).
Lemma child_wf m : Acc child m.
Proof. induction m as [o|z k IH|p k IH|p z k IH]; constructor; intros y H; inversion H; subst; auto. Qed.
Inductive less : list (call * prog result) -> list (call * prog result) -> Prop :=
| l_step a1 c m' m a2 : child m' m -> less (a1 ++ (c, m') :: a2) (a1 ++ (c, m) :: a2)
| l_drop a1 x a2 : less (a1 ++ a2) (a1 ++ x :: a2).
Lemma less_cons c m : Acc child m -> forall l, Acc less l -> Acc less ((c, m) :: l).
Proof.
  induction 1 as [m _ IHm]. induction 1 as [l Al IHl]. constructor. intros y H. remember ((c, m) :: l) as whole eqn:W. destruct H as [[|b a1] c' m' m2 a2 Ch|[|b a1] x a2]; cbn [app] in *.
  - injection W as -> -> ->. apply IHm; [exact Ch|constructor; exact Al].
  - injection W as -> <-. apply IHl. constructor. exact Ch.
  - injection W as _ ->. constructor. exact Al.
  - injection W as -> <-. apply IHl. apply (l_drop a1 x a2).
Qed.
Lemma less_wf l : Acc less l.
Proof. induction l as [|[c m] l IH]; [constructor; intros y H; remember [] as e eqn:E in H; destruct H as [[|] ? ? ? ? ?|[|] ? ?]; discriminate E|apply less_cons; [apply child_wf|exact IH]]. Qed.
Theorem C125_terminates : forall st, Acc (fun st' st => inner st st') st.
Proof.
  intros st. remember (active st) as l eqn:E. revert st E. induction (less_wf l) as [l _ IH]. intros st ->. constructor. intros st' M. apply (IH (active st')); [|reflexivity]. destruct M; cbn [active].
  - apply l_step. constructor.
  - apply l_step. constructor.
  - apply l_step. constructor.
  - apply l_drop.
Qed.
Print Assumptions C125_terminates.
(** so all calls in progress return *)
Theorem C125_completes : forall g h0 st, glob_ok h0 g -> reach g h0 st ->
  exists st' new, reach g h0 st' /\ active st' = [] /\ finished st' = finished st ++ new /\ Permutation (map fst new) (map fst (active st)).
Proof.
  intros g h0 st G. induction (C125_terminates st) as [st _ IH]. intros R. destruct (active st) as [|[c m] a] eqn:E.
  - exists st, []. rewrite app_nil_r. auto.
  - destruct (C125_progress g h0 st [] c m a G R E) as (st1 & M & H). destruct (IH st1 M) as (st' & new & R' & A' & F' & P'); [eapply Relation_Operators.rtn1_trans; [apply m_inner; exact M|exact R]|].
    exists st'. destruct H as [(m' & A1)|(r & A1 & F1)]; cbn [app] in A1.
    + assert (F1 : finished st1 = finished st).
      { destruct M as [? ? ? ? ? ? ?|? ? ? ? ? ? ?|? ? ? ? ? ? ? ?|? b1 ? ? b2 ?]; try reflexivity. exfalso. cbn [active] in A1, E. apply (f_equal (@List.length _)) in A1, E. rewrite app_length in *. cbn [List.length] in *. lia. }
      exists new. split; [exact R'|]. split; [exact A'|]. split; [congruence|]. rewrite A1 in P'. exact P'.
    + exists ((c, r) :: new). split; [exact R'|]. split; [exact A'|]. split; [rewrite F', F1, <- app_assoc; reflexivity|]. cbn [map fst]. apply perm_skip. rewrite A1 in P'. exact P'.
Qed.
Print Assumptions C125_completes.

(** not vacuous: with a key in memory, three goroutines sign, encrypt and decrypt with it at the same time; all return *)
Definition calls0 : list call := [CSignDigestRS rand1 key0 [7]; CEncryt rand1 (ps_Pub key0) [1; 2; 3]; CDecryt key0 (repeat 4 100)].
Example C125_instance : glob_ok heap1 g0 /\
  reach g0 heap1 (mkPool heap1 (map (fun c => (c, program g0 c)) calls0) []) /\
  exists st, reach g0 heap1 st /\ active st = [] /\ Permutation (map fst (finished st)) calls0 /\ Forall (fun cr => agrees (mem st) (fst cr) (snd cr)) (finished st).
Proof.
  assert (Gk : glob_ok heap1 g0). { split; [|vm_compute; repeat split]. repeat (apply Forall_cons; [vm_compute; repeat constructor|]). apply Forall_nil. }
  split; [exact Gk|].
  assert (R : reach g0 heap1 (mkPool heap1 (map (fun c => (c, program g0 c)) calls0) [])).
  { assert (St : forall cs c, reach g0 heap1 (mkPool heap1 (map (fun c => (c, program g0 c)) cs) []) -> Forall (fun p => (p < 10)%nat) (args c) -> reach g0 heap1 (mkPool heap1 (map (fun c => (c, program g0 c)) (cs ++ [c])) [])).
    { intros cs c R Hc. rewrite map_app. eapply Relation_Operators.rtn1_trans; [|exact R]. apply m_start. intros p Hp. left. rewrite Forall_forall in Hc. exact (Hc p Hp). }
    apply (St [CSignDigestRS rand1 key0 [7]; CEncryt rand1 (ps_Pub key0) [1; 2; 3]]); [|cbn; repeat constructor]. apply (St [CSignDigestRS rand1 key0 [7]]); [|cbn; repeat constructor]. apply (St []); [|cbn; repeat constructor]. apply rtn1_refl. }
  split; [exact R|]. destruct (C125_completes g0 heap1 _ Gk R) as (st & new & R' & A & Fn & P). exists st. split; [exact R'|]. split; [exact A|]. split; [|exact (proj2 (C125_results g0 heap1 st Gk R'))].
  rewrite Fn. exact P.
Qed.
