(** * Ownership: what a program may rely on while others run *)
From Coq Require Import String ZifyBool ZifyNat.
From Verif Require Import Base Words SM3Model ECModel SM2Model BigMem ConcModel PropertiesBig.
Open Scope Z_scope.
Opaque sm2_N sm2_P sm2_B sm2_A sm2_Gx sm2_Gy.

(** [F]: the integers nobody may change, [own]: those the program has allocated itself *)
Definition owned := ptr -> option Z.
Definition oset (own : owned) (p : ptr) (z : Z) : owned := fun q => if Nat.eqb q p then Some z else own q.
Definition sees (F : ptr -> Z -> Prop) (own : owned) (p : ptr) (z : Z) : Prop := own p = Some z \/ F p z.
Fixpoint safe {A} (F : ptr -> Z -> Prop) (own : owned) (m : prog A) (Q : owned -> outcome A -> Prop) : Prop :=
  match m with
  | PRet o => Q own o
  | PNew z k => forall p, (forall v, ~ F p v) -> own p = None -> safe F (oset own p z) (k p) Q
  | PGet p k => exists z, sees F own p z /\ safe F own (k z) Q
  | PPut p z k => own p <> None /\ safe F (oset own p z) k Q
  end.
Definition ext (own own' : owned) : Prop := forall p z, own p = Some z -> own' p = Some z.

Lemma oset_eq own p z : oset own p z p = Some z.
Proof. unfold oset. now rewrite Nat.eqb_refl. Qed.
Lemma oset_neq own p z q : q <> p -> oset own p z q = own q.
Proof. intros H. unfold oset. destruct (Nat.eqb_spec q p); congruence. Qed.
Lemma oset_none own p z q : oset own p z q = None -> q <> p /\ own q = None.
Proof. unfold oset. destruct (Nat.eqb_spec q p); [discriminate|auto]. Qed.
Lemma ext_refl own : ext own own. Proof. intros p z H. exact H. Qed.
Lemma ext_trans a b c : ext a b -> ext b c -> ext a c. Proof. intros H1 H2 p z H. apply H2, H1, H. Qed.
Lemma ext_none a b p : ext a b -> b p = None -> a p = None.
Proof. intros E H. destruct (a p) as [z|] eqn:X; [|reflexivity]. apply E in X. congruence. Qed.
Lemma ext_set a b p z : ext a b -> a p = None -> ext a (oset b p z).
Proof. intros E N q v H. rewrite oset_neq by congruence. apply E, H. Qed.
Lemma sees_ext F a b p z : ext a b -> sees F a p z -> sees F b p z.
Proof. intros E [H|H]; [left; apply E, H|right; exact H]. Qed.

Lemma safe_mono {A} (F F' : ptr -> Z -> Prop) (m : prog A) : (forall p z, F p z -> F' p z) -> forall own (Q Q' : owned -> outcome A -> Prop),
  (forall own o, Q own o -> Q' own o) -> safe F own m Q -> safe F' own m Q'.
Proof.
  intros HF. induction m as [o|z k IH|p k IH|p z k IH]; intros own Q Q' HQ H; cbn [safe] in *.
  - auto.
  - intros p Hp Ho. apply (IH p _ Q Q' HQ). apply H; [|exact Ho]. intros v Hv. exact (Hp v (HF _ _ Hv)).
  - destruct H as (z & S & H). exists z. split; [destruct S as [S|S]; [left; exact S|right; auto]|]. exact (IH z _ Q Q' HQ H).
  - destruct H as [S H]. split; [exact S|]. exact (IH _ Q Q' HQ H).
Qed.
Lemma safe_bindO {A B} F (m : prog A) (f : outcome A -> prog B) : forall own Q, safe F own m (fun own' o => safe F own' (f o) Q) -> safe F own (pbindO m f) Q.
Proof.
  induction m as [o|z k IH|p k IH|p z k IH]; intros own Q H; cbn [safe pbindO] in *.
  - exact H.
  - intros p Hp Ho. apply IH. apply H; assumption.
  - destruct H as (z & S & H). exists z. split; [exact S|]. apply IH, H.
  - destruct H as [S H]. split; [exact S|]. apply IH, H.
Qed.

(** results: [v] what the function on numbers gives, [R] how the result in memory represents it *)
Definition post {A B} (own : owned) (R : owned -> A -> B -> Prop) (v : outcome A) : owned -> outcome B -> Prop :=
  fun own' o => ext own own' /\ match v with Ret a => exists b, o = Ret b /\ R own' a b | Err e => o = Err e | Panic => o = Panic end.
Section Rules.
Context {F : ptr -> Z -> Prop}.
Lemma post_ret {A B} own0 own (R : owned -> A -> B -> Prop) a b : ext own0 own -> R own a b -> safe F own (pret b) (post own0 R (Ret a)).
Proof. intros E H. split; [exact E|]. exists b. auto. Qed.
Lemma post_bind {A B A' B'} own0 own (m : prog B) (R : owned -> A -> B -> Prop) v (f : B -> prog B') (R' : owned -> A' -> B' -> Prop) (w : A -> outcome A') :
  ext own0 own -> safe F own m (post own R v) -> (forall own' a b, ext own own' -> R own' a b -> safe F own' (f b) (post own0 R' (w a))) ->
  safe F own (pbind m f) (post own0 R' (bind v w)).
Proof.
  intros E H K. unfold pbind. apply safe_bindO. eapply (safe_mono F F); [auto| |exact H]. intros own' o [X Y]. cbv beta. destruct v as [a|e|]; cbn [bind].
  - destruct Y as (b & -> & Y). apply K; assumption.
  - subst o. split; [exact (ext_trans _ _ _ E X)|reflexivity].
  - subst o. split; [exact (ext_trans _ _ _ E X)|reflexivity].
Qed.
Lemma post_lift {A A' B'} own0 own (v : outcome A) (f : A -> prog B') (R' : owned -> A' -> B' -> Prop) (w : A -> outcome A') :
  ext own0 own -> (forall a, v = Ret a -> safe F own (f a) (post own0 R' (w a))) -> safe F own (pbind (plift v) f) (post own0 R' (bind v w)).
Proof. intros E K. destruct v as [a|e|]; cbn [bind]; [apply K; reflexivity|split; [exact E|reflexivity]|split; [exact E|reflexivity]]. Qed.
Lemma post_up {A B} own0 own (m : prog B) (R R' : owned -> A -> B -> Prop) v : ext own0 own -> (forall own' a b, R own' a b -> R' own' a b) ->
  safe F own m (post own R v) -> safe F own m (post own0 R' v).
Proof.
  intros E HR. apply (safe_mono F F); [auto|]. intros own' o [X Y]. split; [exact (ext_trans _ _ _ E X)|]. destruct v as [a|e|]; [|exact Y|exact Y]. destruct Y as (b & -> & Y). exists b. auto.
Qed.
Lemma new_step {B} own z (f : ptr -> prog B) Q : (forall p, own p = None -> safe F (oset own p z) (f p) Q) -> safe F own (pbind (pNew z) f) Q.
Proof. intros H p _ Ho. exact (H p Ho). Qed.
Lemma get_step {B} own p z (f : Z -> prog B) Q : sees F own p z -> safe F own (f z) Q -> safe F own (pbind (pGet p) f) Q.
Proof. intros S H. exists z. split; [exact S|exact H]. Qed.
Lemma add_step {B} own z x y a b (f : unit -> prog B) Q : sees F own x a -> sees F own y b -> own z <> None -> safe F (oset own z (a + b)) (f tt) Q -> safe F own (pbind (pAdd z x y) f) Q.
Proof. intros S1 S2 N H. exists a. split; [exact S1|]. exists b. split; [exact S2|]. split; [exact N|exact H]. Qed.
Lemma sub_step {B} own z x y a b (f : unit -> prog B) Q : sees F own x a -> sees F own y b -> own z <> None -> safe F (oset own z (a - b)) (f tt) Q -> safe F own (pbind (pSub z x y) f) Q.
Proof. intros S1 S2 N H. exists a. split; [exact S1|]. exists b. split; [exact S2|]. split; [exact N|exact H]. Qed.
Lemma mul_step {B} own z x y a b (f : unit -> prog B) Q : sees F own x a -> sees F own y b -> own z <> None -> safe F (oset own z (a * b)) (f tt) Q -> safe F own (pbind (pMul z x y) f) Q.
Proof. intros S1 S2 N H. exists a. split; [exact S1|]. exists b. split; [exact S2|]. split; [exact N|exact H]. Qed.
Lemma mod_step {B} own z x y a b (f : unit -> prog B) Q : sees F own x a -> sees F own y b -> 0 < b -> own z <> None -> safe F (oset own z (a mod b)) (f tt) Q -> safe F own (pbind (pMod z x y) f) Q.
Proof.
  intros S1 S2 P N H. unfold pMod. exists a. split; [exact S1|]. exists b. split; [exact S2|]. cbv beta. change (safe F own (pbind (if b =? 0 then plift Panic else pPut z (a mod Z.abs b)) f) Q).
  replace (b =? 0) with false by lia. rewrite Z.abs_eq by lia. split; [exact N|exact H].
Qed.
End Rules.

(** ** The functions *)
Definition FG (F : ptr -> Z -> Prop) (g : globals) : Prop :=
  F (gP g) sm2_P /\ F (gA g) sm2_A /\ F (gB g) sm2_B /\ F (gN g) sm2_N /\ F (gGx g) sm2_Gx /\ F (gGy g) sm2_Gy /\ F (gOne g) 1.
Ltac none := repeat match goal with H : oset _ _ _ ?q = None |- _ => apply oset_none in H as [? H] end.
Ltac lk := repeat first [rewrite oset_eq | rewrite oset_neq by (assumption || (apply not_eq_sym; assumption) || congruence)]; try eassumption; try reflexivity; try congruence.
Ltac see := first [eassumption | right; eassumption | left; eassumption | solve [left; lk]].
Ltac ex := repeat first [apply ext_refl | assumption | (apply ext_set; [|solve [assumption | congruence]])].
Definition fresh1 (own own' : owned) (z : Z) (p : ptr) : Prop := own p = None /\ own' p = Some z.
Definition fresh2 (own own' : owned) (z : Z * Z) (p : ptr * ptr) : Prop := fresh1 own own' (fst z) (fst p) /\ fresh1 own own' (snd z) (snd p) /\ fst p <> snd p.
Section Sm2.
Variables (F : ptr -> Z -> Prop) (g : globals).
Hypothesis G : FG F g.
Lemma nextk_safe own rand : safe F own (pnextk g rand) (post own (fun own' (a : Z * bytes) b => fresh1 own own' (fst a) (fst b) /\ snd a = snd b) (nextk rand)).
Proof.
  destruct G as (GP & GA & GB & GN & GX & GY & GO). pose proof N_pos. unfold pnextk, nextk. apply post_lift; [ex|]. intros [b w] _. cbv zeta.
  apply new_step. intros k Hk. apply new_step. intros n Hn. none.
  eapply sub_step; [see|see|lk|]. eapply mod_step; [see|see|lia|lk|]. eapply add_step; [see|see|lk|].
  apply post_ret; [ex|]. split; [|reflexivity]. split; [exact Hk|]. cbn [fst]. lk.
Qed.
Lemma two_safe own v : safe F own (ptwo v) (post own (fresh2 own) v).
Proof.
  unfold ptwo. replace v with (bind v Ret) at 2 by (destruct v; reflexivity). apply post_lift; [ex|]. intros [a b] _. apply new_step. intros x Hx. apply new_step. intros y Hy. none.
  apply post_ret; [ex|]. unfold fresh2, fresh1. cbn [fst snd]. repeat split; lk. 
Qed.
Lemma ScalarMult_safe own x y a b k : sees F own x a -> sees F own y b -> safe F own (pScalarMult g x y k) (post own (fresh2 own) (sm2_ScalarMult a b k)).
Proof. intros Hx Hy. destruct G as (GP & _). unfold pScalarMult. eapply get_step; [see|]. eapply get_step; [see|]. eapply get_step; [see|]. apply two_safe. Qed.
Lemma ScalarBaseMult_safe own k : safe F own (pScalarBaseMult g k) (post own (fresh2 own) (sm2_ScalarBaseMult k)).
Proof. destruct G as (GP & GA & GB & GN & GX & GY & GO). apply ScalarMult_safe; see. Qed.
Lemma PointAdd_safe own x1 y1 x2 y2 a b c d : sees F own x1 a -> sees F own y1 b -> sees F own x2 c -> sees F own y2 d -> safe F own (pPointAdd g x1 y1 x2 y2) (post own (fresh2 own) (sm2_Add a b c d)).
Proof. intros H1 H2 H3 H4. destruct G as (GP & _). unfold pPointAdd. do 5 (eapply get_step; [see|]). apply two_safe. Qed.
Definition same {A} (own own' : owned) (a b : A) : Prop := a = b.
Lemma SM3Digest_safe own pub i u x y : sees F own (pp_X pub) x -> sees F own (pp_Y pub) y ->
  safe F own (pSM3Digest g pub i u) (post own (same own) (SM3Digest (mkPub (pp_Curve pub) x y) i u)).
Proof.
  intros Hx Hy. destruct G as (GP & GA & GB & GN & GX & GY & GO). unfold pSM3Digest. do 6 (eapply get_step; [see|]).
  split; [ex|]. change (SM3Digest (mkPub (pp_Curve pub) x y) i u) with (digestOf sm2_A sm2_B sm2_Gx sm2_Gy x y i u). destruct (digestOf _ _ _ _ _ _ _ _) as [a|e|]; [|reflexivity|reflexivity]. exists a. split; reflexivity.
Qed.
Definition fresh2w (own own' : owned) (z : Z * Z * bytes) (p : ptr * ptr * bytes) : Prop := fresh2 own own' (fst z) (fst p) /\ snd z = snd p.
Lemma sign_inner_safe fuel : forall own e ev rand, sees F own e ev -> safe F own (psign_inner g fuel e rand) (post own (fresh2w own) (sign_inner fuel ev rand)).
Proof.
  destruct G as (GP & GA & GB & GN & GX & GY & GO). pose proof N_pos.
  induction fuel as [|fuel IH]; intros own e ev rand He; cbn [psign_inner sign_inner]; [split; [ex|reflexivity]|].
  eapply post_bind; [ex|apply nextk_safe|]. intros own1 [k w] [kp w'] E1 [[K0 K1] Ew]. cbn [fst snd] in *. subst w'.
  eapply get_step; [see|]. eapply post_bind; [exact E1|apply ScalarBaseMult_safe|]. intros own2 [a b] [rp yp] E2 ((R0 & R1) & _ & _). cbn [fst snd] in *.
  assert (K2 := E2 _ _ K1). assert (Hr : own rp = None) by (exact (ext_none _ _ _ E1 R0)). assert (E02 := ext_trans _ _ _ E1 E2). assert (kp <> rp) by congruence.
  assert (He2 : sees F own2 e ev) by (exact (sees_ext _ _ _ _ _ E02 He)).
  eapply add_step; [exact He2|see|congruence|]. eapply mod_step; [see|see|lia|lk|]. eapply get_step; [see|]. cbv zeta.
  set (r := (ev + a) mod sm2_N).
  assert (Again : forall own3, ext own own3 -> safe F own3 (psign_inner g fuel e w) (post own (fresh2w own) (sign_inner fuel ev w))).
  { intros own3 E3. eapply post_up; [exact E3| |apply IH; exact (sees_ext _ _ _ _ _ E3 He)]. intros o [[x y] v] [[x' y'] v'] [((A1 & A2) & (B1 & B2) & Ne) W]. unfold fresh2w, fresh2, fresh1. cbn [fst snd] in *.
    repeat split; try assumption; eapply ext_none; eassumption. }
  destruct (r =? 0); cbn [negb andb]; [apply Again; ex|]. apply new_step. intros t Ht. none. assert (own t = None) by (exact (ext_none _ _ _ E02 Ht)).
  eapply add_step; [see|see|lk|]. eapply get_step; [see|]. eapply get_step; [see|].
  destruct (r + k =? sm2_N); cbn [negb]; [apply Again; ex|].
  apply post_ret; [ex|]. unfold fresh2w, fresh2, fresh1. cbn [fst snd]. repeat split; lk.
Qed.
Lemma inv_step {B} own z a n av nv (f : option ptr -> prog B) Q : sees F own a av -> sees F own n nv -> own z <> None ->
  match ModInverse av nv with Some i => safe F (oset own z i) (f (Some z)) Q | None => safe F own (f None) Q end -> safe F own (pbind (pModInverse z a n) f) Q.
Proof.
  intros S1 S2 N H. unfold pModInverse, pbind, pGet, pPut, pret. cbn [pbindO safe]. exists av. split; [exact S1|]. exists nv. split; [exact S2|].
  destruct (ModInverse av nv) as [i|]; [split; [exact N|exact H]|exact H].
Qed.
Lemma again own own3 (z : Z * Z * bytes) (p : ptr * ptr * bytes) own' : ext own own3 -> fresh2w own3 own' z p -> fresh2w own own' z p.
Proof.
  intros E3. destruct z as [[x y] v], p as [[x' y'] v']. intros [((A1 & A2) & (B1 & B2) & Ne) W]. unfold fresh2w, fresh2, fresh1. cbn [fst snd] in *. repeat split; try assumption; eapply ext_none; eassumption.
Qed.
Lemma again_up own own3 m v : ext own own3 -> safe F own3 m (post own3 (fresh2w own3) v) -> safe F own3 m (post own (fresh2w own) v).
Proof. intros E. apply post_up; [exact E|]. intros own' x y. apply again. exact E. Qed.
Lemma sign_outer_safe fuel : forall own D e dv ev rand, sees F own D dv -> sees F own e ev -> safe F own (psign_outer g fuel D e rand) (post own (fresh2w own) (sign_outer fuel dv ev rand)).
Proof.
  destruct G as (GP & GA & GB & GN & GX & GY & GO). pose proof N_pos.
  induction fuel as [|fuel IH]; intros own D e dv ev rand HD He; cbn [psign_outer sign_outer]; [split; [ex|reflexivity]|].
  eapply post_bind; [ex|apply sign_inner_safe; exact He|]. intros own1 [[k r] w] [[kp rp] w'] E1 [((K0 & K1) & (R0 & R1) & Ne) Ew]. cbn [fst snd] in *. subst w'. cbv zeta.
  assert (HD1 : sees F own1 D dv) by (exact (sees_ext _ _ _ _ _ E1 HD)).
  assert (N1 : forall q, own1 q = None -> own q = None) by (intros q; exact (ext_none _ _ q E1)).
  assert (SD : forall o, ext own1 o -> sees F o D dv) by (intros o Eo; exact (sees_ext _ _ _ _ _ Eo HD1)).
  apply new_step. intros a Ha. eapply mul_step; [see|apply SD; ex|lk|].
  apply new_step. intros s Hs. none. eapply sub_step; [see|see|lk|].
  apply new_step. intros d1 Hd1. none. eapply add_step; [apply SD; ex|see|lk|].
  apply new_step. intros i Hi. none. pose proof (N1 _ Ha). pose proof (N1 _ Hs). pose proof (N1 _ Hd1). pose proof (N1 _ Hi).
  match goal with |- safe F ?o _ _ => set (own4 := o) end.
  assert (E4 : ext own own4) by (unfold own4; ex). assert (Si : own4 i <> None) by (unfold own4; lk).
  eapply inv_step with (av := dv + 1); [unfold own4; left; lk|see|exact Si|].
  destruct (ModInverse (dv + 1) sm2_N) as [iv|]; [|split; [exact E4|reflexivity]].
  assert (Ss : own4 s = Some (k - r * dv)) by (unfold own4; lk).
  assert (s <> i) by congruence. assert (own s = None) by assumption. 
  eapply mul_step; [left; lk|left; lk|lk|]. eapply mod_step; [see|see|lia|lk|]. eapply get_step; [see|].
  destruct (_ =? 0) eqn:Es; cbn [negb].
  - apply again_up; [|apply IH].
    + ex.
    + apply (sees_ext F own); [ex|exact HD].
    + apply (sees_ext F own); [ex|exact He].
  - apply post_ret; [ex|]. unfold fresh2w, fresh2, fresh1. cbn [fst snd]. assert (rp <> s) by congruence. assert (rp <> i) by congruence.
    assert (R4 : own4 rp = Some r) by (unfold own4; lk). repeat split; lk.
Qed.
Lemma SignDigestRS_safe own rand k d X Y D : F (ps_D k) D ->
  safe F own (pSignDigestRS g rand k d) (post own (fresh2w own) (SignDigestRS rand (mkPriv (mkPub (pp_Curve (ps_Pub k)) X Y) D) d)).
Proof.
  intros HD. pose proof G as (GP & GA & GB & GN & GX & GY & GO). pose proof N_pos. unfold pSignDigestRS, SignDigestRS. cbv zeta. apply new_step. intros e He. eapply get_step; [see|]. replace (sm2_N =? 0) with false by lia.
  apply again_up; [ex|]. apply sign_outer_safe; see.
Qed.
Lemma SignRS_safe own rand k i u X Y D : F (pp_X (ps_Pub k)) X -> F (pp_Y (ps_Pub k)) Y -> F (ps_D k) D ->
  safe F own (pSignRS g rand k i u) (post own (fresh2w own) (SignRS rand (mkPriv (mkPub (pp_Curve (ps_Pub k)) X Y) D) i u)).
Proof.
  intros HX HY HD. unfold pSignRS, SignRS. eapply post_bind; [ex|apply SM3Digest_safe; see|]. intros own' a b E Eab. unfold same in Eab. subst b.
  apply again_up; [exact E|]. apply SignDigestRS_safe; exact HD.
Qed.
(** ** verification *)
Lemma check_safe own k d r s X Y rv sv : F (pp_X k) X -> F (pp_Y k) Y -> F r rv -> F s sv ->
  safe F own (pcheck g k d r s) (post own (same own) (check (mkPub (pp_Curve k) X Y) d rv sv)).
Proof.
  intros HX HY Hr Hs. pose proof G as (GP & GA & GB & GN & GX & GY & GO). pose proof N_pos. unfold pcheck, check. cbv zeta. cbn [pk_X pk_Y].
  apply new_step. intros e He. apply new_step. intros t Ht. none. eapply add_step; [see|see|lk|]. eapply mod_step; [see|see|lia|lk|]. eapply get_step; [see|].
  destruct (_ =? 0); [apply post_ret; [ex|reflexivity]|]. eapply get_step; [see|].
  eapply post_bind; [ex|apply ScalarBaseMult_safe|]. intros own1 [a1 b1] [x1 y1] E1 ((A1 & A2) & (B1 & B2) & _). cbn [fst snd] in *.
  assert (E01 : ext own own1) by (eapply ext_trans; [|exact E1]; ex). assert (Le : own1 e = Some (be_to_Z d)) by (apply E1; lk).
  eapply post_bind; [exact E01|apply ScalarMult_safe; see|]. intros own2 [a2 b2] [x2 y2] E2 ((C1 & C2) & (D1 & D2) & _). cbn [fst snd] in *. assert (E02 := ext_trans _ _ _ E01 E2).
  eapply post_bind; [exact E02|apply PointAdd_safe; [left; apply E2; eassumption|left; apply E2; eassumption|see|see]|]. intros own3 [a b] [x y] E3 ((I1 & I2) & (J1 & J2) & _). cbn [fst snd] in *. assert (E03 := ext_trans _ _ _ E02 E3).
  assert (Le3 : own3 e = Some (be_to_Z d)) by (apply E3, E2, Le). assert (Le2 : own2 e = Some (be_to_Z d)) by (apply E2, Le). assert (e <> x) by congruence. assert (Nx : own x = None) by (exact (ext_none _ _ _ E02 I1)).
  eapply get_step; [see|]. eapply get_step; [see|]. destruct (_ || _); [apply post_ret; [exact E03|reflexivity]|].
  eapply add_step; [see|see|congruence|]. eapply mod_step; [see|see|lia|lk|]. eapply get_step; [see|]. eapply get_step; [see|]. apply post_ret; [ex|reflexivity].
Qed.
Lemma range_safe own r rv : F r rv -> safe F own (prange g r) (post own (same own) (Ret ((rv <? 1) || (sm2_N <=? rv)))).
Proof. intros Hr. pose proof G as (GP & GA & GB & GN & GX & GY & GO). unfold prange. eapply get_step; [see|]. eapply get_step; [see|]. eapply get_step; [see|]. apply post_ret; [ex|reflexivity]. Qed.
Lemma VerifyDigestRS_safe own k d r s X Y rv sv : F (pp_X k) X -> F (pp_Y k) Y -> F r rv -> F s sv ->
  safe F own (pVerifyDigestRS g k d r s) (post own (same own) (VerifyDigestRS (mkPub (pp_Curve k) X Y) d rv sv)).
Proof.
  intros HX HY Hr Hs. unfold pVerifyDigestRS, VerifyDigestRS.
  change (safe F own (pVerifyDigestRS g k d r s) (post own (same own) (bind (Ret ((rv <? 1) || (sm2_N <=? rv))) (fun b : bool => if b then Ret false else bind (Ret ((sv <? 1) || (sm2_N <=? sv))) (fun b : bool => if b then Ret false else check (mkPub (pp_Curve k) X Y) d rv sv))))).
  unfold pVerifyDigestRS. eapply post_bind; [ex|apply range_safe; exact Hr|]. intros o1 a b E1 Eab. unfold same in Eab. subst b. destruct a; [apply post_ret; [exact E1|reflexivity]|].
  eapply post_bind; [exact E1|apply range_safe; exact Hs|]. intros o2 a b E2 Eab. unfold same in Eab. subst b. assert (E3 := ext_trans _ _ _ E1 E2). destruct a; [apply post_ret; [exact E3|reflexivity]|].
  eapply post_up; [exact E3| |apply check_safe; eassumption]. auto.
Qed.
Lemma VerifyRS_safe own k i u r s X Y rv sv : F (pp_X k) X -> F (pp_Y k) Y -> F r rv -> F s sv ->
  safe F own (pVerifyRS g k i u r s) (post own (same own) (VerifyRS (mkPub (pp_Curve k) X Y) i u rv sv)).
Proof.
  intros HX HY Hr Hs. unfold VerifyRS.
  change (safe F own (pVerifyRS g k i u r s) (post own (same own) (bind (Ret ((rv <? 1) || (sm2_N <=? rv))) (fun b : bool => if b then Ret false else bind (Ret ((sv <? 1) || (sm2_N <=? sv))) (fun b : bool => if b then Ret false else
    match SM3Digest (mkPub (pp_Curve k) X Y) i u with Ret hash => check (mkPub (pp_Curve k) X Y) hash rv sv | Err _ => Ret false | Panic => Panic end))))).
  unfold pVerifyRS. eapply post_bind; [ex|apply range_safe; exact Hr|]. intros o1 a b E1 Eab. unfold same in Eab. subst b. destruct a; [apply post_ret; [exact E1|reflexivity]|].
  eapply post_bind; [exact E1|apply range_safe; exact Hs|]. intros o2 a b E2 Eab. unfold same in Eab. subst b. assert (E3 := ext_trans _ _ _ E1 E2). destruct a; [apply post_ret; [exact E3|reflexivity]|].
  apply safe_bindO. eapply (safe_mono F F); [auto| |apply (SM3Digest_safe o2 k i u X Y); see]. intros o3 o [E4 V]. assert (E5 := ext_trans _ _ _ E3 E4). destruct (SM3Digest _ i u) as [hash|e|].
  - destruct V as (b & -> & V). unfold same in V. subst b. eapply post_up; [exact E5| |apply check_safe; eassumption]. auto.
  - subst o. apply post_ret; [exact E5|reflexivity].
  - subst o. split; [exact E5|reflexivity].
Qed.
Lemma on_step {B} own x y a b (f : bool -> prog B) Q : sees F own x a -> sees F own y b -> safe F own (f (sm2_IsOnCurve a b)) Q -> safe F own (pbind (pIsOnCurve g x y) f) Q.
Proof.
  intros S1 S2 H. pose proof G as (GP & GA & GB & GN & GX & GY & GO). unfold pIsOnCurve, pbind, pGet, pret. cbn [pbindO safe]. exists sm2_P. split; [right; exact GP|]. exists sm2_B. split; [right; exact GB|].
  exists a. split; [exact S1|]. exists b. split; [exact S2|]. exact H.
Qed.
(** ** key generation, encryption, decryption *)
Definition genR (own own' : owned) (z : bytes * (Z * Z) * bytes) (p : bytes * (ptr * ptr) * bytes) : Prop := fst (fst z) = fst (fst p) /\ fresh2 own own' (snd (fst z)) (snd (fst p)) /\ snd z = snd p.
Lemma Gen_safe fuel : forall own rand, safe F own (pGen g fuel rand) (post own (genR own) (elliptic_GenerateKey fuel rand)).
Proof.
  pose proof G as (GP & GA & GB & GN & GX & GY & GO).
  induction fuel as [|fuel IH]; intros own rand; cbn [pGen elliptic_GenerateKey]; [split; [ex|reflexivity]|]. apply post_lift; [ex|]. intros [p w] _. cbv zeta. eapply get_step; [see|].
  destruct (_ <=? _); [apply IH|]. eapply post_bind; [ex|apply ScalarBaseMult_safe|]. intros own1 [a b] [x y] E R. apply post_ret; [exact E|]. split; [reflexivity|]. split; [exact R|reflexivity].
Qed.
Definition keyR (own own' : owned) (z : PrivateKey * bytes) (p : pPriv * bytes) : Prop :=
  snd z = snd p /\ pk_Curve (sk_Pub (fst z)) = pp_Curve (ps_Pub (fst p)) /\ fresh1 own own' (pk_X (sk_Pub (fst z))) (pp_X (ps_Pub (fst p))) /\ fresh1 own own' (pk_Y (sk_Pub (fst z))) (pp_Y (ps_Pub (fst p))) /\ fresh1 own own' (sk_D (fst z)) (ps_D (fst p)).
Lemma GenerateKey_safe own rand : safe F own (pGenerateKey g rand) (post own (keyR own) (GenerateKey rand)).
Proof.
  unfold pGenerateKey, GenerateKey. eapply post_bind; [ex|apply Gen_safe|]. intros own1 [[d [a b]] w] [[d' [x y]] w'] E (Ed & ((A1 & A2) & (B1 & B2) & Ne) & Ew). cbn [fst snd] in *. subst d' w'.
  apply new_step. intros dp Hd. assert (own dp = None) by (exact (ext_none _ _ _ E Hd)). apply post_ret; [ex|]. unfold keyR, fresh1. cbn [fst snd sk_Pub sk_D pk_Curve pk_X pk_Y ps_Pub ps_D pp_Curve pp_X pp_Y]. repeat split; lk.
Qed.
Lemma encrypt_safe fuel : forall own rand k m X Y, F (pp_X k) X -> F (pp_Y k) Y ->
  safe F own (pencrypt_loop g fuel rand k m) (post own (same own) (encrypt_loop fuel rand (mkPub (pp_Curve k) X Y) m)).
Proof.
  pose proof G as (GP & GA & GB & GN & GX & GY & GO).
  induction fuel as [|fuel IH]; intros own rand k m X Y HX HY; cbn [pencrypt_loop encrypt_loop]; [split; [ex|reflexivity]|].
  eapply post_bind; [ex|apply nextk_safe|]. intros own1 [kv w] [kp w'] E1 [[K0 K1] Ew]. cbn [fst snd] in *. subst w'. cbv zeta. eapply get_step; [see|].
  eapply post_bind; [exact E1|apply ScalarBaseMult_safe|]. intros own2 [a b] [x y] E2 ((A1 & A2) & (B1 & B2) & _). cbn [fst snd] in *. assert (E02 := ext_trans _ _ _ E1 E2). eapply get_step; [see|]. eapply get_step; [see|].
  eapply post_bind; [exact E02|apply ScalarMult_safe; see|]. intros own3 [c d] [x2 y2] E3 ((C1 & C2) & (D1 & D2) & _). cbn [fst snd] in *. assert (E03 := ext_trans _ _ _ E02 E3). eapply get_step; [see|]. eapply get_step; [see|].
  apply post_lift; [exact E03|]. intros c3 _. apply post_lift; [exact E03|]. intros [t|] _.
  - apply post_lift; [exact E03|]. intros cc _. apply post_ret; [exact E03|reflexivity].
  - eapply post_up; [exact E03| |apply IH; eassumption]. auto.
Qed.
Lemma Decryt_safe own k d X Y D : F (ps_D k) D -> safe F own (pDecryt g k d) (post own (same own) (Decryt (mkPriv (mkPub (pp_Curve (ps_Pub k)) X Y) D) d)).
Proof.
  intros HD. pose proof G as (GP & GA & GB & GN & GX & GY & GO). unfold pDecryt, Decryt.
  apply post_lift; [ex|]. intros data _. apply post_lift; [ex|]. intros xb _. apply new_step. intros c1x Hx. apply post_lift; [ex|]. intros yb _. apply new_step. intros c1y Hy. none.
  eapply get_step; [see|]. eapply get_step; [see|]. eapply get_step; [see|]. cbv zeta. destruct (_ || _); [apply post_ret; [ex|reflexivity]|].
  match goal with |- safe F ?o _ _ => set (own1 := o); assert (E1 : ext own own1) by (unfold own1; ex); assert (Lx : own1 c1x = Some (be_to_Z xb)) by (unfold own1; lk); assert (Ly : own1 c1y = Some (be_to_Z yb)) by (unfold own1; lk) end.
  eapply on_step; [see|see|]. destruct (sm2_IsOnCurve (be_to_Z xb) (be_to_Z yb)) eqn:On; cbn [negb]; [|apply post_ret; [exact E1|reflexivity]].
  eapply get_step; [see|]. eapply post_bind; [exact E1|apply ScalarMult_safe; see|]. intros own2 [a b] [x y] E2 ((A1 & A2) & (B1 & B2) & _). cbn [fst snd] in *. assert (E02 := ext_trans _ _ _ E1 E2). eapply get_step; [see|]. eapply get_step; [see|].
  destruct (_ && _); [apply post_ret; [exact E02|reflexivity]|]. eapply get_step; [see|]. cbn [sk_D].
  eapply post_bind; [exact E02|apply ScalarMult_safe; left; apply E2; eassumption|]. intros own3 [a3 b3] [x3 y3] E3 ((C1 & C2) & (D1 & D2) & _). cbn [fst snd] in *. assert (E03 := ext_trans _ _ _ E02 E3). eapply get_step; [see|]. eapply get_step; [see|].
  apply post_lift; [exact E03|]. intros [c|] _; [|apply post_ret; [exact E03|reflexivity]].
  apply post_lift; [exact E03|]. intros cc _. apply post_lift; [exact E03|]. intros hash _. apply post_lift; [exact E03|]. intros c3 _.
  destruct (negb _); apply post_ret; try exact E03; reflexivity.
Qed.
End Sm2.
