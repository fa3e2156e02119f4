(** * Property C129 (package sm2): the random source may be any io.Reader *)
From Coq Require Import String.
From Verif Require Import Base Words CryptoByte ECModel SM3Model SM2Model SM2SigProofs PropertiesSM2Sig ReaderModel.
From Coq Require Import ZifyBool ZifyNat.
Open Scope Z_scope.
Opaque sm2_ScalarBaseMult sm2_ScalarMult sm3_Sum kdf SM3Digest MarshalSign xor_loop ModInverse be_to_Z.

(** ** Specification *)
(** some Read of the reader reported this error and left it in this state *)
Definition reported (R : reader) (er : string) (st' : r_st R) : Prop := exists st n c, r_read R st n = (c, Some er, st').
(** the error a caller sees when the reader reports [er] after [part] of a read: [er] itself, except io.EOF after some bytes *)
Definition seen (part : bytes) (er e : string) : Prop :=
  (part <> [] /\ er = "EOF" /\ e = "unexpected EOF")%string \/ ((part = [] \/ er <> "EOF"%string) /\ e = er).
(** What a call returns, having been delivered the bytes [D] by the reader, is what the same call returns for a source that
    holds [D] and then anything; or the bytes ended within a read ([part] of it was delivered), and it returns the reader's
    error, where io.EOF after a part of the bytes is io.ErrUnexpectedEOF. *)
Definition like {A} (R : reader) (res : outcome A) (D : bytes) (st' : r_st R) (f : bytes -> outcome (A * bytes)) : Prop :=
  match res with
  | Ret a => forall more, f (D ++ more) = Ret (a, more)
  | Panic => forall more, f (D ++ more) = Panic
  | Err e => (forall more, f (D ++ more) = Err e) \/
             (exists whole part er, D = whole ++ part /\ reported R er st' /\ seen part er e /\ exists e', seen part "EOF" e' /\ f D = Err e')
  end.
Lemma seen_error part er e : seen part er e <-> e = read_error part er.
Proof.
  unfold seen, read_error. destruct part as [|x part].
  - split; [intros [(H & _)|(_ & H)]; [destruct (H eq_refl)|exact H]|intros ->; right; auto].
  - destruct (String.eqb_spec er "EOF") as [->|N]; split.
    + intros [(_ & _ & H)|([H|H] & _)]; [exact H|discriminate H|destruct (H eq_refl)].
    + intros ->. left. split; [discriminate|auto].
    + intros [(_ & H & _)|(_ & H)]; [destruct (N H)|exact H].
    + intros ->. right. auto.
Qed.

(** ** Proofs *)
Section P.
Context (R : reader) (HR : obeys R).
Definition answers {A} (m j : nat) (p : RM (logged R) A) (f : nat -> bytes -> outcome (A * bytes)) : Prop :=
  forall st log res st' log', p (st, log) = Some (res, (st', log')) -> exists D, log' = log ++ D /\
  match res with
  | Ret a => (m <= List.length D)%nat /\ forall X F, (List.length (D ++ X) + j <= F)%nat -> f F (D ++ X) = Ret (a, X)
  | Panic => forall X F, (List.length (D ++ X) + j <= F)%nat -> f F (D ++ X) = Panic
  | Err e => (forall X F, (List.length (D ++ X) + j <= F)%nat -> f F (D ++ X) = Err e) \/
             (exists whole part er, D = whole ++ part /\ reported R er st' /\ e = read_error part er /\
                forall F, (List.length D + j <= F)%nat -> f F D = Err (read_error part "EOF"))
  end.
Lemma answers_lift {A} j (o : outcome A) : answers 0 j (rlift o) (fun _ l => do a <- o; Ret (a, l)).
Proof.
  intros st log res st' log' E. unfold rlift in E. injection E as <- <- <-. exists []. rewrite app_nil_r. split; [reflexivity|].
  destruct o; cbn [bind]; [split; [cbn; lia|]|left|]; intros; reflexivity.
Qed.
Lemma answers_weak {A} m m' j j' (p : RM (logged R) A) f g : (m' <= m)%nat ->
  (forall l F, (List.length l + j' <= F)%nat -> exists F', (List.length l + j <= F')%nat /\ g F l = f F' l) -> answers m j p f -> answers m' j' p g.
Proof.
  intros Hm Hf H st log res st' log' E. destruct (H _ _ _ _ _ E) as (D & El & HD). exists D. split; [exact El|].
  destruct res as [a|e|].
  - destruct HD as [L HD]. split; [lia|]. intros X F HF. destruct (Hf _ _ HF) as (F' & HF' & ->). auto.
  - destruct HD as [HD|(w & pt & er & E1 & E2 & E3 & HD)]; [left|right].
    + intros X F HF. destruct (Hf _ _ HF) as (F' & HF' & ->). auto.
    + exists w, pt, er. split; [exact E1|]. split; [exact E2|]. split; [exact E3|]. intros F HF. destruct (Hf _ _ HF) as (F' & HF' & ->). auto.
  - intros X F HF. destruct (Hf _ _ HF) as (F' & HF' & ->). auto.
Qed.
Lemma answers_bind {A B} m m2 j (p : RM (logged R) A) f (k : A -> RM (logged R) B) g :
  answers m j p f -> (forall a, answers m2 (j + m) (k a) (g a)) -> answers (m + m2) j (rbind p k) (fun F l => do (a, r) <- f F l; g a F r).
Proof.
  intros Hp Hk st log res st' log' E. unfold rbind in E. destruct (p (st, log)) as [[[a|e|] [st1 log1]]|] eqn:Ep; [| | |discriminate E].
  - destruct (Hp _ _ _ _ _ Ep) as (D1 & E1 & L1 & H1). destruct (Hk a _ _ _ _ _ E) as (D2 & E2 & H2).
    exists (D1 ++ D2). rewrite E2, E1, app_assoc. split; [reflexivity|].
    assert (Len : forall X F, (List.length ((D1 ++ D2) ++ X) + j <= F)%nat -> (List.length (D2 ++ X) + (j + m) <= F)%nat) by (intros X F; rewrite !app_length; lia).
    destruct res as [b|e|].
    + destruct H2 as [L2 H2]. split; [rewrite app_length; lia|]. intros X F HF. rewrite <- app_assoc. rewrite H1 by (rewrite app_assoc; exact HF). cbn [bind]. apply H2. auto.
    + destruct H2 as [H2|(w & pt & er & Ed & Rp & Ee & H2)]; [left|right].
      * intros X F HF. rewrite <- app_assoc. rewrite H1 by (rewrite app_assoc; exact HF). cbn [bind]. apply H2. auto.
      * exists (D1 ++ w), pt, er. split; [rewrite Ed, app_assoc; reflexivity|]. split; [exact Rp|]. split; [exact Ee|]. intros F HF. rewrite H1 by exact HF. cbn [bind].
        apply H2. specialize (Len [] F). rewrite !app_nil_r in Len. auto.
    + intros X F HF. rewrite <- app_assoc. rewrite H1 by (rewrite app_assoc; exact HF). cbn [bind]. apply H2. auto.
  - injection E as <- <- <-. destruct (Hp _ _ _ _ _ Ep) as (D & El & HD). exists D. split; [exact El|]. destruct HD as [HD|(w & pt & er & Ed & Rp & Ee & HD)]; [left|right].
    + intros X F HF. rewrite HD by exact HF. reflexivity.
    + exists w, pt, er. split; [exact Ed|]. split; [exact Rp|]. split; [exact Ee|]. intros F HF. rewrite HD by exact HF. reflexivity.
  - injection E as <- <- <-. destruct (Hp _ _ _ _ _ Ep) as (D & El & HD). exists D. split; [exact El|]. intros X F HF. rewrite HD by exact HF. reflexivity.
Qed.
(** io.ReadFull *)
Lemma readLoop_answers n : forall fuel got st log res st' log', (List.length got <= n)%nat ->
  readLoop (logged R) fuel n got (st, log) = Some (res, (st', log')) -> exists D, log' = log ++ D /\
  match res with
  | Ret b => b = got ++ D /\ List.length b = n
  | Err e => exists er, reported R er st' /\ e = read_error (got ++ D) er /\ (List.length (got ++ D) < n)%nat
  | Panic => False
  end.
Proof.
  induction fuel as [|fuel IH]; intros got st log res st' log' Hg E; cbn [readLoop] in E; destruct (Nat.leb_spec n (List.length got)) as [L|L].
  - injection E as <- <- <-. exists []. rewrite !app_nil_r. split; [reflexivity|]. split; [reflexivity|lia].
  - discriminate E.
  - injection E as <- <- <-. exists []. rewrite !app_nil_r. split; [reflexivity|]. split; [reflexivity|lia].
  - cbn [r_read logged fst snd] in E. pose proof (HR st (n - List.length got)%nat) as C. destruct (r_read R st (n - List.length got)) as [[c [er|]] st1] eqn:ER; cbn [fst] in C.
    + destruct (Nat.leb_spec n (List.length (got ++ c))) as [L2|L2]; injection E as <- <- <-; exists c; (split; [reflexivity|]).
      * split; [reflexivity|]. rewrite app_length in *. lia.
      * exists er. split; [exists st, (n - List.length got)%nat, c; exact ER|]. auto.
    + apply IH in E; [|rewrite app_length; lia]. destruct E as (D & -> & H). exists (c ++ D). rewrite app_assoc. split; [reflexivity|]. rewrite !app_assoc. exact H.
Qed.
Lemma ReadFull_answers fuel n j : (0 < n)%nat -> answers n j (rReadFull (logged R) fuel n) (fun _ l => ReadFull n l).
Proof.
  intros Hn st log res st' log' E. apply readLoop_answers in E; [|cbn; lia]. destruct E as (D & El & H). exists D. split; [exact El|]. destruct res as [b|e|].
  - destruct H as [-> L]. cbn [app] in *. split; [lia|]. intros X F _. unfold ReadFull. rewrite app_length. rewrite (proj2 (Nat.leb_le _ _)) by lia.
    rewrite firstn_app_exact, skipn_app_exact by lia. reflexivity.
  - destruct H as (er & Rp & Ee & L). cbn [app] in *. right. exists [], D, er. split; [reflexivity|]. split; [exact Rp|]. split; [exact Ee|].
    intros F _. unfold ReadFull. rewrite (proj2 (Nat.leb_gt _ _)) by lia. destruct D; reflexivity.
  - contradiction.
Qed.
Lemma answers_ext {A} m j (p : RM (logged R) A) f g : (forall F l, g F l = f F l) -> answers m j p f -> answers m j p g.
Proof. intros H. apply answers_weak; [lia|]. intros l F HF. exists F. split; [exact HF|]. apply H. Qed.
Lemma answers_S {A} m j (p q : RM (logged R) A) f : (forall s, q s = p s) -> answers m j p f -> answers m j q f.
Proof. intros H HA st log res st' log' E. rewrite H in E. apply (HA _ _ _ _ _ E). Qed.
Lemma nextk_answers fuel j : answers 40 j (rnextk (logged R) fuel) (fun _ l => nextk l).
Proof.
  change 40%nat with (40 + 0)%nat. eapply answers_ext; [|apply answers_bind; [apply (ReadFull_answers fuel 40 j ltac:(lia))|intros b; apply answers_lift]].
  intros F l. unfold nextk. change (Z.to_nat (sm2_BitSize / 8 + 8)) with 40%nat. destruct (ReadFull 40 l) as [[b r]| |]; reflexivity.
Qed.
Lemma inner_answers e : forall fuel, answers 1 1 (rsign_inner (logged R) fuel e) (fun F l => sign_inner F e l).
Proof.
  induction fuel as [|fuel IH]; [intros st log res st' log' E; discriminate E|].
  apply (answers_weak (40 + 0) 1 1 1 _ (fun F l => do (k, r) <- nextk l; do (xy, r') <- (do a <- sm2_ScalarBaseMult (big_bytes k); Ret (a, r));
     if negb ((e + fst xy) mod sm2_N =? 0) && negb ((e + fst xy) mod sm2_N + k =? sm2_N) then Ret (k, (e + fst xy) mod sm2_N, r') else sign_inner (pred F) e r')); [lia| |].
  - intros l F HF. exists F. split; [exact HF|]. destruct F as [|F]; [lia|]. cbn [sign_inner pred]. destruct (nextk l) as [[k r]| |]; cbn [bind]; [|reflexivity|reflexivity].
    destruct (sm2_ScalarBaseMult _); reflexivity.
  - apply answers_bind; [apply (nextk_answers (S fuel) 1)|]. intros k.
    apply (answers_bind 0 0 (1 + 40) (rlift (sm2_ScalarBaseMult (big_bytes k))) (fun F r => do a <- sm2_ScalarBaseMult (big_bytes k); Ret (a, r))); [apply answers_lift|].
    intros xy. cbv zeta. destruct (negb _ && negb _); [apply (answers_lift _ (Ret _))|]. eapply answers_weak; [| |apply IH]; [lia|].
    intros l F HF. exists (pred F). split; [lia|reflexivity].
Qed.
Lemma outer_answers D e : forall fuel, answers 1 1 (rsign_outer (logged R) fuel D e) (fun F l => sign_outer F D e l).
Proof.
  induction fuel as [|fuel IH]; [intros st log res st' log' E; discriminate E|].
  apply (answers_weak (1 + 0) 1 1 1 _ (fun F l => do (kr, rand) <- (do (k, r, rand) <- sign_inner (S (List.length l)) e l; Ret ((k, r), rand));
     match ModInverse (D + 1) sm2_N with None => Panic | Some d1Inv =>
       if negb ((fst kr - snd kr * D) * d1Inv mod sm2_N =? 0) then Ret (snd kr, (fst kr - snd kr * D) * d1Inv mod sm2_N, rand) else sign_outer (pred F) D e rand end)); [lia| |].
  - intros l F HF. exists F. split; [exact HF|]. destruct F as [|F]; [lia|]. cbn [sign_outer pred]. destruct (sign_inner _ e l) as [[[k r] rest]| |]; reflexivity.
  - apply (answers_bind 1 0 1 (rsign_inner (logged R) (S fuel) e) (fun _ l => do (k, r, rand) <- sign_inner (S (List.length l)) e l; Ret ((k, r), rand))).
    + eapply answers_weak; [| |apply (inner_answers e (S fuel))]; [lia|]. intros l F HF. exists (S (List.length l)). split; [lia|]. destruct (sign_inner _ e l) as [[[k r] rest]| |]; reflexivity.
    + intros [k r]. cbv zeta. destruct (ModInverse (D + 1) sm2_N) as [inv|]; [|apply (answers_lift _ Panic)]. cbn [fst snd].
      destruct (negb _); [apply (answers_lift _ (Ret _))|]. eapply answers_weak; [| |apply IH]; [lia|]. intros l F HF. exists (pred F). split; [lia|reflexivity].
Qed.
Lemma RS_answers fuel priv dg : answers 0 0 (rSignDigestRS (logged R) fuel priv dg) (fun _ l => SignDigestRS l priv dg).
Proof.
  unfold rSignDigestRS, SignDigestRS. change (sm2_N =? 0) with false. cbv iota.
  eapply answers_weak; [| |apply outer_answers]; [lia|]. intros l F HF. exists (S (List.length l)). split; [lia|reflexivity].
Qed.
Lemma Digest_answers fuel priv dg : answers 0 0 (rSignDigest (logged R) fuel priv dg) (fun _ l => SignDigest l priv dg).
Proof.
  eapply answers_ext; [|unfold rSignDigest; apply (answers_bind 0 0 0 _ (fun _ l => SignDigestRS l priv dg) _ (fun rs F r => do a <- MarshalSign (fst rs) (snd rs); Ret (a, r))); [apply RS_answers|intros [r s]; apply answers_lift]].
  intros F l. unfold SignDigest. destruct (SignDigestRS l priv dg) as [[[r s] rest]| |]; reflexivity.
Qed.
Lemma Sign_answers fuel priv inp uid : answers 0 0 (rSign (logged R) fuel priv inp uid) (fun _ l => Sign l priv inp uid).
Proof.
  eapply answers_ext; [|unfold rSign; apply (answers_bind 0 0 0 _ (fun _ l => SignRS l priv inp uid) _ (fun rs F r => do a <- MarshalSign (fst rs) (snd rs); Ret (a, r))); [|intros [r s]; apply answers_lift]].
  - intros F l. unfold Sign. destruct (SignRS l priv inp uid) as [[[r s] rest]| |]; reflexivity.
  - eapply answers_ext; [|unfold rSignRS; apply (answers_bind 0 0 0 _ (fun _ l => do a <- SM3Digest (sk_Pub priv) inp uid; Ret (a, l)) _ (fun h F r => SignDigestRS r priv h)); [apply answers_lift|intros h; apply RS_answers]].
    intros F l. unfold SignRS. destruct (SM3Digest _ _ _); reflexivity.
Qed.
Lemma Gen_answers : forall fuel, answers 1 1 (rGen (logged R) fuel) (fun F l => elliptic_GenerateKey F l).
Proof.
  induction fuel as [|fuel IH]; [intros st log res st' log' E; discriminate E|].
  apply (answers_weak (32 + 0) 1 1 1 _ (fun F l => do (p0, r) <- ReadFull 32 l;
     let p1 := upd p0 0 (Z.land (nth 0 p0 0) 0xff) in let p2 := upd p1 1 (Z.lxor (nth 1 p1 0) 0x42) in
     if sm2_N <=? be_to_Z p2 then elliptic_GenerateKey (pred F) r else do (xy, r') <- (do a <- sm2_ScalarBaseMult p2; Ret (a, r)); Ret (p2, xy, r'))); [lia| |].
  - intros l F HF. exists F. split; [exact HF|]. destruct F as [|F]; [lia|]. cbn [elliptic_GenerateKey pred]. destruct (ReadFull 32 l) as [[k r]| |]; cbn [bind]; [|reflexivity|reflexivity].
    cbv zeta. destruct (sm2_N <=? _); [reflexivity|]. destruct (sm2_ScalarBaseMult _); reflexivity.
  - apply answers_bind; [apply (ReadFull_answers (S fuel) 32 1); lia|]. intros p0. cbv zeta. destruct (sm2_N <=? _).
    + eapply answers_weak; [| |apply IH]; [lia|]. intros l F HF. exists (pred F). split; [lia|reflexivity].
    + match goal with |- answers _ _ (rbind (rlift (sm2_ScalarBaseMult ?q)) _) _ =>
        apply (answers_bind 0 0 (1 + 32) (rlift (sm2_ScalarBaseMult q)) (fun F r => do a <- sm2_ScalarBaseMult q; Ret (a, r)) _ (fun xy F r => Ret (q, xy, r))) end;
        [apply answers_lift|intros xy; apply (answers_lift _ (Ret _))].
Qed.
Lemma GenerateKey_answers fuel : answers 0 0 (rGenerateKey (logged R) fuel) (fun _ l => GenerateKey l).
Proof.
  eapply answers_ext; [|unfold rGenerateKey; apply (answers_bind 0 0 0 _ (fun _ l => elliptic_GenerateKey (S (List.length l)) l) _
    (fun dxy F r => Ret (mkPriv (mkPub SM2P256V1_id (fst (snd dxy)) (snd (snd dxy))) (be_to_Z (fst dxy)), r))); [|intros [d xy]; apply (answers_lift _ (Ret _))]].
  - intros F l. unfold GenerateKey. destruct (elliptic_GenerateKey _ l) as [[[d xy] rest]| |]; reflexivity.
  - eapply answers_weak; [| |apply Gen_answers]; [lia|]. intros l F HF. exists (S (List.length l)). split; [lia|reflexivity].
Qed.
Lemma loop_answers pub msg : forall fuel, answers 1 1 (rEncryt (logged R) fuel pub msg) (fun F l => encrypt_loop F l pub msg).
Proof.
  induction fuel as [|fuel IH]; [intros st log res st' log' E; discriminate E|].
  apply (answers_weak (40 + (0 + (0 + (0 + (0 + 0))))) 1 1 1 _ (fun F l => do (k, r) <- nextk l;
     do (c1, r) <- (do a <- sm2_ScalarBaseMult (big_bytes k); Ret (a, r));
     do (kp, r) <- (do a <- sm2_ScalarMult (pk_X pub) (pk_Y pub) (big_bytes k); Ret (a, r));
     do (c3, r) <- (do a <- sm3_Sum (big_bytes (fst kp) ++ msg ++ big_bytes (snd kp)); Ret (a, r));
     do (t, r) <- (do a <- kdf (zlen msg) (fst kp) (snd kp); Ret (a, r));
     match t with None => encrypt_loop (pred F) r pub msg
     | Some t => do (c, r) <- (do a <- xor_loop (((big_bytes (fst c1) ++ big_bytes (snd c1)) ++ c3) ++ t) 96 msg; Ret (a, r)); Ret (0x04 :: c, r) end)); [lia| |].
  - intros l F HF. exists F. split; [exact HF|]. destruct F as [|F]; [lia|]. cbn [encrypt_loop pred]. destruct (nextk l) as [[k r]| |]; cbn [bind]; [|reflexivity|reflexivity].
    cbv zeta. destruct (sm2_ScalarBaseMult _) as [c1| |]; cbn [bind]; [|reflexivity|reflexivity]. destruct (sm2_ScalarMult _ _ _) as [kp| |]; cbn [bind]; [|reflexivity|reflexivity].
    destruct (sm3_Sum _) as [c3| |]; cbn [bind]; [|reflexivity|reflexivity]. destruct (kdf _ _ _) as [[t|]| |]; cbn [bind]; [|reflexivity|reflexivity|reflexivity].
    destruct (xor_loop _ _ _); reflexivity.
  - apply answers_bind; [apply (nextk_answers (S fuel) 1)|]. intros k. cbv zeta. 
    apply (answers_bind 0 (0 + (0 + (0 + 0))) (1 + 40) _ (fun F r => do a <- sm2_ScalarBaseMult (big_bytes k); Ret (a, r))); [apply answers_lift|]. intros c1.
    apply (answers_bind 0 (0 + (0 + 0)) _ _ (fun F r => do a <- sm2_ScalarMult (pk_X pub) (pk_Y pub) (big_bytes k); Ret (a, r))); [apply answers_lift|]. intros kp.
    apply (answers_bind 0 (0 + 0) _ _ (fun F r => do a <- sm3_Sum (big_bytes (fst kp) ++ msg ++ big_bytes (snd kp)); Ret (a, r))); [apply answers_lift|]. intros c3.
    apply (answers_bind 0 0 _ _ (fun F r => do a <- kdf (zlen msg) (fst kp) (snd kp); Ret (a, r))); [apply answers_lift|]. intros [t|].
    + match goal with |- answers _ _ (rbind (rlift (xor_loop ?q ?n ?w)) _) _ =>
        apply (answers_bind 0 0 _ _ (fun F r => do a <- xor_loop q n w; Ret (a, r)) _ (fun c F r => Ret (4 :: c, r))) end; [apply answers_lift|intros c; apply (answers_lift _ (Ret _))].
    + eapply answers_weak; [| |apply IH]; [lia|]. intros l F HF. exists (pred F). split; [lia|reflexivity].
Qed.
Lemma Encryt_answers fuel pub msg : answers 0 0 (rEncryt (logged R) fuel pub msg) (fun _ l => Encryt l pub msg).
Proof.
  eapply answers_weak; [| |apply loop_answers]; [lia|]. intros l F HF. exists (S (List.length l)). split; [lia|reflexivity].
Qed.
Lemma answers_like {A} (p : RM (logged R) A) f st res st' D : answers 0 0 p (fun _ => f) -> p (st, []) = Some (res, (st', D)) -> like R res D st' f.
Proof.
  intros H E. destruct (H _ _ _ _ _ E) as (D' & -> & HD). cbn [app]. destruct res as [a|e|]; cbn [like].
  - intros X. destruct HD as [_ HD]. eapply HD. apply Nat.le_refl.
  - destruct HD as [HD|(w & pt & er & E1 & E2 & E3 & HD)]; [left; intros X; eapply HD; apply Nat.le_refl|right].
    exists w, pt, er. split; [exact E1|]. split; [exact E2|]. split; [apply seen_error; exact E3|].
    exists (read_error pt "EOF"). split; [apply seen_error; reflexivity|]. eapply HD. apply Nat.le_refl.
  - intros X. eapply HD. apply Nat.le_refl.
Qed.
End P.

(** ** Every reader *)
(** The result of a call, whatever the reader does, is determined by the bytes it delivered; the whole calls return has the
    same meaning as for a source holding those bytes. *)
Theorem C129_reader : forall R, obeys R -> forall fuel st st' D,
  (forall priv dg res, rSignDigest (logged R) fuel priv dg (st, []) = Some (res, (st', D)) -> like R res D st' (fun l => SignDigest l priv dg)) /\
  (forall priv dg res, rSignDigestRS (logged R) fuel priv dg (st, []) = Some (res, (st', D)) -> like R res D st' (fun l => SignDigestRS l priv dg)) /\
  (forall priv inp uid res, rSign (logged R) fuel priv inp uid (st, []) = Some (res, (st', D)) -> like R res D st' (fun l => Sign l priv inp uid)) /\
  (forall pub msg res, rEncryt (logged R) fuel pub msg (st, []) = Some (res, (st', D)) -> like R res D st' (fun l => Encryt l pub msg)) /\
  (forall res, rGenerateKey (logged R) fuel (st, []) = Some (res, (st', D)) -> like R res D st' GenerateKey).
Proof.
  intros R HR fuel st st' D. split; [|split; [|split; [|split]]]; intros.
  - eapply answers_like; [apply (Digest_answers R HR)|eassumption].
  - eapply answers_like; [apply (RS_answers R HR)|eassumption].
  - eapply answers_like; [apply (Sign_answers R HR)|eassumption].
  - eapply answers_like; [apply (Encryt_answers R HR)|eassumption].
  - eapply answers_like; [apply (GenerateKey_answers R HR)|eassumption].
Qed.
Print Assumptions C129_reader.

(** ** What holds of reading, returning and sequencing holds of every call *)
Section G.
Context (R1 R2 : reader) (P : forall A, RM R1 A -> RM R2 A -> Prop).
Hypothesis Plift : forall A (o : outcome A), P A (rlift o) (rlift o).
Hypothesis Pbind : forall A B p q (k l : _ -> RM _ B), P A p q -> (forall a, P B (k a) (l a)) -> P B (rbind p k) (rbind q l).
Hypothesis Pnone : forall A q, P A (fun _ => None) q.
Hypothesis Pread : forall f1 f2 n, (f1 <= f2)%nat -> P bytes (rReadFull R1 f1 n) (rReadFull R2 f2 n).
Lemma G_nextk f1 f2 : (f1 <= f2)%nat -> P _ (rnextk R1 f1) (rnextk R2 f2).
Proof. intros H. apply Pbind; [apply Pread; exact H|intros; apply Plift]. Qed.
Lemma G_inner e : forall f1 f2, (f1 <= f2)%nat -> P _ (rsign_inner R1 f1 e) (rsign_inner R2 f2 e).
Proof.
  induction f1 as [|f1 IH]; intros f2 H; [apply Pnone|]. destruct f2 as [|f2]; [lia|]. cbn [rsign_inner].
  apply Pbind; [apply G_nextk; exact H|]. intros k. apply Pbind; [apply Plift|]. intros xy. cbv zeta. destruct (_ && _); [apply Plift|apply IH; lia].
Qed.
Lemma G_outer D e : forall f1 f2, (f1 <= f2)%nat -> P _ (rsign_outer R1 f1 D e) (rsign_outer R2 f2 D e).
Proof.
  induction f1 as [|f1 IH]; intros f2 H; [apply Pnone|]. destruct f2 as [|f2]; [lia|]. cbn [rsign_outer].
  apply (Pbind _ _ (rsign_inner R1 (S f1) e) (rsign_inner R2 (S f2) e)); [apply G_inner; exact H|]. intros [k r]. cbv zeta. destruct (ModInverse _ _); [|apply Plift]. destruct (negb _); [apply Plift|apply IH; lia].
Qed.
Lemma G_RS priv dg f1 f2 : (f1 <= f2)%nat -> P _ (rSignDigestRS R1 f1 priv dg) (rSignDigestRS R2 f2 priv dg).
Proof. intros H. unfold rSignDigestRS. change (sm2_N =? 0) with false. apply G_outer. exact H. Qed.
Lemma G_Digest priv dg f1 f2 : (f1 <= f2)%nat -> P _ (rSignDigest R1 f1 priv dg) (rSignDigest R2 f2 priv dg).
Proof. intros H. apply Pbind; [apply G_RS; exact H|]. intros [r s]. apply Plift. Qed.
Lemma G_Sign priv inp uid f1 f2 : (f1 <= f2)%nat -> P _ (rSign R1 f1 priv inp uid) (rSign R2 f2 priv inp uid).
Proof. intros H. apply Pbind; [|intros [r s]; apply Plift]. apply Pbind; [apply Plift|]. intros h. apply G_RS. exact H. Qed.
Lemma G_Encryt pub msg : forall f1 f2, (f1 <= f2)%nat -> P _ (rEncryt R1 f1 pub msg) (rEncryt R2 f2 pub msg).
Proof.
  induction f1 as [|f1 IH]; intros f2 H; [apply Pnone|]. destruct f2 as [|f2]; [lia|]. cbn [rEncryt].
  apply Pbind; [apply G_nextk; exact H|]. intros k. cbv zeta. apply Pbind; [apply Plift|]. intros c1. apply Pbind; [apply Plift|]. intros kp. apply Pbind; [apply Plift|]. intros c3.
  apply Pbind; [apply Plift|]. intros [t|]; [|apply IH; lia]. apply Pbind; [apply Plift|]. intros c. apply Plift.
Qed.
Lemma G_Gen : forall f1 f2, (f1 <= f2)%nat -> P _ (rGen R1 f1) (rGen R2 f2).
Proof.
  induction f1 as [|f1 IH]; intros f2 H; [apply Pnone|]. destruct f2 as [|f2]; [lia|]. cbn [rGen].
  apply Pbind; [apply Pread; exact H|]. intros p. cbv zeta. destruct (_ <=? _); [apply IH; lia|]. apply Pbind; [apply Plift|]. intros xy. apply Plift.
Qed.
Lemma G_Key f1 f2 : (f1 <= f2)%nat -> P _ (rGenerateKey R1 f1) (rGenerateKey R2 f2).
Proof. intros H. apply Pbind; [apply G_Gen; exact H|]. intros [d xy]. apply Plift. Qed.
Definition all_calls (f1 f2 : nat) : Prop :=
  (forall priv dg, P _ (rSignDigest R1 f1 priv dg) (rSignDigest R2 f2 priv dg)) /\ (forall priv dg, P _ (rSignDigestRS R1 f1 priv dg) (rSignDigestRS R2 f2 priv dg)) /\
  (forall priv inp uid, P _ (rSign R1 f1 priv inp uid) (rSign R2 f2 priv inp uid)) /\
  (forall pub msg, P _ (rEncryt R1 f1 pub msg) (rEncryt R2 f2 pub msg)) /\ P _ (rGenerateKey R1 f1) (rGenerateKey R2 f2).
Lemma G_all f1 f2 : (f1 <= f2)%nat -> all_calls f1 f2.
Proof. intros H. split; [|split; [|split; [|split]]]; intros; [apply G_Digest|apply G_RS|apply G_Sign|apply G_Encryt|apply G_Key]; exact H. Qed.
End G.

(** ** The number of iterations allowed does not matter, once it is enough *)
Definition later {R} A (p q : RM R A) : Prop := forall st r, p st = Some r -> q st = Some r.
Theorem C129_fuel : forall R f1 f2, (f1 <= f2)%nat -> all_calls R R later f1 f2.
Proof.
  intros R f1 f2 H. apply G_all; [| | | |exact H].
  - intros A o st r E. exact E.
  - intros A B p q k l Hp Hk st r E. unfold rbind in *. destruct (p st) as [[[a|e|] st1]|] eqn:Ep; [| | |discriminate]; rewrite (Hp _ _ Ep); auto. apply Hk. exact E.
  - discriminate.
  - intros g1 g2 n Hg. unfold rReadFull. generalize (@nil Z). revert g2 Hg. induction g1 as [|g1 IH]; intros g2 Hg got st r E; destruct g2 as [|g2]; try lia; cbn [readLoop] in *;
      destruct (n <=? List.length got)%nat; auto; try discriminate.
    destruct (r_read R st _) as [[c [er|]] st1]; auto. apply (IH g2); [lia|exact E].
Qed.
Print Assumptions C129_fuel.

(** ** Keeping a record of the bytes does not matter *)
Definition records {R} A (p : RM R A) (q : RM (logged R) A) : Prop :=
  (forall st log r st', p st = Some (r, st') -> exists D, q (st, log) = Some (r, (st', log ++ D))).
Definition forgets {R} A (q : RM (logged R) A) (p : RM R A) : Prop :=
  forall st log r st' log', q (st, log) = Some (r, (st', log')) -> p st = Some (r, st').
Theorem C129_logged : forall R fuel, all_calls R (logged R) records fuel fuel /\ all_calls (logged R) R forgets fuel fuel.
Proof.
  intros R fuel. split; (apply G_all; [| | | |apply Nat.le_refl]).
  - intros A o st log r st' E. unfold rlift in *. injection E as <- <-. exists []. rewrite app_nil_r. reflexivity.
  - intros A B p q k l Hp Hk st log r st' E. unfold rbind in *. destruct (p st) as [[[a|e|] st1]|] eqn:Ep; [| | |discriminate]; destruct (Hp _ log _ _ Ep) as (D & Eq); rewrite Eq.
    + destruct (Hk a _ (log ++ D) _ _ E) as (D2 & E2). exists (D ++ D2). rewrite app_assoc. exact E2.
    + injection E as <- <-. exists D. reflexivity.
    + injection E as <- <-. exists D. reflexivity.
  - discriminate.
  - intros g1 g2 n Hg. unfold rReadFull. generalize (@nil Z). revert g2 Hg. induction g1 as [|g1 IH]; intros g2 Hg got st log r st' E; destruct g2 as [|g2]; try lia; cbn [readLoop] in *;
      try (destruct (n <=? List.length got)%nat; [injection E as <- <-; exists []; rewrite app_nil_r; reflexivity|]); try discriminate.
    cbn [r_read logged fst snd]. destruct (r_read R st _) as [[c [er|]] st1].
    + exists c. cbv zeta in *. destruct (n <=? _)%nat; injection E as <- <-; reflexivity.
    + destruct (IH g2 ltac:(lia) _ _ (log ++ c) _ _ E) as (D & E2). exists (c ++ D). rewrite app_assoc. exact E2.
  - intros A o st log r st' log' E. unfold rlift in *. injection E as <- <- <-. reflexivity.
  - intros A B p q k l Hp Hk st log r st' log' E. unfold rbind in *. destruct (p (st, log)) as [[[a|e|] [st1 log1]]|] eqn:Ep; [| | |discriminate]; rewrite (Hp _ _ _ _ _ Ep).
    + apply (Hk a _ _ _ _ _ E).
    + injection E as <- <- <-. reflexivity.
    + injection E as <- <- <-. reflexivity.
  - discriminate.
  - intros g1 g2 n Hg. unfold rReadFull. generalize (@nil Z). revert g2 Hg. induction g1 as [|g1 IH]; intros g2 Hg got st log r st' log' E; destruct g2 as [|g2]; try lia; cbn [readLoop] in *;
      try (destruct (n <=? List.length got)%nat; [injection E as <- <- <-; reflexivity|]); try discriminate.
    cbn [r_read logged fst snd] in E. destruct (r_read R st _) as [[c [er|]] st1].
    + cbv zeta in *. destruct (n <=? _)%nat; injection E as <- <- <-; reflexivity.
    + apply (IH g2 ltac:(lia) _ _ _ _ _ _ E).
Qed.
Print Assumptions C129_logged.

(** ** Bytes that arrive in pieces *)
Lemma pieces_obeys : obeys pieces.
Proof. intros [|c r] n; cbn; [lia|]. destruct (Nat.leb_spec (List.length c) n); cbn [fst]; [lia|]. rewrite firstn_length. lia. Qed.
Lemma pieces_reported er cs : reported pieces er cs -> er = "EOF"%string /\ cs = [].
Proof. intros (st & n & c & E). destruct st as [|c0 r]; cbn in E; [injection E as <- <- <-; auto|]. destruct (_ <=? _)%nat in E; discriminate E. Qed.
Definition keeps A (p q : RM (logged pieces) A) : Prop :=
  forall cs log r cs' log', p (cs, log) = Some (r, (cs', log')) -> log' ++ List.concat cs' = log ++ List.concat cs.
Lemma all_keep fuel : all_calls (logged pieces) (logged pieces) keeps fuel fuel.
Proof.
  apply G_all; [| | | |apply Nat.le_refl].
  - intros A o cs log r cs' log' E. unfold rlift in E. injection E as _ <- <-. reflexivity.
  - intros A B p q k l Hp Hk cs log r cs' log' E. unfold rbind in E. destruct (p (cs, log)) as [[[a|e|] [st1 log1]]|] eqn:Ep; [| | |discriminate].
    + rewrite (Hk a _ _ _ _ _ E). apply (Hp _ _ _ _ _ Ep).
    + injection E as _ <- <-. apply (Hp _ _ _ _ _ Ep).
    + injection E as _ <- <-. apply (Hp _ _ _ _ _ Ep).
  - discriminate.
  - intros g1 g2 n _. unfold rReadFull. unfold keeps. generalize (@nil Z). induction g1 as [|g1 IH]; intros got cs log r cs' log' E; cbn [readLoop] in E;
      (destruct (n <=? List.length got)%nat; [injection E as _ <- <-; reflexivity|]); try discriminate.
    cbn [r_read logged fst snd] in E. destruct cs as [|c cs]; cbn [pieces r_read] in E.
    + rewrite !app_nil_r in E. cbv zeta in E. destruct (n <=? _)%nat; injection E as _ <- <-; reflexivity.
    + destruct (List.length c <=? _)%nat; cbn [fst snd] in E.
      * rewrite (IH _ _ _ _ _ _ E). cbn [List.concat]. rewrite <- app_assoc. reflexivity.
      * rewrite (IH _ _ _ _ _ _ E). cbn [List.concat]. rewrite <- app_assoc, (app_assoc (firstn _ c)), firstn_skipn. reflexivity.
Qed.
Definition total (cs : list bytes) : nat := List.length cs + List.length (List.concat cs).
Definition ends {A} (m B : nat) (p : RM pieces A) : Prop := forall cs, (total cs < B)%nat ->
  exists res cs', p cs = Some (res, cs') /\ (total cs' <= total cs)%nat /\ match res with Ret _ => (total cs' + m <= total cs)%nat | _ => True end.
Lemma ends_lift {A} B (o : outcome A) : ends 0 B (rlift o).
Proof. intros cs H. exists o, cs. split; [reflexivity|]. split; [lia|]. destruct o; auto. lia. Qed.
Lemma ends_bind {A B} m m2 N (p : RM pieces A) (k : A -> RM pieces B) : ends m N p -> (forall a, ends m2 (N - m) (k a)) -> ends (m + m2) N (rbind p k).
Proof.
  intros Hp Hk cs H. destruct (Hp cs H) as (res & cs1 & E & L & Hr). unfold rbind. rewrite E. destruct res as [a|e|].
  - destruct (Hk a cs1 ltac:(lia)) as (res & cs2 & E2 & L2 & Hr2). exists res, cs2. split; [exact E2|]. split; [lia|]. destruct res; auto. lia.
  - exists (Err e), cs1. auto.
  - exists Panic, cs1. auto.
Qed.
Lemma ends_weak {A} m m' N N' (p : RM pieces A) : ends m N p -> (m' <= m)%nat -> (N' <= N)%nat -> ends m' N' p.
Proof. intros H Hm HN cs Hc. destruct (H cs ltac:(lia)) as (res & cs' & E & L & Hr). exists res, cs'. split; [exact E|]. split; [exact L|]. destruct res; auto. lia. Qed.
Lemma ends_read n : forall fuel got cs, (total cs < fuel)%nat -> exists res cs', readLoop pieces fuel n got cs = Some (res, cs') /\ (total cs' <= total cs)%nat /\
  match res with Ret _ => (total cs' + (n - List.length got) <= total cs)%nat | _ => True end.
Proof.
  induction fuel as [|fuel IH]; intros got cs H; [lia|]. cbn [readLoop]. destruct (Nat.leb_spec n (List.length got)) as [L|L].
  - exists (Ret got), cs. split; [reflexivity|]. split; lia.
  - cbn [r_read pieces]. destruct cs as [|c cs].
    + rewrite app_nil_r. cbv zeta. destruct (Nat.leb_spec n (List.length got)); [lia|]. eexists _, _. split; [reflexivity|]. auto.
    + unfold total in *. cbn [List.concat List.length] in *. rewrite app_length in *. destruct (Nat.leb_spec (List.length c) (n - List.length got)) as [L2|L2].
      * destruct (IH (got ++ c) cs ltac:(lia)) as (res & cs' & E & T & Hr). exists res, cs'. split; [exact E|]. split; [lia|]. destruct res; auto. rewrite app_length in Hr. lia.
      * destruct (IH (got ++ firstn (n - List.length got) c) (skipn (n - List.length got) c :: cs)) as (res & cs' & E & T & Hr).
        { cbn [List.concat List.length]. rewrite app_length, skipn_length. lia. }
        cbn [List.concat List.length] in T. rewrite app_length, skipn_length in T. exists res, cs'. split; [exact E|]. split; [lia|]. destruct res; auto. lia.
Qed.
Lemma ends_full fuel n : ends n fuel (rReadFull pieces fuel n).
Proof. intros cs H. destruct (ends_read n fuel [] cs H) as (res & cs' & E & L & Hr). exists res, cs'. split; [exact E|]. split; [exact L|]. destruct res; auto. cbn [List.length] in Hr. lia. Qed.
Lemma ends_nextk fuel : ends 40 fuel (rnextk pieces fuel).
Proof. change 40%nat with (40 + 0)%nat. apply ends_bind; [apply (ends_full fuel 40)|]. intros. apply ends_lift. Qed.
Lemma ends_inner e : forall fuel, ends 1 fuel (rsign_inner pieces fuel e).
Proof.
  induction fuel as [|fuel IH]; [intros cs H; lia|]. cbn [rsign_inner]. apply (ends_weak (40 + (0 + 0)) 1 (S fuel) (S fuel)); [|lia|lia].
  apply ends_bind; [apply ends_nextk|]. intros k. apply ends_bind; [apply ends_lift|]. intros xy. cbv zeta. destruct (_ && _); [apply ends_lift|]. eapply ends_weak; [apply IH|lia|lia].
Qed.
Lemma ends_outer D e : forall fuel, ends 1 fuel (rsign_outer pieces fuel D e).
Proof.
  induction fuel as [|fuel IH]; [intros cs H; lia|]. cbn [rsign_outer]. apply (ends_weak (1 + 0) 1 (S fuel) (S fuel)); [|lia|lia].
  apply (ends_bind 1 0 (S fuel) (rsign_inner pieces (S fuel) e)); [apply ends_inner|]. intros [k r]. cbv zeta. destruct (ModInverse _ _); [|apply ends_lift]. destruct (negb _); [apply ends_lift|]. eapply ends_weak; [apply IH|lia|lia].
Qed.
Lemma ends_RS fuel priv dg : ends 0 fuel (rSignDigestRS pieces fuel priv dg).
Proof. unfold rSignDigestRS. change (sm2_N =? 0) with false. eapply ends_weak; [apply ends_outer|lia|lia]. Qed.
Lemma ends_Encryt pub msg : forall fuel, ends 1 fuel (rEncryt pieces fuel pub msg).
Proof.
  induction fuel as [|fuel IH]; [intros cs H; lia|]. cbn [rEncryt]. apply (ends_weak (40 + (0 + (0 + (0 + (0 + 0))))) 1 (S fuel) (S fuel)); [|lia|lia].
  apply ends_bind; [apply ends_nextk|]. intros k. cbv zeta. apply ends_bind; [apply ends_lift|]. intros c1. apply ends_bind; [apply ends_lift|]. intros kp. apply ends_bind; [apply ends_lift|]. intros c3.
  apply ends_bind; [apply ends_lift|]. intros [t|]; [|eapply ends_weak; [apply IH|lia|lia]]. apply (ends_bind 0 0); [apply ends_lift|]. intros c. apply ends_lift.
Qed.
Lemma ends_Gen : forall fuel, ends 1 fuel (rGen pieces fuel).
Proof.
  induction fuel as [|fuel IH]; [intros cs H; lia|]. cbn [rGen]. apply (ends_weak (32 + 0) 1 (S fuel) (S fuel)); [|lia|lia].
  apply ends_bind; [apply ends_full|]. intros p. cbv zeta. destruct (_ <=? _); [eapply ends_weak; [apply IH|lia|lia]|]. apply (ends_bind 0 0); [apply ends_lift|]. intros xy. apply ends_lift.
Qed.
(** a call on a source whose bytes arrive in these pieces: same result as for the bytes at once; the rest stays *)
Definition same {A} (p : RM pieces A) (cs : list bytes) (f : bytes -> outcome (A * bytes)) : Prop :=
  exists res cs', p cs = Some (res, cs') /\
  match f (List.concat cs) with
  | Ret (a, rest) => res = Ret a /\ List.concat cs' = rest
  | Err e => res = Err e
  | Panic => res = Panic
  end.
Lemma same_of {A} (p : RM pieces A) (q : RM (logged pieces) A) f cs m B : ends m B p -> (total cs < B)%nat -> records A p q -> keeps A q q ->
  (forall st res st' D, q (st, []) = Some (res, (st', D)) -> like pieces res D st' f) -> same p cs f.
Proof.
  intros He Hc Hr Hk Hl. destruct (He cs Hc) as (res & cs' & E & _). exists res, cs'. split; [exact E|].
  destruct (Hr cs [] res cs' E) as (D & Eq). pose proof (Hk _ _ _ _ _ Eq) as K. pose proof (Hl _ _ _ _ Eq) as L. cbn [app] in K, L. rewrite <- K.
  destruct res as [a|e|]; cbn [like] in L.
  - rewrite L. auto.
  - destruct L as [L|(w & pt & er & Ed & Rp & Ee & e' & Ee' & L)]; [rewrite L; reflexivity|]. apply seen_error in Ee, Ee'. subst e'. apply pieces_reported in Rp as [-> ->]. cbn [List.concat]. rewrite app_nil_r, L, Ee. reflexivity.
  - rewrite L. reflexivity.
Qed.
(** However the bytes are divided among Read calls (empty ones included), a call returns, with the same result, and leaves the
    bytes it did not need. *)
Theorem C129_pieces : forall cs fuel, (total cs < fuel)%nat ->
  (forall priv dg, same (rSignDigest pieces fuel priv dg) cs (fun l => SignDigest l priv dg)) /\
  (forall priv dg, same (rSignDigestRS pieces fuel priv dg) cs (fun l => SignDigestRS l priv dg)) /\
  (forall priv inp uid, same (rSign pieces fuel priv inp uid) cs (fun l => Sign l priv inp uid)) /\
  (forall pub msg, same (rEncryt pieces fuel pub msg) cs (fun l => Encryt l pub msg)) /\
  same (rGenerateKey pieces fuel) cs GenerateKey.
Proof.
  intros cs fuel H. pose proof (all_keep fuel) as (K1 & K2 & K3 & K4 & K5). pose proof (C129_logged pieces fuel) as [(L1 & L2 & L3 & L4 & L5) _].
  split; [|split; [|split; [|split]]]; intros.
  - eapply same_of; [|exact H|apply L1|apply K1|]; [apply (ends_bind 0 0); [apply ends_RS|intros [r s]; apply ends_lift]|].
    intros st res st' D E. eapply (proj1 (C129_reader _ pieces_obeys fuel st st' D)). exact E.
  - eapply same_of; [|exact H|apply L2|apply K2|]; [apply ends_RS|]. intros st res st' D E. eapply (proj1 (proj2 (C129_reader _ pieces_obeys fuel st st' D))). exact E.
  - eapply same_of; [|exact H|apply L3|apply K3|]; [apply (ends_bind 0 0); [apply (ends_bind 0 0); [apply ends_lift|intros h; eapply ends_weak; [apply ends_RS|lia|lia]]|intros [r s]; apply ends_lift]|].
    intros st res st' D E. eapply (proj1 (proj2 (proj2 (C129_reader _ pieces_obeys fuel st st' D)))). exact E.
  - eapply same_of; [|exact H|apply L4|apply K4|]; [apply ends_Encryt|]. intros st res st' D E. eapply (proj1 (proj2 (proj2 (proj2 (C129_reader _ pieces_obeys fuel st st' D))))). exact E.
  - eapply same_of; [|exact H|apply L5|apply K5|]; [apply (ends_bind 1 0); [apply ends_Gen|intros [d xy]; apply ends_lift]|].
    intros st res st' D E. eapply (proj2 (proj2 (proj2 (proj2 (C129_reader _ pieces_obeys fuel st st' D))))). exact E.
Qed.
Print Assumptions C129_pieces.

(** A full read that comes together with an error is used and the error dropped; a reader that always delivers nothing without an
    error keeps the call waiting for ever. *)
Theorem C129_last_error : forall R fuel n st c er st', (0 < n)%nat -> List.length c = n -> r_read R st n = (c, Some er, st') -> rReadFull R (S fuel) n st = Some (Ret c, st').
Proof.
  intros R fuel n st c er st' Hn L E. unfold rReadFull. cbn [readLoop List.length]. rewrite (proj2 (Nat.leb_gt _ _)) by lia. rewrite Nat.sub_0_r, E. cbn [app].
  rewrite (proj2 (Nat.leb_le _ _)) by lia. reflexivity.
Qed.
Print Assumptions C129_last_error.
Theorem C129_waits : forall R st, (forall n, r_read R st n = ([], None, st)) -> forall fuel n, (0 < n)%nat -> rReadFull R fuel n st = None.
Proof.
  intros R st H fuel n Hn. unfold rReadFull. induction fuel as [|fuel IH]; cbn [readLoop List.length]; rewrite (proj2 (Nat.leb_gt _ _)) by lia; [reflexivity|].
  rewrite H. exact IH.
Qed.
Print Assumptions C129_waits.
Definition hw : bytes := [104; 101; 108; 108; 111].
Example C129_nonvacuous : obeys pieces /\ rReadFull pieces 9 5 [[104]; []; [101; 108; 108]; [111; 1]; [2]] = Some (Ret hw, [[1]; [2]]) /\
  rReadFull pieces 9 5 [[104]; [101]] = Some (Err "unexpected EOF", []) /\ rReadFull pieces 9 5 [[]; []] = Some (Err "EOF", []) /\
  total [repeat 1 7; []; repeat 2 40] = 50%nat.
Proof. split; [exact pieces_obeys|]. repeat split. Qed.
(** a signature made with 40 bytes that arrive in three pieces *)
Example C129_nonvacuous_sign : exists fuel sig cs', rSignDigest pieces fuel key1 [7] [repeat 0 13; []; repeat 0 27] = Some (Ret sig, cs') /\
  List.concat cs' = [] /\ VerifyDigest (sk_Pub key1) [7] sig = Ret true.
Proof.
  destruct C13_nonvacuous as (sig & E & V). destruct (C129_pieces [repeat 0 13; []; repeat 0 27] 100 ltac:(unfold total; cbn; lia)) as (H & _).
  specialize (H key1 [7]). destruct H as (res & cs' & E1 & H). change (List.concat [repeat 0 13; []; repeat 0 27]) with (repeat 0 40) in H. rewrite E in H. destruct H as [-> H].
  exists 100%nat, sig, cs'. auto.
Qed.
