(** * C120: the PFX file after any history of SM2P12Encrypt calls, errors and crashes *)
From Coq Require Import String ZifyBool ZifyNat.
From Verif Require Import Base Words ECSpec ECModel ECProofs ECBridge BaseOrder SM2Spec SM2Model CryptoByte Asn1 Asn1Proofs KeysModel KeysProofs Asn1Safe BMPModel P12Spec P12Model P12Proofs P12Round
  P12File PropertiesP12 PropertiesNoPanic PropertiesCurve PropertiesTrunc.
Open Scope Z_scope.
Section File.
Variables (P : prims) (edPub : bytes -> bytes) (C : Type) (parseCerts : bytes -> outcome (list C)).
(** a call with an SM2 key, a certificate that parses, of any realistic size *)
Definition good_call (c : encryptCall) : Prop :=
  1 <= ec_D c < sm2_N /\ bytes_ok (ec_rnd c) /\ bytes_ok (ec_cert c) /\ zlen (ec_cert c) < 2 ^ 28 /\ exists x, parseCerts (ec_cert c) = Ret [x].
(** what the call was given is what SM2P12Decrypt gives back with the call's password *)
Definition gives_back (file : option bytes) (c : encryptCall) : Prop :=
  exists x, parseCerts (ec_cert c) = Ret [x] /\ SM2P12Decrypt P edPub C parseCerts file (ec_pwd c) = Ret (Some (x, sm2_key (ec_D c))).
(** a file that no password opens *)
Definition unreadable (file : option bytes) : Prop := forall pwd, exists e, SM2P12Decrypt P edPub C parseCerts file pwd = Err e.
End File.

Lemma sm2_key_on d : 1 <= d < sm2_N -> sm2_on_curve (PA (fst (enc (sm2_pmul d sm2_G))) (snd (enc (sm2_pmul d sm2_G)))).
Proof.
  intros Hd. pose proof (sm2_pmul_zero_iff d ltac:(lia)) as Z0. pose proof (sm2_pmul_closed d sm2_G sm2_G_on) as Hc. destruct (sm2_pmul d sm2_G) as [|x y]; cbn [enc fst snd]; [|exact Hc].
  exfalso. assert (E : d mod sm2_N = 0) by (apply Z0; reflexivity). rewrite Z.mod_small in E by lia. lia.
Qed.
(** Encode of a good call either fails, or writes a file that gives the call back and no proper prefix of which opens *)
Lemma encode_good P edPub C parseCerts c : prims_ok P -> good_call C parseCerts c ->
  (exists e, Encode P (ec_rnd c) (sm2_key (ec_D c)) (ec_cert c) [] (ec_pwd c) = Err e) \/
  exists out, Encode P (ec_rnd c) (sm2_key (ec_D c)) (ec_cert c) [] (ec_pwd c) = Ret out /\ gives_back P edPub C parseCerts (Some out) c /\
    forall n, (n < List.length out)%nat -> unreadable P edPub C parseCerts (Some (firstn n out)).
Proof.
  intros HP (Hd & Or & Oc & Lc & x & Ex). assert (Hz : total_size [ec_cert c] < 2 ^ 29) by (cbn [total_size]; lia).
  pose proof (bmpString_np (ec_pwd c)) as N. destruct (bmpString (ec_pwd c)) as [pwd|e|] eqn:Eb; [clear N| |congruence].
  2:{ left. apply (C45_encode_fails P (ec_rnd c) (ec_D c) (ec_cert c) [] (ec_pwd c) HP); auto; [lia|eauto]. }
  destruct (Z.lt_ge_cases (zlen (ec_rnd c)) 24) as [Lr|Lr].
  { left. apply (C45_encode_fails P (ec_rnd c) (ec_D c) (ec_cert c) [] (ec_pwd c) HP); auto. lia. }
  right. destruct (sm2_der edPub (ec_D c) ltac:(lia)) as (der & t & i & E1 & Od & Ld & El & Ek).
  destruct (Encode_written P edPub (ec_rnd c) (sm2_key (ec_D c)) der t i (ec_cert c) [] (ec_pwd c) pwd HP Eb Or Lr E1 Od ltac:(lia) El Ek Oc (Forall_nil _) Hz) as (out & enck & Eo & _ & _ & Oo).
  destruct (Encode_DecodeAll P edPub C parseCerts (ec_rnd c) (sm2_key (ec_D c)) der t i (ec_cert c) [] x [] (ec_pwd c) pwd HP Eb Or Lr E1 Od ltac:(lia) El Ek Oc (Forall_nil _) Hz Ex (Forall2_nil _)) as (out' & Eo' & Dd).
  assert (out' = out) by congruence. subst out'. exists out. split; [exact Eo|]. split.
  - exists x. split; [exact Ex|]. apply C46_success. exists (sm2_key (ec_D c)), x, []. split; [exact Dd|]. split; [reflexivity|]. exact (sm2_key_on _ Hd).
  - intros n Hn pwd'. assert (Q : skipn n out <> []) by (intros Q; apply (f_equal (@List.length Z)) in Q; rewrite skipn_length in Q; cbn [List.length] in Q; lia).
    pose proof (C119_pkcs12 P edPub C parseCerts (firstn n out) (skipn n out) (ec_pwd c) pwd') as T. rewrite firstn_skipn in T. destruct (T Oo Q) as (T1 & _). destruct (T1 _ Dd) as [e X].
    exists e. exact (C46_decode_error _ _ _ _ _ _ _ X).
Qed.
(** C120: when SM2P12Encrypt returns nil, SM2P12Decrypt with the same password returns that certificate and that key *)
Theorem C120_success : forall P edPub C (parseCerts : bytes -> outcome (list C)) c old file, prims_ok P -> good_call C parseCerts c ->
  SM2P12Encrypt P (ec_rnd c) (sm2_key (ec_D c)) (ec_cert c) (ec_pwd c) (ec_fate c) old = (file, Ret tt) -> gives_back P edPub C parseCerts file c.
Proof.
  intros P edPub C pc c old file HP Hg. unfold SM2P12Encrypt. destruct (encode_good P edPub C pc c HP Hg) as [[e ->]|(out & -> & G & _)]; [discriminate|].
  unfold WriteFile. destruct (ec_fate c); try discriminate. intros [= <-]. exact G.
Qed.
Print Assumptions C120_success.
(** C120: after every history of calls, some of which failed or crashed at any point: if no call got to open the file, it is unchanged; otherwise
    let c be the last one that did, and then the file gives back what c was given, or no password opens it *)
Definition opened (P : prims) (c : encryptCall) : Prop := ec_fate c <> NotOpened /\ exists out, Encode P (ec_rnd c) (sm2_key (ec_D c)) (ec_cert c) [] (ec_pwd c) = Ret out.
Theorem C120_history : forall P edPub C (parseCerts : bytes -> outcome (list C)) h old, prims_ok P -> Forall (good_call C parseCerts) h ->
  let file := run_history P sm2_key old h in
  (Forall (fun c => ~ opened P c) h /\ file = old) \/
  exists h1 c h2, h = h1 ++ c :: h2 /\ opened P c /\ Forall (fun c => ~ opened P c) h2 /\
    (gives_back P edPub C parseCerts file c \/ unreadable P edPub C parseCerts file) /\ (ec_fate c = Written -> gives_back P edPub C parseCerts file c).
Proof.
  intros P edPub C pc h old HP F. cbv zeta. unfold run_history. induction h as [|c h IH] using rev_ind; [left; split; [constructor|reflexivity]|].
  apply Forall_app in F as [F Fc]. inversion Fc as [|? ? Hg _]; subst. specialize (IH F). rewrite fold_left_app. cbn [fold_left]. set (file := fold_left (run_call P sm2_key) h old) in *.
  assert (No : ~ opened P c -> run_call P sm2_key file c = file).
  { intros N. unfold run_call, SM2P12Encrypt. destruct (encode_good P edPub C pc c HP Hg) as [[e ->]|(out & E & _)]; [reflexivity|]. rewrite E. unfold WriteFile. destruct (ec_fate c) eqn:Ef; [reflexivity| |]; exfalso; apply N; (split; [congruence|eauto]). }
  destruct (encode_good P edPub C pc c HP Hg) as [[e E]|(out & E & G & U)].
  - assert (N : ~ opened P c) by (intros (_ & o & X); congruence). rewrite (No N). destruct IH as [[IH ->]|(h1 & c1 & h2 & -> & IH1 & IH2 & IH3)].
    + left. split; [apply Forall_app; auto|reflexivity].
    + right. exists h1, c1, (h2 ++ [c]). rewrite <- app_assoc. split; [reflexivity|]. split; [exact IH1|]. split; [apply Forall_app; auto|exact IH3].
  - destruct (ec_fate c) eqn:Ef.
    + assert (N : ~ opened P c) by (intros (X & _); congruence). rewrite (No N). destruct IH as [[IH ->]|(h1 & c1 & h2 & -> & IH1 & IH2 & IH3)].
      * left. split; [apply Forall_app; auto|reflexivity].
      * right. exists h1, c1, (h2 ++ [c]). rewrite <- app_assoc. split; [reflexivity|]. split; [exact IH1|]. split; [apply Forall_app; auto|exact IH3].
    + right. exists h, c, []. split; [reflexivity|]. split; [split; [congruence|eauto]|]. split; [constructor|]. unfold run_call, SM2P12Encrypt. rewrite E, Ef. cbn [WriteFile fst]. split; [|congruence].
      destruct (Nat.lt_ge_cases n (List.length out)) as [L|L]; [right; apply U; exact L|left]. rewrite firstn_all2 by lia. exact G.
    + right. exists h, c, []. split; [reflexivity|]. split; [split; [congruence|eauto]|]. split; [constructor|]. unfold run_call, SM2P12Encrypt. rewrite E, Ef. cbn [WriteFile fst]. split; [left; exact G|intros _; exact G].
Qed.
Print Assumptions C120_history.
(** the call is not atomic: a failure after the file was opened destroys what an earlier, successful call had written *)
Theorem C120_not_atomic : forall P edPub C (parseCerts : bytes -> outcome (list C)) c out, prims_ok P -> good_call C parseCerts c -> ec_fate c = Written ->
  Encode P (ec_rnd c) (sm2_key (ec_D c)) (ec_cert c) [] (ec_pwd c) = Ret out ->
  let c' := mkCall (ec_rnd c) (ec_D c) (ec_cert c) (ec_pwd c) (Torn 0) in
  forall old, gives_back P edPub C parseCerts (run_history P sm2_key old [c]) c /\ unreadable P edPub C parseCerts (run_history P sm2_key old [c; c']).
Proof.
  intros P edPub C pc c out HP Hg Ef Eo c' old. destruct (encode_good P edPub C pc c HP Hg) as [[e E]|(o & E & G & U)]; [congruence|]. assert (o = out) by congruence. subst o.
  unfold run_history. cbn [fold_left]. unfold run_call, SM2P12Encrypt. cbn [ec_rnd ec_D ec_cert ec_pwd ec_fate c']. rewrite Eo, Ef. cbn [WriteFile fst]. split; [exact G|]. apply U.
  destruct out; [|cbn; lia]. exfalso. destruct G as (x & _ & G). destruct (C46_unreadable_file P edPub C pc (ec_pwd c)) as [e X]. unfold SM2P12Decrypt in G, X. cbn [sl] in *. congruence.
Qed.
Print Assumptions C120_not_atomic.
(** hypotheses met: a history with a success, a torn write and a failed open *)
Definition call0 (f : fate) : encryptCall := mkCall (repeat 5 24) 1 [48; 1; 7] [112; 119] f.
Example C120_instance : Forall (good_call bytes (fun raw => Ret [raw])) [call0 Written; call0 (Torn 17); call0 NotOpened] /\ opened toy (call0 (Torn 17)).
Proof.
  assert (G : forall f, good_call bytes (fun raw => Ret [raw]) (call0 f)).
  { intros f. unfold good_call, call0. cbn [ec_D ec_rnd ec_cert]. split; [unfold sm2_N; lia|]. split; [apply bytes_okb_spec; reflexivity|]. split; [apply bytes_okb_spec; reflexivity|]. split; [reflexivity|eauto]. }
  split; [repeat (apply Forall_cons; [apply G|]); apply Forall_nil|]. split; [discriminate|].
  destruct (C45_encode_decode toy (fun x => x) bytes (fun raw => Ret [raw]) (repeat 5 24) 1 [48; 1; 7] [] [48; 1; 7] [] [112; 119] [0; 112; 0; 119; 0; 0] toy_ok) as (out & E & _);
    [unfold sm2_N; lia|reflexivity|apply bytes_okb_spec; reflexivity|discriminate|apply bytes_okb_spec; reflexivity|constructor|reflexivity|reflexivity|constructor|]. exists out. exact E.
Qed.
