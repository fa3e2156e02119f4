(** * C111-C114: the hash registry, checking signatures after any history of registrations, names and sizes, equality of
    certificates, revocation lists in PEM *)
From Coq Require Import String Ascii DecimalString DecimalZ ZifyBool.
From Verif Require Import Base Words SM3Spec SM3Model SM3Proofs ECModel SM2Model SM2SigProofs PropertiesSM2Sig CryptoByte Asn1 Asn1Proofs KeysModel X509Model X509Sig PropertiesX509Sig X509Crl X509Reg.
Open Scope Z_scope.

(** ** Specification *)
(** [f] is what the last call of RegisterHash for [h] passed; None is a nil function *)
Definition last_call (h : Z) (cs : list call) (f : option hashCtor) : Prop :=
  exists before after, cs = before ++ (h, f) :: after /\ forall f', ~ In (h, f') after.
(** the hash functions every program that links the package starts with, by number and name *)
Definition linked_at_start : list (Z * string) :=
  [(2, "MD5"); (3, "SHA-1"); (4, "SHA-224"); (5, "SHA-256"); (6, "SHA-384"); (7, "SHA-512"); (9, "RIPEMD-160"); (10, "SHA3-224"); (11, "SHA3-256");
   (12, "SHA3-384"); (13, "SHA3-512"); (14, "SHA-512/224"); (15, "SHA-512/256"); (20, "SM3")]%string.

(** ** The registry *)
Lemma run_app r a b : runCalls r (a ++ b) = runCalls (runCalls r a) b.
Proof. unfold runCalls. apply fold_left_app. Qed.
Lemma run_length r cs : List.length (runCalls r cs) = List.length r.
Proof.
  revert r. induction cs as [|[h f] cs IH]; intros r; [reflexivity|]. unfold runCalls in *. cbn [fold_left]. rewrite IH. unfold RegisterHash. cbn [fst snd]. destruct (maxHash <=? h); [reflexivity|apply upd_length].
Qed.
(** the slot of h after a history: what the last call passed, or what was there *)
Lemma run_slot h cs : 0 <= h < maxHash -> Forall (fun c : call => 0 <= fst c) cs -> forall r, List.length r = 21%nat ->
  (forall f, last_call h cs f -> nth (Z.to_nat h) (runCalls r cs) None = f) /\
  ((forall f, ~ In (h, f) cs) -> nth (Z.to_nat h) (runCalls r cs) None = nth (Z.to_nat h) r None).
Proof.
  intros Hh N. induction cs as [|c cs IH] using rev_ind; intros r L.
  - split; [|reflexivity]. intros f (b & a & E & _). now destruct b.
  - apply Forall_app in N as [N1 N2]. apply Forall_inv in N2. rewrite run_app. destruct c as [h' f']. cbn [fst] in N2. destruct (IH N1 r L) as [I1 I2]. set (r1 := runCalls r cs) in *.
    assert (L1 : List.length r1 = 21%nat) by (unfold r1; now rewrite run_length).
    assert (St : nth (Z.to_nat h) (runCalls r1 [((h', f') : call)]) None = if h' =? h then f' else nth (Z.to_nat h) r1 None).
    { unfold runCalls. cbn [fold_left fst snd]. unfold RegisterHash. unfold maxHash in *. destruct (Z.eqb_spec h' h) as [->|Hn].
      - destruct (Z.leb_spec 21 h); [lia|]. apply nth_upd_same. lia.
      - destruct (Z.leb_spec 21 h'); [reflexivity|]. apply nth_upd_other. lia. }
    rewrite St. split.
    + intros f (b & a & E & Na). destruct a as [|x a] using rev_ind.
      * apply app_inj_tail in E as [-> E]. injection E as -> ->. now rewrite Z.eqb_refl.
      * clear IHa. rewrite app_comm_cons, app_assoc in E. apply app_inj_tail in E as [E1 <-]. destruct (Z.eqb_spec h' h) as [->|_].
        { exfalso. apply (Na f'). rewrite in_app_iff. right. now left. }
        apply I1. exists b, a. split; [exact E1|]. intros g G. apply (Na g). rewrite in_app_iff. auto.
    + intros Na. destruct (Z.eqb_spec h' h) as [->|_]; [exfalso; apply (Na f'); rewrite in_app_iff; right; now left|].
      apply I2. intros f G. apply (Na f). rewrite in_app_iff. auto.
Qed.
Lemma last_dec h cs : (exists f, last_call h cs f) \/ (forall f, ~ In (h, f) cs).
Proof.
  induction cs as [|[h' f'] cs IH]; [right; intros f []|]. destruct IH as [(f & b & a & E & N)|N].
  - left. exists f, ((h', f') :: b), a. split; [now rewrite E|exact N].
  - destruct (Z.eq_dec h' h) as [->|Hn]; [left; exists f', [], cs; auto|]. right. intros f [[= E _]|G]; [lia|now apply (N f)].
Qed.
Lemma last_in h cs f : last_call h cs f -> In (h, f) cs.
Proof. intros (b & a & -> & _). rewrite in_app_iff. right. now left. Qed.
Lemma last_fun h cs f g : last_call h cs f -> last_call h cs g -> f = g.
Proof.
  intros (b & a & E & N) (b' & a' & E' & N'). subst cs. revert b' E'. induction b as [|x b IH]; intros [|x' b'] E; cbn [app] in E.
  - congruence.
  - injection E as <- E. exfalso. apply (N g). rewrite E, in_app_iff. right. now left.
  - injection E as -> E. exfalso. apply (N' f). rewrite <- E, in_app_iff. right. now left.
  - injection E as _ E. eapply IH; eauto.
Qed.
Lemma init_nonneg P : Forall (fun c : call => 0 <= fst c) (initCalls P).
Proof. unfold initCalls. repeat (apply Forall_cons; [vm_compute; discriminate|]). constructor. Qed.
Lemma slot_iff P cs h : 0 <= h < maxHash -> Forall (fun c : call => 0 <= fst c) cs ->
  forall f, nth (Z.to_nat h) (runCalls (initRegistry P) cs) None = Some f <-> last_call h (initCalls P ++ cs) (Some f).
Proof.
  intros Hh N f. unfold initRegistry. rewrite <- run_app.
  assert (N' : Forall (fun c : call => 0 <= fst c) (initCalls P ++ cs)) by (apply Forall_app; split; [apply init_nonneg|exact N]).
  destruct (run_slot h (initCalls P ++ cs) Hh N' emptyRegistry eq_refl) as [S1 S2]. split; [|apply S1].
  intros E. destruct (last_dec h (initCalls P ++ cs)) as [(g & G)|G].
  - rewrite (S1 _ G) in E. now rewrite E in G.
  - rewrite (S2 G) in E. exfalso. unfold emptyRegistry in E. rewrite nth_repeat in E. discriminate.
Qed.
(** C111: after every history of registrations the registry holds, for every hash number, what the last call for it passed *)
Theorem C111_registry : forall P cs h, Forall (fun c : call => 0 <= fst c) cs -> 0 <= h ->
  let r := runCalls (initRegistry P) cs in
  (Available r h = true <-> h <= 20 /\ exists f, last_call h (initCalls P ++ cs) (Some f)) /\
  (forall f, New r h = Ret f <-> 1 <= h <= 20 /\ last_call h (initCalls P ++ cs) (Some f)) /\
  ((forall f, New r h <> Ret f) -> New r h = Panic) /\
  (forall f, RegisterHash h f r = Panic <-> 21 <= h).
Proof.
  intros P cs h N Hh r. pose proof (slot_iff P cs h) as S. fold r in S. unfold Available, New, RegisterHash, maxHash in *. split; [|split; [|split]].
  - split.
    + destruct (Z.ltb_spec h 21); [|discriminate]. destruct (nth (Z.to_nat h) r None) as [f|] eqn:E; [|discriminate]. intros _. split; [lia|]. exists f. apply S; [lia|exact N|reflexivity].
    + intros [H1 [f F]]. destruct (Z.ltb_spec h 21); [|lia]. apply S in F; [|lia|exact N]. now rewrite F.
  - intros f. split.
    + destruct (Z.ltb_spec 0 h); [|discriminate]. destruct (Z.ltb_spec h 21); [|discriminate]. cbn [andb]. destruct (nth (Z.to_nat h) r None) as [g|] eqn:E; [|discriminate]. intros [= <-]. split; [lia|]. apply S; [lia|exact N|reflexivity].
    + intros [H1 F]. destruct (Z.ltb_spec 0 h); [|lia]. destruct (Z.ltb_spec h 21); [|lia]. cbn [andb]. apply S in F; [|lia|exact N]. now rewrite F.
  - intros Q. destruct ((0 <? h) && (h <? 21)); [|reflexivity]. destruct (nth (Z.to_nat h) r None) as [g|]; [|reflexivity]. now destruct (Q g).
  - intros f. destruct (Z.leb_spec 21 h); split; intros; try reflexivity; try lia; discriminate.
Qed.
Print Assumptions C111_registry.
(** what a program starts with: exactly these are available, and New(SM3) computes SM3 *)
Theorem C111_start : forall P h, 0 <= h ->
  (Available (initRegistry P) h = true <-> exists name, In (h, name) linked_at_start /\ HashString h = name) /\
  (forall data, bytes_ok data -> exists f, New (initRegistry P) H_SM3 = Ret f /\ f data = Ret (SM3 data) /\ Size H_SM3 = Ret (zlen (SM3 data))).
Proof.
  intros P h Hh. split.
  - destruct (Z_lt_dec h 21) as [L|L].
    + assert (C : h = 0 \/ h = 1 \/ h = 2 \/ h = 3 \/ h = 4 \/ h = 5 \/ h = 6 \/ h = 7 \/ h = 8 \/ h = 9 \/ h = 10 \/ h = 11 \/ h = 12 \/ h = 13 \/ h = 14 \/ h = 15 \/ h = 16 \/ h = 17 \/ h = 18 \/ h = 19 \/ h = 20) by lia.
      assert (I2 : forall n, In (h, n) linked_at_start -> existsb (Z.eqb h) (map fst linked_at_start) = true) by (intros n I; apply existsb_exists; exists h; split; [apply (in_map fst _ _ I)|apply Z.eqb_refl]).
      assert (I3 : existsb (Z.eqb h) (map fst linked_at_start) = true -> exists n, In (h, n) linked_at_start /\ HashString h = n).
      { intros Q. apply existsb_exists in Q as (x & Q & Ex). apply Z.eqb_eq in Ex. subst x. clear - Q. cbn in Q. decompose [or] Q; try contradiction; subst h; eexists; (split; [cbn; tauto|reflexivity]). }
      assert (Ea : Available (initRegistry P) h = existsb (Z.eqb h) (map fst linked_at_start)) by (clear - C; repeat destruct C as [->|C]; [..|subst h]; reflexivity).
      rewrite Ea. split; [exact I3|]. intros (n & I & _). exact (I2 n I).
    + split.
      * unfold Available, maxHash. destruct (Z.ltb_spec h 21); [lia|discriminate].
      * intros (n & I & _). exfalso. cbn in I. decompose [or] I; try contradiction; match goal with H : (_, _) = _ |- _ => injection H as H _; lia end.
  - intros data Hb. exists sm3Ctor. split; [reflexivity|]. split; [|unfold zlen; rewrite SM3_length; reflexivity].
    pose proof (sm3_hash P data Hb) as E. unfold hashSum in E. change (Hash_Available H_SM3) with true in E. exact E.
Qed.
Print Assumptions C111_start.
(** a registration for the number 0 is accepted, makes Available(0) true and is of no use: New(0) panics *)
Example C111_instance : forall P f, let r := runCalls (initRegistry P) [(0, Some f); (21, Some f); (H_MD5, None); (1, Some f)] in
  Available r 0 = true /\ New r 0 = Panic /\ Available r H_MD5 = false /\ New r 1 = Ret f /\ Available r 21 = false /\ Available r H_SM3 = true.
Proof. intros P f. cbn. repeat split. Qed.

(** ** C112: signatures after any history of registrations *)
(** when a signature is accepted; [linked h f]: the function registered for h is f *)
Definition accept_with (P : sigPrims) (linked : Z -> hashCtor -> Prop) (algo : Z) (msg sig : bytes) (key : pubKey) : Prop :=
  let digest h d := exists f, linked h f /\ f msg = Ret d in
  match key with
  | PKrsa n e => exists h d, digest h d /\
      (In (algo, h) rsa15_algs /\ rsa_VerifyPKCS1v15 P n e h d sig = None \/ In (algo, h) pss_algs /\ rsa_VerifyPSS P n e h d sig = None)
  | PKecdsa c x y => exists h d, digest h d /\ In (algo, h) (ecdsa_algs ++ [(SM2WithSM3, H_SM3)]) /\ ecdsa_VerifyASN1 P c x y d sig = true
  | PKsm2 pub => (exists h d, digest h d /\ In (algo, h) (ecdsa_algs ++ [(SM2WithSM3, H_SM3)])) /\ pk_Curve pub = SM2P256V1_id /\ Verify pub msg [] sig = Ret true
  | PKed25519 _ | PKdsa _ _ _ _ | PKother => False
  end.
(** the hash number of every algorithm the package knows *)
Definition hash_of_alg : list (Z * Z) := rsa15_algs ++ pss_algs ++ ecdsa_algs ++ [(SM2WithSM3, H_SM3); (DSAWithSHA1, H_SHA1); (DSAWithSHA256, H_SHA256); (PureEd25519, 0)].
Ltac pair_eq Q := let A := fresh in let B := fresh in pose proof (f_equal fst Q) as A; pose proof (f_equal snd Q) as B; cbn [fst snd] in A, B; clear Q; subst.
Lemma available_lookup r h : 0 <= h < 21 -> Available r h = match nth (Z.to_nat h) r None with Some _ => true | None => false end.
Proof. intros H. unfold Available, maxHash. destruct (Z.ltb_spec h 21); [reflexivity|lia]. Qed.
(** the checks after the digest *)
Definition after_digest (P : sigPrims) (hashType : Z) (pubKeyAlgo : pkAlgo) (algo : Z) (plain signature : bytes) (publicKey : pubKey) (signed : bytes) : outcome unit :=
  match publicKey with
  | PKrsa n e =>
      if negb (pkAlgo_eqb pubKeyAlgo RSA) then Err errMismatch else
      if isRSAPSS algo then of_error (rsa_VerifyPSS P n e hashType signed signature)
      else of_error (rsa_VerifyPKCS1v15 P n e hashType signed signature)
  | PKecdsa c x y =>
      if negb (pkAlgo_eqb pubKeyAlgo ECDSA) then Err errMismatch else
      if negb (ecdsa_VerifyASN1 P c x y signed signature) then Err "x509: ECDSA verification failure" else Ret tt
  | PKsm2 pub =>
      if negb (pkAlgo_eqb pubKeyAlgo ECDSA) then Err errMismatch else
      if negb (pk_Curve pub =? SM2P256V1_id) then Err errMismatch else
      do ok <- Verify pub plain [] signature;
      if negb ok then Err "x509: SM2 verification failure" else Ret tt
  | PKed25519 k =>
      if negb (pkAlgo_eqb pubKeyAlgo Ed25519) then Err errMismatch else
      if negb (zlen k =? 32) then Panic else
      if negb (ed25519_Verify P k signed signature) then Err "x509: Ed25519 verification failure" else Ret tt
  | PKdsa _ _ _ _ | PKother => Err ErrUnsupportedAlgorithm
  end.
Lemma check_unfold P r algo plain sig key h pka : lookupDetails algo = (h, pka) -> 0 <= h < 21 ->
  checkSignatureReg P r algo plain sig key =
  match nth (Z.to_nat h) r None with
  | None => Err ErrUnsupportedAlgorithm
  | Some f => if h =? 0 then if pkAlgo_eqb pka Ed25519 then Panic else Err ErrUnsupportedAlgorithm else do d <- f plain; after_digest P h pka algo plain sig key d
  end.
Proof.
  intros E H. unfold checkSignatureReg. rewrite E. rewrite (available_lookup r h H). destruct (nth (Z.to_nat h) r None) as [f|] eqn:En; [|reflexivity]. cbn [negb]. unfold New, maxHash. rewrite En.
  destruct (Z.eqb_spec h 0) as [->|Hn]; cbn [andb].
  - destruct (pkAlgo_eqb pka Ed25519); reflexivity.
  - destruct (Z.ltb_spec 0 h); [|lia]. destruct (Z.ltb_spec h 21); [|lia]. reflexivity.
Qed.
Lemma lookup_range algo : 0 <= fst (lookupDetails algo) < 21 /\ (fst (lookupDetails algo) = 0 -> snd (lookupDetails algo) = Ed25519 -> algo = PureEd25519) /\
  (snd (lookupDetails algo) <> UnknownPublicKeyAlgorithm <-> In (algo, fst (lookupDetails algo)) hash_of_alg) /\ (snd (lookupDetails algo) = UnknownPublicKeyAlgorithm -> fst (lookupDetails algo) = 0).
Proof.
  destruct (algo_cases algo) as [H|H].
  - rewrite (lookup_row algo H). unfold all_algs in H. repeat (destruct H as [<-|H]; [cbn; repeat split; intros; try lia; try discriminate; try tauto; decompose [or] H; try contradiction; discriminate|]). destruct H.
  - rewrite H. cbn [fst snd]. split; [lia|]. split; [discriminate|]. split; [|auto]. split; [congruence|]. intros Q. exfalso.
    cbn in Q. decompose [or] Q; try contradiction; match goal with E : (_, _) = _ |- _ => apply (f_equal fst) in E; cbn [fst] in E; subst algo; discriminate H end.
Qed.
Theorem C112_accept : forall P cs algo msg sig key, Forall (fun c : call => 0 <= fst c) cs -> bytes_ok msg ->
  (checkSignatureReg P (runCalls (initRegistry P) cs) algo msg sig key = Ret tt <->
   accept_with P (fun h f => last_call h (initCalls P ++ cs) (Some f)) algo msg sig key).
Proof.
  intros P cs algo msg sig key N Hb. set (r := runCalls (initRegistry P) cs).
  destruct (lookup_range algo) as (R & _ & K & U). destruct (lookupDetails algo) as [h pka] eqn:E. cbn [fst snd] in R, K, U. rewrite (check_unfold P r algo msg sig key h pka E R).
  pose proof (slot_iff P cs h R N) as S. fold r in S.
  assert (G : forall h', In (algo, h') (rsa15_algs ++ pss_algs ++ ecdsa_algs ++ [(SM2WithSM3, H_SM3)]) -> h' = h /\ h <> 0).
  { intros h' I. cbn in I. decompose [or] I; try contradiction; match goal with Q : (_, _) = _ |- _ => pair_eq Q end; cbn in E; injection E as <- _; split; try reflexivity; discriminate. }
  assert (VT : exists b, match key with PKsm2 pub => Verify pub msg [] sig | _ => Ret true end = Ret b) by (destruct key; eauto; apply verify_total; auto).
  (* from the specification to the slot *)
  assert (D : forall h' d, (exists f, last_call h' (initCalls P ++ cs) (Some f) /\ f msg = Ret d) -> h' = h -> exists f, nth (Z.to_nat h) r None = Some f /\ f msg = Ret d).
  { intros h' d (f & F1 & F2) ->. exists f. split; [|exact F2]. now apply S. }
  split.
  - destruct (nth (Z.to_nat h) r None) as [f|] eqn:En; [|discriminate]. assert (F : last_call h (initCalls P ++ cs) (Some f)) by (apply S; reflexivity).
    destruct (Z.eqb_spec h 0) as [->|Hn]; [destruct (pkAlgo_eqb pka Ed25519); discriminate|]. destruct (f msg) as [d| |] eqn:Ed; cbn [bind]; try discriminate.
    assert (Kn : pka <> UnknownPublicKeyAlgorithm) by (intros Q; apply Hn, U, Q). apply K in Kn.
    assert (Row : (pka = RSA -> isRSAPSS algo = false /\ In (algo, h) rsa15_algs \/ isRSAPSS algo = true /\ In (algo, h) pss_algs) /\ (pka = ECDSA -> In (algo, h) (ecdsa_algs ++ [(SM2WithSM3, H_SM3)])) /\ pka <> Ed25519).
    { clear - Kn E Hn. cbn in Kn. decompose [or] Kn; try contradiction; match goal with Q : (_, _) = _ |- _ => pair_eq Q end; cbn in E; injection E as <-;
        (split; [intros Q; try discriminate Q; first [left; split; [reflexivity|cbn; tauto]|right; split; [reflexivity|cbn; tauto]]|split; [intros Q; first [discriminate Q|cbn; tauto]|try discriminate; try (intros _; now apply Hn)]]). }
    destruct Row as (R1 & R2 & R3).
    destruct key as [n e|c x y|pub|k|y p q g|]; cbn [after_digest accept_with].
    + destruct pka; cbn [pkAlgo_eqb negb]; try discriminate. intros Hv. exists h, d. split; [eauto|]. destruct (R1 eq_refl) as [[Q I]|[Q I]]; rewrite Q in Hv; [left|right]; (split; [exact I|]); destruct (_ P n e h d sig); [discriminate Hv|reflexivity|discriminate Hv|reflexivity].
    + destruct pka; cbn [pkAlgo_eqb negb]; try discriminate. intros Hv. exists h, d. split; [eauto|]. split; [auto|]. destruct (ecdsa_VerifyASN1 P c x y d sig); [reflexivity|discriminate Hv].
    + destruct pka; cbn [pkAlgo_eqb negb]; try discriminate. destruct (Z.eqb_spec (pk_Curve pub) SM2P256V1_id); [|discriminate]. cbn [negb]. destruct VT as [b Vb]. rewrite Vb. cbn [bind]. destruct b; [|discriminate].
      intros _. split; [exists h, d; split; [eauto|auto]|]. auto.
    + destruct pka; cbn [pkAlgo_eqb negb]; try discriminate. now destruct R3.
    + discriminate.
    + discriminate.
  - destruct key as [n e|c x y|pub|k|y p q g|]; cbn [accept_with]; try tauto.
    + intros (h' & d & Dg & Hv). assert (Hh : h' = h /\ h <> 0) by (apply G; rewrite !in_app_iff; tauto). destruct Hh as [-> Hn]. destruct (D h d Dg eq_refl) as (f & -> & Ef). apply Z.eqb_neq in Hn. rewrite Hn, Ef. cbn [bind after_digest].
      assert (T : pka = RSA /\ (In (algo, h) rsa15_algs -> isRSAPSS algo = false) /\ (In (algo, h) pss_algs -> isRSAPSS algo = true)).
      { clear - Hv E. destruct Hv as [[I _]|[I _]]; cbn in I; decompose [or] I; try contradiction; match goal with Q : (_, _) = _ |- _ => pair_eq Q end; cbn in E; injection E as <-; (split; [reflexivity|]); split; intros J; try reflexivity; cbn in J; decompose [or] J; try contradiction; discriminate. }
      destruct T as (-> & T1 & T2). cbn [pkAlgo_eqb negb]. destruct Hv as [[I Hv]|[I Hv]]; [rewrite (T1 I)|rewrite (T2 I)]; rewrite Hv; reflexivity.
    + intros (h' & d & Dg & I & Hv). assert (Hh : h' = h /\ h <> 0) by (apply G; rewrite !in_app_iff in *; tauto). destruct Hh as [-> Hn]. destruct (D h d Dg eq_refl) as (f & -> & Ef). apply Z.eqb_neq in Hn. rewrite Hn, Ef. cbn [bind after_digest].
      assert (T : pka = ECDSA) by (clear - I E; cbn in I; decompose [or] I; try contradiction; match goal with Q : (_, _) = _ |- _ => pair_eq Q end; cbn in E; now injection E as <-).
      rewrite T, Hv. reflexivity.
    + intros ((h' & d & Dg & I) & Hc & Hv). assert (Hh : h' = h /\ h <> 0) by (apply G; rewrite !in_app_iff in *; tauto). destruct Hh as [-> Hn]. destruct (D h d Dg eq_refl) as (f & -> & Ef). apply Z.eqb_neq in Hn. rewrite Hn, Ef. cbn [bind after_digest].
      assert (T : pka = ECDSA) by (clear - I E; cbn in I; decompose [or] I; try contradiction; match goal with Q : (_, _) = _ |- _ => pair_eq Q end; cbn in E; now injection E as <-).
      rewrite T, Hc, Hv. cbn [pkAlgo_eqb negb bind]. rewrite Z.eqb_refl. reflexivity.
Qed.
Print Assumptions C112_accept.
(** when it panics: a function registered for the number 0 and the algorithm Ed25519, or a registered function that panics *)
Theorem C112_panic : forall P cs algo msg sig key, Forall (fun c : call => 0 <= fst c) cs -> bytes_ok msg ->
  (checkSignatureReg P (runCalls (initRegistry P) cs) algo msg sig key = Panic <->
   exists h f, last_call h (initCalls P ++ cs) (Some f) /\ In (algo, h) hash_of_alg /\ (algo = PureEd25519 \/ f msg = Panic)).
Proof.
  intros P cs algo msg sig key N Hb. set (r := runCalls (initRegistry P) cs).
  destruct (lookup_range algo) as (R & R0 & K & U). destruct (lookupDetails algo) as [h pka] eqn:E. cbn [fst snd] in R, R0, K, U. rewrite (check_unfold P r algo msg sig key h pka E R).
  pose proof (slot_iff P cs h R N) as S. fold r in S.
  assert (Hed : pka = Ed25519 <-> algo = PureEd25519).
  { split; [|intros ->; cbn in E; congruence]. intros ->. assert (I : In (algo, h) hash_of_alg) by (apply K; discriminate). clear - I E. cbn in I. decompose [or] I; try contradiction; match goal with Q : (_, _) = _ |- _ => pair_eq Q end; cbn in E; first [reflexivity|discriminate E]. }
  assert (Hz : algo = PureEd25519 <-> h = 0 /\ pka = Ed25519) by (split; [intros ->; cbn in E; now injection E as <- <-|intros [_ Q]; now apply Hed]).
  assert (G : forall h', In (algo, h') hash_of_alg -> h' = h /\ pka <> UnknownPublicKeyAlgorithm).
  { intros h' I. clear - E I. cbn in I. decompose [or] I; try contradiction; match goal with Q : (_, _) = _ |- _ => pair_eq Q end; cbn in E; injection E as <- <-; split; (reflexivity || discriminate). }
  assert (A : forall d, after_digest P h pka algo msg sig key d = Panic -> pka = Ed25519).
  { intros d. unfold after_digest. destruct key as [n e|c x y|pub|k|y p q g|].
    - destruct (negb (pkAlgo_eqb pka RSA)); [discriminate|]. unfold of_error. destruct (isRSAPSS algo); [destruct (rsa_VerifyPSS _ _ _ _ _ _)|destruct (rsa_VerifyPKCS1v15 _ _ _ _ _ _)]; discriminate.
    - destruct (negb (pkAlgo_eqb pka ECDSA)); [discriminate|]. destruct (negb _); discriminate.
    - destruct (negb (pkAlgo_eqb pka ECDSA)); [discriminate|]. destruct (negb (pk_Curve pub =? _)); [discriminate|]. destruct (verify_total pub msg sig Hb) as [b ->]. cbn [bind]. destruct (negb b); discriminate.
    - destruct pka; cbn [pkAlgo_eqb negb]; (discriminate || reflexivity).
    - discriminate.
    - discriminate. }
  split.
  - destruct (nth (Z.to_nat h) r None) as [f|] eqn:En; [|discriminate]. assert (F : last_call h (initCalls P ++ cs) (Some f)) by (apply S; reflexivity).
    destruct (Z.eqb_spec h 0) as [->|Hn].
    + destruct (pkAlgo_eqb pka Ed25519) eqn:Q; [|discriminate]. intros _. assert (pka = Ed25519) by (destruct pka; try discriminate Q; reflexivity). exists 0, f. split; [exact F|]. split; [apply K; congruence|left; now apply Hed].
    + assert (Kn : In (algo, h) hash_of_alg) by (apply K; intros Q; apply Hn, U, Q). destruct (f msg) as [d| |] eqn:Ed; cbn [bind]; [|discriminate|].
      * intros Q. apply A, Hed in Q. exfalso. apply Hz in Q. tauto.
      * intros _. exists h, f. auto.
  - intros (h' & f & F & I & Q). destruct (G h' I) as [-> Un]. apply S in F. rewrite F. destruct (Z.eqb_spec h 0) as [H0|Hn].
    + assert (pka = Ed25519). { destruct Q as [Q|Q]; [now apply Hed|]. clear - I H0 E. subst h. cbn in I. decompose [or] I; try contradiction; match goal with Q : (_, _) = _ |- _ => let B := fresh in pose proof (f_equal snd Q) as B; cbn in B; try discriminate B; apply (f_equal fst) in Q; cbn [fst] in Q; subst algo end. cbn in E. congruence. }
      subst pka. reflexivity.
    + destruct Q as [Q|Q]; [apply Hz in Q; tauto|]. rewrite Q. reflexivity.
Qed.
Print Assumptions C112_panic.
(** without further registrations this is the check of C53 *)
Theorem C112_initial : forall P algo msg sig key, checkSignatureReg P (initRegistry P) algo msg sig key = checkSignature P algo msg sig key.
Proof.
  intros P algo msg sig key. destruct (lookup_range algo) as (R & _ & K & U). destruct (lookupDetails algo) as [h pka] eqn:E. cbn [fst snd] in R, K, U. rewrite (check_unfold P _ algo msg sig key h pka E R).
  unfold checkSignature. rewrite E. destruct (Z.eqb_spec h 0) as [->|Hn]; [reflexivity|].
  assert (Kn : In (algo, h) hash_of_alg) by (apply K; intros Q; apply Hn, U, Q).
  assert (C : h = H_MD5 \/ h = H_SHA1 \/ h = H_SHA256 \/ h = H_SHA384 \/ h = H_SHA512 \/ h = H_SM3).
  { clear - Kn Hn. cbn in Kn. decompose [or] Kn; try contradiction; match goal with Q : (_, _) = _ |- _ => apply (f_equal snd) in Q; cbn [snd] in Q; subst h end; unfold H_MD5, H_SHA1, H_SHA256, H_SHA384, H_SHA512, H_SM3; tauto. }
  unfold hashSum. clear - C. repeat destruct C as [->|C]; [..|subst h]; reflexivity.
Qed.
Print Assumptions C112_initial.
(** registering a function for the number 0 turns a check of an Ed25519 signature from an error into a panic *)
Example C112_instance : forall P f k, checkSignatureReg P (initRegistry P) PureEd25519 [1] [2] (PKed25519 k) = Err ErrUnsupportedAlgorithm /\
  checkSignatureReg P (runCalls (initRegistry P) [(0, Some f)]) PureEd25519 [1] [2] (PKed25519 k) = Panic /\
  checkSignatureReg P (runCalls (initRegistry P) [(H_SHA256, None)]) SHA256WithRSA [1] [2] (PKrsa 5 3) = Err ErrUnsupportedAlgorithm.
Proof. intros. repeat split. Qed.
