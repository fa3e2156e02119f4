(** * C53-C57: checking certificate signatures and choosing signing parameters *)
From Coq Require Import String.
From Verif Require Import Base Words SM3Spec SM3Model SM3Proofs ECSpec ECModel ECBridge ECProofs BaseOrder SM2Spec SM2Model SM2SigProofs PropertiesSM2Sig CryptoByte Asn1 Asn1Proofs KeysModel X509Model X509Sig.
Open Scope Z_scope.

(** ** Specification *)
(** the algorithms that an RSA (PKCS#1 v1.5 / PSS) or an ECDSA key can be checked with, and their hash numbers *)
Definition rsa15_algs : list (Z * Z) := [(MD5WithRSA, H_MD5); (SHA1WithRSA, H_SHA1); (SHA256WithRSA, H_SHA256); (SHA384WithRSA, H_SHA384); (SHA512WithRSA, H_SHA512)].
Definition pss_algs : list (Z * Z) := [(SHA256WithRSAPSS, H_SHA256); (SHA384WithRSAPSS, H_SHA384); (SHA512WithRSAPSS, H_SHA512)].
Definition ecdsa_algs : list (Z * Z) := [(ECDSAWithSHA1, H_SHA1); (ECDSAWithSHA256, H_SHA256); (ECDSAWithSHA384, H_SHA384); (ECDSAWithSHA512, H_SHA512)].
(** when a signature is accepted, by type of key *)
Definition accept_spec (P : sigPrims) (algo : Z) (msg sig : bytes) (key : pubKey) : Prop :=
  match key with
  | PKrsa n e =>
      (exists h, In (algo, h) rsa15_algs /\ rsa_VerifyPKCS1v15 P n e h (hash_fn P h msg) sig = None) \/
      (exists h, In (algo, h) pss_algs /\ rsa_VerifyPSS P n e h (hash_fn P h msg) sig = None)
  | PKecdsa c x y =>
      (exists h, In (algo, h) ecdsa_algs /\ ecdsa_VerifyASN1 P c x y (hash_fn P h msg) sig = true) \/
      (algo = SM2WithSM3 /\ ecdsa_VerifyASN1 P c x y (SM3 msg) sig = true)
  | PKsm2 pub =>
      (In algo (map fst ecdsa_algs) \/ algo = SM2WithSM3) /\ pk_Curve pub = SM2P256V1_id /\ Verify pub msg [] sig = Ret true
  | PKed25519 _ | PKdsa _ _ _ _ | PKother => False
  end.

(** ** Proofs *)
Definition all_algs : list Z := [0; 1; 2; 3; 4; 5; 6; 7; 8; 9; 10; 11; 12; 13; 14; 15; 16].
Lemma algo_cases algo : In algo all_algs \/ lookupDetails algo = (0, UnknownPublicKeyAlgorithm).
Proof.
  unfold lookupDetails, signatureAlgorithmDetails. cbn [fold_left sd_algo sd_hash sd_pub].
  unfold MD5WithRSA, SHA1WithRSA, SHA256WithRSA, SHA384WithRSA, SHA512WithRSA, SHA256WithRSAPSS, SHA384WithRSAPSS, SHA512WithRSAPSS,
    DSAWithSHA1, DSAWithSHA256, ECDSAWithSHA1, ECDSAWithSHA256, ECDSAWithSHA384, ECDSAWithSHA512, PureEd25519, SM2WithSM3.
  repeat match goal with |- context[?k =? algo] => destruct (Z.eqb_spec k algo) as [<-|]; [left; unfold all_algs; cbn; tauto|] end.
  right. reflexivity.
Qed.
Lemma sm3_hash P msg : bytes_ok msg -> hashSum P H_SM3 msg = Ret (SM3 msg).
Proof.
  intros H. unfold hashSum. change (Hash_Available H_SM3) with true. cbn [negb]. change (H_SM3 =? H_SM3) with true. cbv iota.
  unfold dWrite. destruct (write_rep sm3_New [] msg new_rep H) as (d' & E & R).
  rewrite E. cbn [bind]. unfold sm3_Sum_method. rewrite (checkSum_spec d' _ R). reflexivity.
Qed.
Lemma check_mismatch P algo plain sig key hashType pka : lookupDetails algo = (hashType, pka) -> Hash_Available hashType = false ->
  checkSignature P algo plain sig key = Err ErrUnsupportedAlgorithm.
Proof. intros E H. unfold checkSignature. rewrite E, H. reflexivity. Qed.
(** the table, row by row *)
Definition row (algo : Z) : Z * pkAlgo :=
  nth (Z.to_nat algo) [(0, UnknownPublicKeyAlgorithm); (H_MD5, RSA); (H_SHA1, RSA); (H_SHA256, RSA); (H_SHA384, RSA); (H_SHA512, RSA);
    (H_SHA1, DSA); (H_SHA256, DSA); (H_SHA1, ECDSA); (H_SHA256, ECDSA); (H_SHA384, ECDSA); (H_SHA512, ECDSA); (H_SHA256, RSA); (H_SHA384, RSA); (H_SHA512, RSA);
    (0, Ed25519); (H_SM3, ECDSA)] (0, UnknownPublicKeyAlgorithm).
Lemma lookup_row algo : In algo all_algs -> lookupDetails algo = row algo.
Proof. intros H. unfold all_algs in H. repeat (destruct H as [<-|H]; [reflexivity|]). destruct H. Qed.
Lemma verify_total pub msg sig : bytes_ok msg -> exists b, Verify pub msg [] sig = Ret b.
Proof.
  intros H. destruct (C18_message_is_digest pub msg [] H ltac:(constructor)) as (h & _ & _ & _ & V & _).
  rewrite V. unfold VerifyDigest. destruct (UnmarshalSign sig) as [[r s]| |] eqn:E; [apply C16_total|eauto|].
  exfalso. revert E. unfold UnmarshalSign. repeat (destruct (readASN1 _ _) as [[? [|? ?]]|] || destruct (readBigInt _) as [[? ?]|] || match goal with |- context[match ?l with [] => _ | _ => _ end] => destruct l end); discriminate.
Qed.

Ltac clean := repeat match goal with
  | H : _ \/ _ |- _ => destruct H | H : _ /\ _ |- _ => destruct H | H : exists _, _ |- _ => destruct H | H : False |- _ => destruct H
  | H : (_, _) = (_, _) |- _ => first [discriminate H | injection H as <-] | H : _ = _ :> Z |- _ => first [discriminate H | clear H] end; assumption.
Lemma ec_dec (b : bool) e (Q : Prop) : (b = true <-> Q) -> ((if negb b then Err e else Ret tt) = Ret tt <-> Q) /\ (if negb b then Err e else Ret tt) <> Panic.
Proof. intros H. split; [|destruct b; discriminate]. rewrite <- H. destruct b; cbn; split; congruence. Qed.
(** C53: CheckSignature accepts exactly according to the specification, and it never panics on keys the parsers produce *)
Theorem C53_decision : forall P algo msg sig key, bytes_ok msg ->
  (checkSignature P algo msg sig key = Ret tt <-> accept_spec P algo msg sig key) /\
  checkSignature P algo msg sig key <> Panic.
Proof.
  intros P algo msg sig key Ho.
  destruct (algo_cases algo) as [Hin|Hno].
  2:{ rewrite (check_mismatch P algo msg sig key 0 UnknownPublicKeyAlgorithm Hno eq_refl). split; [|discriminate]. split; [discriminate|].
      assert (N : forall l h, In l (map fst (rsa15_algs ++ pss_algs ++ ecdsa_algs)) -> lookupDetails l = (h, UnknownPublicKeyAlgorithm) -> False).
      { intros l h Hl. assert (Ha : In l all_algs) by (unfold all_algs; cbn in *; tauto). rewrite (lookup_row l Ha). cbn in Hl.
        repeat (destruct Hl as [<-|Hl]; [cbn; discriminate|]). destruct Hl. }
      assert (M : forall h, In (algo, h) (rsa15_algs ++ pss_algs ++ ecdsa_algs) -> False).
      { intros h Hh. apply (N algo 0); [|exact Hno]. apply in_map_iff. exists (algo, h). auto. }
      intros HA. exfalso. destruct key; cbn [accept_spec] in HA; try tauto.
      - destruct HA as [(h & Hh & _)|(h & Hh & _)]; apply (M h); rewrite !in_app_iff; tauto.
      - destruct HA as [(h & Hh & _)|(-> & _)]; [apply (M h); rewrite !in_app_iff; tauto|]. discriminate Hno.
      - destruct HA as ([Hh| ->] & _); [|discriminate Hno]. apply (N algo 0); [|exact Hno]. rewrite !map_app, !in_app_iff. tauto. }
  pose proof (lookup_row algo Hin) as Hr. unfold checkSignature. rewrite Hr.
  unfold all_algs in Hin.
  assert (HS : forall h, h <> H_SM3 -> Hash_Available h = true -> hashSum P h msg = Ret (hash_fn P h msg)).
  { intros h Hn Ha. unfold hashSum. rewrite Ha. cbn [negb]. apply Z.eqb_neq in Hn. rewrite Hn. reflexivity. }
  assert (VT : forall pub, exists b, Verify pub msg [] sig = Ret b) by (intros; apply verify_total; auto).
  pose proof (sm3_hash P msg Ho) as HM.
  change H_SM3 with 20 in HM, HS. remember (hashSum P) as hS eqn:EhS. clear EhS.
  assert (Hrsa : forall (o : option string), (of_error o = Ret tt <-> o = None) /\ of_error o <> Panic) by (intros [s|]; cbn; split; try split; congruence).
  repeat (destruct Hin as [<-|Hin]; [|]); [..|destruct Hin].
  all: match goal with |- context[row ?k] => let v := eval vm_compute in (row k) in change (row k) with v end; cbv iota.
  all: match goal with |- context[Hash_Available ?h] => let v := eval vm_compute in (Hash_Available h) in change (Hash_Available h) with v end; cbn [negb].
  all: try (split; [|discriminate]; split; [discriminate|]; destruct key; cbn [accept_spec rsa15_algs pss_algs ecdsa_algs map fst In]; intros HA; exfalso;
            repeat match goal with H : _ \/ _ |- _ => destruct H | H : _ /\ _ |- _ => destruct H | H : exists _, _ |- _ => destruct H | H : (_, _) = _ |- _ => discriminate H | H : _ = _ :> Z |- _ => discriminate H end; assumption).
  all: match goal with |- context[(?h =? 0) && _] => let v := eval vm_compute in (h =? 0) in change (h =? 0) with v end; cbn [andb].
  all: try rewrite HM; try (rewrite HS by (reflexivity || discriminate)); cbn [bind].
  all: destruct key as [n e|c x y|pub|k|y p q g|]; cbn [pkAlgo_eqb negb accept_spec rsa15_algs pss_algs ecdsa_algs map fst In].
  all: try (split; [|discriminate]; split; [discriminate|]; intros HA; exfalso;
            repeat match goal with H : _ \/ _ |- _ => destruct H | H : _ /\ _ |- _ => destruct H | H : exists _, _ |- _ => destruct H | H : (_, _) = _ |- _ => discriminate H | H : _ = _ :> Z |- _ => discriminate H end; assumption).
  all: try match goal with |- context[isRSAPSS ?a] => let v := eval vm_compute in (isRSAPSS a) in change (isRSAPSS a) with v end; cbv iota.
  (* RSA *)
  all: try match goal with |- context[of_error ?o] => destruct (Hrsa o) as [A1 A2]; split; [|exact A2]; rewrite A1; split;
         [intros HA; first [left; eexists; split; [|exact HA]; tauto | right; eexists; split; [|exact HA]; tauto] | intros HA; clean] end.
  (* ECDSA *)
  all: try match goal with |- context[ecdsa_VerifyASN1 ?Q ?c ?x ?y ?h ?s] => apply ec_dec; split;
         [intros EV; first [left; eexists; split; [|exact EV]; tauto | right; split; [reflexivity|exact EV]]|intros HA; clean] end.
  (* SM2 *)
  all: match goal with |- context[pk_Curve ?pub] =>
    destruct (Z.eqb_spec (pk_Curve pub) SM2P256V1_id) as [Hc|Hc]; cbn [negb]; [|split; [|discriminate]; split; [discriminate|intros (_ & ? & _); contradiction]];
    destruct (VT pub) as [b Hv]; rewrite Hv; cbn [bind]; destruct b; cbn [negb]; (split; [|discriminate]); split;
    [intros _; split; [tauto|auto]|reflexivity|discriminate|intros (_ & _ & ?); congruence] end.
Qed.
Print Assumptions C53_decision.
(** a concrete acceptance: an SM2 signature made with the key d = 1 *)
Lemma accept_example : exists sig, checkSignature (mkSigPrims (fun _ _ => []) (fun _ _ _ _ _ => None) (fun _ _ _ _ _ => None) (fun _ _ _ _ _ => true) (fun _ _ _ => true))
    SM2WithSM3 [1; 2; 3] sig (PKsm2 (sk_Pub key1)) = Ret tt.
Proof.
  destruct C12_nonvacuous as (HK & Hd & _).
  assert (O : bytes_ok [1; 2; 3]) by (repeat constructor; unfold byte_ok; lia).
  destruct (C18_message_is_digest (sk_Pub key1) [1; 2; 3] [] O ltac:(constructor)) as (h & _ & _ & _ & _ & _ & S).
  destruct (Sign (repeat 0 40) key1 [1; 2; 3] []) as [[sig rest]| |] eqn:E; [|vm_compute in E; discriminate E|vm_compute in E; discriminate E].
  exists sig. apply C53_decision; auto. cbn [accept_spec]. split; [right; reflexivity|]. split; [reflexivity|].
  destruct (C13_message _ _ _ _ _ _ O ltac:(constructor) HK Hd E) as (pre & b & Er & Hl & V & _). rewrite V. f_equal.
  assert (Hb : b = repeat 0 40).
  { assert (L : List.length (repeat 0 40) = (List.length pre + 40 + List.length rest)%nat) by (rewrite Er, !app_length, Hl; lia).
    cbn [repeat List.length] in L. destruct pre; [|cbn in L; lia]. destruct rest; [|cbn in L; lia]. rewrite app_nil_r in Er. auto. }
  rewrite Hb. change (nonce_of (repeat 0 40)) with 1. pose proof (sm2_pmul_1 G) as E1. unfold sm2_pmul in E1. rewrite E1. reflexivity.
Qed.
Example C53_nonvacuous : exists P msg sig key, bytes_ok msg /\ checkSignature P SM2WithSM3 msg sig key = Ret tt.
Proof. destruct accept_example as [sig E]. eexists _, _, sig, _. split; [|exact E]. repeat constructor; unfold byte_ok; lia. Qed.

(** C54: an Ed25519 signature is never accepted, whatever crypto/ed25519 says: the algorithm's hash number 0 is not available *)
Theorem C54_ed25519_never_verifies : forall P algo msg sig k, checkSignature P PureEd25519 msg sig (PKed25519 k) = Err ErrUnsupportedAlgorithm /\
  (bytes_ok msg -> checkSignature P algo msg sig (PKed25519 k) <> Ret tt).
Proof.
  intros P algo msg sig k. split; [reflexivity|]. intros H E. apply C53_decision in E; auto.
Qed.
Print Assumptions C54_ed25519_never_verifies.
Theorem C54_refuted : exists P msg sig k, ed25519_Verify P k msg sig = true /\ zlen k = 32 /\ checkSignature P PureEd25519 msg sig (PKed25519 k) <> Ret tt.
Proof.
  exists (mkSigPrims (fun _ _ => []) (fun _ _ _ _ _ => None) (fun _ _ _ _ _ => None) (fun _ _ _ _ _ => true) (fun _ _ _ => true)), [], [], (repeat 0 32).
  split; [reflexivity|]. split; [reflexivity|]. rewrite (proj1 (C54_ed25519_never_verifies _ 0 _ _ _)). discriminate.
Qed.
Print Assumptions C54_refuted.

(** C55: with an SM2 key the declared algorithm makes no difference among the ECDSA ones and SM2WithSM3 - the check is always the
    same SM2 verification, whatever hash the algorithm names - and every other algorithm is refused *)
Theorem C55_sm2_key : forall P algo msg sig pub, bytes_ok msg ->
  (In algo [ECDSAWithSHA1; ECDSAWithSHA256; ECDSAWithSHA384; ECDSAWithSHA512] ->
     checkSignature P algo msg sig (PKsm2 pub) = checkSignature P SM2WithSM3 msg sig (PKsm2 pub)) /\
  (checkSignature P algo msg sig (PKsm2 pub) = Ret tt -> In algo [ECDSAWithSHA1; ECDSAWithSHA256; ECDSAWithSHA384; ECDSAWithSHA512; SM2WithSM3]).
Proof.
  intros P algo msg sig pub Ho. split.
  - intros Hin. pose proof (sm3_hash P msg Ho) as HM. unfold checkSignature.
    change (lookupDetails SM2WithSM3) with (H_SM3, ECDSA). change (Hash_Available H_SM3) with true. cbn [negb]. change (H_SM3 =? 0) with false. cbn [andb].
    rewrite HM. cbn [bind]. clear HM.
    repeat (destruct Hin as [<-|Hin]; [reflexivity|]). destruct Hin.
  - intros E. apply C53_decision in E; auto. destruct E as ([H| ->] & _); [|cbn; tauto]. cbn in *. tauto.
Qed.
Print Assumptions C55_sm2_key.
(** conversely an ECDSA (NIST curve) key declared as SM2WithSM3 is verified as ECDSA over the SM3 digest *)
Theorem C55_ecdsa_key_under_sm2 : forall P msg sig c x y, bytes_ok msg ->
  (checkSignature P SM2WithSM3 msg sig (PKecdsa c x y) = Ret tt <-> ecdsa_VerifyASN1 P c x y (SM3 msg) sig = true).
Proof.
  intros P msg sig c x y Ho. rewrite (proj1 (C53_decision P SM2WithSM3 msg sig (PKecdsa c x y) Ho)). cbn [accept_spec].
  split; [|auto]. intros [(h & Hin & _)|(_ & V)]; auto. exfalso. unfold ecdsa_algs in Hin. cbn [In] in Hin.
  repeat (destruct Hin as [Hin|Hin]; [discriminate Hin|]). destruct Hin.
Qed.
Print Assumptions C55_ecdsa_key_under_sm2.
Theorem C55_refuted : exists P algo msg sig pub, bytes_ok msg /\ algo <> SM2WithSM3 /\ checkSignature P algo msg sig (PKsm2 pub) = Ret tt.
Proof.
  destruct accept_example as [sig E]. assert (O : bytes_ok [1; 2; 3]) by (repeat constructor; unfold byte_ok; lia).
  eexists _, ECDSAWithSHA256, [1; 2; 3], sig, _. split; [exact O|]. split; [discriminate|].
  rewrite (proj1 (C55_sm2_key _ ECDSAWithSHA256 _ _ _ O)); [exact E|cbn; tauto].
Qed.
Print Assumptions C55_refuted.

(** C56: exactly when a parent vouches for a child.  Nothing else is looked at: not the names, validity dates, path length
    or unhandled critical extensions. *)
Theorem C56_from : forall P (child parent : Certificate),
  CheckSignatureFrom P child parent = Ret tt <->
  (c_Version parent = 3 -> i_BasicConstraintsValid (c_Info parent) = true) /\
  (i_BasicConstraintsValid (c_Info parent) = true -> i_IsCA (c_Info parent) = true) /\
  (i_KeyUsage (c_Info parent) = 0 \/ Z.testbit (i_KeyUsage (c_Info parent)) 5 = true) /\
  c_PublicKeyAlgorithm parent <> UnknownPublicKeyAlgorithm /\
  checkSignature P (c_SignatureAlgorithm child) (c_RawTBSCertificate child) (c_Signature child) (c_PublicKey parent) = Ret tt.
Proof.
  intros P child parent. unfold CheckSignatureFrom, Certificate_CheckSignature.
  assert (B : forall n, (Z.land n KeyUsageCertSign =? 0) = negb (Z.testbit n 5)).
  { intros n. unfold KeyUsageCertSign. change 32 with (2 ^ 5). destruct (Z.testbit n 5) eqn:E; cbn [negb].
    - apply Z.eqb_neq. intros H0. assert (H1 : Z.testbit (Z.land n (2 ^ 5)) 5 = true) by (rewrite Z.land_spec, E, Z.pow2_bits_true by lia; reflexivity). rewrite H0 in H1. discriminate.
    - apply Z.eqb_eq, Z.bits_inj'. intros k Hk. rewrite Z.land_spec, Z.bits_0. destruct (Z.eq_dec k 5) as [->|]; [rewrite E; reflexivity|].
      rewrite Z.pow2_bits_false by lia. apply andb_false_r. }
  rewrite B.
  destruct (Z.eqb_spec (c_Version parent) 3) as [V|V]; destruct (i_BasicConstraintsValid (c_Info parent)); destruct (i_IsCA (c_Info parent)); cbn [negb andb orb];
  destruct (Z.eqb_spec (i_KeyUsage (c_Info parent)) 0) as [K|K]; destruct (Z.testbit (i_KeyUsage (c_Info parent)) 5) eqn:T; cbn [negb andb];
  destruct (c_PublicKeyAlgorithm parent); cbn [pkAlgo_eqb];
  (split; [intros E; try discriminate E; repeat split; auto; try discriminate; congruence | intros (H1 & H2 & H3 & H4 & H5)]);
  try (specialize (H1 V); discriminate H1); try (specialize (H2 eq_refl); discriminate H2); try (destruct H3; [contradiction|discriminate]); try (destruct (H4 eq_refl)); exact H5.
Qed.
Print Assumptions C56_from.
Definition cert0 (version : Z) (info : extInfo) (alg : Z) (pk : pubKey) (tbs sig : bytes) : Certificate :=
  mkCert [] tbs [] [] [] sig alg ECDSA pk version 1 [] [] (mkCivil 2020 1 1 0 0 0 0) (mkCivil 2030 1 1 0 0 0 0) [] info.
Example C56_nonvacuous : exists P child parent, CheckSignatureFrom P child parent = Ret tt.
Proof.
  destruct accept_example as [sig E]. eexists _, (cert0 3 info0 SM2WithSM3 PKother [1; 2; 3] sig), (cert0 3 (set_KeyUsage (set_BC info0 true 0) 96) 0 (PKsm2 (sk_Pub key1)) [] []).
  apply C56_from. cbn [cert0 c_Version c_Info c_PublicKeyAlgorithm c_SignatureAlgorithm c_RawTBSCertificate c_Signature c_PublicKey].
  split; [reflexivity|]. split; [reflexivity|]. split; [right; reflexivity|]. split; [discriminate|]. exact E.
Qed.
(** in particular a v1 or v2 parent without extensions vouches for any certificate it signed *)
Theorem C56_v1_parent : forall P child parent, c_Version parent <> 3 -> c_Info parent = info0 -> c_PublicKeyAlgorithm parent <> UnknownPublicKeyAlgorithm ->
  checkSignature P (c_SignatureAlgorithm child) (c_RawTBSCertificate child) (c_Signature child) (c_PublicKey parent) = Ret tt ->
  CheckSignatureFrom P child parent = Ret tt.
Proof. intros P child parent V I K E. apply C56_from. rewrite I. cbn. repeat split; auto; try discriminate; intros H; contradiction. Qed.
Print Assumptions C56_v1_parent.

(** C57: signing parameters and the verifier's table agree *)
(** the family of keys an algorithm is for *)
Definition alg_family (algo : Z) : pkAlgo :=
  if existsb (Z.eqb algo) [MD5WithRSA; SHA1WithRSA; SHA256WithRSA; SHA384WithRSA; SHA512WithRSA; SHA256WithRSAPSS; SHA384WithRSAPSS; SHA512WithRSAPSS] then RSA
  else if existsb (Z.eqb algo) [DSAWithSHA1; DSAWithSHA256] then DSA
  else if existsb (Z.eqb algo) [ECDSAWithSHA1; ECDSAWithSHA256; ECDSAWithSHA384; ECDSAWithSHA512; SM2WithSM3] then ECDSA
  else if algo =? PureEd25519 then Ed25519 else UnknownPublicKeyAlgorithm.
Definition key_family (pub : pubKey) : pkAlgo :=
  match pub with PKrsa _ _ => RSA | PKecdsa _ _ _ | PKsm2 _ => ECDSA | PKed25519 _ => Ed25519 | PKdsa _ _ _ _ => DSA | PKother => UnknownPublicKeyAlgorithm end.
(** the default algorithm of a key: SHA-256 for RSA, the hash matching the curve size for ECDSA, SM3 for SM2 *)
Definition default_alg (pub : pubKey) : option Z :=
  match pub with
  | PKrsa _ _ => Some SHA256WithRSA
  | PKecdsa 224 _ _ | PKecdsa 256 _ _ => Some ECDSAWithSHA256
  | PKecdsa 384 _ _ => Some ECDSAWithSHA384
  | PKecdsa 521 _ _ => Some ECDSAWithSHA512
  | PKsm2 k => if pk_Curve k =? SM2P256V1_id then Some SM2WithSM3 else None
  | PKed25519 _ => Some PureEd25519
  | _ => None
  end.
(** what the certificate parser makes of the identifier once it is encoded: parsing the encoded SEQUENCE's contents *)
Definition reparsed (ai : AI) : outcome Z :=
  do b <- Marshal cAI ai;
  do (c, _) <- need (readASN1 T_SEQUENCE b) "";
  do ai' <- parseAI c;
  Ret (getSignatureAlgorithmFromAI ai').
Lemma default_signing pub : match default_alg pub with
  | Some a => exists h ai, defaultSigning pub = Ret (key_family pub, h, ai) /\ getSignatureAlgorithmFromAI ai = a /\ reparsed ai = Ret a /\ alg_family a = key_family pub /\ h = fst (row a) /\
      (key_family pub = RSA -> ai_params ai = NullRawValue) /\ (key_family pub <> RSA -> ai_params ai = rawZero)
  | None => exists e, defaultSigning pub = Err e end.
Proof.
  destruct pub as [n e|c x y|k|k|y p q g|]; cbn [default_alg defaultSigning key_family].
  - eexists _, _. split; [reflexivity|]. repeat split; try (intros; congruence); vm_compute; reflexivity.
  - destruct (Z.eq_dec c 224) as [->|]; [eexists _, _; split; [reflexivity|]; repeat split; try (intros; congruence); vm_compute; reflexivity|].
    destruct (Z.eq_dec c 256) as [->|]; [eexists _, _; split; [reflexivity|]; repeat split; try (intros; congruence); vm_compute; reflexivity|].
    destruct (Z.eq_dec c 384) as [->|]; [eexists _, _; split; [reflexivity|]; repeat split; try (intros; congruence); vm_compute; reflexivity|].
    destruct (Z.eq_dec c 521) as [->|]; [eexists _, _; split; [reflexivity|]; repeat split; try (intros; congruence); vm_compute; reflexivity|].
    replace (match c with 224 => Some ECDSAWithSHA256 | 256 => Some ECDSAWithSHA256 | 384 => Some ECDSAWithSHA384 | 521 => Some ECDSAWithSHA512 | _ => None end) with (@None Z).
    2:{ destruct c as [|q|q]; auto. repeat (destruct q as [q|q|]; auto; try (exfalso; congruence)). }
    replace (c =? 224) with false by lia. replace (c =? 256) with false by lia. replace (c =? 384) with false by lia. replace (c =? 521) with false by lia. cbn. eauto.
  - destruct (pk_Curve k =? SM2P256V1_id); [|eauto]. eexists _, _. split; [reflexivity|]. repeat split; try (intros; congruence); vm_compute; reflexivity.
  - eexists _, _. split; [reflexivity|]. repeat split; try (intros; congruence); vm_compute; reflexivity.
  - eauto.
  - eauto.
Qed.
(** C57: if parameters are returned for a key and a requested algorithm (0: the key's default), then the identifier denotes that
    algorithm - as returned and after encoding and parsing -, the algorithm is one for this kind of key, and the hash to sign
    with is the one the verifier uses.  They are returned exactly when the key has a default and the request is 0 or of its family. *)
Theorem C57_consistent : forall pub req,
  (forall h ai, signingParamsForPublicKey pub req = Ret (h, ai) ->
    exists a, default_alg pub <> None /\ (req = 0 /\ default_alg pub = Some a \/ req <> 0 /\ req = a) /\
    getSignatureAlgorithmFromAI ai = a /\ reparsed ai = Ret a /\ alg_family a = key_family pub /\ lookupDetails a = (h, key_family pub)) /\
  (default_alg pub <> None -> req = 0 \/ alg_family req = key_family pub -> exists h ai, signingParamsForPublicKey pub req = Ret (h, ai)).
Proof.
  intros pub req. pose proof (default_signing pub) as D. unfold signingParamsForPublicKey.
  destruct (default_alg pub) as [a|] eqn:Ed.
  2:{ destruct D as [e ->]. cbn [bind]. split; [discriminate|congruence]. }
  destruct D as (h & ai & -> & D1 & D2 & D3 & D4 & D5 & D6). cbn [bind].
  assert (KF : key_family pub = RSA \/ key_family pub = ECDSA \/ key_family pub = Ed25519).
  { destruct pub; cbn in *; auto; discriminate. }
  assert (LR : lookupDetails a = (h, key_family pub)).
  { clear - D3 D4 Ed. destruct pub as [n e|c x y|k|k|y p q g|]; cbn [default_alg key_family] in *; subst h; try discriminate Ed.
    - injection Ed as <-. reflexivity.
    - destruct c as [|q|q]; try discriminate Ed. repeat (destruct q as [q|q|]; try discriminate Ed); injection Ed as <-; reflexivity.
    - destruct (pk_Curve k =? SM2P256V1_id); [|discriminate Ed]. injection Ed as <-. reflexivity.
    - injection Ed as <-. reflexivity. }
  split.
  - intros h' ai'. destruct (Z.eqb_spec req 0) as [->|Hr].
    + intros [= <- <-]. exists a. repeat split; auto. discriminate.
    + destruct (find _ _) as [d|] eqn:Ef; [|discriminate].
      apply find_some in Ef as [Hin Ea]. apply Z.eqb_eq in Ea.
      destruct (pkAlgo_eqb (sd_pub d) (key_family pub)) eqn:Ek; cbn [negb]; [|discriminate].
      destruct ((sd_hash d =? 0) && _) eqn:Eh; [discriminate|]. intros [= <- <-].
      exists req. split; [discriminate|]. split; [right; auto|].
      assert (Ek' : sd_pub d = key_family pub) by (destruct (sd_pub d), (key_family pub); try discriminate Ek; reflexivity).
      clear D1 D2 D3 D4 Ed LR Ek Eh a h.
      unfold signatureAlgorithmDetails in Hin.
      repeat (destruct Hin as [<-|Hin]; [cbn [sd_algo sd_pub sd_hash sd_oid] in *; subst req; rewrite <- Ek' in *;
        first [rewrite (D5 eq_refl) | rewrite (D6 ltac:(discriminate)) | (exfalso; destruct KF as [K|[K|K]]; discriminate K)];
        repeat split; vm_compute; reflexivity|]). destruct Hin.
  - intros _ HR. destruct (Z.eqb_spec req 0) as [|Hr]; [eauto|]. destruct HR as [|HR]; [contradiction|].
    assert (F : exists d, find (fun d => sd_algo d =? req) signatureAlgorithmDetails = Some d /\ sd_pub d = key_family pub /\ (sd_hash d = 0 -> key_family pub = Ed25519)).
    { assert (Hin : In req all_algs).
      { unfold alg_family in HR. destruct (existsb _ _) eqn:E1; [|clear E1; destruct (existsb _ _) eqn:E1; [|clear E1; destruct (existsb _ _) eqn:E1; [|destruct (Z.eqb_spec req PureEd25519) as [->|]; [cbn; tauto|]; destruct KF as [K|[K|K]]; congruence]]];
        apply existsb_exists in E1 as (v & Hv & Ev); apply Z.eqb_eq in Ev; subst v; unfold all_algs; cbn in *; tauto. }
      unfold all_algs in Hin. rewrite <- HR in *.
      repeat (destruct Hin as [<-|Hin]; [first [contradiction | (exfalso; destruct KF as [K|[K|K]]; discriminate K) | (eexists; split; [reflexivity|]; split; [reflexivity|]; intros H0; first [reflexivity|discriminate H0])]|]). destruct Hin. }
    destruct F as (d & -> & Fp & Fh). rewrite Fp. assert (R : forall x, pkAlgo_eqb x x = true) by (intros []; reflexivity). rewrite R. cbn [negb].
    destruct (Z.eqb_spec (sd_hash d) 0) as [E0|]; cbn [andb]; [rewrite (Fh E0); cbn|]; eauto.
Qed.
Print Assumptions C57_consistent.
Example C57_examples : exists h ai h' ai',
  signingParamsForPublicKey (PKsm2 (mkPub 0 sm2_Gx sm2_Gy)) 0 = Ret (h, ai) /\ getSignatureAlgorithmFromAI ai = SM2WithSM3 /\
  signingParamsForPublicKey (PKrsa 15 3) SHA384WithRSAPSS = Ret (h', ai') /\ reparsed ai' = Ret SHA384WithRSAPSS.
Proof. eexists _, _, _, _. repeat split; vm_compute; reflexivity. Qed.
(** "the key's type" is coarse: an SM2 key may be asked to sign as ECDSAWithSHA256 and a P-256 key as SM2WithSM3 *)
Theorem C57_families_mixed : forall k x y, pk_Curve k = SM2P256V1_id ->
  (exists ai, signingParamsForPublicKey (PKsm2 k) ECDSAWithSHA256 = Ret (H_SHA256, ai)) /\
  (exists ai, signingParamsForPublicKey (PKecdsa 256 x y) SM2WithSM3 = Ret (H_SM3, ai)).
Proof. intros k x y H. unfold signingParamsForPublicKey, defaultSigning. rewrite H. split; eexists; reflexivity. Qed.
Print Assumptions C57_families_mixed.
