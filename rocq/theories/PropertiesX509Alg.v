(** * C115: which algorithm an identifier means *)
From Coq Require Import String.
From Verif Require Import Base Words ECModel SM2Model CryptoByte Asn1 Asn1Proofs KeysModel X509Model X509CertProofs PropertiesX509Cert X509Sig.
Open Scope Z_scope.

(** ** Specification *)
(** the object identifiers of the signature algorithms other than RSASSA-PSS, with the names of x509.go:361-378 *)
Definition std_signature_oids : list (Z * oid) :=
  [(MD5WithRSA, [1; 2; 840; 113549; 1; 1; 4]); (SHA1WithRSA, [1; 2; 840; 113549; 1; 1; 5]); (SHA256WithRSA, [1; 2; 840; 113549; 1; 1; 11]);
   (SHA384WithRSA, [1; 2; 840; 113549; 1; 1; 12]); (SHA512WithRSA, [1; 2; 840; 113549; 1; 1; 13]);
   (DSAWithSHA1, [1; 2; 840; 10040; 4; 3]); (DSAWithSHA256, [2; 16; 840; 1; 101; 3; 4; 3; 2]);
   (ECDSAWithSHA1, [1; 2; 840; 10045; 4; 1]); (ECDSAWithSHA256, [1; 2; 840; 10045; 4; 3; 2]);
   (ECDSAWithSHA384, [1; 2; 840; 10045; 4; 3; 3]); (ECDSAWithSHA512, [1; 2; 840; 10045; 4; 3; 4]);
   (PureEd25519, [1; 3; 101; 112]); (SM2WithSM3, [1; 2; 156; 10197; 1; 501])].
(** the three RSASSA-PSS algorithms: the hash function's identifier and the salt length *)
Definition pss_variants : list (Z * (oid * Z)) :=
  [(SHA256WithRSAPSS, ([2; 16; 840; 1; 101; 3; 4; 2; 1], 32)); (SHA384WithRSAPSS, ([2; 16; 840; 1; 101; 3; 4; 2; 2], 48));
   (SHA512WithRSAPSS, ([2; 16; 840; 1; 101; 3; 4; 2; 3], 64))].
Definition params_of (ai : AI) : bytes := sl (rv_full (ai_params ai)).
Definition no_params_or_null (ai : AI) : Prop := params_of ai = [] \/ params_of ai = [5; 0].
(** the parameters [der] decode (with encoding/asn1) to hash function [h], mask generation MGF1 with the same hash function, salt length
    [salt] and trailer field 1, where both occurrences of the hash function have no parameters or NULL *)
Definition pss_params (der : bytes) (h : oid) (salt : Z) : Prop :=
  exists hash mgf g rest rest',
    Unmarshal cPSS der = Ret (mkPSS hash mgf salt 1, rest) /\ ai_alg hash = h /\ no_params_or_null hash /\
    ai_alg mgf = [1; 2; 840; 113549; 1; 1; 8] /\ Unmarshal cAI (params_of mgf) = Ret (g, rest') /\ ai_alg g = h /\ no_params_or_null g.
(** what an algorithm identifier denotes *)
Definition denotes (ai : AI) (a : Z) : Prop :=
  (In (a, ai_alg ai) std_signature_oids /\ (a = PureEd25519 -> params_of ai = [])) \/
  (ai_alg ai = [1; 2; 840; 113549; 1; 1; 10] /\ exists h salt, In (a, (h, salt)) pss_variants /\ pss_params (params_of ai) h salt).

Lemma null_or_absent_spec ai : null_or_absent (ai_full ai) = true <-> no_params_or_null ai.
Proof.
  unfold null_or_absent, no_params_or_null, ai_full, params_of. rewrite Bool.orb_true_iff, bytes_eqb_spec, Nat.eqb_eq, length_zero_iff_nil. reflexivity.
Qed.
Lemma std_row a o : In (a, o) std_signature_oids -> o <> oidSignatureRSAPSS /\ a <> 0 /\
  (a = PureEd25519 <-> o = oidSignatureEd25519) /\ exists d, find (fun d => oid_eqb o (sd_oid d)) signatureAlgorithmDetails = Some d /\ sd_algo d = a.
Proof.
  unfold std_signature_oids. intros H.
  repeat (destruct H as [E|H]; [injection E as <- <-; split; [discriminate|]; split; [discriminate|]; split; [split; intros E; first [reflexivity|discriminate E]|]; eexists; split; [reflexivity|reflexivity]|]).
  destruct H.
Qed.
Lemma std_col o d : o <> oidSignatureRSAPSS -> find (fun d => oid_eqb o (sd_oid d)) signatureAlgorithmDetails = Some d -> In (sd_algo d, o) std_signature_oids.
Proof.
  intros N F. apply find_some in F as [Hin E]. apply oid_eqb_spec in E. subst o. unfold signatureAlgorithmDetails in Hin.
  repeat (destruct Hin as [<-|Hin]; [first [exfalso; apply N; reflexivity | cbn; tauto]|]). destruct Hin.
Qed.
Lemma denotes_recognised ai a : denotes ai a -> getSignatureAlgorithmFromAI ai = a.
Proof.
  intros [[Hin He]|(Ho & h & salt & Hv & hash & mgf & g & r1 & r2 & U1 & H1 & N1 & M & U2 & H2 & N2)]; unfold getSignatureAlgorithmFromAI.
  - destruct (std_row _ _ Hin) as (NP & _ & Ed & d & F & A).
    destruct (oid_eqb (ai_alg ai) oidSignatureEd25519) eqn:EE.
    + apply oid_eqb_spec in EE. apply Ed in EE. unfold ai_full. fold (params_of ai). rewrite (He EE). cbn [List.length Nat.eqb negb andb].
      destruct (oid_eqb (ai_alg ai) oidSignatureRSAPSS) eqn:EP; [apply oid_eqb_spec in EP; contradiction|]. cbn [negb]. now rewrite F.
    + cbn [andb]. destruct (oid_eqb (ai_alg ai) oidSignatureRSAPSS) eqn:EP; [apply oid_eqb_spec in EP; contradiction|]. cbn [negb]. now rewrite F.
  - rewrite Ho. change (oid_eqb _ oidSignatureEd25519) with false. change (oid_eqb _ oidSignatureRSAPSS) with true. cbn [andb negb].
    change (ai_full ai) with (params_of ai). rewrite U1. cbn [pss_MGF pss_Hash pss_Salt pss_Trailer]. change (ai_full mgf) with (params_of mgf). rewrite U2.
    apply null_or_absent_spec in N1, N2. rewrite N1, N2, M, H1, H2.
    change (oid_eqb [1; 2; 840; 113549; 1; 1; 8] oidMGF1) with true. unfold oid_eqb at 1. rewrite bytes_eqb_refl. cbn [negb orb]. change (1 =? 1) with true. cbn [negb].
    unfold pss_variants in Hv. repeat (destruct Hv as [E|Hv]; [injection E as <- <- <-; reflexivity|]). destruct Hv.
Qed.
Lemma recognised_denotes ai a : getSignatureAlgorithmFromAI ai = a -> a <> 0 -> denotes ai a.
Proof.
  unfold getSignatureAlgorithmFromAI, UnknownSignatureAlgorithm. intros E N.
  destruct (oid_eqb (ai_alg ai) oidSignatureEd25519 && _) eqn:EE; [congruence|].
  destruct (oid_eqb (ai_alg ai) oidSignatureRSAPSS) eqn:EP; cbn [negb] in E.
  - right. apply oid_eqb_spec in EP. split; [exact EP|].
    destruct (Unmarshal cPSS (ai_full ai)) as [[p r]|?|] eqn:U1; [|congruence..].
    destruct (Unmarshal cAI (ai_full (pss_MGF p))) as [[g r']|?|] eqn:U2; [|congruence..].
    destruct (_ || _) eqn:C in E; [congruence|].
    repeat (apply Bool.orb_false_iff in C as [C ?]). repeat match goal with H : negb _ = false |- _ => apply Bool.negb_false_iff in H end.
    apply null_or_absent_spec in C, H0.
    repeat match goal with H : oid_eqb _ _ = true |- _ => apply oid_eqb_spec in H end. apply Z.eqb_eq in H.
    assert (K : forall h salt, ai_alg (pss_Hash p) = h -> pss_Salt p = salt -> pss_params (params_of ai) h salt).
    { intros h salt Hh Hs. destruct p as [hash mgf s t]. cbn in *. exists hash, mgf, g, r, r'. subst t s. split; [exact U1|]. split; [exact Hh|]. split; [exact C|]. split; [assumption|].
      split; [exact U2|]. split; [congruence|assumption]. }
    match type of E with (if ?b then _ else _) = _ => destruct b eqn:B end.
    { apply Bool.andb_true_iff in B as [B1 B2]. apply oid_eqb_spec in B1. apply Z.eqb_eq in B2. eexists _, _. split; [|apply K; eassumption]. subst a. cbn. tauto. }
    clear B. match type of E with (if ?b then _ else _) = _ => destruct b eqn:B end.
    { apply Bool.andb_true_iff in B as [B1 B2]. apply oid_eqb_spec in B1. apply Z.eqb_eq in B2. eexists _, _. split; [|apply K; eassumption]. subst a. cbn. tauto. }
    clear B. match type of E with (if ?b then _ else _) = _ => destruct b eqn:B end; [|congruence].
    apply Bool.andb_true_iff in B as [B1 B2]. apply oid_eqb_spec in B1. apply Z.eqb_eq in B2. eexists _, _. split; [|apply K; eassumption]. subst a. cbn. tauto.
  - left. assert (NP : ai_alg ai <> oidSignatureRSAPSS) by (intros H; apply oid_eqb_spec in H; congruence).
    destruct (find _ _) as [d|] eqn:F; [|congruence]. subst a. pose proof (std_col _ _ NP F) as Hin. split; [exact Hin|].
    intros Ha. destruct (std_row _ _ Hin) as (_ & _ & Ed & _). apply Ed in Ha. rewrite Ha in EE. change (oid_eqb oidSignatureEd25519 oidSignatureEd25519) with true in EE.
    cbn [andb] in EE. apply Bool.negb_false_iff, Nat.eqb_eq, length_zero_iff_nil in EE. exact EE.
Qed.
(** C115: the library recognises exactly these identifiers; every other one, and every other RSASSA-PSS parameter set, is unknown *)
Theorem C115_signature_algorithm : forall ai,
  (forall a, a <> UnknownSignatureAlgorithm -> (getSignatureAlgorithmFromAI ai = a <-> denotes ai a)) /\
  (getSignatureAlgorithmFromAI ai = UnknownSignatureAlgorithm <-> forall a, ~ denotes ai a).
Proof.
  intros ai. split.
  - intros a N. split; [intros E; now apply recognised_denotes|apply denotes_recognised].
  - split.
    + intros E a D. pose proof (denotes_recognised _ _ D) as E'. assert (a <> 0); [|unfold UnknownSignatureAlgorithm in E; congruence].
      destruct D as [[Hin _]|(_ & h & s & Hv & _)]; [now apply std_row in Hin|].
      unfold pss_variants in Hv. repeat (destruct Hv as [Q|Hv]; [injection Q as <- <- <-; discriminate|]). destruct Hv.
    + intros N. destruct (Z.eq_dec (getSignatureAlgorithmFromAI ai) 0) as [E|E]; [exact E|]. exfalso. exact (N _ (recognised_denotes _ _ eq_refl E)).
Qed.
Print Assumptions C115_signature_algorithm.
(** so an identifier never denotes two algorithms *)
Theorem C115_unambiguous : forall ai a b, denotes ai a -> denotes ai b -> a = b.
Proof. intros ai a b A B. apply denotes_recognised in A, B. congruence. Qed.
Print Assumptions C115_unambiguous.
(** the parameters in DER: the two occurrences of the hash function with or without NULL, the trailer field omitted or written out *)
Definition opt_null (b : bool) : bytes := if b then [5; 0] else [].
Definition pss_der (arc : Z) (n1 n2 : bool) (salt : Z) (trailer : option Z) : bytes :=
  let h n := tlv T_SEQUENCE (tlv 6 [96; 134; 72; 1; 101; 3; 4; 2; arc] ++ opt_null n) in
  tlv T_SEQUENCE (tlv 160 (h n1) ++ tlv 161 (tlv T_SEQUENCE (tlv 6 [42; 134; 72; 134; 247; 13; 1; 1; 8] ++ h n2)) ++ tlv 162 (tlv 2 [salt]) ++
    match trailer with None => [] | Some t => tlv 163 (tlv 2 [t]) end).
Definition pss_ai (der : bytes) : AI := mkAI [1; 2; 840; 113549; 1; 1; 10] (mkRaw 0 16 true None (Some der)).
Theorem C115_pss_der : forall n1 n2 arc salt a t, In (arc, salt, a) [(1, 32, SHA256WithRSAPSS); (2, 48, SHA384WithRSAPSS); (3, 64, SHA512WithRSAPSS)] ->
  In t [None; Some 1] -> getSignatureAlgorithmFromAI (pss_ai (pss_der arc n1 n2 salt t)) = a.
Proof.
  intros n1 n2 arc salt a t H T.
  repeat (destruct T as [<-|T]; [repeat (destruct H as [E|H]; [injection E as <- <- <-; destruct n1, n2; vm_compute; reflexivity|]); destruct H|]). destruct T.
Qed.
Print Assumptions C115_pss_der.
(** another trailer, another salt length, an odd combination and SHA-1 throughout (the defaults) are unknown *)
Example C115_pss_others :
  getSignatureAlgorithmFromAI (pss_ai (pss_der 1 true true 32 (Some 2))) = 0 /\ getSignatureAlgorithmFromAI (pss_ai (pss_der 1 true true 20 None)) = 0 /\
  getSignatureAlgorithmFromAI (pss_ai (pss_der 1 true true 48 None)) = 0 /\ getSignatureAlgorithmFromAI (pss_ai [48; 0]) = 0 /\ getSignatureAlgorithmFromAI (pss_ai []) = 0.
Proof. repeat split; vm_compute; reflexivity. Qed.
Example C115_denotes : denotes (pss_ai (pss_der 2 false true 48 None)) SHA384WithRSAPSS /\ denotes (mkAI [1; 2; 156; 10197; 1; 501] rawZero) SM2WithSM3.
Proof. split; apply C115_signature_algorithm; try discriminate; vm_compute; reflexivity. Qed.

(** ** Public keys *)
Definition std_key_oids : list (pkAlgo * oid) :=
  [(RSA, [1; 2; 840; 113549; 1; 1; 1]); (DSA, [1; 2; 840; 10040; 4; 1]); (ECDSA, [1; 2; 840; 10045; 2; 1]); (Ed25519, [1; 3; 101; 112])].
(** P-224, P-256, P-384, P-521 by their sizes, and SM2 *)
Definition std_curve_oids : list (Z * oid) :=
  [(224, [1; 3; 132; 0; 33]); (256, [1; 2; 840; 10045; 3; 1; 7]); (384, [1; 3; 132; 0; 34]); (521, [1; 3; 132; 0; 35]); (SM2P256V1_id, [1; 2; 156; 10197; 1; 301])].
Theorem C115_key_algorithm : forall o,
  (forall a, a <> UnknownPublicKeyAlgorithm -> (getPublicKeyAlgorithmFromOID o = a <-> In (a, o) std_key_oids)) /\
  (forall c, namedCurveFromOID o = Some c <-> In (c, o) std_curve_oids) /\
  (forall c, oidFromNamedCurve c = Some o <-> In (c, o) std_curve_oids).
Proof.
  intros o. split; [|split].
  - intros a N. unfold getPublicKeyAlgorithmFromOID. split.
    + repeat (match goal with |- (if ?b then _ else _) = _ -> _ => let B := fresh in destruct b eqn:B; [apply oid_eqb_spec in B; subst o; intros <-; cbn; tauto|clear B] end). congruence.
    + unfold std_key_oids. intros H. repeat (destruct H as [E|H]; [injection E as <- <-; reflexivity|]). destruct H.
  - intros c. unfold namedCurveFromOID. split.
    + repeat (match goal with |- (if ?b then _ else _) = _ -> _ => let B := fresh in destruct b eqn:B; [apply oid_eqb_spec in B; subst o; intros [= <-]; cbn; tauto|clear B] end). congruence.
    + unfold std_curve_oids. intros H. repeat (destruct H as [E|H]; [injection E as <- <-; reflexivity|]). destruct H.
  - intros c. unfold oidFromNamedCurve. split.
    + repeat (match goal with |- (if ?b then _ else _) = _ -> _ => let B := fresh in destruct b eqn:B; [apply Z.eqb_eq in B; subst c; intros [= <-]; cbn; tauto|clear B] end). congruence.
    + unfold std_curve_oids. intros H. repeat (destruct H as [E|H]; [injection E as <- <-; reflexivity|]). destruct H.
Qed.
Print Assumptions C115_key_algorithm.

(** the SignatureAlgorithm of a parsed certificate is the one denoted by the identifier that both occurrences in the certificate contain *)
Theorem C115_certificate : forall net der c, bytes_ok der -> ParseCertificate net der = Ret c ->
  exists ai a ver tail rest, parseAI ai = Ret a /\ c_RawTBSCertificate c = tlv T_SEQUENCE (ver ++ tlv T_INTEGER (bigint_content (c_SerialNumber c)) ++ tlv T_SEQUENCE ai ++ tail) /\
    der = tlv T_SEQUENCE (c_RawTBSCertificate c ++ tlv T_SEQUENCE ai ++ rest) /\
    (c_SignatureAlgorithm c = UnknownSignatureAlgorithm /\ (forall b, ~ denotes a b) \/ denotes a (c_SignatureAlgorithm c)).
Proof.
  intros net der c Hb E. pose proof (Parse_raw _ _ _ Hb E) as R. apply Parse_inv in E as [E _].
  apply parse_inv in E as (r0 & ver & v & ai & ic & val & sc & pa & pk & tail & sigF & E & L & _); [|exact Hb].
  destruct L. destruct lo_alg as (a & A1 & A2). exists ai, a, ver.
  eexists _, _. split; [exact A1|]. split; [exact lo_tbs|]. split; [rewrite <- R; exact lo_raw|].
  destruct (C115_signature_algorithm a) as [P Q]. destruct (Z.eq_dec (c_SignatureAlgorithm c) 0) as [Z0|Z0].
  - left. split; [exact Z0|]. apply Q. rewrite <- A2. exact Z0.
  - right. apply P; [exact Z0|]. symmetry. exact A2.
Qed.
Print Assumptions C115_certificate.
