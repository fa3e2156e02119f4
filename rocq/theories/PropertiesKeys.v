(** * Properties C48-C52, C83, C84 (package x509: private and public key encodings) *)
From Coq Require Import String.
From Verif Require Import Base Words ECSpec ECModel SM2Model CryptoByte Asn1 Asn1Proofs KeysModel Primes ECProofs SM2SigProofs BaseOrder KeysProofs.
From Coq Require Import ZifyBool ZifyNat.
Open Scope Z_scope.

(** ** C48.  (X,Y) = enc (D*G): the affine coordinates of D*G; enc maps the point at infinity (D = 0) to (0,0),
    as ScalarBaseMult does. *)
Lemma enc_range d : 0 <= fst (enc (sm2_pmul d sm2_G)) < sm2_P /\ 0 <= snd (enc (sm2_pmul d sm2_G)) < sm2_P.
Proof.
  pose proof (sm2_pmul_closed d sm2_G sm2_G_on) as H. destruct (sm2_pmul d sm2_G) as [|x y]; cbn [enc fst snd].
  - unfold sm2_P. split; split; try (vm_compute; discriminate); reflexivity.
  - unfold sm2_on_curve, on_curve in H. tauto.
Qed.
Theorem C48_pkcs8_sm2_roundtrip : forall edPub x y d, 0 <= d < sm2_N -> (x, y) = enc (sm2_pmul d sm2_G) ->
  exists der, MarshalPKCS8PrivateKey (SKsm2 (mkPriv (mkPub SM2P256V1_id x y) d)) = Ret der /\
    ParsePKCS8PrivateKey edPub der = Ret (SKsm2 (mkPriv (mkPub SM2P256V1_id x y) d)).
Proof.
  intros edPub x y d Hd Exy. cbn [MarshalPKCS8PrivateKey sk_Pub sk_D pk_Curve pk_X pk_Y].
  pose proof (enc_range d) as [Rx Ry]. rewrite <- Exy in Rx, Ry. cbn [fst snd] in Rx, Ry.
  assert (Em : cv_ScalarBaseMult curve_sm2 (Z_to_be (byteLen (BitLen (cv_N curve_sm2))) d) = Ret (x, y)).
  { change (byteLen (BitLen (cv_N curve_sm2))) with 32%nat. change (cv_ScalarBaseMult curve_sm2 (Z_to_be 32 d)) with (sm2_ScalarBaseMult (Z_to_be 32 d)).
    rewrite sm2_ScalarBaseMult_correct by apply Z_to_be_ok. rewrite be_to_Z_to_be_small by (unfold sm2_N in Hd; lia). rewrite <- Exy. reflexivity. }
  destruct (pkcs8_ec_rt edPub SM2P256V1_id curve_sm2 x y d oidNamedCurveSM2P256 (Some oidNamedCurveSM2P256) curve_of_sm2 eq_refl Hd Rx Ry Em ltac:(auto)) as (bs & E & _ & P).
  exists bs. split; [exact E|]. exact P.
Qed.
Print Assumptions C48_pkcs8_sm2_roundtrip.
(** the same for the SEC 1 form (MarshalECPrivateKey only takes *ecdsa.PrivateKey; here with the SM2 curve in it) *)
Theorem C48_sec1_roundtrip : forall x y d, 0 <= d < sm2_N -> (x, y) = enc (sm2_pmul d sm2_G) ->
  exists der, MarshalECPrivateKey SM2P256V1_id x y d = Ret der /\
    ParseECPrivateKey der = Ret (SKsm2 (mkPriv (mkPub SM2P256V1_id x y) d)).
Proof.
  intros x y d Hd Exy. pose proof (enc_range d) as [Rx Ry]. rewrite <- Exy in Rx, Ry. cbn [fst snd] in Rx, Ry.
  assert (Em : cv_ScalarBaseMult curve_sm2 (Z_to_be (byteLen (BitLen (cv_N curve_sm2))) d) = Ret (x, y)).
  { change (byteLen (BitLen (cv_N curve_sm2))) with 32%nat. change (cv_ScalarBaseMult curve_sm2 (Z_to_be 32 d)) with (sm2_ScalarBaseMult (Z_to_be 32 d)).
    rewrite sm2_ScalarBaseMult_correct by apply Z_to_be_ok. rewrite be_to_Z_to_be_small by (unfold sm2_N in Hd; lia). rewrite <- Exy. reflexivity. }
  destruct (marshal_ec_total SM2P256V1_id curve_sm2 x y d oidNamedCurveSM2P256 oidNamedCurveSM2P256 curve_of_sm2 eq_refl Hd Rx Ry ltac:(auto)) as (bs & E & L).
  exists bs. split; [exact E|]. exact (parse_marshal_ec SM2P256V1_id curve_sm2 x y d oidNamedCurveSM2P256 oidNamedCurveSM2P256 bs None curve_of_sm2 eq_refl Hd Em ltac:(auto) ltac:(auto) E ltac:(lia)).
Qed.
Print Assumptions C48_sec1_roundtrip.
(** D = 1 and public key G; the encoding has 150 bytes *)
Example C48_instance : 0 <= 1 < sm2_N /\ (sm2_Gx, sm2_Gy) = enc (sm2_pmul 1 sm2_G) /\
  exists der, MarshalPKCS8PrivateKey (SKsm2 (mkPriv (mkPub SM2P256V1_id sm2_Gx sm2_Gy) 1)) = Ret der /\ zlen der = 150.
Proof.
  split; [split; [discriminate|reflexivity]|]. split; [rewrite sm2_pmul_1; reflexivity|]. eexists. split; [vm_compute; reflexivity|reflexivity].
Qed.

(** ** C49.  the key is consistent: D in range, the public point recomputed from it *)
Theorem C49_parse_sec1_valid : forall der k, bytes_ok der -> ParseECPrivateKey der = Ret k ->
  match k with
  | SKsm2 k => pk_Curve (sk_Pub k) = SM2P256V1_id /\ 0 <= sk_D k < sm2_N /\ (pk_X (sk_Pub k), pk_Y (sk_Pub k)) = enc (sm2_pmul (sk_D k) sm2_G)
  | SKecdsa id x y d => exists c, curve_of id = Some c /\ 0 <= d < cv_N c /\
      exists kb, be_to_Z kb = d /\ cv_ScalarBaseMult c kb = Ret (x, y)
  | _ => False
  end.
Proof.
  intros der k Ho E. apply parseEC_sound in E; auto. destruct k; try exact E. cbn [key_consistent] in E.
  destruct E as (_ & c0 & E1 & E2 & kb & _ & E3 & E4). exists c0. repeat split; try tauto. exists kb. auto.
Qed.
Print Assumptions C49_parse_sec1_valid.
Theorem C49_parse_pkcs8_valid : forall edPub der k, bytes_ok der -> ParsePKCS8PrivateKey edPub der = Ret k ->
  match k with
  | SKsm2 k => pk_Curve (sk_Pub k) = SM2P256V1_id /\ 0 <= sk_D k < sm2_N /\ (pk_X (sk_Pub k), pk_Y (sk_Pub k)) = enc (sm2_pmul (sk_D k) sm2_G)
  | SKecdsa id x y d => exists c, curve_of id = Some c /\ 0 <= d < cv_N c /\
      exists kb, be_to_Z kb = d /\ cv_ScalarBaseMult c kb = Ret (x, y)
  | SKrsa k => 0 < rsa_D k /\ zprod (rsa_Primes k) = rsa_N k /\ Forall (fun p => 1 < p /\ (rsa_E k * rsa_D k) mod (p - 1) = 1) (rsa_Primes k)
  | SKed25519 k => exists seed, zlen seed = 32 /\ k = seed ++ edPub seed
  | SKother => False
  end.
Proof.
  intros edPub der k Ho. unfold ParsePKCS8PrivateKey. destruct (Unmarshal cP8 der) as [[v r]| |] eqn:U; [| |discriminate].
  2:{ destruct (ok _); [discriminate|]. destruct (ok _); discriminate. }
  pose proof (cP8_inner_ok der v r Ho U) as Hi. cbv zeta. destruct (oid_eqb _ oidPublicKeyRSA).
  { destruct (ParsePKCS1PrivateKey _) as [k1| |] eqn:E1; [|discriminate|discriminate]. intros [= <-]. apply ParsePKCS1_sound in E1 as (V & D & _ & _).
    apply rsa_Validate_spec in V as (_ & V1 & V2 & V3). split; [exact D|]. split; [exact V2|]. rewrite Forall_forall in *. auto. }
  destruct (oid_eqb _ oidPublicKeyECDSA).
  { destruct (parseECPrivateKey _ _) as [k1| |] eqn:E1; [|discriminate|discriminate]. intros [= <-]. apply parseEC_sound in E1; auto. destruct k1; try contradiction; cbn [key_consistent] in E1.
    - destruct E1 as (_ & c0 & A1 & A2 & kb & _ & A3 & A4). exists c0. repeat split; try tauto. exists kb. auto.
    - exact E1. }
  destruct (oid_eqb _ oidPublicKeyEd25519); [|discriminate].
  destruct (sl (rv_full _)); [|discriminate]. destruct (Unmarshal cBytes _) as [[s ?]| |]; [|discriminate|discriminate].
  destruct (Z.eqb_spec (zlen (sl s)) 32); cbn [negb]; [|discriminate]. intros [= <-]. exists (sl s). auto.
Qed.
Print Assumptions C49_parse_pkcs8_valid.
(** D = 0 is accepted: there is no lower bound *)
Theorem C49_zero_accepted : forall edPub, exists der, ParsePKCS8PrivateKey edPub der = Ret (SKsm2 (mkPriv (mkPub SM2P256V1_id 0 0) 0)).
Proof.
  intros edPub. destruct (C48_pkcs8_sm2_roundtrip edPub 0 0 0) as (der & _ & P).
  - split; [discriminate|reflexivity].
  - reflexivity.
  - exists der. exact P.
Qed.
Print Assumptions C49_zero_accepted.

(** ** C50 *)
Theorem C50_trailing_ignored : forall edPub der tl k, bytes_ok der ->
  (ParsePKCS8PrivateKey edPub der = Ret k -> ParsePKCS8PrivateKey edPub (der ++ tl) = Ret k) /\
  (ParseECPrivateKey der = Ret k -> ParseECPrivateKey (der ++ tl) = Ret k).
Proof. intros. split; [apply parseP8_app|apply parseEC_app]; auto. Qed.
Print Assumptions C50_trailing_ignored.
Lemma marshal_pkcs8_small_ok : forall edPub, exists der k, bytes_ok der /\ ParsePKCS8PrivateKey edPub der = Ret k.
Proof.
  intros edPub. destruct (C48_pkcs8_sm2_roundtrip edPub sm2_Gx sm2_Gy 1) as (der & E & P).
  - split; [discriminate|reflexivity].
  - rewrite sm2_pmul_1. reflexivity.
  - exists der, (SKsm2 (mkPriv (mkPub SM2P256V1_id sm2_Gx sm2_Gy) 1)). split; [|exact P].
    assert (B : match MarshalPKCS8PrivateKey (SKsm2 (mkPriv (mkPub SM2P256V1_id sm2_Gx sm2_Gy) 1)) with Ret d => forallb (fun b => (0 <=? b) && (b <? 256)) d | _ => false end = true) by (vm_compute; reflexivity).
    rewrite E in B. apply Forall_forall. rewrite forallb_forall in B. intros x Hx. specialize (B x Hx). unfold byte_ok. lia.
Qed.
Theorem C50_reject_trailing_refuted : forall edPub,
  ~ (forall der tl k, bytes_ok der -> tl <> [] -> ParsePKCS8PrivateKey edPub der = Ret k -> exists e, ParsePKCS8PrivateKey edPub (der ++ tl) = Err e).
Proof.
  intros edPub H. destruct (marshal_pkcs8_small_ok edPub) as (der & k & Ho & P). destruct (H der [0] k Ho ltac:(discriminate) P) as [e E].
  rewrite (parseP8_app edPub der k [0] Ho P) in E. discriminate E.
Qed.
Print Assumptions C50_reject_trailing_refuted.

(** ** C51 *)
Theorem C51_pkix_sm2_roundtrip : forall x y, sm2_on_curve (PA x y) ->
  exists der, MarshalPKIXPublicKey (PKsm2 (mkPub SM2P256V1_id x y)) = Ret der /\ ParsePKIXPublicKey der = Ret (PKsm2 (mkPub SM2P256V1_id x y)).
Proof.
  intros x y H. apply sm2_IsOnCurve_spec in H. destruct (pkix_ec_rt SM2P256V1_id curve_sm2 x y curve_of_sm2 H) as (o & bs & _ & E & P). exists bs. split; [exact E|exact P].
Qed.
Print Assumptions C51_pkix_sm2_roundtrip.
Theorem C51_pkix_sound : forall der k, ParsePKIXPublicKey der = Ret k ->
  match k with
  | PKsm2 k => pk_Curve k = SM2P256V1_id /\ sm2_on_curve (PA (pk_X k) (pk_Y k))
  | PKecdsa id x y => exists c, curve_of id = Some c /\ IsOnCurve (cv_P c) (cv_B c) x y = true
  | PKrsa n e => 0 < n /\ 0 < e
  | PKed25519 b => List.length b = 32%nat
  | PKdsa y p q g => 0 < y /\ 0 < p /\ 0 < q /\ 0 < g
  | PKother => False
  end.
Proof.
  intros der k. unfold ParsePKIXPublicKey. destruct (Unmarshal cPKI der) as [[v r]| |]; [|destruct (ok _); discriminate|discriminate]. destruct r; [|discriminate].
  intros E. assert (S : pub_consistent k).
  { destruct (getPublicKeyAlgorithmFromOID _) eqn:Ea; [discriminate E| | | |]; (eapply parsePublicKey_sound; [|exact E]; discriminate). }
  destruct k; cbn [pub_consistent] in S; try tauto.
  destruct S as [S1 S2]. split; [exact S1|]. apply sm2_IsOnCurve_spec. exact S2.
Qed.
Print Assumptions C51_pkix_sound.
Theorem C51_pkix_trailing_rejected : forall der k tl, bytes_ok der -> ParsePKIXPublicKey der = Ret k -> tl <> [] -> exists e, ParsePKIXPublicKey (der ++ tl) = Err e.
Proof. intros. eexists. eapply pkix_trailing; eauto. Qed.
Print Assumptions C51_pkix_trailing_rejected.
Example C51_instance : sm2_on_curve (PA sm2_Gx sm2_Gy) /\ exists der, MarshalPKIXPublicKey (PKsm2 (mkPub SM2P256V1_id sm2_Gx sm2_Gy)) = Ret der /\ zlen der = 91.
Proof. split; [exact sm2_G_on|]. eexists. split; [vm_compute; reflexivity|reflexivity]. Qed.

(** ** C52 *)
Theorem C52_pkcs1_public_roundtrip : forall n e, 0 < n -> 0 < e < 2 ^ 31 -> zlen (MarshalPKCS1PublicKey n e) < 2 ^ 31 ->
  ParsePKCS1PublicKey (MarshalPKCS1PublicKey n e) = Ret (n, e).
Proof. exact pkcs1_pub_rt. Qed.
Print Assumptions C52_pkcs1_public_roundtrip.
Theorem C52_pkcs1_public_sound : forall der n e, ParsePKCS1PublicKey der = Ret (n, e) -> 0 < n /\ 0 < e < 2 ^ 31.
Proof. exact pkcs1_pub_sound. Qed.
Print Assumptions C52_pkcs1_public_sound.
Theorem C52_pkcs1_public_trailing_rejected : forall der k tl, bytes_ok der -> ParsePKCS1PublicKey der = Ret k -> tl <> [] -> exists e, ParsePKCS1PublicKey (der ++ tl) = Err e.
Proof. intros. eexists. eapply pkcs1_pub_trailing; eauto. Qed.
Print Assumptions C52_pkcs1_public_trailing_rejected.
Example C52_instance : zlen (MarshalPKCS1PublicKey (2 ^ 2048 - 1) 65537) = 270.
Proof. vm_compute. reflexivity. Qed.

(** ** C83.  PKCS#1 private keys.  A key is consistent when its modulus is the product of its primes and E*D = 1
    modulo p-1 for each of them. *)
Theorem C83_pkcs1_private_roundtrip : forall key der,
  2 <= rsa_E key < 2 ^ 31 -> Forall (fun p => 1 < p /\ (rsa_E key * rsa_D key) mod (p - 1) = 1) (rsa_Primes key) ->
  zprod (rsa_Primes key) = rsa_N key -> 0 < rsa_D key ->
  MarshalPKCS1PrivateKey key = Ret der -> der <> [] -> zlen der < 2 ^ 31 -> ParsePKCS1PrivateKey der = Ret key.
Proof.
  intros key der He Hp Hn Hd E Ne Hz. apply (pkcs1_rt key der); auto. apply rsa_Validate_spec. split; [exact He|].
  split; [eapply Forall_impl; [|exact Hp]; cbv beta; tauto|]. split; [exact Hn|]. eapply Forall_impl; [|exact Hp]; cbv beta; tauto.
Qed.
Print Assumptions C83_pkcs1_private_roundtrip.
Theorem C83_two_primes_encoded : forall N E D p q, exists der, MarshalPKCS1PrivateKey (mkRsa N E D [p; q]) = Ret der /\ der <> [].
Proof. exact pkcs1_two_primes. Qed.
Print Assumptions C83_two_primes_encoded.
Theorem C83_pkcs1_private_sound : forall der k, ParsePKCS1PrivateKey der = Ret k ->
  2 <= rsa_E k < 2 ^ 31 /\ 0 < rsa_D k /\ (2 <= List.length (rsa_Primes k))%nat /\ zprod (rsa_Primes k) = rsa_N k /\
  Forall (fun p => 1 < p /\ (rsa_E k * rsa_D k) mod (p - 1) = 1) (rsa_Primes k).
Proof.
  intros der k E. apply ParsePKCS1_sound in E as (V & D & _ & L). apply rsa_Validate_spec in V as (V1 & V2 & V3 & V4).
  split; [exact V1|]. split; [exact D|]. split; [exact L|]. split; [exact V3|]. rewrite Forall_forall in *. auto.
Qed.
Print Assumptions C83_pkcs1_private_sound.
Theorem C83_pkcs1_private_trailing_rejected : forall der k tl, bytes_ok der -> ParsePKCS1PrivateKey der = Ret k -> tl <> [] -> exists e, ParsePKCS1PrivateKey (der ++ tl) = Err e.
Proof. intros. eexists. eapply pkcs1_trailing; eauto. Qed.
Print Assumptions C83_pkcs1_private_trailing_rejected.
(** a toy key with the primes 3, 11, 23: 7*63 = 441 is 1 modulo 2, 10 and 22 *)
Example C83_instance : let key := mkRsa 759 7 63 [3; 11; 23] in
  2 <= rsa_E key < 2 ^ 31 /\ Forall (fun p => 1 < p /\ (rsa_E key * rsa_D key) mod (p - 1) = 1) (rsa_Primes key) /\
  zprod (rsa_Primes key) = rsa_N key /\ exists der, MarshalPKCS1PrivateKey key = Ret der /\ zlen der = 43.
Proof. cbv zeta. split; [cbn; lia|]. split; [repeat constructor; reflexivity|]. split; [reflexivity|]. eexists. split; [vm_compute; reflexivity|reflexivity]. Qed.

(** ** C84.  The other key types in PKCS#8 and PKIX *)
(** ECDSA keys on the four NIST curves: the public point must be what ScalarBaseMult returns for D *)
Theorem C84_pkcs8_ecdsa_roundtrip : forall edPub id c x y d, In id [224; 256; 384; 521] -> curve_of id = Some c ->
  0 <= d < cv_N c -> 0 <= x < cv_P c -> 0 <= y < cv_P c ->
  cv_ScalarBaseMult c (Z_to_be (byteLen (BitLen (cv_N c))) d) = Ret (x, y) ->
  exists der, MarshalPKCS8PrivateKey (SKecdsa id x y d) = Ret der /\ ParsePKCS8PrivateKey edPub der = Ret (SKecdsa id x y d).
Proof.
  intros edPub id c x y d Hid Hc Hd Hx Hy Hm. cbn [MarshalPKCS8PrivateKey].
  assert (Ho : exists o, oidFromNamedCurve id = Some o) by (cbn [In] in Hid; destruct Hid as [<-|[<-|[<-|[<-|[]]]]]; eexists; reflexivity). destruct Ho as [o Ho].
  destruct (pkcs8_ec_rt edPub id c x y d o None Hc Ho Hd Hx Hy Hm ltac:(auto)) as (bs & E & _ & P). exists bs. split; [exact E|]. rewrite P.
  cbn [In] in Hid; destruct Hid as [<-|[<-|[<-|[<-|[]]]]]; reflexivity.
Qed.
Print Assumptions C84_pkcs8_ecdsa_roundtrip.
Theorem C84_pkcs8_rsa_roundtrip : forall edPub key der0 der,
  2 <= rsa_E key < 2 ^ 31 -> Forall (fun p => 1 < p /\ (rsa_E key * rsa_D key) mod (p - 1) = 1) (rsa_Primes key) ->
  zprod (rsa_Primes key) = rsa_N key -> 0 < rsa_D key -> MarshalPKCS1PrivateKey key = Ret der0 -> der0 <> [] ->
  MarshalPKCS8PrivateKey (SKrsa key) = Ret der -> zlen der < 2 ^ 31 -> ParsePKCS8PrivateKey edPub der = Ret (SKrsa key).
Proof.
  intros edPub key der0 der He Hp Hn Hd E0 Ne E Hz. apply (pkcs8_rsa_rt edPub key der0 der); auto. apply rsa_Validate_spec. split; [exact He|].
  split; [eapply Forall_impl; [|exact Hp]; cbv beta; tauto|]. split; [exact Hn|]. eapply Forall_impl; [|exact Hp]; cbv beta; tauto.
Qed.
Print Assumptions C84_pkcs8_rsa_roundtrip.
Theorem C84_pkcs8_ed25519_roundtrip : forall edPub seed, List.length seed = 32%nat ->
  exists der, MarshalPKCS8PrivateKey (SKed25519 (seed ++ edPub seed)) = Ret der /\ ParsePKCS8PrivateKey edPub der = Ret (SKed25519 (seed ++ edPub seed)).
Proof. exact pkcs8_ed_rt. Qed.
Print Assumptions C84_pkcs8_ed25519_roundtrip.
Theorem C84_pkix_ecdsa_roundtrip : forall id c x y, In id [224; 256; 384; 521] -> curve_of id = Some c -> IsOnCurve (cv_P c) (cv_B c) x y = true ->
  exists der, MarshalPKIXPublicKey (PKecdsa id x y) = Ret der /\ ParsePKIXPublicKey der = Ret (PKecdsa id x y).
Proof.
  intros id c x y Hid Hc H. destruct (pkix_ec_rt id c x y Hc H) as (o & bs & _ & E & P). exists bs. split; [exact E|]. rewrite P.
  cbn [In] in Hid; destruct Hid as [<-|[<-|[<-|[<-|[]]]]]; reflexivity.
Qed.
Print Assumptions C84_pkix_ecdsa_roundtrip.
Theorem C84_pkix_rsa_roundtrip : forall n e der, 0 < n -> 0 < e < 2 ^ 31 -> MarshalPKIXPublicKey (PKrsa n e) = Ret der -> der <> [] -> zlen der < 2 ^ 31 ->
  ParsePKIXPublicKey der = Ret (PKrsa n e).
Proof. exact pkix_rsa_rt. Qed.
Print Assumptions C84_pkix_rsa_roundtrip.
Theorem C84_pkix_ed25519_roundtrip : forall k, List.length k = 32%nat -> exists der, MarshalPKIXPublicKey (PKed25519 k) = Ret der /\ ParsePKIXPublicKey der = Ret (PKed25519 k).
Proof. exact pkix_ed_rt. Qed.
Print Assumptions C84_pkix_ed25519_roundtrip.
(** P-256 with D = 1: the generator is on the curve and is what ScalarBaseMult returns (shown for the one-byte scalar 1) *)
Example C84_instance : IsOnCurve (cv_P curve_p256) (cv_B curve_p256) (cv_Gx curve_p256) (cv_Gy curve_p256) = true /\
  IsOnCurve (cv_P curve_p224) (cv_B curve_p224) (cv_Gx curve_p224) (cv_Gy curve_p224) = true /\
  IsOnCurve (cv_P curve_p384) (cv_B curve_p384) (cv_Gx curve_p384) (cv_Gy curve_p384) = true /\
  IsOnCurve (cv_P curve_p521) (cv_B curve_p521) (cv_Gx curve_p521) (cv_Gy curve_p521) = true /\
  cv_ScalarBaseMult curve_p256 (Z_to_be 32 1) = Ret (cv_Gx curve_p256, cv_Gy curve_p256) /\
  exists der, MarshalPKIXPublicKey (PKrsa 759 7) = Ret der /\ zlen der = 29.
Proof. repeat split; try (vm_compute; reflexivity). eexists. split; [vm_compute; reflexivity|reflexivity]. Qed.
