(** * C143: keys, byte for byte *)
From Coq Require Import String.
From Verif Require Import Base Words ECModel SM2Model CryptoByte Asn1 Asn1Proofs Asn1Safe KeysModel KeysProofs P12Enc PropertiesWire PropertiesWireCert.
From Coq Require Import ZifyBool ZifyNat.
Open Scope Z_scope.

(** ** The specification, in the vocabulary of PropertiesWire.v *)
(** the five curves: identity, object identifier, octets of a coordinate, octets of a private scalar *)
Definition curves : list (Z * bytes * nat * nat) :=
  [ (224, [0x2b; 0x81; 4; 0; 33], 28%nat, 28%nat);                             (* 1.3.132.0.33 *)
    (256, [0x2a; 0x86; 0x48; 0xce; 0x3d; 3; 1; 7], 32%nat, 32%nat);            (* 1.2.840.10045.3.1.7 *)
    (384, [0x2b; 0x81; 4; 0; 34], 48%nat, 48%nat);                             (* 1.3.132.0.34 *)
    (521, [0x2b; 0x81; 4; 0; 35], 66%nat, 66%nat);                             (* 1.3.132.0.35 *)
    (SM2P256V1_id, [0x2a; 0x81; 0x1c; 0xcf; 0x55; 1; 0x82; 0x2d], 32%nat, 32%nat) ]. (* 1.2.156.10197.1.301 *)
Definition id_ecPublicKey : bytes := [0x2a; 0x86; 0x48; 0xce; 0x3d; 2; 1].     (* 1.2.840.10045.2.1 *)
Definition id_rsaEncryption : bytes := rsadsi ++ [1; 1].                       (* 1.2.840.113549.1.1.1 *)
Definition id_Ed25519 : bytes := [0x2b; 0x65; 0x70].                           (* 1.3.101.112 *)
Definition ec_alg (ob : bytes) : bytes := SEQ (OID id_ecPublicKey ++ OID ob).
Definition rsa_key_alg : bytes := SEQ (OID id_rsaEncryption ++ [5; 0]).
Definition ed_alg : bytes := SEQ (OID id_Ed25519).
(** SubjectPublicKeyInfo, PKCS#8 PrivateKeyInfo *)
Definition spki (alg key : bytes) : bytes := SEQ (alg ++ DER 3 (0 :: key)).
Definition pkcs8_der (alg key : bytes) : bytes := SEQ (INTEGER [0] ++ alg ++ OCTETS key).
(** SEC 1: the uncompressed point; ECPrivateKey with its optional [0] parameters *)
Definition point (fl : nat) (x y : Z) : bytes := 4 :: Z_to_be fl (Z.abs x) ++ Z_to_be fl (Z.abs y).
Definition sec1_der (d : bytes) (params : option bytes) (pub : bytes) : bytes :=
  SEQ (INTEGER [1] ++ OCTETS d ++ match params with Some o => CTX0 (OID o) | None => [] end ++ DER 0xa1 (DER 3 (0 :: pub))).
Definition rsa_pub (n e : Z) : bytes := SEQ (INTEGER (int_octets n) ++ INTEGER (int_octets e)).

(** ** The model's encodings are these *)
Lemma mk_bits_opt b p : p = optExplicitP 1 -> makeField cBits p (mkBits (Some b) 0) = Ret (DER 0xa1 (DER 3 (0 :: b))).
Proof.
  intros ->. assert (E : makeField cBits (optExplicitP 1) (mkBits (Some b) 0) = Ret (el 2 1 true (el 0 3 false (0 :: b)))) by reflexivity.
  rewrite E, !el_der by lia. reflexivity.
Qed.
Lemma mk_bits b : makeField cBits noP (mkBits (Some b) (8 * zlen b)) = Ret (DER 3 (0 :: b)).
Proof.
  assert (E : makeField cBits noP (mkBits (Some b) (8 * zlen b)) = Ret (el 0 3 false ((8 - Z.rem (8 * zlen b) 8) mod 8 :: b))) by reflexivity.
  rewrite E, el_der by lia. rewrite (Z.mul_comm 8), Z.rem_mul by lia. reflexivity.
Qed.
Lemma mk_oid_exp o ob : o <> [] -> oid_body o = Ret ob -> makeField cOID (optExplicitP 0) o = Ret (CTX0 (OID ob)).
Proof.
  intros N E. destruct o as [|a o]; [congruence|]. rewrite <- el_c0, <- PropertiesWire.el_oid.
  unfold makeField, optExplicitP. cbn [p_omit p_opt p_def andb c_whole cOID prim p_set c_tag c_body p_tag]. rewrite E. reflexivity.
Qed.
Lemma ec_make pk o ob pub : oid_body o = Ret ob -> o <> [] ->
  Marshal cEC (mkEC 1 (Some pk) o (mkBits (Some pub) 0)) = Ret (sec1_der pk (Some ob) pub).
Proof.
  intros E N. unfold Marshal, cEC, sec1_der. rewrite <- el_seq. apply mk_struct. cbn [ec_Version ec_PrivateKey ec_OID ec_PublicKey].
  rewrite <- el_int, <- el_oct.
  apply f_cons; [reflexivity|]. apply f_cons; [reflexivity|]. apply f_cons; [now apply mk_oid_exp|]. apply f_one. now apply mk_bits_opt.
Qed.
Lemma ec_make_plain pk pub : Marshal cEC (mkEC 1 (Some pk) [] (mkBits (Some pub) 0)) = Ret (sec1_der pk None pub).
Proof.
  unfold Marshal, cEC, sec1_der. rewrite <- el_seq. apply mk_struct. cbn [ec_Version ec_PrivateKey ec_OID ec_PublicKey].
  rewrite <- el_int, <- el_oct.
  apply f_cons; [reflexivity|]. apply f_cons; [reflexivity|]. apply f_cons; [reflexivity|]. apply f_one. now apply mk_bits_opt.
Qed.
Lemma ai_make_oid o ob p pb : oid_body o = Ret ob -> oid_body p = Ret pb ->
  makeField cAI noP (mkAI o (mkRaw 0 0 false None (Some (OID pb)))) = Ret (SEQ (OID ob ++ OID pb)).
Proof.
  intros E1 E2. unfold cAI. rewrite <- el_seq. apply mk_struct. cbn [ai_alg ai_params]. apply f_cons; [rewrite <- PropertiesWire.el_oid; now apply mk_oid|]. apply f_one. reflexivity.
Qed.
Lemma ai_make_null o ob : oid_body o = Ret ob -> makeField cAI noP (mkAI o NullRawValue) = Ret (SEQ (OID ob ++ [5; 0])).
Proof. intros E1. unfold cAI. rewrite <- el_seq. apply mk_struct. cbn [ai_alg ai_params]. apply f_cons; [rewrite <- PropertiesWire.el_oid; now apply mk_oid|]. reflexivity. Qed.
Lemma ai_make_none o ob : oid_body o = Ret ob -> makeField cAI noP (mkAI o rawZero) = Ret (SEQ (OID ob)).
Proof. intros E1. unfold cAI. rewrite <- el_seq, <- (app_nil_r (OID ob)). apply mk_struct. cbn [ai_alg ai_params]. apply f_cons; [rewrite <- PropertiesWire.el_oid; now apply mk_oid|]. reflexivity. Qed.
Lemma p8_make ai alg k : makeField cAI noP ai = Ret alg -> Marshal cP8 (mkP8 0 ai (Some k)) = Ret (pkcs8_der alg k).
Proof.
  intros E. unfold Marshal, cP8, pkcs8_der. rewrite <- el_seq, <- el_int, <- el_oct. apply mk_struct. cbn [p8_Version p8_Algo p8_PrivateKey].
  apply f_cons; [reflexivity|]. apply f_cons; [exact E|]. apply f_one. reflexivity.
Qed.
Lemma pkix_make ai alg k : makeField cAI noP ai = Ret alg -> Marshal cPkix (mkPkix ai (mkBits (Some k) (8 * zlen k))) = Ret (spki alg k).
Proof.
  intros E. unfold Marshal, cPkix, spki. rewrite <- el_seq. apply (mk_struct _ _ _ (mkPkix ai (mkBits (Some k) (8 * zlen k)))).
  apply f_cons; [exact E|]. apply f_one. apply mk_bits.
Qed.
Lemma oid_make o ob : oid_body o = Ret ob -> Marshal cOID o = Ret (OID ob).
Proof. intros E. rewrite <- PropertiesWire.el_oid. now apply mk_oid. Qed.
Lemma curve_row id ob fl sl : In (id, ob, fl, sl) curves -> exists c o, curve_of id = Some c /\ oidFromNamedCurve id = Some o /\ oid_body o = Ret ob /\ o <> [] /\
  byteLen (cv_BitSize c) = fl /\ byteLen (BitLen (cv_N c)) = sl.
Proof.
  intros Hi. repeat (destruct Hi as [Hi|Hi]; [injection Hi as <- <- <- <-; eexists; eexists; repeat split; try reflexivity; try discriminate|]); destruct Hi.
Qed.
Lemma fill_abs n x : Z.abs x < 256 ^ Z.of_nat n -> FillBytes n x = Ret (Z_to_be n (Z.abs x)).
Proof. intros H. unfold FillBytes. destruct (Z.ltb_spec (Z.abs x) (256 ^ Z.of_nat n)); [reflexivity|lia]. Qed.
Lemma ell_make c fl x y : byteLen (cv_BitSize c) = fl -> Z.abs x < 256 ^ Z.of_nat fl -> Z.abs y < 256 ^ Z.of_nat fl -> elliptic_Marshal c x y = Ret (point fl x y).
Proof. intros <- Hx Hy. unfold elliptic_Marshal. rewrite (fill_abs _ _ Hx), (fill_abs _ _ Hy). reflexivity. Qed.
Lemma ec_alg_make o ob : oid_body o = Ret ob -> makeField cAI noP (mkAI oidPublicKeyECDSA (mkRaw 0 0 false None (Some (OID ob)))) = Ret (ec_alg ob).
Proof. intros E. apply (ai_make_oid oidPublicKeyECDSA id_ecPublicKey o ob); [reflexivity|exact E]. Qed.

(** ** C143 *)
(** Public keys: MarshalPKIXPublicKey and MarshalPKCS1PublicKey *)
Theorem C143_public : 
  (forall n e, MarshalPKCS1PublicKey n e = rsa_pub n e /\ MarshalPKIXPublicKey (PKrsa n e) = Ret (spki rsa_key_alg (rsa_pub n e))) /\
  (forall k, MarshalPKIXPublicKey (PKed25519 k) = Ret (spki ed_alg k)) /\
  (forall id ob fl sl x y, In (id, ob, fl, sl) curves -> Z.abs x < 256 ^ Z.of_nat fl -> Z.abs y < 256 ^ Z.of_nat fl ->
     MarshalPKIXPublicKey (PKecdsa id x y) = Ret (spki (ec_alg ob) (point fl x y)) /\
     MarshalPKIXPublicKey (PKsm2 (mkPub id x y)) = Ret (spki (ec_alg ob) (point fl x y))).
Proof.
  split; [|split].
  - intros n e. assert (E : Marshal cP1Pub (mkP1Pub (Some n) e) = Ret (rsa_pub n e)).
    { unfold Marshal, rsa_pub. rewrite <- el_seq, <- !el_int, <- !int_octets_eq. apply mk_struct. apply f_cons; [reflexivity|]. apply f_one. reflexivity. }
    split; [unfold MarshalPKCS1PublicKey; now rewrite E|]. unfold MarshalPKIXPublicKey, marshalPublicKey. rewrite E. cbn [bind].
    rewrite (pkix_make _ rsa_key_alg); [reflexivity|]. apply ai_make_null. reflexivity.
  - intros k. unfold MarshalPKIXPublicKey, marshalPublicKey. cbn [bind]. rewrite (pkix_make _ ed_alg); [reflexivity|]. apply ai_make_none. reflexivity.
  - intros id ob fl sl x y Hi Hx Hy. destruct (curve_row _ _ _ _ Hi) as (c & o & Ec & Eo & Eb & _ & Lf & _).
    assert (E : marshal_ec_pub id x y = Ret (point fl x y, mkAI oidPublicKeyECDSA (mkRaw 0 0 false None (Some (OID ob))))).
    { unfold marshal_ec_pub. rewrite Eo, Ec, (ell_make c fl x y Lf Hx Hy). cbn [bind]. rewrite (oid_make _ _ Eb). reflexivity. }
    unfold MarshalPKIXPublicKey, marshalPublicKey. cbn [pk_Curve pk_X pk_Y]. rewrite E. cbn [bind]. rewrite (pkix_make _ _ _ (ec_alg_make _ _ Eb)). split; reflexivity.
Qed.
Print Assumptions C143_public.

(** Private keys: MarshalECPrivateKey and MarshalPKCS8PrivateKey.  Inside PKCS#8 an ECDSA key leaves the curve out of the
    inner structure, an SM2 key always names the SM2 curve there. *)
Theorem C143_private :
  (forall id ob fl sl x y d, In (id, ob, fl, sl) curves ->
     Z.abs x < 256 ^ Z.of_nat fl -> Z.abs y < 256 ^ Z.of_nat fl -> Z.abs d < 256 ^ Z.of_nat sl ->
     MarshalECPrivateKey id x y d = Ret (sec1_der (Z_to_be sl (Z.abs d)) (Some ob) (point fl x y)) /\
     MarshalPKCS8PrivateKey (SKecdsa id x y d) = Ret (pkcs8_der (ec_alg ob) (sec1_der (Z_to_be sl (Z.abs d)) None (point fl x y))) /\
     MarshalPKCS8PrivateKey (SKsm2 (mkPriv (mkPub id x y) d)) = Ret (pkcs8_der (ec_alg ob)
       (sec1_der (Z_to_be sl (Z.abs d)) (Some [0x2a; 0x81; 0x1c; 0xcf; 0x55; 1; 0x82; 0x2d]) (point fl x y)))) /\
  (forall k inner, MarshalPKCS1PrivateKey k = Ret inner -> MarshalPKCS8PrivateKey (SKrsa k) = Ret (pkcs8_der rsa_key_alg inner)) /\
  (forall seed rest, List.length seed = 32%nat -> MarshalPKCS8PrivateKey (SKed25519 (seed ++ rest)) = Ret (pkcs8_der ed_alg (OCTETS seed))).
Proof.
  split; [|split].
  - intros id ob fl sl x y d Hi Hx Hy Hd. destruct (curve_row _ _ _ _ Hi) as (c & o & Ec & Eo & Eb & No & Lf & Ls).
    assert (W : forall o', marshalECPrivateKeyWithOID c x y d o' = Marshal cEC (mkEC 1 (Some (Z_to_be sl (Z.abs d))) o' (mkBits (Some (point fl x y)) 0))).
    { intros o'. unfold marshalECPrivateKeyWithOID. rewrite Ls, (fill_abs _ _ Hd). cbn [bind]. rewrite (ell_make c fl x y Lf Hx Hy). reflexivity. }
    split; [|split].
    + unfold MarshalECPrivateKey. rewrite Eo, Ec, W. now apply ec_make.
    + unfold MarshalPKCS8PrivateKey, marshal_ec8. rewrite Eo, Ec, (oid_make _ _ Eb). cbn [bind]. rewrite W, ec_make_plain. cbn [bind]. apply p8_make. exact (ec_alg_make _ _ Eb).
    + unfold MarshalPKCS8PrivateKey, marshal_ec8. cbn [sk_Pub sk_D pk_Curve pk_X pk_Y]. rewrite Eo, Ec, (oid_make _ _ Eb). cbn [bind]. rewrite W.
      rewrite (ec_make _ oidNamedCurveSM2P256 [0x2a; 0x81; 0x1c; 0xcf; 0x55; 1; 0x82; 0x2d]); [|reflexivity|discriminate]. cbn [bind]. apply p8_make. exact (ec_alg_make _ _ Eb).
  - intros k inner E. unfold MarshalPKCS8PrivateKey. rewrite E. cbn [bind]. apply p8_make. apply ai_make_null. reflexivity.
  - intros seed rest L. unfold MarshalPKCS8PrivateKey. rewrite app_length, L. replace (32 + List.length rest <? 32)%nat with false by (symmetry; apply Nat.ltb_ge; lia).
    rewrite firstn_app, L, Nat.sub_diag, <- L, firstn_all, firstn_O, app_nil_r. cbn [Marshal]. assert (E : Marshal cBytes (Some seed) = Ret (OCTETS seed)) by (rewrite <- el_oct; reflexivity).
    rewrite E. cbn [bind]. apply p8_make. apply ai_make_none. reflexivity.
Qed.
Print Assumptions C143_private.

(** ** Cases *)
(** an RSA public key, byte by byte, and an SM2 private key's first octets (total length 147) *)
Example C143_rsa_instance : MarshalPKIXPublicKey (PKrsa 3233 65537) = Ret
  [0x30; 0x1d; 0x30; 0x0d; 6; 9; 0x2a; 0x86; 0x48; 0x86; 0xf7; 0x0d; 1; 1; 1; 5; 0; 3; 0x0c; 0; 0x30; 9; 2; 2; 0x0c; 0xa1; 2; 3; 1; 0; 1].
Proof. rewrite (proj2 (proj1 C143_public 3233 65537)). vm_compute. reflexivity. Qed.
Example C143_sm2_instance : exists der, MarshalPKCS8PrivateKey (SKsm2 (mkPriv (mkPub SM2P256V1_id 7 (-9)) 5)) = Ret der /\
  firstn 48 der = [0x30; 0x81; 0x93; 2; 1; 0; 0x30; 0x13; 6; 7; 0x2a; 0x86; 0x48; 0xce; 0x3d; 2; 1; 6; 8; 0x2a; 0x81; 0x1c; 0xcf; 0x55; 1; 0x82; 0x2d; 4; 0x79;
    0x30; 0x77; 2; 1; 1; 4; 0x20; 0; 0; 0; 0; 0; 0; 0; 0; 0; 0; 0; 0] /\ zlen der = 150.
Proof.
  destruct (proj1 C143_private SM2P256V1_id [0x2a; 0x81; 0x1c; 0xcf; 0x55; 1; 0x82; 0x2d] 32%nat 32%nat 7 (-9) 5) as (_ & _ & E);
  [cbn; tauto|vm_compute; reflexivity|vm_compute; reflexivity|vm_compute; reflexivity|].
  eexists. split; [exact E|]. split; vm_compute; reflexivity.
Qed.
