(** * C121: exactly when encoding a key succeeds, fails or panics *)
From Coq Require Import String ZifyBool ZifyNat.
From Verif Require Import Base ECSpec ECModel SM2Model Asn1 Asn1Proofs KeysModel KeysProofs Asn1Safe PropertiesNoPanic.
Open Scope Z_scope.

(** the supported curves, and how many bytes a coordinate or a scalar has in an encoding *)
Definition curve_widths : list (Z * Z) := [(224, 28); (256, 32); (384, 48); (521, 66); (SM2P256V1_id, 32)].
(** the number fits into that many bytes; the sign does not count *)
Definition fits (w x : Z) : Prop := Z.abs x < 256 ^ w.
(** how encoding the integers [xs] for the curve [id] ends *)
Definition ec_outcome (id : Z) (xs : list Z) (r : outcome bytes) : Prop :=
  (forall w, In (id, w) curve_widths -> (Forall (fits w) xs /\ exists b, r = Ret b) \/ (~ Forall (fits w) xs /\ r = Panic)) /\
  (~ In id (map fst curve_widths) -> exists e, r = Err e).

Lemma curve_width id w : In (id, w) curve_widths ->
  exists c o, curve_of id = Some c /\ oidFromNamedCurve id = Some o /\ Z.of_nat (byteLen (cv_BitSize c)) = w /\ Z.of_nat (byteLen (BitLen (cv_N c))) = w.
Proof.
  unfold curve_widths. cbn [In]. intros [H|[H|[H|[H|[H|[]]]]]]; injection H as <- <-; eexists _, _; (split; [reflexivity|]; split; [reflexivity|]; split; vm_compute; reflexivity).
Qed.
Lemma curve_unknown id : ~ In id (map fst curve_widths) -> oidFromNamedCurve id = None.
Proof.
  unfold curve_widths, oidFromNamedCurve. cbn [map fst In]. intros H.
  destruct (Z.eqb_spec id 224); [exfalso; apply H; auto|]. destruct (Z.eqb_spec id 256); [exfalso; apply H; auto|].
  destruct (Z.eqb_spec id 384); [exfalso; apply H; auto|]. destruct (Z.eqb_spec id 521); [exfalso; apply H; auto|].
  destruct (Z.eqb_spec id SM2P256V1_id); [exfalso; apply H; auto 6|]. reflexivity.
Qed.
Lemma fill_fits n x : (fits (Z.of_nat n) x /\ FillBytes n x = Ret (Z_to_be n (Z.abs x))) \/ (~ fits (Z.of_nat n) x /\ FillBytes n x = Panic).
Proof. unfold FillBytes, fits. destruct (Z.ltb_spec (Z.abs x) (256 ^ Z.of_nat n)); [left; auto|right; split; [lia|reflexivity]]. Qed.
Lemma fill_abs n x : FillBytes n (Z.abs x) = FillBytes n x.
Proof. unfold FillBytes. rewrite Z.abs_involutive. reflexivity. Qed.
Lemma F3 (p : Z -> Prop) a b c : Forall p [a; b; c] <-> p a /\ p b /\ p c.
Proof. rewrite !Forall_cons_iff. intuition. Qed.
Lemma F2 (p : Z -> Prop) a b : Forall p [a; b] <-> p a /\ p b.
Proof. rewrite !Forall_cons_iff. intuition. Qed.
Lemma em_cases c w x y : Z.of_nat (byteLen (cv_BitSize c)) = w -> w <= 66 ->
  (fits w x /\ fits w y /\ exists p, elliptic_Marshal c x y = Ret p /\ zlen p <= 200) \/ (~ (fits w x /\ fits w y) /\ elliptic_Marshal c x y = Panic).
Proof.
  intros Hw Lw. unfold elliptic_Marshal. destruct (fill_fits (byteLen (cv_BitSize c)) x) as [[A ->]|[A ->]]; rewrite Hw in A; cbn [bind]; [|right; tauto].
  destruct (fill_fits (byteLen (cv_BitSize c)) y) as [[B ->]|[B ->]]; rewrite Hw in B; cbn [bind]; [|right; tauto].
  left. split; [exact A|]. split; [exact B|]. eexists. split; [reflexivity|]. rewrite zlen_cons, zlen_app, !Z_to_be_zlen. lia.
Qed.
Lemma w66 id w : In (id, w) curve_widths -> w <= 66.
Proof. unfold curve_widths. cbn [In]. intros [H|[H|[H|[H|[H|[]]]]]]; injection H as <- <-; vm_compute; discriminate. Qed.
Lemma sec1_cases id w c x y d o i : In (id, w) curve_widths -> curve_of id = Some c -> oidFromNamedCurve i = Some o \/ o = [] ->
  (Forall (fits w) [x; y; d] /\ exists b, marshalECPrivateKeyWithOID c x y d o = Ret b /\ zlen b < 500) \/
  (~ Forall (fits w) [x; y; d] /\ marshalECPrivateKeyWithOID c x y d o = Panic).
Proof.
  intros Hin Hc Ho. destruct (curve_width id w Hin) as (c' & o' & Hc' & _ & Wp & Wn). rewrite Hc in Hc'. injection Hc' as <-. pose proof (w66 id w Hin) as L.
  rewrite F3. unfold marshalECPrivateKeyWithOID.
  destruct (fill_fits (byteLen (BitLen (cv_N c))) d) as [[A ->]|[A ->]]; rewrite Wn in A; cbn [bind]; [|right; tauto].
  destruct (em_cases c w x y Wp L) as [(B1 & B2 & p & -> & Lp)|[B ->]]; cbn [bind]; [|right; tauto].
  left. split; [tauto|].
  assert (X : exists ob, (o = [] \/ (oid_ok o /\ oid_body o = Ret ob)) /\ zlen ob <= 100).
  { destruct Ho as [Ho| ->]; [|exists []; split; [auto|vm_compute; discriminate]]. destruct (named_curve_cases i o Ho) as (K & _ & _ & ob & f & E & Lo & _). exists ob. auto. }
  destruct X as (ob & X1 & X2). apply (cEC_small _ o ob _ X1 X2); [rewrite Z_to_be_zlen; lia|exact Lp].
Qed.

(** C121: MarshalECPrivateKey *)
Theorem C121_sec1 : forall id x y d, ec_outcome id [x; y; d] (MarshalECPrivateKey id x y d).
Proof.
  intros id x y d. unfold MarshalECPrivateKey. split.
  - intros w Hin. destruct (curve_width id w Hin) as (c & o & Hc & Ho & _). rewrite Ho, Hc.
    destruct (sec1_cases id w c x y d o id Hin Hc (or_introl Ho)) as [(A & b & E & _)|A]; [left; eauto|right; exact A].
  - intros H. rewrite (curve_unknown id H). eauto.
Qed.
Print Assumptions C121_sec1.

Lemma ec8_cases id x y d inner : match inner with Some o => exists i, oidFromNamedCurve i = Some o | None => True end -> ec_outcome id [x; y; d] (marshal_ec8 id x y d inner).
Proof.
  intros Hi. unfold marshal_ec8. split; [|intros H; rewrite (curve_unknown id H); eauto].
  intros w Hin. destruct (curve_width id w Hin) as (c & o & Hc & Ho & _). rewrite Ho, Hc.
  destruct (named_curve_cases id o Ho) as (Ook & Hn & _ & ob & f & Eob & Lob & Ef & Lf & Uf & (t & i & El) & _ & Nf). rewrite Ef. cbn [bind].
  assert (X : exists i, oidFromNamedCurve i = Some (match inner with Some o => o | None => [] end) \/ match inner with Some o => o | None => [] end = []).
  { destruct inner as [o'|]; [destruct Hi as [i' Hi]; exists i'; auto|exists 0; auto]. }
  destruct X as [i' X]. destruct (sec1_cases id w c x y d _ i' Hin Hc X) as [(A & pk & -> & Lpk)|[A ->]]; cbn [bind]; [|right; auto].
  left. split; [exact A|]. remember (mkRaw 0 0 false None (Some f)) as raw eqn:Er.
  assert (Hmk : makeField cRaw optP raw = Ret f).
  { rewrite Er. unfold makeField. cbn [p_omit p_opt p_def optP andb c_whole cRaw c_iszero]. unfold raw_whole. cbn [rv_full sl]. destruct f; [congruence|reflexivity]. }
  assert (Oe : exists oe, oid_body oidPublicKeyECDSA = Ret oe /\ zlen oe <= 100) by (eexists; split; [reflexivity|vm_compute; discriminate]).
  destruct Oe as (oe & Eoe & Loe).
  assert (Oke : oid_ok oidPublicKeyECDSA) by (repeat constructor; vm_compute; discriminate).
  destruct (cAI_small oidPublicKeyECDSA oe raw f Oke Eoe Loe Hmk Lf) as (ab & Eab & Lab).
  destruct (cP8_small (mkAI oidPublicKeyECDSA raw) ab pk 500 Eab Lab ltac:(lia) ltac:(lia)) as (bs & Ebs & Lbs). exists bs. exact Ebs.
Qed.
Lemma mnp_bytes : mnp cBytes. Proof. intros a. split; [|discriminate]. intros set. cbn. destruct a; discriminate. Qed.
Lemma np_oid_body o : oid_body o <> Panic.
Proof. unfold oid_body. destruct o as [|a [|b l]]; try discriminate. destruct (_ || _); discriminate. Qed.
Lemma mnp_oid : mnp cOID. Proof. intros a. split; [|discriminate]. intros set. apply np_oid_body. Qed.
Lemma mnp_bits : mnp cBits. Proof. intros a. split; [|discriminate]. intros set. cbn. discriminate. Qed.
Lemma mnp_raw : mnp cRaw. Proof. intros a. split; [intros set; discriminate|]. intros r [= <-]. unfold raw_whole. destruct (sl (rv_full a)); discriminate. Qed.
Lemma mnp_AI : mnp cAI. Proof. apply mnp_struct. apply fmnp_cons; [apply mnp_oid|]. apply fmnp_cons; [apply mnp_raw|apply fmnp_nil]. Qed.
Lemma mnp_P8 : mnp cP8. Proof. apply mnp_struct. apply fmnp_cons; [apply mnp_int|]. apply fmnp_cons; [apply mnp_AI|]. apply fmnp_cons; [apply mnp_bytes|apply fmnp_nil]. Qed.
Lemma mnp_Pkix : mnp cPkix. Proof. apply mnp_struct. apply fmnp_cons; [apply mnp_AI|]. apply fmnp_cons; [apply mnp_bits|apply fmnp_nil]. Qed.
Lemma mnp_P1Pub : mnp cP1Pub. Proof. apply mnp_struct. apply fmnp_cons; [apply mnp_big|]. apply fmnp_cons; [apply mnp_int|apply fmnp_nil]. Qed.

(** C121: MarshalPKCS8PrivateKey.  The RSA clause is about keys whose primes are above 1 (the model does not follow
    rsa.Precompute for others). *)
Definition pkcs8_outcome (k : privKey) (r : outcome bytes) : Prop :=
  match k with
  | SKecdsa id x y d => ec_outcome id [x; y; d] r
  | SKsm2 k => ec_outcome (pk_Curve (sk_Pub k)) [pk_X (sk_Pub k); pk_Y (sk_Pub k); sk_D k] r
  | SKrsa k => Forall (fun p => 1 < p) (rsa_Primes k) -> ((List.length (rsa_Primes k) < 2)%nat <-> r = Panic)
  | SKed25519 k => (List.length k < 32)%nat <-> r = Panic
  | SKother => exists e, r = Err e
  end.
Theorem C121_pkcs8 : forall k, pkcs8_outcome k (MarshalPKCS8PrivateKey k).
Proof.
  intros [k|id x y d|k|k|]; cbn [pkcs8_outcome MarshalPKCS8PrivateKey].
  - intros _. pose proof (rsa_marshal_np k) as N. split.
    + intros H. unfold MarshalPKCS1PrivateKey. destruct (rsa_Primes k) as [|p [|q l]]; cbn [List.length] in H; try lia; reflexivity.
    + intros H. destruct (Nat.ltb_spec (List.length (rsa_Primes k)) 2) as [|G]; [assumption|exfalso]. specialize (N G). revert H. apply bind_np; [exact N|].
      intros b _. apply mnp_make, mnp_P8.
  - apply ec8_cases. exact Logic.I.
  - apply ec8_cases. exists SM2P256V1_id. reflexivity.
  - destruct (Nat.ltb_spec (List.length k) 32) as [L|L]; [split; auto|]. split; [lia|]. intros H. exfalso. revert H. apply bind_np; [apply mnp_make, mnp_bytes|].
    intros b _. apply mnp_make, mnp_P8.
  - eauto.
Qed.
Print Assumptions C121_pkcs8.

(** C121: MarshalPKIXPublicKey *)
Definition pkix_outcome (k : pubKey) (r : outcome bytes) : Prop :=
  match k with
  | PKecdsa id x y => ec_outcome id [x; y] r
  | PKsm2 k => ec_outcome (pk_Curve k) [pk_X k; pk_Y k] r
  | PKrsa _ _ | PKed25519 _ => exists b, r = Ret b
  | PKdsa _ _ _ _ | PKother => exists e, r = Err e
  end.
Lemma ec_pub_cases id x y : ec_outcome id [x; y] (do (b, ai) <- marshal_ec_pub id x y; match Marshal cPkix (mkPkix ai (mkBits (Some b) (8 * zlen b))) with Ret r => Ret r | Err _ => Ret [] | Panic => Panic end).
Proof.
  unfold marshal_ec_pub. split; [|intros H; rewrite (curve_unknown id H); cbn [bind]; eauto].
  intros w Hin. destruct (curve_width id w Hin) as (c & o & Hc & Ho & Wp & _). rewrite Ho, Hc. pose proof (w66 id w Hin) as L. rewrite F2.
  destruct (em_cases c w x y Wp L) as [(B1 & B2 & p & -> & Lp)|[B ->]]; cbn [bind]; [|right; tauto].
  destruct (named_curve_cases id o Ho) as (Ook & Hn & _ & ob & f & Eob & Lob & Ef & _). rewrite Ef. cbn [bind]. left. split; [tauto|].
  match goal with |- context [Marshal cPkix ?v] => pose proof (mnp_make cPkix noP v mnp_Pkix) as N; unfold Marshal in *; destruct (makeField cPkix noP v) end; [eauto|eauto|congruence].
Qed.
Theorem C121_pkix : forall k, pkix_outcome k (MarshalPKIXPublicKey k).
Proof.
  assert (X : forall v, exists b, match Marshal cPkix v with Ret r => Ret r | Err _ => Ret [] | Panic => Panic end = Ret b).
  { intros v. pose proof (mnp_make cPkix noP v mnp_Pkix) as N. unfold Marshal. destruct (makeField cPkix noP v); [eauto|eauto|congruence]. }
  intros [n e|id x y|k|k|y p q g|]; cbn [pkix_outcome]; unfold MarshalPKIXPublicKey; cbn [marshalPublicKey bind]; try solve [eauto]; try apply ec_pub_cases.
  assert (E : exists b, Marshal cP1Pub (mkP1Pub (Some n) e) = Ret b) by (eexists; reflexivity).
  destruct E as [b ->]. cbn [bind]. apply X.
Qed.
Print Assumptions C121_pkix.

(** C121: the sign of a coordinate or of the private scalar is lost: a key and the key with the absolute values
    have the same encoding, in all three formats *)
Theorem C121_sign_lost : forall id x y d,
  MarshalECPrivateKey id x y d = MarshalECPrivateKey id (Z.abs x) (Z.abs y) (Z.abs d) /\
  MarshalPKCS8PrivateKey (SKecdsa id x y d) = MarshalPKCS8PrivateKey (SKecdsa id (Z.abs x) (Z.abs y) (Z.abs d)) /\
  MarshalPKCS8PrivateKey (SKsm2 (mkPriv (mkPub id x y) d)) = MarshalPKCS8PrivateKey (SKsm2 (mkPriv (mkPub id (Z.abs x) (Z.abs y)) (Z.abs d))) /\
  MarshalPKIXPublicKey (PKecdsa id x y) = MarshalPKIXPublicKey (PKecdsa id (Z.abs x) (Z.abs y)) /\
  MarshalPKIXPublicKey (PKsm2 (mkPub id x y)) = MarshalPKIXPublicKey (PKsm2 (mkPub id (Z.abs x) (Z.abs y))).
Proof.
  intros id x y d.
  assert (E : forall c, elliptic_Marshal c (Z.abs x) (Z.abs y) = elliptic_Marshal c x y) by (intros c; unfold elliptic_Marshal; rewrite !fill_abs; reflexivity).
  assert (F : forall c o, marshalECPrivateKeyWithOID c (Z.abs x) (Z.abs y) (Z.abs d) o = marshalECPrivateKeyWithOID c x y d o) by (intros c o; unfold marshalECPrivateKeyWithOID; rewrite fill_abs, E; reflexivity).
  assert (G : forall o, marshal_ec8 id (Z.abs x) (Z.abs y) (Z.abs d) o = marshal_ec8 id x y d o).
  { intros o. unfold marshal_ec8. destruct (oidFromNamedCurve id) as [oo|]; [|reflexivity]. destruct (curve_of id) as [c|]; [|reflexivity]. destruct (Marshal cOID oo) as [ob| |]; cbn [bind]; [|reflexivity|reflexivity]. rewrite F. reflexivity. }
  assert (H : marshal_ec_pub id (Z.abs x) (Z.abs y) = marshal_ec_pub id x y).
  { unfold marshal_ec_pub. destruct (oidFromNamedCurve id) as [oo|]; [|reflexivity]. destruct (curve_of id) as [c|]; [|reflexivity]. rewrite E. reflexivity. }
  split; [|split; [|split; [|split]]].
  - unfold MarshalECPrivateKey. destruct (oidFromNamedCurve id); [|reflexivity]. destruct (curve_of id); [|reflexivity]. symmetry. apply F.
  - cbn [MarshalPKCS8PrivateKey]. symmetry. apply G.
  - cbn [MarshalPKCS8PrivateKey sk_Pub sk_D pk_Curve pk_X pk_Y]. symmetry. apply G.
  - unfold MarshalPKIXPublicKey. cbn [marshalPublicKey]. rewrite H. reflexivity.
  - unfold MarshalPKIXPublicKey. cbn [marshalPublicKey pk_Curve pk_X pk_Y]. rewrite H. reflexivity.
Qed.
Print Assumptions C121_sign_lost.

(** not vacuous: all three outcomes occur *)
Example C121_instance : (exists b, MarshalECPrivateKey 224 1 2 (-3) = Ret b) /\ MarshalECPrivateKey 224 (2 ^ 224) 2 3 = Panic /\ (exists e, MarshalECPrivateKey 1 1 1 1 = Err e) /\
  In (224, 28) curve_widths /\ ~ In 1 (map fst curve_widths) /\ MarshalPKCS8PrivateKey (SKed25519 []) = Panic /\ MarshalPKCS8PrivateKey (SKrsa (mkRsa 3 3 3 [3])) = Panic /\
  (exists b, MarshalPKIXPublicKey (PKecdsa 256 (-5) (2 ^ 256 - 1)) = Ret b) /\ MarshalPKIXPublicKey (PKecdsa 256 5 (2 ^ 256)) = Panic.
Proof.
  split; [eexists; vm_compute; reflexivity|]. split; [vm_compute; reflexivity|]. split; [eexists; vm_compute; reflexivity|]. split; [cbn; auto|].
  split; [vm_compute; intuition discriminate|]. split; [reflexivity|]. split; [reflexivity|]. split; [eexists; vm_compute; reflexivity|vm_compute; reflexivity].
Qed.
