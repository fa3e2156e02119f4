(** * C116: elliptic-curve private keys on every supported curve (P-224, P-256, P-384, P-521 and SM2) *)
From Coq Require Import String Znumtheory.
From Verif Require Import Base Words ECSpec ECModel ECProofs ECBridge BaseOrder SM2Spec SM2Model CryptoByte Asn1 Asn1Proofs KeysModel KeysProofs Primes Pock NistPrimes.
Open Scope Z_scope.

(** ** Specification: the curve y^2 = x^3 - 3x + b over the integers modulo the prime p, with its group law (ECSpec), and its generator *)
Definition curve_a (c : curve) : Z := cv_P c - 3.
Definition curve_point (c : curve) (A : pt) : Prop := on_curve (cv_P c) (curve_a c) (cv_B c) A.
Definition curve_G (c : curve) : pt := PA (cv_Gx c) (cv_Gy c).
(** k times the generator *)
Definition curve_mulG (c : curve) (k : Z) : pt := pmul (cv_P c) (curve_a c) k (curve_G c).

(** the conditions of the group law *)
Definition curve_good (c : curve) : Prop :=
  prime (cv_P c) /\ 3 < cv_P c /\ (4 * (curve_a c * curve_a c * curve_a c) + 27 * (cv_B c * cv_B c)) mod cv_P c <> 0 /\
  curve_a c mod cv_P c = -3 mod cv_P c /\ cv_B c mod cv_P c <> 0 /\ curve_point c (curve_G c).
Lemma good_make c : prime (cv_P c) ->
  (3 <? cv_P c) && negb ((4 * (curve_a c * curve_a c * curve_a c) + 27 * (cv_B c * cv_B c)) mod cv_P c =? 0) &&
  (curve_a c mod cv_P c =? -3 mod cv_P c) && negb (cv_B c mod cv_P c =? 0) && IsOnCurve (cv_P c) (cv_B c) (cv_Gx c) (cv_Gy c) = true -> curve_good c.
Proof.
  intros Pp H. rewrite !Bool.andb_true_iff, !Bool.negb_true_iff, !Z.eqb_eq, !Z.eqb_neq, Z.ltb_lt in H. destruct H as ((((H1 & H2) & H3) & H4) & H5).
  repeat (split; [assumption|]). unfold curve_point, curve_G. apply IsOnCurve_spec; [lia|exact H3|exact H5].
Qed.
Theorem C116_curves_good : forall id c, curve_of id = Some c -> curve_good c.
Proof.
  unfold curve_of. intros id c.
  destruct (_ =? _); [intros [= <-]; apply good_make; [exact sm2_P_prime|vm_compute; reflexivity]|].
  destruct (_ =? _); [intros [= <-]; apply good_make; [exact prime_26959946667150639794667015087019630673557916260026308143510066298881|vm_compute; reflexivity]|].
  destruct (_ =? _); [intros [= <-]; apply good_make; [exact prime_115792089210356248762697446949407573530086143415290314195533631308867097853951|vm_compute; reflexivity]|].
  destruct (_ =? _); [intros [= <-]; apply good_make; [exact prime_39402006196394479212279040100143613805079739270465446667948293404245721771496870329047266088258938001861606973112319|vm_compute; reflexivity]|].
  destruct (_ =? _); [|discriminate].
  intros [= <-]; apply good_make; [exact prime_6864797660130609714981900799081393217269435300143305409394463459185543183397656052122559640661454554977296311391480858037121987999716643812574028291115057151|vm_compute; reflexivity].
Qed.
Print Assumptions C116_curves_good.

Lemma mulG_point c k : curve_good c -> curve_point c (curve_mulG c k).
Proof. intros (Pp & P3 & D & _ & _ & G). exact (pmul_closed (cv_P c) (curve_a c) (cv_B c) Pp P3 k (curve_G c) G). Qed.
(** C116: the library's scalar multiplication returns the affine coordinates of k*G ((0,0) for the point at infinity) *)
Theorem C116_scalar_base_mult : forall id c kb, curve_of id = Some c -> bytes_ok kb ->
  cv_ScalarBaseMult c kb = Ret (enc (curve_mulG c (be_to_Z kb))) /\ curve_point c (curve_mulG c (be_to_Z kb)).
Proof.
  intros id c kb Hc Hb. pose proof (C116_curves_good id c Hc) as Gd. split; [|now apply mulG_point].
  destruct Gd as (Pp & P3 & D & A3 & B0 & G). exact (ScalarMult_correct (cv_P c) (curve_a c) (cv_B c) Pp P3 D A3 B0 (cv_Gx c) (cv_Gy c) kb G Hb).
Qed.
Print Assumptions C116_scalar_base_mult.
Lemma mulG_range id c k : curve_of id = Some c -> 0 <= fst (enc (curve_mulG c k)) < cv_P c /\ 0 <= snd (enc (curve_mulG c k)) < cv_P c.
Proof.
  intros Hc. pose proof (C116_curves_good id c Hc) as Gd. pose proof (mulG_point c k Gd) as H. destruct Gd as (_ & P3 & _).
  destruct (curve_mulG c k) as [|x y]; cbn [enc fst snd]; [lia|]. unfold curve_point, on_curve in H. tauto.
Qed.

(** what an elliptic-curve private key must satisfy: D below the group order and (X, Y) = D*G *)
Definition ec_key_ok (k : privKey) : Prop :=
  match k with
  | SKsm2 k => pk_Curve (sk_Pub k) = SM2P256V1_id /\ 0 <= sk_D k < cv_N curve_sm2 /\ (pk_X (sk_Pub k), pk_Y (sk_Pub k)) = enc (curve_mulG curve_sm2 (sk_D k))
  | SKecdsa id x y d => In id [224; 256; 384; 521] /\ exists c, curve_of id = Some c /\ 0 <= d < cv_N c /\ (x, y) = enc (curve_mulG c d)
  | _ => False
  end.
Lemma consistent_ok k : key_consistent k -> (forall id x y d, k = SKecdsa id x y d -> In id [224; 256; 384; 521]) -> ec_key_ok k.
Proof.
  destruct k as [|id x y d|k| |]; cbn [key_consistent ec_key_ok]; auto.
  - intros (_ & c & Hc & Hd & kb & (_ & Hb) & V & E) Hid. split; [eapply Hid; reflexivity|]. exists c. split; [exact Hc|]. split; [exact Hd|].
    destruct (C116_scalar_base_mult id c kb Hc Hb) as [E' _]. rewrite E, V in E'. assert (Inj : forall a b : Z * Z, Ret a = Ret b -> a = b) by (intros ? ? [= ->]; reflexivity). exact (Inj _ _ E').
Qed.
Lemma parseEC_id hint der id x y d : parseECPrivateKey hint der = Ret (SKecdsa id x y d) -> In id [224; 256; 384; 521].
Proof.
  unfold parseECPrivateKey. destruct (Unmarshal cEC der) as [[v r]| |]; [| |discriminate].
  2:{ destruct (ok _); [discriminate|]. destruct (ok _); discriminate. }
  destruct (negb _); [discriminate|]. destruct (namedCurveFromOID _) as [i|] eqn:En; [|discriminate].
  destruct (curve_of i) as [c|]; [|discriminate]. cbv zeta. destruct (_ <=? _); [discriminate|].
  destruct (strip_zeros _ _) as [pk| |]; cbn [bind]; try discriminate. destruct (cv_ScalarBaseMult c _) as [xy| |]; cbn [bind]; try discriminate.
  destruct (Z.eqb_spec i SM2P256V1_id) as [|N]; [discriminate|]. intros [= <- _ _ _]. unfold namedCurveFromOID in En.
  repeat match type of En with (if ?b then _ else _) = _ => destruct b; [injection En as <-; first [exfalso; apply N; reflexivity | cbn; tauto]|] end. discriminate En.
Qed.
(** C116: a successfully parsed elliptic-curve key is such a key, in both formats *)
Theorem C116_parsed_keys : forall edPub der k, bytes_ok der ->
  (ParseECPrivateKey der = Ret k -> ec_key_ok k) /\
  (ParsePKCS8PrivateKey edPub der = Ret k -> ec_key_ok k \/ (exists r, k = SKrsa r) \/ exists e, k = SKed25519 e).
Proof.
  intros edPub der k Ho. split.
  - intros E. apply consistent_ok; [eapply parseEC_sound; eauto|]. intros id x y d ->. eapply parseEC_id; exact E.
  - unfold ParsePKCS8PrivateKey. destruct (Unmarshal cP8 der) as [[v r]| |] eqn:U; [| |discriminate].
    2:{ destruct (ok _); [discriminate|]. destruct (ok _); discriminate. }
    pose proof (cP8_inner_ok der v r Ho U) as Hi. cbv zeta. destruct (oid_eqb _ oidPublicKeyRSA).
    { destruct (ParsePKCS1PrivateKey _) as [k1| |]; [|discriminate|discriminate]. intros [= <-]. eauto. }
    destruct (oid_eqb _ oidPublicKeyECDSA).
    { destruct (parseECPrivateKey _ _) as [k1| |] eqn:E1; [|discriminate|discriminate]. intros [= <-]. left.
      apply consistent_ok; [eapply parseEC_sound; [|exact E1]; exact Hi|]. intros id x y d ->. eapply parseEC_id; exact E1. }
    destruct (oid_eqb _ oidPublicKeyEd25519); [|discriminate].
    destruct (sl (rv_full _)); [|discriminate]. destruct (Unmarshal cBytes _) as [[s ?]| |]; [|discriminate|discriminate].
    destruct (negb _); [discriminate|]. intros [= <-]. eauto.
Qed.
Print Assumptions C116_parsed_keys.
Lemma base_mult_d id c d x y : curve_of id = Some c -> 0 <= d < cv_N c -> (x, y) = enc (curve_mulG c d) ->
  cv_ScalarBaseMult c (Z_to_be (byteLen (BitLen (cv_N c))) d) = Ret (x, y) /\ 0 <= x < cv_P c /\ 0 <= y < cv_P c.
Proof.
  intros Hc Hd E. destruct (curve_sizes id c Hc) as (_ & _ & BN & _).
  destruct (C116_scalar_base_mult id c (Z_to_be (byteLen (BitLen (cv_N c))) d) Hc (Z_to_be_ok _ _)) as [M _].
  rewrite be_to_Z_to_be_small in M by lia. rewrite <- E in M. split; [exact M|]. pose proof (mulG_range id c d Hc) as R. rewrite <- E in R. exact R.
Qed.
(** ... and every such key survives encoding and parsing in both formats *)
Theorem C116_roundtrip : forall edPub id c x y d, curve_of id = Some c -> 0 <= d < cv_N c -> (x, y) = enc (curve_mulG c d) ->
  let key := if id =? SM2P256V1_id then SKsm2 (mkPriv (mkPub id x y) d) else SKecdsa id x y d in
  ec_key_ok key /\
  (exists der, MarshalECPrivateKey id x y d = Ret der /\ ParseECPrivateKey der = Ret key) /\
  (exists der, MarshalPKCS8PrivateKey key = Ret der /\ ParsePKCS8PrivateKey edPub der = Ret key).
Proof.
  intros edPub id c x y d Hc Hd E key. destruct (base_mult_d id c d x y Hc Hd E) as (M & Rx & Ry).
  assert (Ho : exists o, oidFromNamedCurve id = Some o /\ (id <> SM2P256V1_id -> In id [224; 256; 384; 521])).
  { unfold curve_of in Hc. unfold oidFromNamedCurve.
    destruct (Z.eqb_spec id 224) as [->|]; [eexists; split; [reflexivity|cbn; tauto]|]. destruct (Z.eqb_spec id 256) as [->|]; [eexists; split; [reflexivity|cbn; tauto]|].
    destruct (Z.eqb_spec id 384) as [->|]; [eexists; split; [reflexivity|cbn; tauto]|]. destruct (Z.eqb_spec id 521) as [->|]; [eexists; split; [reflexivity|cbn; tauto]|].
    destruct (Z.eqb_spec id SM2P256V1_id) as [->|]; [eexists; split; [reflexivity|congruence]|]. discriminate Hc. }
  destruct Ho as (o & Ho & Hid). split; [|split].
  - unfold key. destruct (Z.eqb_spec id SM2P256V1_id) as [->|N]; cbn [ec_key_ok].
    + rewrite curve_of_sm2 in Hc. injection Hc as <-. cbn [sk_Pub sk_D pk_Curve pk_X pk_Y]. split; [reflexivity|]. split; [exact Hd|exact E].
    + split; [auto|]. exists c. auto.
  - destruct (marshal_ec_total id c x y d o o Hc Ho Hd Rx Ry ltac:(auto)) as (bs & Em & L).
    exists bs. unfold MarshalECPrivateKey. rewrite Ho, Hc. split; [exact Em|].
    exact (parse_marshal_ec id c x y d o o bs None Hc Ho Hd M ltac:(auto) ltac:(auto) Em ltac:(lia)).
  - unfold key. destruct (Z.eqb_spec id SM2P256V1_id) as [Ei|N].
    + destruct (pkcs8_ec_rt edPub id c x y d o (Some o) Hc Ho Hd Rx Ry M ltac:(auto)) as (bs & Em & _ & P). exists bs.
      replace (id =? SM2P256V1_id) with true in P by (symmetry; now apply Z.eqb_eq). split; [|exact P].
      cbn [MarshalPKCS8PrivateKey sk_Pub sk_D pk_Curve pk_X pk_Y]. subst id. injection Ho as <-. exact Em.
    + destruct (pkcs8_ec_rt edPub id c x y d o None Hc Ho Hd Rx Ry M ltac:(auto)) as (bs & Em & _ & P). exists bs.
      replace (id =? SM2P256V1_id) with false in P by (symmetry; now apply Z.eqb_neq). split; [|exact P]. exact Em.
Qed.
Print Assumptions C116_roundtrip.
(** D = 1 on each of the curves: the public key is the generator *)
Example C116_instance : forall id c, In (id, c) [(SM2P256V1_id, curve_sm2); (224, curve_p224); (256, curve_p256); (384, curve_p384); (521, curve_p521)] ->
  curve_of id = Some c /\ 0 <= 1 < cv_N c /\ (cv_Gx c, cv_Gy c) = enc (curve_mulG c 1).
Proof.
  intros id c H. assert (G : (cv_Gx c, cv_Gy c) = enc (curve_mulG c 1)) by (unfold curve_mulG; rewrite pmul_1; reflexivity).
  split; [|split; [|exact G]]; clear G; repeat (destruct H as [H|H]; [injection H as <- <-; first [reflexivity | split; [discriminate|reflexivity]]|]); destruct H.
Qed.
