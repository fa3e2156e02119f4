(** * Proofs about the key encodings *)
From Coq Require Import String.
From Verif Require Import Base Words ECSpec ECModel SM2Model CryptoByte Asn1 Asn1Proofs KeysModel Primes ECProofs SM2SigProofs BaseOrder.
From Coq Require Import ZifyBool ZifyNat.
Open Scope Z_scope.

(** ** AlgorithmIdentifier *)
Definition rawOf (t : tagLen) (i f : bytes) : rawValue := mkRaw (t_class t) (t_tag t) (t_comp t) (Some i) (Some f).
Lemma raw_opt_rt r f t i : c_iszero cRaw r = false -> raw_whole r = Ret f -> elem f t i -> field_rt cRaw optP r (rawOf t i f).
Proof.
  intros Hz Hw El bs tail E _. unfold makeField in E. cbn [p_omit p_opt p_def optP andb] in E. rewrite Hz in E. cbn [c_whole cRaw] in E. rewrite Hw in E.
  assert (bs = f) by congruence. subst bs. apply raw_parse; auto.
Qed.
Lemma frt_params r f t i : c_iszero cRaw r = false -> raw_whole r = Ret f -> elem f t i -> frt (fcons optP cRaw fnil) (r, tt) (rawOf t i f, tt).
Proof. intros. apply frt_cons; [apply raw_opt_rt; auto|]. intros bs E _. reflexivity. Qed.
Lemma frt_params_zero : frt (fcons optP cRaw fnil) (rawZero, tt) (rawZero, tt).
Proof. apply frt_skip_end; try reflexivity. intros bs E _. reflexivity. Qed.
Lemma cAI_rt o r r' : oid_ok o -> frt (fcons optP cRaw fnil) (r, tt) (r', tt) -> field_rt cAI noP (mkAI o r) (mkAI o r').
Proof.
  intros Ho Hf. apply make_rt; try reflexivity; [cbn; unfold TagSequence; lia|split; reflexivity|].
  intros body t full E Hz. cbn [c_parse cAI cStruct c_body] in *. cbn [ai_alg ai_params] in E.
  assert (Ho' : field_rt cOID noP o o).
  { apply make_rt; try reflexivity; [cbn; unfold TagOID; lia|split; reflexivity|]. apply oid_body_rt. exact Ho. }
  rewrite (frt_cons noP cOID (fcons optP cRaw fnil) o o (r, tt) (r', tt) Ho' Hf body E Hz). reflexivity.
Qed.
Lemma int_rt n : - 2 ^ 63 <= n < 2 ^ 63 -> field_rt cInt noP n n.
Proof. intros H. apply make_rt; try reflexivity; [cbn; unfold TagInteger; lia|split; reflexivity|]. apply int_body_rt. exact H. Qed.
Lemma big_rt n : field_rt cBig noP (Some n) (Some n).
Proof. apply make_rt; try reflexivity; [cbn; unfold TagInteger; lia|split; reflexivity|]. apply big_body_rt. Qed.
Lemma big_opt_rt n : field_rt cBig optP (Some n) (Some n).
Proof. apply make_rt; try reflexivity; [cbn; unfold TagInteger; lia|split; reflexivity|]. apply big_body_rt. Qed.
Lemma bytes_rt b : field_rt cBytes noP (Some b) (Some b).
Proof. apply make_rt; try reflexivity; [cbn; unfold TagOctetString; lia|split; reflexivity|]. intros body t full E Hz. exact (bytes_body_rt _ (Some b) body t full E Hz). Qed.
Lemma oid_rt_f o : oid_ok o -> field_rt cOID noP o o.
Proof. intros H. apply make_rt; try reflexivity; [cbn; unfold TagOID; lia|split; reflexivity|]. apply oid_body_rt. exact H. Qed.
Lemma frt_nil' : frt fnil tt tt. Proof. intros bs E _. reflexivity. Qed.
(** from a field round trip to Marshal/Unmarshal *)
Lemma marshal_rt {A} (c : codec A) a a' bs : field_rt c noP a a' -> Marshal c a = Ret bs -> zlen bs < 2 ^ 31 -> Unmarshal c bs = Ret (a', []).
Proof. intros H E Hz. specialize (H bs [] E Hz). rewrite app_nil_r in H. exact H. Qed.
Lemma struct_rt {X A} (fs : fcodec X) (mk : X -> A) un a x' : frt fs (un a) x' -> field_rt (cStruct fs mk un) noP a (mk x').
Proof. intros H. apply make_rt; try reflexivity; [cbn; unfold TagSequence; lia|split; reflexivity|]. apply struct_body_rt. exact H. Qed.

(** ** EC private keys *)
(** BitLength 0 with non-nil Bytes is written with no unused bits and read back with the full length *)
Lemma bits0_rt b : field_rt cBits (optExplicitP 1) (mkBits (Some b) 0) (mkBits (Some b) (8 * zlen b)).
Proof.
  apply make_rt; try reflexivity; [cbn; unfold maxInt32; lia|cbn; unfold TagBitString; lia|split; reflexivity|].
  intros body t full E Hz. apply (bits_body_rt false b body t full); auto. cbn [c_body cBits prim] in *. unfold bits_body in *. cbn [bs_len bs_bytes] in *.
  replace (Z.rem (8 * zlen b) 8) with 0 by (rewrite Z.mul_comm; symmetry; apply Z.rem_mul; lia). exact E.
Qed.
Lemma cEC_rt pk o pub : oid_ok o \/ o = [] -> field_rt cEC noP (mkEC 1 (Some pk) o (mkBits (Some pub) 0)) (mkEC 1 (Some pk) o (mkBits (Some pub) (8 * zlen pub))).
Proof.
  intros Ho. change (mkEC 1 (Some pk) o (mkBits (Some pub) (8 * zlen pub))) with ((fun '(v, (k, (o, (p, _)))) => mkEC v k o p) (1, (Some pk, (o, (mkBits (Some pub) (8 * zlen pub), tt))))).
  apply struct_rt. cbn [ec_Version ec_PrivateKey ec_OID ec_PublicKey].
  apply frt_cons; [apply int_rt; lia|]. apply frt_cons; [apply bytes_rt|].
  assert (T : frt (fcons (optExplicitP 1) cBits fnil) (mkBits (Some pub) 0, tt) (mkBits (Some pub) (8 * zlen pub), tt)).
  { apply frt_cons; [apply bits0_rt|apply frt_nil']. }
  destruct Ho as [Ho| ->].
  - apply frt_cons; [|exact T]. apply make_rt; try reflexivity; [cbn; unfold maxInt32; lia|cbn; unfold TagOID; lia| |apply oid_body_rt; exact Ho].
    split; [reflexivity|]. cbn [p_opt p_def optExplicitP c_iszero cOID prim andb]. destruct o; [destruct Ho|reflexivity].
  - apply frt_skip; try reflexivity; [cbn; unfold maxInt32; lia| |exact T].
    intros y Ey Hz. cbn [p_tag optExplicitP]. cbn [f_enc fcons fst snd fnil] in Ey.
    destruct (makeField cBits (optExplicitP 1) (mkBits (Some pub) 0)) as [m| |] eqn:Em; cbn [bind] in Ey; try discriminate Ey.
    assert (y = m) by (rewrite app_nil_r in Ey; congruence). subst m.
    assert (Hy : exists inner, y = hdr ClassContext 1 true (zlen inner) ++ inner /\ inner <> []).
    { rewrite present_make in Em by (try split; reflexivity). cbn [p_set optExplicitP andb p_tag p_exp] in Em. cbv zeta in Em.
      destruct (c_body cBits _ (mkBits (Some pub) 0)) as [bd| |]; cbn [bind] in Em; try discriminate Em. exists (hdr ClassUniversal (c_tag cBits) (c_comp cBits) (zlen bd) ++ bd). split; [congruence|].
      destruct (hdr_ne ClassUniversal (c_tag cBits) (c_comp cBits) (zlen bd) bd) as (? & ? & ->). discriminate. }
    destruct Hy as (inner & -> & Ni). pose proof (zlen_nonneg inner). rewrite zlen_app in Hz. pose proof (hdr_zlen ClassContext 1 true (zlen inner)).
    exists (mkTL ClassContext 1 (zlen inner) true), inner. split; [apply hdr_parse; unfold ClassContext, maxInt32; lia|]. split; [exact Ni|]. right. cbn [t_tag]. lia.
Qed.

(** sizes *)
Lemma make_small {A} (c : codec A) p a : present c p a -> c_whole c a = None -> p_tag p = None -> 0 <= c_tag c <= 30 -> p_set p = false ->
  forall body n, c_body c (c_tag c =? TagSet) a = Ret body -> zlen body <= n -> n < 2 ^ 32 -> exists bs, makeField c p a = Ret bs /\ zlen bs <= n + 6.
Proof.
  intros Hp Hw Ht Htag Hs body n Eb Hn Hn2. rewrite present_make by auto. rewrite Hs, Ht. cbn [andb]. cbv zeta. rewrite Eb. cbn [bind].
  eexists. split; [reflexivity|]. pose proof (zlen_nonneg body). pose proof (hdr_zlen_upper ClassUniversal (c_tag c) (c_comp c) (zlen body) ltac:(lia) ltac:(lia)).
  rewrite zlen_app. lia.
Qed.
Lemma make_small_exp {A} (c : codec A) n a : present c (optExplicitP n) a -> c_whole c a = None -> 0 <= n <= 30 -> 0 <= c_tag c <= 30 ->
  forall body m, c_body c (c_tag c =? TagSet) a = Ret body -> zlen body <= m -> m + 6 < 2 ^ 32 -> exists bs, makeField c (optExplicitP n) a = Ret bs /\ zlen bs <= m + 12.
Proof.
  intros Hp Hw Hn Htag body m Eb Hm Hm2. rewrite present_make by auto. cbn [p_set p_tag p_exp optExplicitP andb]. cbv zeta. rewrite Eb. cbn [bind].
  eexists. split; [reflexivity|]. pose proof (zlen_nonneg body).
  pose proof (hdr_zlen_upper ClassUniversal (c_tag c) (c_comp c) (zlen body) ltac:(lia) ltac:(lia)).
  pose proof (hdr_zlen ClassUniversal (c_tag c) (c_comp c) (zlen body)).
  pose proof (hdr_zlen_upper ClassContext n true (zlen (hdr ClassUniversal (c_tag c) (c_comp c) (zlen body) ++ body)) ltac:(lia) ltac:(rewrite zlen_app; lia)).
  rewrite zlen_app. rewrite zlen_app in *. lia.
Qed.
Lemma cEC_small pk o ob pub : (o = [] \/ (oid_ok o /\ oid_body o = Ret ob)) -> zlen ob <= 100 -> zlen pk <= 100 -> zlen pub <= 200 ->
  exists bs, Marshal cEC (mkEC 1 (Some pk) o (mkBits (Some pub) 0)) = Ret bs /\ zlen bs < 500.
Proof.
  intros Ho Hob Hpk Hpub. unfold Marshal.
  assert (E : exists body, c_body cEC (c_tag cEC =? TagSet) (mkEC 1 (Some pk) o (mkBits (Some pub) 0)) = Ret body /\ zlen body <= 450).
  { cbn [c_body cEC cStruct f_enc fcons fst snd ec_Version ec_PrivateKey ec_OID ec_PublicKey fnil].
    destruct (make_small cInt noP 1 ltac:(split; reflexivity) eq_refl eq_refl ltac:(cbn; unfold TagInteger; lia) eq_refl [1] 1 eq_refl ltac:(vm_compute; discriminate) ltac:(lia)) as (b1 & -> & L1). cbn [bind].
    destruct (make_small cBytes noP (Some pk) ltac:(split; reflexivity) eq_refl eq_refl ltac:(cbn; unfold TagOctetString; lia) eq_refl pk 100 eq_refl Hpk ltac:(lia)) as (b2 & -> & L2). cbn [bind].
    assert (X : exists b3, makeField cOID (optExplicitP 0) o = Ret b3 /\ zlen b3 <= 112).
    { destruct Ho as [->|[Ho Eo]]; [exists []; split; [reflexivity|vm_compute; discriminate]|].
      change 112 with (100 + 12). apply (make_small_exp cOID 0 o) with (body := ob); auto; try lia; [|cbn; unfold TagOID; lia].
      split; [reflexivity|]. cbn [p_opt p_def optExplicitP c_iszero cOID prim andb]. destruct o; [destruct Ho|reflexivity]. }
    destruct X as (b3 & -> & L3). cbn [bind].
    destruct (make_small_exp cBits 1 (mkBits (Some pub) 0) ltac:(split; reflexivity) eq_refl ltac:(lia) ltac:(cbn; unfold TagBitString; lia) (0 :: pub) 201 eq_refl ltac:(rewrite zlen_cons; lia) ltac:(lia)) as (b4 & -> & L4).
    cbn [bind]. eexists. split; [reflexivity|]. rewrite !zlen_app. change (zlen (@nil Z)) with 0. lia. }
  destruct E as (body & Eb & Lb).
  destruct (make_small cEC noP (mkEC 1 (Some pk) o (mkBits (Some pub) 0)) ltac:(split; reflexivity) eq_refl eq_refl ltac:(cbn; unfold TagSequence; lia) eq_refl body 450 Eb Lb ltac:(lia)) as (bs & E & L).
  exists bs. split; [exact E|lia].
Qed.

(** PKCS#8 wrapper *)
Lemma cP8_rt a a' k : field_rt cAI noP a a' -> field_rt cP8 noP (mkP8 0 a (Some k)) (mkP8 0 a' (Some k)).
Proof.
  intros Ha. change (mkP8 0 a' (Some k)) with ((fun '(v, (a, (k, _))) => mkP8 v a k) (0, (a', (Some k, tt)))). apply struct_rt. cbn [p8_Version p8_Algo p8_PrivateKey].
  apply frt_cons; [apply int_rt; lia|]. apply frt_cons; [exact Ha|]. apply frt_cons; [apply bytes_rt|apply frt_nil'].
Qed.
Lemma cAI_small o ob r f : oid_ok o -> oid_body o = Ret ob -> zlen ob <= 100 -> makeField cRaw optP r = Ret f -> zlen f <= 100 ->
  exists bs, makeField cAI noP (mkAI o r) = Ret bs /\ zlen bs <= 300.
Proof.
  intros Ho Eo Lo Ef Lf.
  assert (E : exists body, c_body cAI (c_tag cAI =? TagSet) (mkAI o r) = Ret body /\ zlen body <= 250).
  { cbn [c_body cAI cStruct f_enc fcons fst snd ai_alg ai_params fnil].
    destruct (make_small cOID noP o ltac:(split; reflexivity) eq_refl eq_refl ltac:(cbn; unfold TagOID; lia) eq_refl ob 100 Eo Lo ltac:(lia)) as (b1 & -> & L1). cbn [bind].
    rewrite Ef. cbn [bind]. eexists. split; [reflexivity|]. rewrite !zlen_app. change (zlen (@nil Z)) with 0. lia. }
  destruct E as (body & Eb & Lb).
  destruct (make_small cAI noP (mkAI o r) ltac:(split; reflexivity) eq_refl eq_refl ltac:(cbn; unfold TagSequence; lia) eq_refl body 250 Eb Lb ltac:(lia)) as (bs & E & L).
  exists bs. split; [exact E|lia].
Qed.
Lemma cP8_small a ab k n : makeField cAI noP a = Ret ab -> zlen ab <= 300 -> zlen k <= n -> n + 400 < 2 ^ 32 -> exists bs, Marshal cP8 (mkP8 0 a (Some k)) = Ret bs /\ zlen bs <= n + 400.
Proof.
  intros Ea La Hk Hn. pose proof (zlen_nonneg k). unfold Marshal.
  assert (E : exists body, c_body cP8 (c_tag cP8 =? TagSet) (mkP8 0 a (Some k)) = Ret body /\ zlen body <= n + 350).
  { cbn [c_body cP8 cStruct f_enc fcons fst snd p8_Version p8_Algo p8_PrivateKey fnil].
    destruct (make_small cInt noP 0 ltac:(split; reflexivity) eq_refl eq_refl ltac:(cbn; unfold TagInteger; lia) eq_refl [0] 1 eq_refl ltac:(vm_compute; discriminate) ltac:(lia)) as (b1 & -> & L1). cbn [bind].
    rewrite Ea. cbn [bind].
    destruct (make_small cBytes noP (Some k) ltac:(split; reflexivity) eq_refl eq_refl ltac:(cbn; unfold TagOctetString; lia) eq_refl k n eq_refl Hk ltac:(lia)) as (b2 & -> & L2). cbn [bind].
    eexists. split; [reflexivity|]. rewrite !zlen_app. change (zlen (@nil Z)) with 0. lia. }
  destruct E as (body & Eb & Lb).
  destruct (make_small cP8 noP (mkP8 0 a (Some k)) ltac:(split; reflexivity) eq_refl eq_refl ltac:(cbn; unfold TagSequence; lia) eq_refl body (n + 350) Eb Lb ltac:(lia)) as (bs & E & L).
  exists bs. split; [exact E|lia].
Qed.

(** ** the named curves *)
Lemma named_curve_cases id o : oidFromNamedCurve id = Some o ->
  oid_ok o /\ namedCurveFromOID o = Some id /\ (exists c, curve_of id = Some c) /\
  (exists ob f, oid_body o = Ret ob /\ zlen ob <= 100 /\ Marshal cOID o = Ret f /\ zlen f <= 100 /\ Unmarshal cOID f = Ret (o, []) /\
     (exists t i, elem f t i) /\ readOID f = Some (o, []) /\ f <> []).
Proof.
  assert (D : forall id o, oid_ok o -> namedCurveFromOID o = Some id -> (exists c, curve_of id = Some c) ->
    (exists ob f, oid_body o = Ret ob /\ (zlen ob <=? 100) = true /\ Marshal cOID o = Ret f /\ (zlen f <=? 100) = true /\ Unmarshal cOID f = Ret (o, []) /\ readOID f = Some (o, []) /\ f <> []) ->
    oid_ok o /\ namedCurveFromOID o = Some id /\ (exists c, curve_of id = Some c) /\
  (exists ob f, oid_body o = Ret ob /\ zlen ob <= 100 /\ Marshal cOID o = Ret f /\ zlen f <= 100 /\ Unmarshal cOID f = Ret (o, []) /\
     (exists t i, elem f t i) /\ readOID f = Some (o, []) /\ f <> [])).
  { intros i p Ho Hn Hc (ob & f & E1 & E2 & E3 & E4 & E5 & E6 & E7). repeat (split; auto). exists ob, f. repeat (split; auto; try lia).
    destruct (make_elem cOID p f eq_refl ltac:(cbn; unfold TagOID; lia) E3 ltac:(lia)) as (bd & _ & _ & El). eauto. }
  unfold oidFromNamedCurve.
  destruct (Z.eqb_spec id 224) as [->|]; [|destruct (Z.eqb_spec id 256) as [->|]; [|destruct (Z.eqb_spec id 384) as [->|]; [|destruct (Z.eqb_spec id 521) as [->|]; [|destruct (Z.eqb_spec id SM2P256V1_id) as [->|]; [|discriminate]]]]];
  intros E; injection E as <-; (apply D; [repeat constructor; vm_compute; discriminate|reflexivity|eexists; reflexivity|]);
  (eexists _, _; split; [reflexivity|]; split; [reflexivity|]; split; [reflexivity|]; split; [reflexivity|]; split; [reflexivity|]; split; [reflexivity|discriminate]).
Qed.
Lemma curve_sizes id c : curve_of id = Some c -> (byteLen (cv_BitSize c) <= 66)%nat /\ (byteLen (BitLen (cv_N c)) <= 66)%nat /\
  0 < cv_N c <= 256 ^ Z.of_nat (byteLen (BitLen (cv_N c))) /\ cv_P c < 256 ^ Z.of_nat (byteLen (cv_BitSize c)).
Proof.
  unfold curve_of.
  destruct (_ =? _); [|destruct (_ =? _); [|destruct (_ =? _); [|destruct (_ =? _); [|destruct (_ =? _); [|discriminate]]]]];
  intros [= <-]; (split; [vm_compute; repeat constructor|split; [vm_compute; repeat constructor|split; [split; vm_compute; try reflexivity; discriminate|vm_compute; reflexivity]]]).
Qed.
Lemma FillBytes_ok n x : 0 <= x < 256 ^ Z.of_nat n -> FillBytes n x = Ret (Z_to_be n x).
Proof. intros H. unfold FillBytes. rewrite Z.abs_eq by lia. replace (x <? 256 ^ Z.of_nat n) with true by lia. reflexivity. Qed.
Lemma strip_zeros_short n k : (List.length k <= n)%nat -> strip_zeros n k = Ret k.
Proof. intros H. destruct k; cbn [strip_zeros]; rewrite (proj2 (Nat.leb_le _ _)) by exact H; reflexivity. Qed.
Lemma elliptic_Marshal_ok id c x y : curve_of id = Some c -> 0 <= x < cv_P c -> 0 <= y < cv_P c ->
  elliptic_Marshal c x y = Ret (4 :: Z_to_be (byteLen (cv_BitSize c)) x ++ Z_to_be (byteLen (cv_BitSize c)) y).
Proof.
  intros Hc Hx Hy. destruct (curve_sizes id c Hc) as (_ & _ & _ & B). unfold elliptic_Marshal. rewrite !FillBytes_ok by lia. reflexivity.
Qed.
(** SEC 1 encodings are read back with the point recomputed *)
Lemma parse_marshal_ec id c x y d o inner bs (hint : option oid) :
  curve_of id = Some c -> oidFromNamedCurve id = Some o -> 0 <= d < cv_N c ->
  cv_ScalarBaseMult c (Z_to_be (byteLen (BitLen (cv_N c))) d) = Ret (x, y) ->
  inner = [] \/ inner = o -> (hint = Some o \/ (hint = None /\ inner = o)) ->
  marshalECPrivateKeyWithOID c x y d inner = Ret bs -> zlen bs < 2 ^ 31 ->
  parseECPrivateKey hint bs = Ret (if id =? SM2P256V1_id then SKsm2 (mkPriv (mkPub id x y) d) else SKecdsa id x y d).
Proof.
  intros Hc Ho Hd Hm Hi Hh E Hz. destruct (named_curve_cases id o Ho) as (Ook & Hn & _ & _).
  destruct (curve_sizes id c Hc) as (_ & _ & BN & _).
  unfold marshalECPrivateKeyWithOID in E. rewrite FillBytes_ok in E by lia. cbn [bind] in E.
  destruct (elliptic_Marshal c x y) as [pub| |]; cbn [bind] in E; try discriminate E.
  remember (byteLen (BitLen (cv_N c))) as n eqn:Hnn.
  assert (R : Unmarshal cEC bs = Ret (mkEC 1 (Some (Z_to_be n d)) inner (mkBits (Some pub) (8 * zlen pub)), [])).
  { apply (marshal_rt cEC _ _ bs (cEC_rt (Z_to_be n d) inner pub ltac:(destruct Hi as [->| ->]; auto)) E Hz). }
  unfold parseECPrivateKey. rewrite R. cbn [ec_Version ec_OID ec_PrivateKey sl].
  change (negb (1 =? 1)) with false. cbn iota.
  assert (Eo : match hint with Some o => o | None => inner end = o) by (destruct Hh as [->|[-> ->]]; reflexivity). rewrite Eo, Hn, Hc. cbv zeta. rewrite <- Hnn.
  rewrite be_to_Z_to_be_small by lia. replace (cv_N c <=? d) with false by lia.
  rewrite (strip_zeros_short n (Z_to_be n d)) by (rewrite Z_to_be_length; exact (Nat.le_refl n)). cbn [bind]. rewrite Z_to_be_length, Nat.sub_diag. cbn [repeat app].
  rewrite Hm. cbn [bind fst snd]. destruct (id =? SM2P256V1_id); reflexivity.
Qed.
Lemma marshal_ec_total id c x y d o inner : curve_of id = Some c -> oidFromNamedCurve id = Some o -> 0 <= d < cv_N c ->
  0 <= x < cv_P c -> 0 <= y < cv_P c -> inner = [] \/ inner = o ->
  exists bs, marshalECPrivateKeyWithOID c x y d inner = Ret bs /\ zlen bs < 500.
Proof.
  intros Hc Ho Hd Hx Hy Hi. destruct (named_curve_cases id o Ho) as (Ook & Hn & _ & ob & f & Eob & Lob & _).
  destruct (curve_sizes id c Hc) as (B1 & B2 & BN & _).
  unfold marshalECPrivateKeyWithOID. rewrite FillBytes_ok by lia. cbn [bind]. rewrite (elliptic_Marshal_ok id) by auto. cbn [bind].
  apply cEC_small with (ob := ob).
  - destruct Hi as [->| ->]; auto.
  - exact Lob.
  - rewrite Z_to_be_zlen. lia.
  - rewrite zlen_cons, zlen_app, !Z_to_be_zlen. lia.
Qed.
(** PKCS#8 EC keys *)
Lemma pkcs8_ec_rt edPub id c x y d o inner : curve_of id = Some c -> oidFromNamedCurve id = Some o -> 0 <= d < cv_N c ->
  0 <= x < cv_P c -> 0 <= y < cv_P c ->
  cv_ScalarBaseMult c (Z_to_be (byteLen (BitLen (cv_N c))) d) = Ret (x, y) -> inner = None \/ inner = Some o ->
  exists bs, marshal_ec8 id x y d inner = Ret bs /\ zlen bs < 1000 /\
    ParsePKCS8PrivateKey edPub bs = Ret (if id =? SM2P256V1_id then SKsm2 (mkPriv (mkPub id x y) d) else SKecdsa id x y d).
Proof.
  intros Hc Ho Hd Hx Hy Hm Hi. destruct (named_curve_cases id o Ho) as (Ook & Hn & _ & ob & f & Eob & Lob & Ef & Lf & Uf & (t & i & El) & _ & Nf).
  set (io := match inner with Some o => o | None => [] end).
  assert (Hio : io = [] \/ io = o) by (unfold io; destruct Hi as [->| ->]; auto).
  destruct (marshal_ec_total id c x y d o io Hc Ho Hd Hx Hy Hio) as (pk & Epk & Lpk).
  unfold marshal_ec8. rewrite Ho, Hc, Ef. cbn [bind]. fold io. rewrite Epk. cbn [bind].
  set (raw := mkRaw 0 0 false None (Some f)).
  assert (Hw : raw_whole raw = Ret f) by (unfold raw_whole, raw; cbn [rv_full sl]; destruct f; [congruence|reflexivity]).
  assert (Hzr : c_iszero cRaw raw = false) by reflexivity.
  assert (Hmk : makeField cRaw optP raw = Ret f) by (unfold makeField; cbn [p_omit p_opt p_def optP andb c_whole cRaw]; rewrite Hzr; exact Hw).
  clearbody raw.
  assert (Oe : exists oe, oid_body oidPublicKeyECDSA = Ret oe /\ zlen oe <= 100) by (eexists; split; [reflexivity|vm_compute; discriminate]).
  destruct Oe as (oe & Eoe & Loe).
  assert (Oke : oid_ok oidPublicKeyECDSA) by (repeat constructor; vm_compute; discriminate).
  destruct (cAI_small oidPublicKeyECDSA oe raw f Oke Eoe Loe Hmk Lf) as (ab & Eab & Lab).
  destruct (cP8_small (mkAI oidPublicKeyECDSA raw) ab pk 500 Eab Lab ltac:(lia) ltac:(lia)) as (bs & Ebs & Lbs).
  exists bs. split; [exact Ebs|]. split; [lia|].
  assert (R : Unmarshal cP8 bs = Ret (mkP8 0 (mkAI oidPublicKeyECDSA (rawOf t i f)) (Some pk), [])).
  { apply (marshal_rt cP8 (mkP8 0 (mkAI oidPublicKeyECDSA raw) (Some pk))); [|exact Ebs|lia]. apply cP8_rt. apply cAI_rt; [exact Oke|]. apply frt_params; auto. }
  unfold ParsePKCS8PrivateKey. rewrite R. cbn [p8_Algo p8_PrivateKey ai_alg ai_params rawOf rv_full sl].
  change (oid_eqb oidPublicKeyECDSA oidPublicKeyRSA) with false. change (oid_eqb oidPublicKeyECDSA oidPublicKeyECDSA) with true. cbn iota.
  rewrite Uf. rewrite (parse_marshal_ec id c x y d o io pk (Some o)); auto. lia.
Qed.

(** ** soundness of parsing *)
Lemma cEC_bytes_ok s v r : bytes_ok s -> Unmarshal cEC s = Ret (v, r) -> bytes_ok (sl (ec_PrivateKey v)).
Proof.
  intros Ho E. apply Unmarshal_inv in E; auto. apply field_read_ok in E as (_ & t & full & inner & Hi & _ & _ & E); auto.
  cbn [c_parse cEC cStruct] in E. cbn [f_dec fcons fnil] in E.
  destruct (parseField cInt noP inner) as [[v1 r1]| |] eqn:E1; cbn [bind] in E; try discriminate E.
  destruct (parseField cBytes noP r1) as [[v2 r2]| |] eqn:E2; cbn [bind] in E; try discriminate E.
  destruct (parseField cOID _ r2) as [[v3 r3]| |] eqn:E3; cbn [bind] in E; try discriminate E.
  destruct (parseField cBits _ r3) as [[v4 r4]| |] eqn:E4; cbn [bind] in E; try discriminate E.
  injection E as <-. cbn [ec_PrivateKey]. eapply parse_cBytes_ok; [|exact E2]. eapply parseField_rest_ok; eauto.
Qed.
Lemma strip_zeros_spec n k pk : strip_zeros n k = Ret pk -> (List.length pk <= n)%nat /\ be_to_Z pk = be_to_Z k /\ (bytes_ok k -> bytes_ok pk).
Proof.
  revert pk. induction k as [|b k IH]; intros pk; cbn [strip_zeros].
  - destruct (Nat.leb_spec (List.length (@nil Z)) n); intros [= <-]; cbn [List.length] in *; repeat split; auto; lia.
  - destruct (Nat.leb_spec (List.length (b :: k)) n); [intros [= <-]; auto|].
    destruct (Z.eqb_spec b 0) as [->|]; cbn [negb]; [|discriminate]. intros E. apply IH in E as (A & B & C).
    split; [exact A|]. split; [rewrite B, be_to_Z_cons; lia|]. intros H0. apply C. apply bytes_ok_cons in H0. tauto.
Qed.
Lemma be_to_Z_zeros n k : be_to_Z (repeat 0 n ++ k) = be_to_Z k.
Proof. induction n; cbn [repeat app]; auto. Qed.
Definition key_consistent (k : privKey) : Prop :=
  match k with
  | SKsm2 k => pk_Curve (sk_Pub k) = SM2P256V1_id /\ 0 <= sk_D k < sm2_N /\
      (pk_X (sk_Pub k), pk_Y (sk_Pub k)) = enc (sm2_pmul (sk_D k) sm2_G)
  | SKecdsa id x y d => id <> SM2P256V1_id /\ exists c, curve_of id = Some c /\ 0 <= d < cv_N c /\
      exists kb, (List.length kb = byteLen (BitLen (cv_N c)) /\ bytes_ok kb) /\ be_to_Z kb = d /\ cv_ScalarBaseMult c kb = Ret (x, y)
  | _ => False
  end.
Lemma namedCurve_known o id : namedCurveFromOID o = Some id -> exists c, curve_of id = Some c.
Proof.
  unfold namedCurveFromOID. destruct (oid_eqb _ _); [|destruct (oid_eqb _ _); [|destruct (oid_eqb _ _); [|destruct (oid_eqb _ _); [|destruct (oid_eqb _ _); [|discriminate]]]]];
  intros [= <-]; eexists; reflexivity.
Qed.
Lemma curve_of_sm2 : curve_of SM2P256V1_id = Some curve_sm2. Proof. reflexivity. Qed.
Lemma parseEC_sound hint der k : bytes_ok der -> parseECPrivateKey hint der = Ret k -> key_consistent k.
Proof.
  intros Ho. unfold parseECPrivateKey. destruct (Unmarshal cEC der) as [[v r]| |] eqn:E; [| |discriminate].
  2:{ destruct (ok _); [discriminate|]. destruct (ok _); discriminate. }
  pose proof (cEC_bytes_ok der v r Ho E) as Hb. destruct (negb _); [discriminate|].
  set (o := match hint with Some o => o | None => ec_OID v end). destruct (namedCurveFromOID o) as [id|] eqn:En; [|discriminate].
  destruct (curve_of id) as [c|] eqn:Ec; [|discriminate]. cbv zeta.
  set (b := sl (ec_PrivateKey v)) in *. clearbody b o. destruct (Z.leb_spec (cv_N c) (be_to_Z b)) as [|Hlt]; [discriminate|].
  pose proof (be_to_Z_bound b Hb) as [B0 _].
  remember (byteLen (BitLen (cv_N c))) as n eqn:Hn.
  destruct (strip_zeros n b) as [pk| |] eqn:Es; cbn [bind]; try discriminate. apply strip_zeros_spec in Es as (L & V & O). specialize (O Hb).
  set (kb := repeat 0 (n - List.length pk) ++ pk).
  assert (Lk : List.length kb = n) by (unfold kb; rewrite app_length, repeat_length; lia).
  assert (Vk : be_to_Z kb = be_to_Z b) by (unfold kb; rewrite be_to_Z_zeros; exact V).
  assert (Ok : bytes_ok kb) by (unfold kb; apply bytes_ok_app; split; [apply bytes_ok_repeat; unfold byte_ok; lia|exact O]). clearbody kb.
  destruct (cv_ScalarBaseMult c kb) as [[x y]| |] eqn:Em; cbn [bind fst snd]; try discriminate.
  destruct (Z.eqb_spec id SM2P256V1_id) as [->|Hid].
  - rewrite curve_of_sm2 in Ec. injection Ec as <-. intros [= <-]. cbn [key_consistent sk_Pub sk_D pk_Curve pk_X pk_Y].
    change (cv_N curve_sm2) with sm2_N in Hlt. split; [reflexivity|]. split; [lia|].
    change (cv_ScalarBaseMult curve_sm2 kb) with (sm2_ScalarBaseMult kb) in Em. rewrite (sm2_ScalarBaseMult_correct kb Ok) in Em. rewrite <- Vk.
    assert (Inj : forall a b : Z * Z, Ret a = Ret b -> b = a) by (intros ? ? [= ->]; reflexivity). exact (Inj _ _ Em).
  - intros [= <-]. cbn [key_consistent]. split; [exact Hid|]. exists c. split; [exact Ec|]. split; [lia|]. exists kb. repeat split; auto. congruence.
Qed.
(** trailing data *)
Lemma parseEC_app hint der k tl : bytes_ok der -> parseECPrivateKey hint der = Ret k -> parseECPrivateKey hint (der ++ tl) = Ret k.
Proof.
  intros Ho. unfold parseECPrivateKey. destruct (Unmarshal cEC der) as [[v r]| |] eqn:E; [| |discriminate].
  - rewrite (Unmarshal_app cEC der v r tl Ho E). auto.
  - destruct (ok _); [discriminate|]. destruct (ok _); discriminate.
Qed.
Lemma parseP8_app edPub der k tl : bytes_ok der -> ParsePKCS8PrivateKey edPub der = Ret k -> ParsePKCS8PrivateKey edPub (der ++ tl) = Ret k.
Proof.
  intros Ho. unfold ParsePKCS8PrivateKey. destruct (Unmarshal cP8 der) as [[v r]| |] eqn:E; [| |discriminate].
  - rewrite (Unmarshal_app cP8 der v r tl Ho E). auto.
  - destruct (ok _); [discriminate|]. destruct (ok _); discriminate.
Qed.
Lemma cP8_inner_ok s v r : bytes_ok s -> Unmarshal cP8 s = Ret (v, r) -> bytes_ok (sl (p8_PrivateKey v)).
Proof.
  intros Ho E. apply Unmarshal_inv in E; auto. apply field_read_ok in E as (_ & t & full & inner & Hi & _ & _ & E); auto.
  cbn [c_parse cP8 cStruct] in E. cbn [f_dec fcons fnil] in E.
  destruct (parseField cInt noP inner) as [[v1 r1]| |] eqn:E1; cbn [bind] in E; try discriminate E.
  destruct (parseField cAI noP r1) as [[v2 r2]| |] eqn:E2; cbn [bind] in E; try discriminate E.
  destruct (parseField cBytes _ r2) as [[v3 r3]| |] eqn:E3; cbn [bind] in E; try discriminate E.
  injection E as <-. cbn [p8_PrivateKey]. eapply parse_cBytes_ok; [|exact E3]. eapply parseField_rest_ok; [|exact E2]. eapply parseField_rest_ok; eauto.
Qed.

(** ** public keys *)
Lemma elliptic_roundtrip id c x y : curve_of id = Some c -> IsOnCurve (cv_P c) (cv_B c) x y = true ->
  exists pub, elliptic_Marshal c x y = Ret pub /\ elliptic_Unmarshal c pub = Some (x, y) /\ (List.length pub <= 133)%nat /\ bytes_ok pub.
Proof.
  intros Hc Hon. assert (R : 0 <= x < cv_P c /\ 0 <= y < cv_P c).
  { unfold IsOnCurve in Hon. destruct ((x <? 0) || (cv_P c <=? x) || (y <? 0) || (cv_P c <=? y)) eqn:E; [discriminate|]. lia. }
  destruct (curve_sizes id c Hc) as (B1 & _ & _ & BP). rewrite (elliptic_Marshal_ok id) by tauto.
  remember (byteLen (cv_BitSize c)) as n eqn:Hn.
  exists (4 :: Z_to_be n x ++ Z_to_be n y). split; [reflexivity|].
  assert (L : List.length (4 :: Z_to_be n x ++ Z_to_be n y) = (1 + 2 * n)%nat) by (cbn [List.length]; rewrite app_length, !Z_to_be_length; lia).
  split; [|split; [lia|apply bytes_ok_cons; split; [unfold byte_ok; lia|apply bytes_ok_app; split; apply Z_to_be_ok]]].
  unfold elliptic_Unmarshal. rewrite <- Hn. rewrite L, Nat.eqb_refl. cbn [negb]. change (4 =? 4) with true. cbn [negb].
  rewrite firstn_app_exact, skipn_app_exact by (rewrite Z_to_be_length; reflexivity).
  rewrite !be_to_Z_to_be_small by lia. replace ((cv_P c <=? x) || (cv_P c <=? y)) with false by lia. rewrite Hon. reflexivity.
Qed.
Lemma bits_full_rt (b : bytes) : field_rt cBits noP (mkBits (Some b) (8 * zlen b)) (mkBits (Some b) (8 * zlen b)).
Proof. apply make_rt; try reflexivity; [cbn; unfold TagBitString; lia|split; reflexivity|]. apply bits_body_rt. Qed.
(** SubjectPublicKeyInfo written by MarshalPKIXPublicKey, read by ParsePKIXPublicKey *)
Lemma pki_rt ai ai' (b bs : bytes) : field_rt cAI noP ai ai' -> Marshal cPkix (mkPkix ai (mkBits (Some b) (8 * zlen b))) = Ret bs -> zlen bs < 2 ^ 31 ->
  Unmarshal cPKI bs = Ret (mkPKI (Some bs) ai' (mkBits (Some b) (8 * zlen b)), []).
Proof.
  intros Ha E Hz. pose proof (make_elem cPkix _ bs eq_refl ltac:(cbn; unfold TagSequence; lia) E Hz) as (body & Eb & -> & El).
  pose proof (zlen_nonneg body). rewrite zlen_app in Hz. pose proof (hdr_zlen ClassUniversal (c_tag cPkix) (c_comp cPkix) (zlen body)).
  assert (D : f_dec (fcons noP cAI (fcons noP cBits fnil)) body = Ret (ai', (mkBits (Some b) (8 * zlen b), tt))).
  { cbn [c_body cPkix cStruct pkx_Algo pkx_Bits] in Eb.
    apply (frt_cons noP cAI (fcons noP cBits fnil) ai ai' (mkBits (Some b) (8 * zlen b), tt) (mkBits (Some b) (8 * zlen b), tt) Ha); [|exact Eb|lia].
    apply frt_cons; [apply bits_full_rt|apply frt_nil']. }
  pose proof (Unmarshal_hdr cPKI body [] eq_refl ltac:(cbn; unfold TagSequence; lia) ltac:(lia)) as U. rewrite app_nil_r in U.
  change (c_tag cPkix) with (c_tag cPKI). change (c_comp cPkix) with (c_comp cPKI). rewrite U. cbn [c_parse cPKI cStructRaw]. rewrite D. reflexivity.
Qed.
Lemma RightAlign_full (b : bytes) : RightAlign (mkBits (Some b) (8 * zlen b)) = b.
Proof.
  unfold RightAlign. cbn [bs_len bs_bytes sl]. replace (Z.rem (8 * zlen b) 8) with 0 by (rewrite Z.mul_comm; symmetry; apply Z.rem_mul; lia). reflexivity.
Qed.
Lemma cPkix_small ai (ab b : bytes) : makeField cAI noP ai = Ret ab -> zlen ab <= 300 -> zlen b <= 200 -> exists bs, Marshal cPkix (mkPkix ai (mkBits (Some b) (8 * zlen b))) = Ret bs /\ zlen bs < 600.
Proof.
  intros Ea La Lb. unfold Marshal.
  assert (E : exists body, c_body cPkix (c_tag cPkix =? TagSet) (mkPkix ai (mkBits (Some b) (8 * zlen b))) = Ret body /\ zlen body <= 520).
  { cbn [c_body cPkix cStruct f_enc fcons fst snd pkx_Algo pkx_Bits fnil]. rewrite Ea. cbn [bind].
    assert (Ebb : c_body cBits (c_tag cBits =? TagSet) (mkBits (Some b) (8 * zlen b)) = Ret (0 :: b)).
    { cbn [c_body cBits prim]. unfold bits_body. cbn [bs_len bs_bytes]. replace (Z.rem (8 * zlen b) 8) with 0 by (rewrite Z.mul_comm; symmetry; apply Z.rem_mul; lia). reflexivity. }
    destruct (make_small cBits noP (mkBits (Some b) (8 * zlen b)) ltac:(split; reflexivity) eq_refl eq_refl ltac:(cbn; unfold TagBitString; lia) eq_refl (0 :: b) 201 Ebb ltac:(rewrite zlen_cons; lia) ltac:(lia)) as (b1 & -> & L1). cbn [bind].
    eexists. split; [reflexivity|]. rewrite !zlen_app. change (zlen (@nil Z)) with 0. lia. }
  destruct E as (body & Eb & Lbd).
  destruct (make_small cPkix noP (mkPkix ai (mkBits (Some b) (8 * zlen b))) ltac:(split; reflexivity) eq_refl eq_refl ltac:(cbn; unfold TagSequence; lia) eq_refl body 520 Eb Lbd ltac:(lia)) as (bs & E & L).
  exists bs. split; [exact E|lia].
Qed.
Lemma pkix_ec_rt id c x y : curve_of id = Some c -> IsOnCurve (cv_P c) (cv_B c) x y = true ->
  exists o bs, oidFromNamedCurve id = Some o /\
    (do (b, ai) <- marshal_ec_pub id x y; match Marshal cPkix (mkPkix ai (mkBits (Some b) (8 * zlen b))) with Ret r => Ret r | Err _ => Ret [] | Panic => Panic end) = Ret bs /\
    ParsePKIXPublicKey bs = Ret (if id =? SM2P256V1_id then PKsm2 (mkPub id x y) else PKecdsa id x y).
Proof.
  intros Hc Hon. assert (Ho : exists o, oidFromNamedCurve id = Some o).
  { unfold curve_of in Hc. unfold oidFromNamedCurve. destruct (id =? SM2P256V1_id) eqn:E0; [|destruct (id =? 224), (id =? 256), (id =? 384), (id =? 521); try discriminate; eauto].
    destruct (id =? 224), (id =? 256), (id =? 384), (id =? 521); eauto. }
  destruct Ho as [o Ho]. exists o. destruct (named_curve_cases id o Ho) as (Ook & Hn & _ & ob & f & Eob & Lob & Ef & Lf & Uf & (t & i & El) & Rf & Nf).
  destruct (elliptic_roundtrip id c x y Hc Hon) as (pub & Em & Eu & Lp & _).
  unfold marshal_ec_pub. rewrite Ho, Hc, Em. cbn [bind]. rewrite Ef. cbn [bind].
  set (raw := mkRaw 0 0 false None (Some f)).
  assert (Hw : raw_whole raw = Ret f) by (unfold raw_whole, raw; cbn [rv_full sl]; destruct f; [congruence|reflexivity]).
  assert (Hzr : c_iszero cRaw raw = false) by reflexivity.
  assert (Hmk : makeField cRaw optP raw = Ret f) by (unfold makeField; cbn [p_omit p_opt p_def optP andb c_whole cRaw]; rewrite Hzr; exact Hw).
  clearbody raw.
  assert (Oe : exists oe, oid_body oidPublicKeyECDSA = Ret oe /\ zlen oe <= 100) by (eexists; split; [reflexivity|vm_compute; discriminate]).
  destruct Oe as (oe & Eoe & Loe).
  assert (Oke : oid_ok oidPublicKeyECDSA) by (repeat constructor; vm_compute; discriminate).
  destruct (cAI_small oidPublicKeyECDSA oe raw f Oke Eoe Loe Hmk Lf) as (ab & Eab & Lab).
  destruct (cPkix_small (mkAI oidPublicKeyECDSA raw) ab pub Eab Lab ltac:(unfold zlen; lia)) as (bs & Ebs & Lbs).
  exists bs. split; [reflexivity|]. split; [transitivity (match Marshal cPkix (mkPkix (mkAI oidPublicKeyECDSA raw) (mkBits (Some pub) (8 * zlen pub))) with Ret r => Ret r | Err _ => Ret [] | Panic => Panic end); [reflexivity|rewrite Ebs; reflexivity]|].
  assert (R := pki_rt (mkAI oidPublicKeyECDSA raw) (mkAI oidPublicKeyECDSA (rawOf t i f)) pub bs ltac:(apply cAI_rt; [exact Oke|apply frt_params; auto]) Ebs ltac:(lia)).
  unfold ParsePKIXPublicKey. rewrite R. cbn [pki_Algo ai_alg]. change (getPublicKeyAlgorithmFromOID oidPublicKeyECDSA) with ECDSA. cbn iota.
  unfold parsePublicKey. cbn [pki_PublicKey pki_Algo ai_params rawOf rv_full sl]. rewrite RightAlign_full, Rf, Hn, Hc, Eu.
  destruct (id =? SM2P256V1_id); reflexivity.
Qed.
Lemma elliptic_Unmarshal_sound c d x y : elliptic_Unmarshal c d = Some (x, y) -> IsOnCurve (cv_P c) (cv_B c) x y = true.
Proof.
  unfold elliptic_Unmarshal. destruct (negb _); [discriminate|]. destruct d as [|b r]; [discriminate|]. destruct (negb _); [discriminate|].
  destruct (_ || _); [discriminate|]. destruct (IsOnCurve _ _ _ _) eqn:E; [|discriminate]. intros [= <- <-]. exact E.
Qed.
Definition pub_consistent (k : pubKey) : Prop :=
  match k with
  | PKsm2 k => pk_Curve k = SM2P256V1_id /\ sm2_IsOnCurve (pk_X k) (pk_Y k) = true
  | PKecdsa id x y => id <> SM2P256V1_id /\ exists c, curve_of id = Some c /\ IsOnCurve (cv_P c) (cv_B c) x y = true
  | PKrsa n e => 0 < n /\ 0 < e
  | PKed25519 b => List.length b = 32%nat
  | PKdsa y p q g => 0 < y /\ 0 < p /\ 0 < q /\ 0 < g
  | PKother => False
  end.
Lemma parsePublicKey_sound algo pki k : algo <> UnknownPublicKeyAlgorithm -> parsePublicKey algo pki = Ret k -> pub_consistent k.
Proof.
  intros Ha. destruct algo; [congruence| | | |]; cbn [parsePublicKey].
  - destruct (negb _); [discriminate|]. destruct (readASN1 _ _) as [[d ?]|]; [|discriminate]. destruct (readBigInt d) as [[n d2]|]; [|discriminate].
    destruct (readInt64 d2) as [[e ?]|]; [|discriminate]. destruct (Z.leb_spec n 0); [discriminate|]. destruct (Z.leb_spec e 0); [discriminate|].
    intros [= <-]. cbn. lia.
  - destruct (readBigInt _) as [[y ?]|]; [|discriminate]. destruct (readASN1 _ _) as [[d ?]|]; [|discriminate].
    destruct (readBigInt d) as [[p d1]|]; [|discriminate]. destruct (readBigInt d1) as [[q d2]|]; [|discriminate]. destruct (readBigInt d2) as [[g d3]|]; [|discriminate].
    destruct ((y <=? 0) || (p <=? 0) || (q <=? 0) || (g <=? 0)) eqn:E; [discriminate|]. intros [= <-]. cbn. lia.
  - destruct (readOID _) as [[o ?]|]; [|discriminate]. destruct (namedCurveFromOID o) as [id|]; [|discriminate]. destruct (curve_of id) as [c|] eqn:Ec; [|discriminate].
    destruct (elliptic_Unmarshal c _) as [[x y]|] eqn:Eu; [|discriminate]. apply elliptic_Unmarshal_sound in Eu.
    destruct (Z.eqb_spec id SM2P256V1_id) as [->|Hid]; intros [= <-]; cbn [pub_consistent pk_Curve pk_X pk_Y].
    + rewrite curve_of_sm2 in Ec. injection Ec as <-. split; [reflexivity|exact Eu].
    + split; [exact Hid|]. eauto.
  - destruct (sl (rv_full _)); [|discriminate]. destruct (Z.eqb_spec (zlen (RightAlign (pki_PublicKey pki))) 32) as [E|]; cbn [negb]; [|discriminate].
    intros [= <-]. cbn [pub_consistent]. unfold zlen in E. lia.
Qed.

(** ** PKCS#1 *)
Lemma cAP_rt a : field_rt cAP noP a a.
Proof.
  destruct a as [p e c]. change (mkAP p e c) with ((fun '(a, (b, (c, _))) => mkAP a b c) (p, (e, (c, tt)))) at 2. apply struct_rt. cbn [ap_Prime ap_Exp ap_Coeff].
  assert (B : forall n, field_rt cBig noP n n) by (intros [n|]; [apply big_rt|intros bs tail E; discriminate E]).
  apply frt_cons; [apply B|]. apply frt_cons; [apply B|]. apply frt_cons; [apply B|]. apply frt_nil'.
Qed.
Definition norm_add (l : list additionalPrime) : option (list additionalPrime) := match l with [] => None | _ => Some l end.
Lemma add_rt l : frt (fcons omitP (cSeqOf false cAP) fnil) (Some l, tt) (norm_add l, tt).
Proof.
  destruct l as [|a l].
  - apply frt_skip_end; try reflexivity. apply frt_nil'.
  - apply frt_cons; [|apply frt_nil']. apply make_rt; try reflexivity; [cbn; unfold TagSequence; lia|split; reflexivity|].
    apply seq_body_rt; try reflexivity; [cbn; unfold TagSequence; lia|left; reflexivity|]. 
    generalize (a :: l). intros l'. induction l'; constructor; auto. apply cAP_rt.
Qed.
Lemma qinv_rt qi l : frt (fcons optP cBig (fcons omitP (cSeqOf false cAP) fnil)) (qi, (Some l, tt)) (qi, (norm_add l, tt)).
Proof.
  destruct qi as [qi|]; [apply frt_cons; [apply big_opt_rt|apply add_rt]|]. destruct l as [|a l].
  - apply frt_skip_end; try reflexivity. apply add_rt.
  - apply frt_skip; try reflexivity; [|apply add_rt]. intros y E Hz. cbn [f_enc fcons fst snd fnil] in E.
    destruct (makeField (cSeqOf false cAP) omitP (Some (a :: l))) as [b| |] eqn:Em; cbn [bind] in E; try discriminate E. rewrite app_nil_r in E. assert (y = b) by congruence. subst b.
    rewrite present_make in Em by (try split; reflexivity). cbn [p_set p_tag omitP andb] in Em. cbv zeta in Em.
    destruct (c_body (cSeqOf false cAP) _ _) as [body| |] eqn:Eb; cbn [bind] in Em; try discriminate Em. assert (y = hdr ClassUniversal TagSequence true (zlen body) ++ body) by (cbn [c_tag c_comp cSeqOf] in Em; congruence). subst y.
    pose proof (zlen_nonneg body). rewrite zlen_app in Hz. pose proof (hdr_zlen ClassUniversal TagSequence true (zlen body)).
    exists (mkTL ClassUniversal TagSequence (zlen body) true), body. split; [apply hdr_parse; unfold ClassUniversal, TagSequence, maxInt32; lia|].
    cbn [p_tag optP c_any cBig prim t_class t_tag p_set c_tag]. split; [|split; [reflexivity|right; unfold TagSequence, TagInteger; lia]].
    intros ->. cbn [c_body cSeqOf] in Eb. unfold seq_body in Eb. cbn [mapM] in Eb.
    destruct (makeField cAP noP a) as [x| |] eqn:Ex; cbn [bind] in Eb; try discriminate Eb. destruct (mapM _ l) as [xs| |]; cbn [bind] in Eb; try discriminate Eb.
    assert (x <> []).
    { rewrite present_make in Ex by (try split; reflexivity). cbn [p_set p_tag noP andb] in Ex. cbv zeta in Ex. destruct (c_body cAP _ a) as [ab| |]; cbn [bind] in Ex; try discriminate Ex.
      assert (x = hdr ClassUniversal (c_tag cAP) (c_comp cAP) (zlen ab) ++ ab) by congruence. subst x. destruct (hdr_ne ClassUniversal (c_tag cAP) (c_comp cAP) (zlen ab) ab) as (? & ? & ->). discriminate. }
    cbn [andb] in Eb. change (c_tag (cSeqOf false cAP) =? TagSet) with false in Eb. cbn [andb List.concat] in Eb. destruct x; [congruence|]. discriminate Eb.
Qed.
Lemma cP1_rt v n e d p q dp dq qi l : - 2 ^ 63 <= v < 2 ^ 63 -> - 2 ^ 63 <= e < 2 ^ 63 ->
  field_rt cP1 noP (mkP1 v (Some n) e (Some d) (Some p) (Some q) (Some dp) (Some dq) qi (Some l)) (mkP1 v (Some n) e (Some d) (Some p) (Some q) (Some dp) (Some dq) qi (norm_add l)).
Proof.
  intros Hv He.
  change (mkP1 v (Some n) e (Some d) (Some p) (Some q) (Some dp) (Some dq) qi (norm_add l)) with
    ((fun '(v, (n, (e, (d, (p, (q, (dp, (dq, (qi, (l, _)))))))))) => mkP1 v n e d p q dp dq qi l) (v, (Some n, (e, (Some d, (Some p, (Some q, (Some dp, (Some dq, (qi, (norm_add l, tt))))))))))).
  apply struct_rt. cbn [p1_Version p1_N p1_E p1_D p1_P p1_Q p1_Dp p1_Dq p1_Qinv p1_Add].
  apply frt_cons; [apply int_rt; auto|]. apply frt_cons; [apply big_rt|]. apply frt_cons; [apply int_rt; auto|].
  do 3 (apply frt_cons; [apply big_rt|]). do 2 (apply frt_cons; [apply big_opt_rt|]). apply qinv_rt.
Qed.
Lemma additional_primes_crt D : forall add r, Forall (fun p => 1 < p) add -> additional_primes (crt_values D r add) = Ret add.
Proof.
  induction add as [|p add IH]; intros r H; cbn [crt_values additional_primes]; [reflexivity|]. inversion H; subst. cbn [ap_Prime].
  replace (p <=? 0) with false by lia. rewrite IH by auto. reflexivity.
Qed.
Lemma additional_primes_inv l ps : additional_primes l = Ret ps -> Forall (fun p => 0 < p) ps.
Proof.
  revert ps. induction l as [|a l IH]; intros ps; cbn [additional_primes]; [intros [= <-]; constructor|].
  destruct (ap_Prime a) as [p|]; [|discriminate]. destruct (Z.leb_spec p 0); [discriminate|]. destruct (additional_primes l) as [r| |]; cbn [bind]; try discriminate.
  intros [= <-]. constructor; auto.
Qed.
(** rsa.PrivateKey.Validate *)
Definition zprod (l : list Z) : Z := fold_right Z.mul 1 l.
Lemma fold_mul l a : fold_left Z.mul l a = a * zprod l.
Proof. revert a. induction l as [|x l IH]; intros a; cbn [fold_left zprod fold_right]; [lia|]. rewrite IH. fold (zprod l). ring. Qed.
Lemma rsa_Validate_spec k : rsa_Validate k = None <->
  2 <= rsa_E k < 2 ^ 31 /\ Forall (fun p => 1 < p) (rsa_Primes k) /\ zprod (rsa_Primes k) = rsa_N k /\
  Forall (fun p => (rsa_E k * rsa_D k) mod (p - 1) = 1) (rsa_Primes k).
Proof.
  unfold rsa_Validate. rewrite fold_mul, Z.mul_1_l.
  destruct (Z.ltb_spec (rsa_E k) 2); [split; [discriminate|lia]|].
  destruct (Z.ltb_spec (2 ^ 31 - 1) (rsa_E k)); [split; [discriminate|lia]|].
  assert (X : forall (f : Z -> bool) (P : Z -> Prop) l, (forall x, f x = false <-> P x) -> (existsb f l = false <-> Forall P l)).
  { intros f P l Hf. induction l as [|x l IH]; cbn [existsb]; [split; auto|]. rewrite Bool.orb_false_iff, IH, Hf. split; [intros []; auto|intros HH; inversion HH; auto]. }
  pose proof (X (fun p => p <=? 1) (fun p => 1 < p) (rsa_Primes k) ltac:(intros; lia)) as X1.
  pose proof (X (fun p => negb ((rsa_E k * rsa_D k) mod (p - 1) =? 1)) (fun p => (rsa_E k * rsa_D k) mod (p - 1) = 1) (rsa_Primes k)
    ltac:(intros x; cbv beta; destruct (Z.eqb_spec ((rsa_E k * rsa_D k) mod (x - 1)) 1); cbn [negb]; split; intros; auto; try discriminate; contradiction)) as X2.
  destruct (existsb (fun p => p <=? 1) _) eqn:E1; [split; [discriminate|intros (_ & H1 & _); apply X1 in H1; congruence]|].
  destruct (Z.eqb_spec (zprod (rsa_Primes k)) (rsa_N k)); cbn [negb]; [|split; [discriminate|tauto]].
  destruct (existsb (fun p => negb ((rsa_E k * rsa_D k) mod (p - 1) =? 1)) (rsa_Primes k)) eqn:E2; [split; [discriminate|intros (_ & _ & _ & H1); apply X2 in H1; congruence]|].
  split; [|reflexivity]. intros _. split; [lia|]. split; [apply X1; first [reflexivity|assumption]|]. split; [assumption|]. apply X2. first [reflexivity|assumption].
Qed.
Lemma zprod_pos l : Forall (fun p => 1 < p) l -> 0 < zprod l.
Proof. induction 1; cbn [zprod fold_right]; [lia|]. fold (zprod l). nia. Qed.
Lemma pkcs1_rt key bs : rsa_Validate key = None -> 0 < rsa_D key -> MarshalPKCS1PrivateKey key = Ret bs -> bs <> [] -> zlen bs < 2 ^ 31 -> ParsePKCS1PrivateKey bs = Ret key.
Proof.
  intros Hv Hd. pose proof Hv as Hs. apply rsa_Validate_spec in Hs as (He & Hp & Hn & _). pose proof (zprod_pos _ Hp) as Hpos.
  destruct key as [N E D primes]. cbn [rsa_N rsa_E rsa_D rsa_Primes] in *. unfold MarshalPKCS1PrivateKey. cbn [rsa_N rsa_E rsa_D rsa_Primes].
  destruct primes as [|p [|q add]]; try discriminate. cbv zeta.
  destruct (Marshal cP1 _) as [b| |] eqn:Em; [|intros [= <-]; congruence|discriminate]. intros [= <-] Nb Hz.
  eapply marshal_rt in Em; [|apply cP1_rt; [destruct add; lia|lia]|exact Hz].
  unfold ParsePKCS1PrivateKey. rewrite Em. cbn [p1_Version p1_N p1_D p1_P p1_Q p1_E p1_Add].
  replace (1 <? match add with [] => 0 | _ => 1 end) with false by (destruct add; reflexivity).
  inversion Hp as [|? ? P1 Hp']; subst. inversion Hp' as [|? ? Q1 Ha]; subst. replace ((zprod (p :: q :: add) <=? 0) || (D <=? 0) || (p <=? 0) || (q <=? 0)) with false by lia.
  replace (match norm_add (crt_values D (p * q) add) with Some l => l | None => [] end) with (crt_values D (p * q) add) by (unfold norm_add; destruct (crt_values D (p * q) add); reflexivity).
  rewrite additional_primes_crt by auto. cbn [bind]. rewrite Hv. reflexivity.
Qed.
Lemma ParsePKCS1_sound der k : ParsePKCS1PrivateKey der = Ret k -> rsa_Validate k = None /\ 0 < rsa_D k /\ 0 < rsa_N k /\ (2 <= List.length (rsa_Primes k))%nat.
Proof.
  unfold ParsePKCS1PrivateKey. destruct (Unmarshal cP1 der) as [[v r]| |]; [| |discriminate].
  2:{ destruct (ok _); [discriminate|]. destruct (ok _); discriminate. }
  destruct r; [|discriminate]. destruct (1 <? p1_Version v); [discriminate|]. destruct (p1_N v) as [n|]; [|discriminate]. destruct (p1_D v) as [d|]; [|discriminate].
  destruct (p1_P v) as [p|]; [|discriminate]. destruct (p1_Q v) as [q|]; [|discriminate]. destruct ((n <=? 0) || (d <=? 0) || (p <=? 0) || (q <=? 0)) eqn:Ez; [discriminate|].
  destruct (additional_primes _) as [add| |]; cbn [bind]; try discriminate. destruct (rsa_Validate _) eqn:Ev; [discriminate|]. intros [= <-]. cbn [rsa_D rsa_N rsa_Primes List.length].
  split; [exact Ev|]. split; [lia|]. split; lia.
Qed.
(** two-prime keys are always encoded *)
Lemma marshal_ret_ne {A} (c : codec A) a b : c_whole c a = None -> Marshal c a = Ret b -> b <> [].
Proof.
  intros Hw E. unfold Marshal in E. rewrite present_make in E by (try split; auto). cbn [p_set p_tag noP andb] in E. cbv zeta in E.
  destruct (c_body c _ a) as [body| |]; cbn [bind] in E; try discriminate E. assert (b = hdr ClassUniversal (c_tag c) (c_comp c) (zlen body) ++ body) by congruence. subst b.
  destruct (hdr_ne ClassUniversal (c_tag c) (c_comp c) (zlen body) body) as (? & ? & ->). discriminate.
Qed.
Lemma make_prim_total {A} (c : codec A) p a b : present c p a -> c_whole c a = None -> p_tag p = None -> p_set p = false -> c_body c (c_tag c =? TagSet) a = Ret b ->
  exists bs, makeField c p a = Ret bs.
Proof. intros Hp Hw Ht Hs Hb. rewrite present_make by auto. rewrite Hs, Ht. cbn [andb]. cbv zeta. rewrite Hb. cbn [bind]. eauto. Qed.
Lemma big_make p n : p = noP \/ p = optP -> exists bs, makeField cBig p (Some n) = Ret bs.
Proof. intros H. apply (make_prim_total cBig p (Some n) (bigint_content n)); destruct H as [->| ->]; try reflexivity; split; reflexivity. Qed.
Lemma int_make n : exists bs, makeField cInt noP n = Ret bs.
Proof. eapply make_prim_total; try reflexivity; split; reflexivity. Qed.
Lemma pkcs1_two_primes N E D p q : exists bs, MarshalPKCS1PrivateKey (mkRsa N E D [p; q]) = Ret bs /\ bs <> [].
Proof.
  unfold MarshalPKCS1PrivateKey. cbn [rsa_Primes rsa_N rsa_D rsa_E crt_values].
  assert (X : exists b, Marshal cP1 (mkP1 0 (Some N) E (Some D) (Some p) (Some q) (Some (D mod (p - 1))) (Some (D mod (q - 1))) (ModInverse q p) (Some [])) = Ret b).
  { assert (Y : exists body, c_body cP1 (c_tag cP1 =? TagSet) (mkP1 0 (Some N) E (Some D) (Some p) (Some q) (Some (D mod (p - 1))) (Some (D mod (q - 1))) (ModInverse q p) (Some [])) = Ret body).
    { cbn [c_body cP1 cStruct f_enc fcons fst snd fnil p1_Version p1_N p1_E p1_D p1_P p1_Q p1_Dp p1_Dq p1_Qinv p1_Add].
      destruct (int_make 0) as [? ->], (big_make noP N ltac:(auto)) as [? ->], (int_make E) as [? ->], (big_make noP D ltac:(auto)) as [? ->], (big_make noP p ltac:(auto)) as [? ->], (big_make noP q ltac:(auto)) as [? ->],
        (big_make optP (D mod (p - 1)) ltac:(auto)) as [? ->], (big_make optP (D mod (q - 1)) ltac:(auto)) as [? ->].
      assert (Z : exists b, makeField cBig optP (ModInverse q p) = Ret b) by (destruct (ModInverse q p) as [m|]; [apply big_make; auto|exists []; reflexivity]).
      destruct Z as [? ->]. cbn [bind]. change (makeField (cSeqOf false cAP) omitP (Some [])) with (Ret (@nil Z)). cbn [bind]. eauto. }
    destruct Y as [body Y]. unfold Marshal. apply (make_prim_total cP1 noP _ body); try reflexivity; [split; reflexivity|exact Y]. }
  destruct X as [b X]. rewrite X. exists b. split; [reflexivity|]. apply marshal_ret_ne in X; auto.
Qed.
(** PKCS#1 public keys *)
Lemma cP1Pub_rt n e : - 2 ^ 63 <= e < 2 ^ 63 -> field_rt cP1Pub noP (mkP1Pub (Some n) e) (mkP1Pub (Some n) e).
Proof.
  intros He. change (mkP1Pub (Some n) e) with ((fun '(n, (e, _)) => mkP1Pub n e) (Some n, (e, tt))) at 2. apply struct_rt. cbn [p1p_N p1p_E].
  apply frt_cons; [apply big_rt|]. apply frt_cons; [apply int_rt; auto|]. apply frt_nil'.
Qed.
Lemma cP1Pub_total n e : exists b, Marshal cP1Pub (mkP1Pub (Some n) e) = Ret b.
Proof.
  assert (Y : exists body, c_body cP1Pub (c_tag cP1Pub =? TagSet) (mkP1Pub (Some n) e) = Ret body).
  { cbn [c_body cP1Pub cStruct f_enc fcons fst snd fnil p1p_N p1p_E]. destruct (big_make noP n ltac:(auto)) as [? ->], (int_make e) as [? ->]. cbn [bind]. eauto. }
  destruct Y as [body Y]. unfold Marshal. apply (make_prim_total cP1Pub noP _ body); try reflexivity; [split; reflexivity|exact Y].
Qed.
Lemma pkcs1_pub_rt n e : 0 < n -> 0 < e < 2 ^ 31 -> zlen (MarshalPKCS1PublicKey n e) < 2 ^ 31 -> ParsePKCS1PublicKey (MarshalPKCS1PublicKey n e) = Ret (n, e).
Proof.
  intros Hn He. unfold MarshalPKCS1PublicKey. destruct (cP1Pub_total n e) as [b E]. rewrite E. intros Hz.
  unfold ParsePKCS1PublicKey. rewrite (marshal_rt cP1Pub _ _ b (cP1Pub_rt n e ltac:(lia)) E Hz). cbn [p1p_N p1p_E].
  replace ((n <=? 0) || (e <=? 0)) with false by lia. replace (2 ^ 31 - 1 <? e) with false by lia. reflexivity.
Qed.
Lemma pkcs1_pub_sound der n e : ParsePKCS1PublicKey der = Ret (n, e) -> 0 < n /\ 0 < e < 2 ^ 31.
Proof.
  unfold ParsePKCS1PublicKey. destruct (Unmarshal cP1Pub der) as [[v r]| |]; [|destruct (ok _); discriminate|discriminate]. destruct r; [|discriminate].
  destruct (p1p_N v) as [m|]; [|discriminate]. destruct ((m <=? 0) || (p1p_E v <=? 0)) eqn:E; [discriminate|]. destruct (Z.ltb_spec (2 ^ 31 - 1) (p1p_E v)); [discriminate|].
  intros [= <- <-]. lia.
Qed.

(** ** RSA and Ed25519 keys in PKCS#8 and PKIX *)
Definition nullParsed : rawValue := mkRaw 0 5 false (Some []) (Some NullBytes).
Lemma frt_null : frt (fcons optP cRaw fnil) (NullRawValue, tt) (nullParsed, tt).
Proof. exact (frt_params NullRawValue NullBytes (mkTL 0 5 0 false) [] eq_refl eq_refl (conj eq_refl eq_refl)). Qed.
Lemma oid_ok_rsa : oid_ok oidPublicKeyRSA. Proof. repeat constructor; vm_compute; discriminate. Qed.
Lemma oid_ok_ed : oid_ok oidPublicKeyEd25519. Proof. repeat constructor; vm_compute; discriminate. Qed.
Lemma cP8_inner_len a k bs : Marshal cP8 (mkP8 0 a (Some k)) = Ret bs -> zlen k < zlen bs.
Proof.
  intros E. unfold Marshal in E. rewrite present_make in E by (try split; reflexivity). cbn [p_set p_tag noP andb] in E. cbv zeta in E.
  destruct (c_body cP8 _ _) as [body| |] eqn:Eb; cbn [bind] in E; try discriminate E. assert (bs = hdr ClassUniversal (c_tag cP8) (c_comp cP8) (zlen body) ++ body) by congruence. subst bs. clear E.
  cbn [c_body cP8 cStruct f_enc fcons fst snd fnil p8_Version p8_Algo p8_PrivateKey] in Eb.
  destruct (makeField cInt noP 0) as [b1| |]; cbn [bind] in Eb; try discriminate Eb. destruct (makeField cAI noP a) as [b2| |]; cbn [bind] in Eb; try discriminate Eb.
  destruct (makeField cBytes noP (Some k)) as [b3| |] eqn:E3; cbn [bind] in Eb; try discriminate Eb.
  rewrite present_make in E3 by (try split; reflexivity). cbn [p_set p_tag noP andb c_body cBytes prim bind] in E3. cbv zeta in E3.
  assert (E3' : b3 = hdr ClassUniversal (c_tag cBytes) (c_comp cBytes) (zlen k) ++ k) by (cbn [c_tag c_comp cBytes prim bind] in *; congruence).
  assert (body = b1 ++ b2 ++ b3 ++ []) by congruence. subst body b3. rewrite !zlen_app.
  pose proof (hdr_zlen ClassUniversal (c_tag cBytes) (c_comp cBytes) (zlen k)). pose proof (zlen_nonneg b1). pose proof (zlen_nonneg b2). pose proof (zlen_nonneg (@nil Z)).
  match goal with |- context [zlen (hdr ?a ?b ?c ?d)] => pose proof (hdr_zlen a b c d) end. lia.
Qed.
Lemma pkcs8_rsa_rt edPub key b bs : rsa_Validate key = None -> 0 < rsa_D key -> MarshalPKCS1PrivateKey key = Ret b -> b <> [] ->
  MarshalPKCS8PrivateKey (SKrsa key) = Ret bs -> zlen bs < 2 ^ 31 -> ParsePKCS8PrivateKey edPub bs = Ret (SKrsa key).
Proof.
  intros Hv Hd Eb Nb E Hz. cbn [MarshalPKCS8PrivateKey] in E. rewrite Eb in E. cbn [bind] in E. pose proof (cP8_inner_len _ _ _ E) as L.
  unfold ParsePKCS8PrivateKey. rewrite (marshal_rt cP8 _ _ bs (cP8_rt (mkAI oidPublicKeyRSA NullRawValue) _ b (cAI_rt _ _ _ oid_ok_rsa frt_null)) E Hz).
  cbn [p8_Algo p8_PrivateKey ai_alg ai_params sl]. change (oid_eqb oidPublicKeyRSA oidPublicKeyRSA) with true. cbn iota.
  rewrite (pkcs1_rt key b) by (auto; lia). reflexivity.
Qed.
Lemma pkcs8_ed_rt edPub seed : List.length seed = 32%nat -> exists bs, MarshalPKCS8PrivateKey (SKed25519 (seed ++ edPub seed)) = Ret bs /\
  ParsePKCS8PrivateKey edPub bs = Ret (SKed25519 (seed ++ edPub seed)).
Proof.
  intros Hl. cbn [MarshalPKCS8PrivateKey]. replace (List.length (seed ++ edPub seed) <? 32)%nat with false by (rewrite app_length; lia).
  rewrite firstn_app_exact by auto.
  destruct (make_small cBytes noP (Some seed) ltac:(split; reflexivity) eq_refl eq_refl ltac:(cbn; unfold TagOctetString; lia) eq_refl seed 32 eq_refl ltac:(unfold zlen; lia) ltac:(lia)) as (b & Eb & Lb).
  unfold Marshal at 1. rewrite Eb. cbn [bind].
  assert (A : exists ab, makeField cAI noP (mkAI oidPublicKeyEd25519 rawZero) = Ret ab /\ zlen ab <= 300) by (eexists; split; [vm_compute; reflexivity|vm_compute; discriminate]).
  destruct A as (ab & Ea & La). destruct (cP8_small (mkAI oidPublicKeyEd25519 rawZero) ab b 38 Ea La Lb ltac:(lia)) as (bs & Ebs & Lbs). exists bs. split; [exact Ebs|].
  unfold ParsePKCS8PrivateKey. rewrite (marshal_rt cP8 _ _ bs (cP8_rt (mkAI oidPublicKeyEd25519 rawZero) _ b (cAI_rt _ _ _ oid_ok_ed frt_params_zero)) Ebs ltac:(lia)).
  cbn [p8_Algo p8_PrivateKey ai_alg ai_params sl rv_full rawZero]. change (oid_eqb oidPublicKeyEd25519 oidPublicKeyRSA) with false. change (oid_eqb oidPublicKeyEd25519 oidPublicKeyECDSA) with false.
  change (oid_eqb oidPublicKeyEd25519 oidPublicKeyEd25519) with true. cbn iota.
  rewrite (marshal_rt cBytes _ _ b (bytes_rt seed) Eb ltac:(lia)). cbn [sl]. replace (zlen seed =? 32) with true by (unfold zlen; lia). reflexivity.
Qed.
Lemma make_contains {A} (c : codec A) a (body bs : bytes) : c_whole c a = None -> c_body c (c_tag c =? TagSet) a = Ret body -> makeField c noP a = Ret bs -> exists h, bs = h ++ body.
Proof.
  intros Hw Eb E. rewrite present_make in E by (try split; auto). cbn [p_set p_tag noP andb] in E. cbv zeta in E. rewrite Eb in E. cbn [bind] in E.
  exists (hdr ClassUniversal (c_tag c) (c_comp c) (zlen body)). congruence.
Qed.
Lemma cPkix_inner_len a (b bs : bytes) : Marshal cPkix (mkPkix a (mkBits (Some b) (8 * zlen b))) = Ret bs -> zlen b < zlen bs.
Proof.
  intros E. unfold Marshal in E. rewrite present_make in E by (try split; reflexivity). cbn [p_set p_tag noP andb] in E. cbv zeta in E.
  destruct (c_body cPkix _ _) as [body| |] eqn:Eb; cbn [bind] in E; try discriminate E. assert (bs = hdr ClassUniversal (c_tag cPkix) (c_comp cPkix) (zlen body) ++ body) by congruence. subst bs. clear E.
  cbn [c_body cPkix cStruct f_enc fcons fst snd fnil pkx_Algo pkx_Bits] in Eb.
  destruct (makeField cAI noP a) as [b2| |]; cbn [bind] in Eb; try discriminate Eb.
  destruct (makeField cBits noP _) as [b3| |] eqn:E3; cbn [bind] in Eb; try discriminate Eb.
  assert (Ebb : c_body cBits (c_tag cBits =? TagSet) (mkBits (Some b) (8 * zlen b)) = Ret (0 :: b)).
  { cbn [c_body cBits prim]. unfold bits_body. cbn [bs_len bs_bytes]. replace (Z.rem (8 * zlen b) 8) with 0 by (rewrite Z.mul_comm; symmetry; apply Z.rem_mul; lia). reflexivity. }
  apply (make_contains cBits _ (0 :: b)) in E3 as [h ->]; auto.
  assert (body = b2 ++ (h ++ 0 :: b) ++ []) by congruence. subst body. rewrite !zlen_app, zlen_cons.
  pose proof (zlen_nonneg b2). pose proof (zlen_nonneg h). pose proof (zlen_nonneg (@nil Z)).
  match goal with |- context [zlen (hdr ?a ?b ?c ?d)] => pose proof (hdr_zlen a b c d) end. lia.
Qed.
Lemma make_tlv {A} (c : codec A) a body bs : c_whole c a = None -> 0 <= c_tag c <= 30 -> c_body c (c_tag c =? TagSet) a = Ret body -> zlen body <= 0xfffffffe ->
  makeField c noP a = Ret bs -> bs = tlv ((if c_comp c then 32 else 0) + c_tag c) body.
Proof.
  intros Hw Ht Eb Hz E. rewrite present_make in E by (try split; auto). cbn [p_set p_tag noP andb] in E. cbv zeta in E. rewrite Eb in E. cbn [bind] in E.
  rewrite hdr_tlv in E by lia. unfold ClassUniversal in E. rewrite Z.mul_0_l, Z.add_0_l in E. congruence.
Qed.
Lemma tag_ok_seq : tag_ok T_SEQUENCE. Proof. now compute. Qed.
Lemma tag_ok_int : tag_ok T_INTEGER. Proof. now compute. Qed.
Lemma pkix_rsa_rt n e bs : 0 < n -> 0 < e < 2 ^ 31 -> MarshalPKIXPublicKey (PKrsa n e) = Ret bs -> bs <> [] -> zlen bs < 2 ^ 31 -> ParsePKIXPublicKey bs = Ret (PKrsa n e).
Proof.
  intros Hn He. unfold MarshalPKIXPublicKey. cbn [marshalPublicKey]. destruct (cP1Pub_total n e) as [b Eb]. rewrite Eb. cbn [bind].
  destruct (Marshal cPkix (mkPkix (mkAI oidPublicKeyRSA NullRawValue) (mkBits (Some b) (8 * zlen b)))) as [r| |] eqn:Er; [|intros [= <-]; congruence|discriminate].
  intros [= <-] _ Hz. pose proof (cPkix_inner_len _ _ _ Er) as L.
  pose proof (pki_rt _ _ b r (cAI_rt _ _ _ oid_ok_rsa frt_null) Er Hz) as R. unfold ParsePKIXPublicKey. rewrite R. cbn [pki_Algo ai_alg].
  change (getPublicKeyAlgorithmFromOID oidPublicKeyRSA) with RSA. cbn iota. unfold parsePublicKey. cbn [pki_PublicKey pki_Algo ai_params]. rewrite RightAlign_full.
  change (negb (bytes_eqb (sl (rv_full nullParsed)) NullBytes)) with false. cbn iota.
  assert (S : exists body, b = tlv T_SEQUENCE body /\ body = tlv T_INTEGER (bigint_content n) ++ tlv T_INTEGER (bigint_content e) ++ [] /\ zlen body <= zlen b /\ zlen (bigint_content n) <= zlen b /\ zlen (bigint_content e) <= zlen b).
  { unfold Marshal in Eb. rewrite present_make in Eb by (try split; reflexivity). cbn [p_set p_tag noP andb] in Eb. cbv zeta in Eb.
    destruct (c_body cP1Pub _ _) as [body| |] eqn:Ebb; cbn [bind] in Eb; try discriminate Eb. assert (b = hdr ClassUniversal (c_tag cP1Pub) (c_comp cP1Pub) (zlen body) ++ body) by congruence. clear Eb.
    exists body. pose proof (zlen_nonneg body). assert (Lb : zlen body <= zlen b) by (subst b; rewrite zlen_app; pose proof (zlen_nonneg (hdr ClassUniversal (c_tag cP1Pub) (c_comp cP1Pub) (zlen body))); lia).
    rewrite hdr_tlv in H by (cbn; unfold TagSequence; lia). split; [exact H|].
    cbn [c_body cP1Pub cStruct f_enc fcons fst snd fnil p1p_N p1p_E] in Ebb.
    destruct (makeField cBig noP (Some n)) as [b1| |] eqn:E1; cbn [bind] in Ebb; try discriminate Ebb. destruct (makeField cInt noP e) as [b2| |] eqn:E2; cbn [bind] in Ebb; try discriminate Ebb.
    assert (Y : body = b1 ++ b2 ++ []) by congruence.
    assert (Z1 : zlen (bigint_content n) <= zlen b1).
    { destruct (make_contains cBig (Some n) (bigint_content n) b1 eq_refl eq_refl E1) as [h ->]. rewrite zlen_app. pose proof (zlen_nonneg h). lia. }
    assert (Z2 : zlen (bigint_content e) <= zlen b2).
    { destruct (make_contains cInt e (bigint_content e) b2 eq_refl eq_refl E2) as [h ->]. rewrite zlen_app. pose proof (zlen_nonneg h). lia. }
    assert (Lbb : zlen b1 + zlen b2 = zlen body) by (subst body; rewrite !zlen_app; change (zlen (@nil Z)) with 0; lia). pose proof (zlen_nonneg b1). pose proof (zlen_nonneg b2).
    apply (make_tlv cBig (Some n) (bigint_content n)) in E1; [|reflexivity|cbn; unfold TagInteger; lia|reflexivity|lia].
    apply (make_tlv cInt e (bigint_content e)) in E2; [|reflexivity|cbn; unfold TagInteger; lia|reflexivity|lia].
    split; [rewrite Y, E1, E2; reflexivity|]. lia. }
  destruct S as (body & -> & -> & L1 & L2 & L3).
  pose proof tag_ok_seq as T1. pose proof tag_ok_int as T2.
  assert (L4 : zlen (tlv T_INTEGER (bigint_content n) ++ tlv T_INTEGER (bigint_content e) ++ []) <= max_content) by (unfold max_content; lia).
  pose proof (readASN1_tlv T_SEQUENCE _ [] T1 L4) as R1. rewrite app_nil_r in R1. rewrite R1.
  rewrite readBigInt_tlv by (unfold max_content; lia). unfold readInt64. rewrite readASN1_tlv by (auto; unfold max_content; lia).
  destruct (bigint_content_roundtrip e) as [-> ->]. 
  assert (zlen (bigint_content e) <= 8) by (pose proof (bigint_content_zlen e 8 ltac:(lia) ltac:(lia)); lia).
  replace (zlen (bigint_content e) <=? 8) with true by lia. cbn [andb]. replace (n <=? 0) with false by lia. replace (e <=? 0) with false by lia. reflexivity.
Qed.
Lemma pkix_ed_rt k : List.length k = 32%nat -> exists bs, MarshalPKIXPublicKey (PKed25519 k) = Ret bs /\ ParsePKIXPublicKey bs = Ret (PKed25519 k).
Proof.
  intros Hl. unfold MarshalPKIXPublicKey. cbn [marshalPublicKey bind].
  assert (A : exists ab, makeField cAI noP (mkAI oidPublicKeyEd25519 rawZero) = Ret ab /\ zlen ab <= 300) by (eexists; split; [vm_compute; reflexivity|vm_compute; discriminate]).
  destruct A as (ab & Ea & La). destruct (cPkix_small _ ab k Ea La ltac:(unfold zlen; lia)) as (bs & Ebs & Lbs). rewrite Ebs. exists bs. split; [reflexivity|].
  pose proof (pki_rt _ _ k bs (cAI_rt _ _ _ oid_ok_ed frt_params_zero) Ebs ltac:(lia)) as R. unfold ParsePKIXPublicKey. rewrite R. cbn [pki_Algo ai_alg].
  change (getPublicKeyAlgorithmFromOID oidPublicKeyEd25519) with Ed25519. cbn iota. unfold parsePublicKey. cbn [pki_PublicKey pki_Algo ai_params]. rewrite RightAlign_full. cbn [rv_full rawZero sl].
  replace (zlen k =? 32) with true by (unfold zlen; lia). reflexivity.
Qed.
(** trailing bytes after a public key are refused *)
Lemma pkix_trailing der k tl : bytes_ok der -> ParsePKIXPublicKey der = Ret k -> tl <> [] -> ParsePKIXPublicKey (der ++ tl) = Err "x509: trailing data after ASN.1 of public-key".
Proof.
  intros Ho E Nt. unfold ParsePKIXPublicKey in *. destruct (Unmarshal cPKI der) as [[v r]| |] eqn:U; [|destruct (ok _); discriminate E|discriminate E].
  rewrite (Unmarshal_app cPKI der v r tl Ho U). destruct r; [|discriminate E]. cbn [app]. destruct tl; [congruence|reflexivity].
Qed.
Lemma pkcs1_trailing der k tl : bytes_ok der -> ParsePKCS1PrivateKey der = Ret k -> tl <> [] -> ParsePKCS1PrivateKey (der ++ tl) = Err "asn1: syntax error: trailing data".
Proof.
  intros Ho E Nt. unfold ParsePKCS1PrivateKey in *. destruct (Unmarshal cP1 der) as [[v r]| |] eqn:U; [|destruct (ok _); [discriminate E|]; destruct (ok _); discriminate E|discriminate E].
  rewrite (Unmarshal_app cP1 der v r tl Ho U). destruct r; [|discriminate E]. cbn [app]. destruct tl; [congruence|reflexivity].
Qed.
Lemma pkcs1_pub_trailing der k tl : bytes_ok der -> ParsePKCS1PublicKey der = Ret k -> tl <> [] -> ParsePKCS1PublicKey (der ++ tl) = Err "asn1: syntax error: trailing data".
Proof.
  intros Ho E Nt. unfold ParsePKCS1PublicKey in *. destruct (Unmarshal cP1Pub der) as [[v r]| |] eqn:U; [|destruct (ok _); discriminate E|discriminate E].
  rewrite (Unmarshal_app cP1Pub der v r tl Ho U). destruct r; [|discriminate E]. cbn [app]. destruct tl; [congruence|reflexivity].
Qed.
