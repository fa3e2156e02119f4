(** * C117, C118: parsing keys and opening PKCS#12 files never panics *)
From Coq Require Import String ZifyBool ZifyNat.
From Verif Require Import Base Words ECSpec ECModel ECProofs ECBridge BaseOrder SM2Model CryptoByte Asn1 Asn1Proofs KeysModel KeysProofs Asn1Safe
  X509Model X509Safe PropertiesX509Safe PropertiesKeys PropertiesKeysCurves Utf8 BMPModel PbkdfSpec PbkdfModel P12Spec P12Model P12Proofs P12Cipher P12Open PropertiesP12 X509CertProofs.
Open Scope Z_scope.

(** ** C117 *)
Lemma noP_parse {A} (c : codec A) s a r : parseField c noP s = Ret (a, r) -> exists t f i, c_parse c t f i = Ret a.
Proof.
  unfold parseField. destruct s as [|b s]; [discriminate|]. destruct (parseTagAndLength _) as [[t s1]| |]; cbn [bind]; try discriminate.
  cbn [p_exp noP]. unfold parseFieldTail. cbn [p_set p_exp p_tag noP]. cbv zeta iota. destruct (_ || _); [discriminate|]. destruct (_ <? _); [discriminate|].
  intros E. match type of E with bind ?x _ = _ => destruct x as [a'| |] eqn:E' end; cbn [bind] in E; try discriminate E. injection E as <- _. eauto.
Qed.
Lemma big_some s v r : parseField cBig noP s = Ret (v, r) -> exists z, v = Some z.
Proof. intros E. apply noP_parse in E as (t & f & i & E). cbn in E. destruct (checkASN1Integer i); try discriminate E. injection E as <-. eauto. Qed.
Lemma np_cAP : np cAP. Proof. apply np_struct. repeat (apply fnp_cons; [apply np_big|]). apply fnp_nil. Qed.
Lemma np_cP1 : np cP1.
Proof.
  apply np_struct. apply fnp_cons; [apply np_int|]. apply fnp_cons; [apply np_big|]. apply fnp_cons; [apply np_int|].
  repeat (apply fnp_cons; [apply np_big|]). apply fnp_cons; [apply np_seq, np_cAP|apply fnp_nil].
Qed.
Lemma np_cP1Pub : np cP1Pub. Proof. apply np_struct. apply fnp_cons; [apply np_big|]. apply fnp_cons; [apply np_int|apply fnp_nil]. Qed.
Lemma np_cEC : np cEC.
Proof. apply np_struct. apply fnp_cons; [apply np_int|]. apply fnp_cons; [apply np_bytes|]. apply fnp_cons; [apply np_oid|]. apply fnp_cons; [apply np_bits|apply fnp_nil]. Qed.
Lemma np_cP8 : np cP8.
Proof. apply np_struct. apply fnp_cons; [apply np_int|]. apply fnp_cons; [apply np_AI|]. apply fnp_cons; [apply np_bytes|apply fnp_nil]. Qed.
Lemma np_cPKI : np cPKI. Proof. apply np_structRaw. apply fnp_cons; [apply np_AI|]. apply fnp_cons; [apply np_bits|apply fnp_nil]. Qed.

Lemma unmarshal_parse {A} (c : codec A) s a r : Unmarshal c s = Ret (a, r) -> exists t f i, c_parse c t f i = Ret a.
Proof. apply noP_parse. Qed.
Ltac pf E v r H := match type of E with context [parseField ?c ?p ?s] => destruct (parseField c p s) as [[v r]| |] eqn:H; cbn [bind] in E; try discriminate E end.
Lemma elems_primes n : forall s l, parse_elems cAP n s = Ret l -> Forall (fun a => exists p, ap_Prime a = Some p) l.
Proof.
  induction n as [|n IH]; intros s l E; cbn [parse_elems] in E; [injection E as <-; constructor|].
  pf E a r H. destruct (parse_elems cAP n r) as [l'| |] eqn:E'; cbn [bind] in E; try discriminate E. injection E as <-.
  constructor; [|eauto]. apply noP_parse in H as (t & f & i & H). cbn [c_parse cAP cStruct] in H. cbn [f_dec fcons fnil] in H.
  pf H v1 r1 H1. pf H v2 r2 H2. pf H v3 r3 H3. injection H as <-. cbn [ap_Prime]. now apply big_some in H1.
Qed.
Lemma additional_np l : Forall (fun a => exists p, ap_Prime a = Some p) l -> additional_primes l <> Panic.
Proof.
  induction 1 as [|a l [p Hp] _ IH]; cbn [additional_primes]; [discriminate|]. rewrite Hp. destruct (p <=? 0); [discriminate|]. apply bind_np; [exact IH|discriminate].
Qed.
Lemma cP1_some der v r : Unmarshal cP1 der = Ret (v, r) ->
  (exists n d p q, p1_N v = Some n /\ p1_D v = Some d /\ p1_P v = Some p /\ p1_Q v = Some q) /\
  Forall (fun a => exists p, ap_Prime a = Some p) (match p1_Add v with Some l => l | None => [] end).
Proof.
  intros E. apply unmarshal_parse in E as (t & f & i & E). cbn [c_parse cP1 cStruct] in E. cbn [f_dec fcons fnil] in E.
  pf E v1 r1 H1. pf E v2 r2 H2. pf E v3 r3 H3. pf E v4 r4 H4. pf E v5 r5 H5. pf E v6 r6 H6. pf E v7 r7 H7. pf E v8 r8 H8. pf E v9 r9 H9. pf E v10 r10 H10.
  injection E as <-. cbn [p1_N p1_D p1_P p1_Q p1_Add].
  apply big_some in H2 as [n ->], H4 as [d ->], H5 as [p ->], H6 as [q ->]. split; [exists n, d, p, q; auto|].
  clear - H10. unfold parseField in H10. destruct r9 as [|b s]; [injection H10 as <- _; constructor|].
  destruct (parseTagAndLength _) as [[t s1]| |]; cbn [bind] in H10; try discriminate H10.
  cbn [p_exp omitP] in H10. unfold parseFieldTail in H10. cbn [p_set p_exp p_tag omitP c_tag c_any c_comp c_parse cSeqOf] in H10. cbv zeta iota in H10.
  destruct (_ || _) in H10. { injection H10 as <- _. constructor. } destruct (_ <? _) in H10; [discriminate H10|].
  match type of H10 with bind ?x _ = _ => destruct x as [a'| |] eqn:E' end; cbn [bind] in H10; try discriminate H10. injection H10 as <- _.
  destruct (count_elems _ _ _) as [k| |] in E'; cbn [bind] in E'; try discriminate E'.
  destruct (parse_elems cAP k _) as [l| |] eqn:El in E'; cbn [bind] in E'; try discriminate E'. injection E' as <-. eapply elems_primes; exact El.
Qed.
Lemma pkcs1_np der : ParsePKCS1PrivateKey der <> Panic.
Proof.
  unfold ParsePKCS1PrivateKey. destruct (Unmarshal cP1 der) as [[v r]|e|] eqn:U.
  - destruct r; [|discriminate]. apply cP1_some in U as ((n & d & p & q & -> & -> & -> & ->) & F). destruct (_ <? _); [discriminate|]. destruct (_ || _); [discriminate|].
    apply bind_np; [now apply additional_np|]. intros add _. cbv zeta. destruct (rsa_Validate _); discriminate.
  - destruct (ok _); [discriminate|]. destruct (ok _); discriminate.
  - exfalso. exact (np_unmarshal cP1 der np_cP1 U).
Qed.
Lemma strip_np n k : strip_zeros n k <> Panic.
Proof. induction k as [|b k IH]; cbn [strip_zeros]; destruct (_ <=? _)%nat; try discriminate. destruct (negb _); [discriminate|exact IH]. Qed.
Lemma base_mult_np id c kb : curve_of id = Some c -> cv_ScalarBaseMult c kb <> Panic.
Proof.
  intros Hc. destruct (C116_curves_good id c Hc) as (Pp & P3 & _). unfold cv_ScalarBaseMult.
  destruct (ScalarMult_returns (cv_P c) 0 0 Pp P3 (cv_Gx c) (cv_Gy c) kb) as (A & -> & _). discriminate.
Qed.
Lemma parseEC_np hint der : parseECPrivateKey hint der <> Panic.
Proof.
  unfold parseECPrivateKey. destruct (Unmarshal cEC der) as [[v r]|e|] eqn:U.
  - destruct (negb _); [discriminate|]. destruct (namedCurveFromOID _) as [id|] eqn:En; [|discriminate]. apply namedCurve_known in En as [c Hc]. rewrite Hc. cbv zeta.
    destruct (_ <=? _); [discriminate|]. apply bind_np; [apply strip_np|]. intros pk _. apply bind_np; [eapply base_mult_np; exact Hc|]. intros xy _. destruct (id =? _); discriminate.
  - destruct (ok _); [discriminate|]. destruct (ok _); discriminate.
  - exfalso. exact (np_unmarshal cEC der np_cEC U).
Qed.
Lemma pkcs8_np edPub der : ParsePKCS8PrivateKey edPub der <> Panic.
Proof.
  unfold ParsePKCS8PrivateKey. destruct (Unmarshal cP8 der) as [[v r]|e|] eqn:U.
  - cbv zeta. destruct (oid_eqb _ oidPublicKeyRSA).
    { pose proof (pkcs1_np (sl (p8_PrivateKey v))) as N. destruct (ParsePKCS1PrivateKey _); [discriminate|discriminate|congruence]. }
    destruct (oid_eqb _ oidPublicKeyECDSA).
    { match goal with |- context [parseECPrivateKey ?h ?d] => pose proof (parseEC_np h d) as N; destruct (parseECPrivateKey h d) end; [discriminate|discriminate|congruence]. }
    destruct (oid_eqb _ oidPublicKeyEd25519); [|discriminate]. destruct (sl (rv_full _)); [|discriminate].
    pose proof (np_unmarshal cBytes (sl (p8_PrivateKey v)) np_bytes) as N. destruct (Unmarshal cBytes _) as [[s ?]| |]; [|discriminate|congruence]. destruct (negb _); discriminate.
  - destruct (ok _); [discriminate|]. destruct (ok _); discriminate.
  - exfalso. exact (np_unmarshal cP8 der np_cP8 U).
Qed.
(** C117: whatever the input, the key parsers return a key or an error *)
Theorem C117_key_parsers : forall edPub der,
  ParsePKCS1PrivateKey der <> Panic /\ ParsePKCS1PublicKey der <> Panic /\ ParseECPrivateKey der <> Panic /\
  ParsePKCS8PrivateKey edPub der <> Panic /\ ParsePKIXPublicKey der <> Panic.
Proof.
  intros edPub der. split; [apply pkcs1_np|]. split; [|split; [apply parseEC_np|split; [apply pkcs8_np|]]].
  - unfold ParsePKCS1PublicKey. destruct (Unmarshal cP1Pub der) as [[v r]|e|] eqn:U.
    + destruct r; [|discriminate]. apply unmarshal_parse in U as (t & f & i & E). cbn [c_parse cP1Pub cStruct] in E. cbn [f_dec fcons fnil] in E.
      pf E v1 r1 H1. pf E v2 r2 H2. injection E as <-. cbn [p1p_N p1p_E]. apply big_some in H1 as [n ->]. destruct (_ || _); [discriminate|]. destruct (_ <? _); discriminate.
    + destruct (ok _); discriminate.
    + exfalso. exact (np_unmarshal cP1Pub der np_cP1Pub U).
  - unfold ParsePKIXPublicKey. destruct (Unmarshal cPKI der) as [[v r]|e|] eqn:U.
    + destruct r; [|discriminate]. destruct (getPublicKeyAlgorithmFromOID _); try discriminate; apply parsePublicKey_np.
    + destruct (ok _); discriminate.
    + exfalso. exact (np_unmarshal cPKI der np_cPKI U).
Qed.
Print Assumptions C117_key_parsers.

Example C117_instance : (exists k, ParsePKCS1PrivateKey (match MarshalPKCS1PrivateKey (mkRsa 759 7 63 [3; 11; 23]) with Ret b => b | _ => [] end) = Ret k) /\
  (exists e, ParsePKCS1PrivateKey [48; 3; 2; 1] = Err e) /\ (exists e, ParseECPrivateKey [48; 3; 2; 1; 1] = Err e).
Proof. split; [eexists; vm_compute; reflexivity|]. split; eexists; vm_compute; reflexivity. Qed.

(** ** C118 *)
(** encoding does not panic *)
Definition mnp {A} (c : codec A) : Prop := forall a, (forall set, c_body c set a <> Panic) /\ (forall r, c_whole c a = Some r -> r <> Panic).
Lemma mnp_make {A} (c : codec A) p a : mnp c -> makeField c p a <> Panic.
Proof.
  intros N. destruct (N a) as [B W]. unfold makeField. destruct (_ && _); [discriminate|]. destruct (_ && _); [discriminate|]. destruct (_ && _); [discriminate|].
  destruct (c_whole c a) as [r|] eqn:Ew; [exact (W r eq_refl)|]. destruct (_ && _); [discriminate|]. apply bind_np; [apply B|]. intros b _. destruct (p_tag p); [|discriminate]. destruct (p_exp p); discriminate.
Qed.
Definition fmnp {X} (fs : fcodec X) : Prop := forall x, f_enc fs x <> Panic.
Lemma fmnp_nil : fmnp fnil. Proof. intros x. discriminate. Qed.
Lemma fmnp_cons {A B} p (c : codec A) (fs : fcodec B) : mnp c -> fmnp fs -> fmnp (fcons p c fs).
Proof. intros N F [a b]. cbn [f_enc fcons]. apply bind_np; [now apply mnp_make|]. intros x _. apply bind_np; [apply F|discriminate]. Qed.
Lemma mnp_struct {X A} (fs : fcodec X) (mk : X -> A) un : fmnp fs -> mnp (cStruct fs mk un).
Proof. intros F a. split; [intros set; apply F|discriminate]. Qed.
Lemma mnp_int : mnp cInt. Proof. intros a. split; [|discriminate]. intros set. cbn. discriminate. Qed.
Lemma mnp_big : mnp cBig. Proof. intros a. split; [|discriminate]. intros set. destruct a; cbn; discriminate. Qed.
Lemma mnp_seq {A} b (c : codec A) : mnp c -> mnp (cSeqOf b c).
Proof.
  intros N a. split; [|discriminate]. intros set. cbn [c_body cSeqOf]. unfold seq_body. apply bind_np.
  - generalize (match a with Some l => l | None => [] end). induction l as [|x l IH]; cbn [mapM]; [discriminate|]. apply bind_np; [now apply mnp_make|]. intros y _. apply bind_np; [exact IH|discriminate].
  - intros es _. destruct (_ && _); discriminate.
Qed.
Lemma mnp_cP1 : mnp cP1.
Proof.
  apply mnp_struct. apply fmnp_cons; [apply mnp_int|]. apply fmnp_cons; [apply mnp_big|]. apply fmnp_cons; [apply mnp_int|]. repeat (apply fmnp_cons; [apply mnp_big|]).
  apply fmnp_cons; [apply mnp_seq, mnp_struct; repeat (apply fmnp_cons; [apply mnp_big|]); apply fmnp_nil|apply fmnp_nil].
Qed.
Lemma rsa_marshal_np k : (2 <= List.length (rsa_Primes k))%nat -> MarshalPKCS1PrivateKey k <> Panic.
Proof.
  unfold MarshalPKCS1PrivateKey. destruct (rsa_Primes k) as [|p [|q add]]; cbn [List.length]; try lia. intros _. cbv zeta.
  match goal with |- context [Marshal cP1 ?v] => pose proof (mnp_make cP1 noP v mnp_cP1) as N; unfold Marshal in *; destruct (makeField cP1 noP v) end; [discriminate|discriminate|congruence].
Qed.
Lemma parsed_rsa edPub der k : ParsePKCS8PrivateKey edPub der = Ret (SKrsa k) -> (2 <= List.length (rsa_Primes k))%nat.
Proof.
  unfold ParsePKCS8PrivateKey. destruct (Unmarshal cP8 der) as [[v r]|e|]; [| |discriminate].
  2:{ destruct (ok _); [discriminate|]. destruct (ok _); discriminate. }
  cbv zeta. destruct (oid_eqb _ oidPublicKeyRSA).
  { destruct (ParsePKCS1PrivateKey _) as [k'| |] eqn:E; [|discriminate|discriminate]. intros [= ->]. apply C83_pkcs1_private_sound in E. tauto. }
  destruct (oid_eqb _ oidPublicKeyECDSA).
  { match goal with |- context [parseECPrivateKey ?h ?d] => destruct (parseECPrivateKey h d) as [k'| |] eqn:E end; [|discriminate|discriminate]. intros [= ->]. exfalso. revert E. clear.
    unfold parseECPrivateKey. destruct (Unmarshal cEC _) as [[w r']| |]; [| |discriminate].
    2:{ destruct (ok _); [discriminate|]. destruct (ok _); discriminate. }
    destruct (negb _); [discriminate|]. destruct (namedCurveFromOID _) as [i|]; [|discriminate]. destruct (curve_of i) as [c|]; [|discriminate]. cbv zeta. destruct (_ <=? _); [discriminate|].
    destruct (strip_zeros _ _) as [pk| |]; cbn [bind]; try discriminate. destruct (cv_ScalarBaseMult c _) as [xy| |]; cbn [bind]; try discriminate. destruct (i =? _); discriminate. }
  destruct (oid_eqb _ oidPublicKeyEd25519); [|discriminate]. destruct (sl (rv_full _)); [|discriminate].
  destruct (Unmarshal cBytes _) as [[s ?]| |]; [|discriminate|discriminate]. destruct (negb _); discriminate.
Qed.
Lemma parsed_ec edPub der id x y d : bytes_ok der -> ParsePKCS8PrivateKey edPub der = Ret (SKecdsa id x y d) -> MarshalECPrivateKey id x y d <> Panic.
Proof.
  intros Ob E. destruct (C116_parsed_keys edPub der (SKecdsa id x y d) Ob) as [_ H]. destruct (H E) as [(Hid & c & Hc & Hd & Hxy)|[[r X]|[r X]]]; [|discriminate X|discriminate X].
  unfold MarshalECPrivateKey. destruct (oidFromNamedCurve id) as [o|] eqn:Ho; [|discriminate]. rewrite Hc.
  pose proof (mulG_range id c d Hc) as R. rewrite <- Hxy in R. cbn [fst snd] in R.
  destruct (marshal_ec_total id c x y d o o Hc Ho Hd (proj1 R) (proj2 R) (or_intror eq_refl)) as (bs & -> & _). discriminate.
Qed.

Lemma np_AIk : np cAI. Proof. apply np_struct. apply fnp_cons; [apply np_oid|]. apply fnp_cons; [apply np_raw|apply fnp_nil]. Qed.
Lemma np_cCI : np P12Model.cCI. Proof. apply np_struct. apply fnp_cons; [apply np_oid|]. apply fnp_cons; [apply np_raw|apply fnp_nil]. Qed.
Lemma np_cMac : np cMac.
Proof.
  apply np_struct. apply fnp_cons; [apply np_struct; apply fnp_cons; [apply np_AIk|]; apply fnp_cons; [apply np_bytes|apply fnp_nil]|].
  apply fnp_cons; [apply np_bytes|]. apply fnp_cons; [apply np_int|apply fnp_nil].
Qed.
Lemma np_cPfx : np cPfx.
Proof. apply np_struct. apply fnp_cons; [apply np_int|]. apply fnp_cons; [apply np_cCI|]. apply fnp_cons; [apply np_cMac|apply fnp_nil]. Qed.
Lemma np_cED : np cED.
Proof.
  apply np_struct. apply fnp_cons; [apply np_int|]. apply fnp_cons; [|apply fnp_nil]. apply np_struct. apply fnp_cons; [apply np_oid|]. apply fnp_cons; [apply np_AIk|]. apply fnp_cons; [apply np_bytes|apply fnp_nil].
Qed.
Lemma np_cBag : np cBag.
Proof.
  apply np_struct. apply fnp_cons; [apply np_oid|]. apply fnp_cons; [apply np_raw|]. apply fnp_cons; [|apply fnp_nil]. apply np_seq, np_struct. apply fnp_cons; [apply np_oid|]. apply fnp_cons; [apply np_raw|apply fnp_nil].
Qed.
Lemma np_cEPKI : np cEPKI. Proof. apply np_struct. apply fnp_cons; [apply np_AIk|]. apply fnp_cons; [apply np_bytes|apply fnp_nil]. Qed.
Lemma np_cCB : np cCB. Proof. apply np_struct. apply fnp_cons; [apply np_oid|]. apply fnp_cons; [apply np_bytes|apply fnp_nil]. Qed.

Lemma vok_AIk : vok cAI (fun a => raw_ok (ai_params a)).
Proof. eapply vok_struct; [apply fok_cons; [apply vok_true|apply fok_cons; [apply vok_raw|apply fok_nil]]|]. intros [o [r u]] (_ & H & _). exact H. Qed.
Lemma vok_cCI : vok P12Model.cCI (fun c => raw_ok (ci_Content c)).
Proof. eapply vok_struct; [apply fok_cons; [apply vok_true|apply fok_cons; [apply vok_raw|apply fok_nil]]|]. intros [o [r u]] (_ & H & _). exact H. Qed.
Lemma vok_pfx2 : vok cPfx (fun p => raw_ok (ci_Content (pfx_AuthSafe p)) /\ bytes_ok (sl (mac_MacSalt (pfx_MacData p)))).
Proof.
  eapply vok_struct; [apply fok_cons; [apply vok_true|apply fok_cons; [apply vok_cCI|apply fok_cons; [apply vok_mac|apply fok_nil]]]|].
  intros [v [a [m u]]] (_ & H & H' & _). split; [exact H|exact H'].
Qed.
Lemma vok_ED : vok cED (fun e => raw_ok (ai_params (eci_Algorithm (ed_Info e))) /\ bytes_ok (sl (eci_Data (ed_Info e)))).
Proof.
  eapply vok_struct; [apply fok_cons; [apply vok_true|apply fok_cons; [|apply fok_nil]]|].
  - eapply (vok_struct _ _ _ _ (fun i => raw_ok (ai_params (eci_Algorithm i)) /\ bytes_ok (sl (eci_Data i)))).
    + apply fok_cons; [apply vok_true|apply fok_cons; [apply vok_AIk|apply fok_cons; [apply vok_bytes|apply fok_nil]]].
    + intros [o [a [d u]]] (_ & H & H' & _). split; [exact H|exact H'].
  - intros [v [i u]] (_ & H & _). exact H.
Qed.
Definition bag_ok (b : safeBag) : Prop := raw_ok (bag_Value b) /\ Forall (fun a => raw_ok (at_Value a)) (match bag_Attributes b with Some l => l | None => [] end).
Lemma vok_Bag : vok cBag bag_ok.
Proof.
  eapply vok_struct; [apply fok_cons; [apply vok_true|apply fok_cons; [apply vok_raw|apply fok_cons; [|apply fok_nil]]]|].
  - apply vok_seq. eapply (vok_struct _ _ _ _ (fun a => raw_ok (at_Value a))); [apply fok_cons; [apply vok_true|apply fok_cons; [apply vok_raw|apply fok_nil]]|].
    intros [o [r u]] (_ & H & _). exact H.
  - intros [o [r [l u]]] (_ & H & H' & _). split; [exact H|exact H'].
Qed.
Lemma vok_EPKI : vok cEPKI (fun e => raw_ok (ai_params (epki_Algorithm e)) /\ bytes_ok (sl (epki_Data e))).
Proof. eapply vok_struct; [apply fok_cons; [apply vok_AIk|apply fok_cons; [apply vok_bytes|apply fok_nil]]|]. intros [o [r u]] (H & H' & _). split; [exact H|exact H']. Qed.
Lemma vok_CB : vok cCB (fun e => bytes_ok (sl (cb_Data e))).
Proof. eapply vok_struct; [apply fok_cons; [apply vok_true|apply fok_cons; [apply vok_bytes|apply fok_nil]]|]. intros [o [r u]] (_ & H & _). exact H. Qed.
Lemma unm_vok {A} (c : codec A) Q s a : vok c Q -> bytes_ok s -> unmarshal c s = Ret a -> Q a.
Proof. intros V O E. apply unm_inv in E. exact (vok_unmarshal c Q s a [] V O E). Qed.

Lemma safes_np P pwd : prims_ok P -> bytes_ok pwd -> forall l, Forall (fun c => raw_ok (ci_Content c)) l ->
  safes_loop P pwd l <> Panic /\ forall bags, safes_loop P pwd l = Ret bags -> Forall bag_ok bags.
Proof.
  intros HP Op. induction 1 as [|ci l [Hc _] Hl [IH1 IH2]]; cbn [safes_loop]; [split; [discriminate|intros ? [= <-]; constructor]|]. cbv zeta.
  match goal with |- context [bind ?x _] => assert (D : x <> Panic /\ forall d, x = Ret d -> bytes_ok d); [|destruct x as [d| |]] end.
  - destruct (oid_eqb _ _).
    { split; [apply bind_np; [apply np_unm, np_bytes|discriminate]|]. intros d E. apply bind_inv in E as (b & E & Ed). injection Ed as <-. exact (unm_vok cBytes _ _ _ vok_bytes Hc E). }
    destruct (oid_eqb _ _); [|split; discriminate]. pose proof (np_unm cED (sl (rv_bytes (ci_Content ci))) np_cED) as N. destruct (unmarshal cED _) as [ed| |] eqn:E; cbn [bind]; [|split; discriminate|congruence].
    destruct (negb _); [split; discriminate|]. apply (unm_vok cED _ _ _ vok_ED Hc) in E as [[_ Ha] Hd]. split; [apply C39_total; auto|]. intros d E. apply C39_exact in E; auto. tauto.
  - cbn [bind]. destruct D as [_ D]. pose proof (D d eq_refl) as Od. pose proof (np_unm (cSeqOf false cBag) d (np_seq _ _ np_cBag)) as N.
    destruct (unmarshal (cSeqOf false cBag) d) as [bags| |] eqn:E; cbn [bind]; [|split; discriminate|congruence]. apply (unm_vok _ _ _ _ (vok_seq false _ _ vok_Bag) Od) in E.
    destruct (safes_loop P pwd l) as [rest| |]; cbn [bind]; [|split; discriminate|congruence]. split; [discriminate|]. intros b [= <-]. apply Forall_app. auto.
  - cbn [bind]. split; discriminate.
  - exfalso. apply (proj1 D). reflexivity.
Qed.
Lemma checkMac_np P md msg pwd : prims_ok P -> bytes_ok (sl (mac_MacSalt md)) -> bytes_ok pwd -> checkMac P md msg pwd <> Panic /\ forall p, checkMac P md msg pwd = Ret p -> bytes_ok p.
Proof.
  intros HP Hs Hp. unfold checkMac. pose proof (proj2 (C40_verify P md msg pwd HP Hs Hp)) as N. destruct (verifyMac P md msg pwd) as [u|e|]; [split; [discriminate|intros p [= <-]; exact Hp]| |congruence].
  destruct (_ && _); [|split; discriminate]. pose proof (proj2 (C40_verify P md msg [] HP Hs (Forall_nil _))) as N'. destruct (verifyMac P md msg []) as [u'|e'|]; cbn [bind]; [|split; discriminate|congruence].
  split; [discriminate|]. intros p [= <-]. constructor.
Qed.
Lemma getSafe_np P pfx pwd : prims_ok P -> bytes_ok pfx -> bytes_ok pwd ->
  getSafeContents P pfx pwd <> Panic /\ forall bags pwd', getSafeContents P pfx pwd = Ret (bags, pwd') -> Forall bag_ok bags /\ bytes_ok pwd'.
Proof.
  intros HP Ho Hp. unfold getSafeContents. pose proof (np_unm cPfx pfx np_cPfx) as N. destruct (unmarshal cPfx pfx) as [pdu| |] eqn:E1; [|split; discriminate|congruence]. clear N.
  apply (unm_vok _ _ _ _ vok_pfx2 Ho) in E1 as [[Hc _] Hs]. destruct (negb _); [split; discriminate|]. destruct (negb _); [split; discriminate|].
  pose proof (np_unm cRaw (sl (rv_bytes (ci_Content (pfx_AuthSafe pdu)))) np_raw) as N. destruct (unmarshal cRaw _) as [content| |] eqn:E2; cbn [bind]; [|split; discriminate|congruence]. clear N.
  apply (unm_vok _ _ _ _ vok_raw Hc) in E2 as [Hr _]. cbv zeta. destruct (ai_alg _) as [|o1 o2]; [split; discriminate|].
  destruct (checkMac_np P (pfx_MacData pdu) (sl (rv_bytes content)) pwd HP Hs Hp) as [N Hm]. destruct (checkMac P _ _ _) as [p| |]; cbn [bind]; [|split; discriminate|congruence]. clear N. specialize (Hm p eq_refl).
  pose proof (np_unm (cSeqOf false P12Model.cCI) (sl (rv_bytes content)) (np_seq _ _ np_cCI)) as N. destruct (unmarshal (cSeqOf false P12Model.cCI) _) as [l| |] eqn:E3; cbn [bind]; [|split; discriminate|congruence]. clear N.
  apply (unm_vok _ _ _ _ (vok_seq false _ _ vok_cCI) Hr) in E3. destruct (negb _); [split; discriminate|].
  destruct (safes_np P p HP Hm _ E3) as [N B]. destruct (safes_loop P p _) as [bags| |]; cbn [bind]; [|split; discriminate|congruence]. split; [discriminate|]. intros bags' pwd' [= <- <-]. auto.
Qed.
Lemma certBag_np s : bytes_ok s -> decodeCertBag s <> Panic /\ forall d, decodeCertBag s = Ret d -> bytes_ok d.
Proof.
  intros Ho. unfold decodeCertBag. pose proof (np_unm cCB s np_cCB) as N. destruct (unmarshal cCB s) as [b| |] eqn:E; [|split; discriminate|congruence]. destruct (negb _); [split; discriminate|].
  split; [discriminate|]. intros d [= <-]. exact (unm_vok _ _ _ _ vok_CB Ho E).
Qed.
Lemma keyBag_np P edPub s pwd : prims_ok P -> bytes_ok s -> bytes_ok pwd ->
  decodePkcs8ShroudedKeyBag P edPub s pwd <> Panic /\ forall k, decodePkcs8ShroudedKeyBag P edPub s pwd = Ret k -> exists der, bytes_ok der /\ ParsePKCS8PrivateKey edPub der = Ret k.
Proof.
  intros HP Ho Hp. unfold decodePkcs8ShroudedKeyBag. pose proof (np_unm cEPKI s np_cEPKI) as N. destruct (unmarshal cEPKI s) as [v| |] eqn:E; [|split; discriminate|congruence]. clear N.
  apply (unm_vok _ _ _ _ vok_EPKI Ho) in E as [[_ Ha] Hd]. pose proof (C39_total P (epki_Algorithm v) (sl (epki_Data v)) pwd HP Ha Hp Hd) as N.
  destruct (pbDecrypt P _ _ _) as [pk| |] eqn:E; [|split; discriminate|congruence]. clear N. apply C39_exact in E as [Opk _]; auto.
  pose proof (np_unm cRaw pk np_raw) as N. destruct (unmarshal cRaw pk); [|split; discriminate|congruence]. clear N. pose proof (pkcs8_np edPub pk) as N.
  destruct (ParsePKCS8PrivateKey edPub pk) as [k| |] eqn:E; [|split; discriminate|congruence]. split; [discriminate|]. intros k' [= <-]. eauto.
Qed.
Section Open.
Variables (P : prims) (edPub : bytes -> bytes) (C : Type) (parseCerts : bytes -> outcome (list C)).
Hypothesis HP : prims_ok P.
Hypothesis Hpc : forall der, bytes_ok der -> parseCerts der <> Panic.
Lemma bags_np all pwd : bytes_ok pwd -> forall bags st, Forall bag_ok bags -> bags_loop P edPub C parseCerts all pwd st bags <> Panic.
Proof.
  intros Hp bags st F. revert st. induction F as [|b bags [[Hv _] _] F IH]; intros st; cbn [bags_loop]; [discriminate|]. cbv zeta. destruct (oid_eqb _ oidCertBag).
  - destruct (certBag_np _ Hv) as [N Od]. apply bind_np; [exact N|]. intros d Ed. apply bind_np; [apply Hpc, Od, Ed|]. intros [|c [|? ?]] _; try discriminate. apply IH.
  - destruct (oid_eqb _ oidPKCS8ShroundedKeyBag); [|apply IH]. destruct (keyBag_np P edPub _ pwd HP Hv Hp) as [N _]. apply bind_np; [exact N|]. intros k _. apply IH.
Qed.
Lemma decode_np all pfx password : bytes_ok pfx -> decode_gen P edPub C parseCerts all pfx password <> Panic.
Proof.
  intros Ho. unfold decode_gen. apply bind_np; [apply bmpString_np|]. intros pwd Eb. pose proof (bmpString_ok _ _ Eb) as Hp. destruct (getSafe_np P pfx pwd HP Ho Hp) as [N B].
  apply bind_np; [exact N|]. intros [bags pwd'] Eg. destruct (B _ _ Eg) as [Fb Hp']. apply bind_np; [now apply bags_np|]. intros st _. destruct (ds_certs C st); [discriminate|]. destruct (ds_key C st); discriminate.
Qed.
End Open.
Lemma attrs_np l : forall h, convertAttributes l h <> Panic.
Proof.
  induction l as [|a l IH]; intros h; cbn [convertAttributes]; [discriminate|]. apply bind_np; [|intros [k v] _; apply IH]. unfold convertAttribute. apply bind_np.
  - repeat (destruct (oid_eqb _ _); [discriminate|]). discriminate.
  - intros [k isS] _. cbv zeta. destruct isS.
    + apply bind_np; [apply np_unm, np_raw|]. intros r _. apply bind_np; [|discriminate]. unfold decodeBMPString. destruct (negb _); discriminate.
    + apply bind_np; [apply np_unm, np_bytes|discriminate].
Qed.
Lemma bag_np P edPub pwd b : prims_ok P -> bytes_ok pwd -> bag_ok b -> convertBag P edPub b pwd <> Panic.
Proof.
  intros HP Hp [[Hv _] _]. unfold convertBag. apply bind_np; [apply attrs_np|]. intros h _. cbv zeta. destruct (oid_eqb _ oidCertBag).
  - apply bind_np; [now apply certBag_np|discriminate].
  - destruct (oid_eqb _ oidPKCS8ShroundedKeyBag); [|discriminate]. destruct (keyBag_np P edPub _ pwd HP Hv Hp) as [N K]. apply bind_np; [exact N|]. intros k Ek. destruct (K k Ek) as (der & Od & Ed).
    destruct k as [r|id x y d|s|e|]; try discriminate.
    + apply bind_np; [eapply rsa_marshal_np, parsed_rsa, Ed|discriminate].
    + apply bind_np; [eapply parsed_ec; eauto|discriminate].
Qed.
(** C118: opening a PKCS#12 file, however malformed, returns a result or an error (the certificate parser given to
    Decode is assumed not to panic on byte strings; C90_no_panic proves it for the one DecodeAll uses) *)
Theorem C118_decode_total : forall P edPub C (parseCerts : bytes -> outcome (list C)) pfx password, prims_ok P -> (forall der, bytes_ok der -> parseCerts der <> Panic) -> bytes_ok pfx ->
  DecodeAll P edPub C parseCerts pfx password <> Panic /\ Decode P edPub C parseCerts pfx password <> Panic.
Proof. intros P edPub C pc pfx pwd HP Hpc Ho. split; now apply decode_np. Qed.
Print Assumptions C118_decode_total.
Theorem C118_topem_total : forall P edPub pfx password, prims_ok P -> bytes_ok pfx -> ToPEM P edPub pfx password <> Panic.
Proof.
  intros P edPub pfx password HP Ho. unfold ToPEM. pose proof (bmpString_np password) as N. destruct (bmpString password) as [pwd| |] eqn:Eb; [|discriminate|congruence]. clear N.
  pose proof (bmpString_ok _ _ Eb) as Hp. destruct (getSafe_np P pfx pwd HP Ho Hp) as [N B]. destruct (getSafeContents P pfx pwd) as [[bags pwd']| |]; [|discriminate|congruence].
  destruct (B _ _ eq_refl) as [Fb Hp']. clear - HP Fb Hp'. induction Fb as [|b bags Hb F IH]; cbn [convertBags]; [discriminate|]. apply bind_np; [now apply bag_np|]. intros x _. apply bind_np; [exact IH|discriminate].
Qed.
Print Assumptions C118_topem_total.
Theorem C118_sm2_decrypt_total : forall P edPub C (parseCerts : bytes -> outcome (list C)) file password, prims_ok P -> (forall der, bytes_ok der -> parseCerts der <> Panic) -> bytes_ok (sl file) ->
  SM2P12Decrypt P edPub C parseCerts file password <> Panic.
Proof.
  intros P edPub C pc file pwd HP Hpc Ho. unfold SM2P12Decrypt. pose proof (proj1 (C118_decode_total P edPub C pc (sl file) pwd HP Hpc Ho)) as N.
  destruct (DecodeAll P edPub C pc (sl file) pwd) as [[[pv certs] err]| |] eqn:E; cbn [bind]; [|discriminate|congruence]. destruct err; [discriminate|].
  destruct certs as [|c l].
  - exfalso. unfold DecodeAll, decode_gen in E. apply bind_inv in E as (b & _ & E). apply bind_inv in E as ([bags p] & _ & E). apply bind_inv in E as (st & _ & E).
    destruct (ds_certs C st); [discriminate E|]. destruct (ds_key C st); discriminate E.
  - destruct pv; try discriminate. destruct (_ =? _); [|discriminate]. destruct (negb _); discriminate.
Qed.
Print Assumptions C118_sm2_decrypt_total.
(** with this module's certificate parser *)
Theorem C118_decodeall_x509 : forall P edPub net pfx password, prims_ok P -> bytes_ok pfx ->
  DecodeAll P edPub _ (ParseCertificates net) pfx password <> Panic.
Proof.
  intros P edPub net pfx pwd HP Ho.
  exact (proj1 (C118_decode_total P edPub _ (ParseCertificates net) pfx pwd HP (fun der Od => proj2 (C90_no_panic net der Od)) Ho)).
Qed.
Print Assumptions C118_decodeall_x509.
Example C118_instance : (exists pfx c, DecodeAll toy (fun x => x) bytes (fun raw => Ret [raw]) pfx [112; 119] = Ret c) /\
  (exists e, DecodeAll toy (fun x => x) bytes (fun raw => Ret [raw]) [48; 3; 2; 1; 3] [112; 119] = Err e) /\ ToPEM toy (fun x => x) [48; 3; 2; 1; 3] [112; 119] = Ret [].
Proof.
  split; [|split; [eexists; vm_compute; reflexivity|vm_compute; reflexivity]].
  destruct C45_instance as (out & _ & E). exists out. eexists. exact E.
Qed.
