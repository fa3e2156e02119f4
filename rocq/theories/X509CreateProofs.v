(** * CreateCertificate followed by the parser of parser.go: lemmas *)
From Coq Require Import String Permutation.
From Verif Require Import Base Words Utf8 BMPModel ECModel SM2Model CryptoByte Asn1 Asn1Proofs KeysModel KeysProofs P12Enc P12Round Pkcs7Proofs X509Model X509Sig PropertiesX509Sig X509Build X509Proofs X509StrProofs X509ExtProofs X509CertProofs X509Crl X509CrlProofs X509Spki X509CsrProofs.
Open Scope Z_scope.

(** ** The key *)
Lemma parsePublicKey_full algo r1 r2 a1 a2 b : sl (rv_full (ai_params a1)) = sl (rv_full (ai_params a2)) -> parsePublicKey algo (mkPKI r1 a1 b) = parsePublicKey algo (mkPKI r2 a2 b).
Proof. intros H. unfold parsePublicKey. cbn [pki_PublicKey pki_Algo]. rewrite H. reflexivity. Qed.
Definition content2 (x : outcome bytes) : bytes := match x with Ret b => skipn 2 b | _ => [] end.
Definition pk_reads (pub : pubKey) (b : bytes) (ai : AI) (c : bytes) (a : AI) : Prop :=
  makeField cAI noP ai = Ret (el 0 16 true c) /\ zlen c < 1000 /\ parseAI c = Ret a /\ getPublicKeyAlgorithmFromOID (ai_alg a) = key_family pub /\
  (zlen b < 2 ^ 31 -> parsePublicKey (key_family pub) (mkPKI None a (mkBits (Some b) (8 * zlen b))) = Ret pub).
Lemma pk_ec id c x y b ai : curve_of id = Some c -> IsOnCurve (cv_P c) (cv_B c) x y = true -> marshal_ec_pub id x y = Ret (b, ai) ->
  exists ac a, makeField cAI noP ai = Ret (el 0 16 true ac) /\ zlen ac < 1000 /\ parseAI ac = Ret a /\ getPublicKeyAlgorithmFromOID (ai_alg a) = ECDSA /\
    parsePublicKey ECDSA (mkPKI None a (mkBits (Some b) (8 * zlen b))) = Ret (if id =? SM2P256V1_id then PKsm2 (mkPub id x y) else PKecdsa id x y).
Proof.
  intros Hc Hon E. unfold marshal_ec_pub in E. destruct (oidFromNamedCurve id) as [o|] eqn:Ho; [|discriminate].
  destruct (named_curve_cases id o Ho) as (Ook & Hn & _ & ob & f & Eob & Lob & Ef & Lf & Uf & _ & Rf & Nf).
  destruct (elliptic_roundtrip id c x y Hc Hon) as (pub & Em & Eu & Lp & _). rewrite Hc, Em in E. cbn [bind] in E. rewrite Ef in E. cbn [bind] in E.
  assert (b = pub /\ ai = mkAI oidPublicKeyECDSA (mkRaw 0 0 false None (Some f))) as [-> ->] by (split; congruence). clear E.
  assert (K : exists ac a, makeField cAI noP (mkAI oidPublicKeyECDSA (mkRaw 0 0 false None (Some f))) = Ret (el 0 16 true ac) /\ zlen ac < 1000 /\ parseAI ac = Ret a /\ ai_alg a = oidPublicKeyECDSA /\ sl (rv_full (ai_params a)) = f).
  { clear - Ho Ef. unfold oidFromNamedCurve in Ho.
    repeat match type of Ho with (if ?t then _ else _) = _ => destruct t eqn:? end; try discriminate Ho; assert (o = o) by reflexivity;
    injection Ho as <-; vm_compute in Ef; injection Ef as <-; (match goal with |- exists ac a, makeField ?c ?p ?x = _ /\ _ => exists (content2 (makeField c p x)) end); eexists; (split; [vm_compute; reflexivity|]); (split; [vm_compute; reflexivity|]); (split; [vm_compute; reflexivity|]); split; reflexivity. }
  destruct K as (ac & a & K1 & K2 & K3 & K4 & K5). exists ac, a. split; [exact K1|]. split; [exact K2|]. split; [exact K3|]. split; [rewrite K4; reflexivity|].
  unfold parsePublicKey. cbn [pki_PublicKey pki_Algo]. rewrite RightAlign_full, K5, Rf, Hn, Hc, Eu. destruct (id =? SM2P256V1_id); reflexivity.
Qed.
Lemma pk_read pub b ai : good_pub pub -> marshalPublicKey pub = Ret (b, ai) -> exists c a, pk_reads pub b ai c a.
Proof.
  unfold pk_reads. destruct pub as [n e|id x y|k|k|y p q g|]; cbn [good_pub marshalPublicKey key_family]; intros G E; try contradiction.
  - apply bind_inv in E as (b' & Eb & E). assert (b' = b /\ ai = mkAI oidPublicKeyRSA NullRawValue) as [-> ->] by (split; congruence).
    (match goal with |- exists ac a, makeField ?c ?p ?x = _ /\ _ => exists (content2 (makeField c p x)) end); eexists. split; [vm_compute; reflexivity|]. split; [vm_compute; reflexivity|]. split; [vm_compute; reflexivity|]. split; [reflexivity|].
    intros Hz. destruct G as [G1 G2]. rewrite <- (spki_rsa n e b G1 G2 Eb Hz None). apply parsePublicKey_full. reflexivity.
  - destruct G as (Hne & c & Hc & Hon). destruct (pk_ec id c x y b ai Hc Hon E) as (ac & a & H1 & H2 & H3 & H4 & H5). exists ac, a. repeat (split; [assumption|]). intros _. rewrite H5. replace (id =? SM2P256V1_id) with false by lia. reflexivity.
  - destruct G as (Hk & Hon). destruct k as [id x y]. cbn [pk_Curve pk_X pk_Y] in *. subst id. destruct (pk_ec SM2P256V1_id curve_sm2 x y b ai curve_of_sm2 Hon E) as (ac & a & H1 & H2 & H3 & H4 & H5).
    exists ac, a. repeat (split; [assumption|]). intros _. rewrite H5. reflexivity.
  - assert (b = k /\ ai = mkAI oidPublicKeyEd25519 rawZero) as [-> ->] by (split; congruence). (match goal with |- exists ac a, makeField ?c ?p ?x = _ /\ _ => exists (content2 (makeField c p x)) end); eexists. split; [vm_compute; reflexivity|]. split; [vm_compute; reflexivity|]. split; [vm_compute; reflexivity|]. split; [reflexivity|].
    intros _. unfold parsePublicKey. cbn [pki_PublicKey pki_Algo ai_params rv_full sl]. rewrite RightAlign_full. cbn. unfold zlen. rewrite G. reflexivity.
Qed.

(** ** Names *)
Lemma concat_in {A} (es : list (list A)) e : In e es -> zlen e <= zlen (List.concat es).
Proof.
  induction es as [|x l IH]; [intros []|]. cbn [List.concat]. rewrite zlen_app. pose proof (zlen_nonneg x). pose proof (zlen_nonneg (List.concat l)). intros [->|Hi]; [lia|]. specialize (IH Hi). lia.
Qed.
(** elements written one by one are read one by one *)
Lemma many_made {A B} (mk : A -> outcome bytes) (step : bytes -> outcome (B * bytes)) (R : A -> B -> Prop) l : forall es, mapM mk l = Ret es ->
  (forall a e, In a l -> In e es -> mk a = Ret e -> exists b, R a b /\ e <> [] /\ forall rest, step (e ++ rest) = Ret (b, rest)) ->
  exists bs, Forall2 R l bs /\ many step (List.concat es) = Ret bs.
Proof.
  intros es E H. assert (X : exists bs, Forall2 R l bs /\ Forall2 (fun e v => e <> [] /\ forall rest, step (e ++ rest) = Ret (v, rest)) es bs).
  { revert es E H. induction l as [|a l IH]; intros es E H; cbn [mapM] in E. { assert (es = []) by congruence. subst es. exists []. split; constructor. }
    apply bind_inv in E as (e & Ee & E). apply bind_inv in E as (r & Er & E). assert (es = e :: r) by congruence. subst es.
    destruct (H a e (or_introl eq_refl) (or_introl eq_refl) Ee) as (b & Rb & Hb). destruct (IH r Er) as (bs & F1 & F2).
    { intros a' e' Ha He. apply H; right; assumption. } exists (b :: bs). split; constructor; auto. }
  destruct X as (bs & F1 & F2). exists bs. split; [exact F1|]. now apply many_es.
Qed.
Lemma struct_make_inv {X A} (fs : fcodec X) (mk : X -> A) un a bs : makeField (cStruct fs mk un) noP a = Ret bs -> exists body, f_enc fs (un a) = Ret body /\ bs = el 0 16 true body.
Proof.
  intros E. unfold makeField in E. cbn [p_omit noP p_opt andb p_def c_whole cStruct p_set c_tag c_body p_tag c_comp] in E. apply bind_inv in E as (b & Eb & E). exists b. split; [exact Eb|].
  change (Ret (el 0 16 true b) = Ret bs) in E. congruence.
Qed.
Lemma structRaw_make_inv {X A} (fs : fcodec X) (mk : option bytes -> X -> A) raw un a bs : sl (raw a) = [] -> makeField (cStructRaw fs mk raw un) noP a = Ret bs -> exists body, f_enc fs (un a) = Ret body /\ bs = el 0 16 true body.
Proof.
  intros Hr E. unfold makeField in E. cbn [p_omit noP p_opt andb p_def c_whole cStructRaw p_set c_tag c_body p_tag c_comp] in E. rewrite Hr in E. apply bind_inv in E as (b & Eb & E). exists b. split; [exact Eb|].
  change (Ret (el 0 16 true b) = Ret bs) in E. congruence.
Qed.
Lemma f_cons_inv {A B} p (c : codec A) (fs : fcodec B) a b bs : f_enc (fcons p c fs) (a, b) = Ret bs -> exists x y, makeField c p a = Ret x /\ f_enc fs b = Ret y /\ bs = x ++ y.
Proof. intros E. cbn [f_enc fcons fst snd] in E. apply bind_inv in E as (x & Ex & E). apply bind_inv in E as (y & Ey & E). exists x, y. split; [exact Ex|]. split; [exact Ey|]. congruence. Qed.
Lemma f_nil_inv u bs : f_enc fnil u = Ret bs -> bs = [].
Proof. intros E. cbn [f_enc fnil] in E. congruence. Qed.
Lemma atv_make a bs : oid_ok (atv_Type a) -> bytes_ok (atv_Value a) -> makeField cATV noP a = Ret bs ->
  exists tg, (tg = 19 \/ tg = 12) /\ bs = el 0 16 true (el 0 6 false (oid_bytes (atv_Type a)) ++ el 0 tg false (atv_Value a)) /\ parseASN1String tg (atv_Value a) = Ret (atv_Value a).
Proof.
  intros Ho Hb E. unfold cATV in E. apply struct_make_inv in E as (body & E & ->). apply f_cons_inv in E as (x & y & Ex & E & ->). apply f_cons_inv in E as (v & z & Ev & E & ->). apply f_nil_inv in E. subst z.
  rewrite (mk_oid_ok _ Ho) in Ex. assert (x = el 0 6 false (oid_bytes (atv_Type a))) by congruence. subst x. clear Ex.
  change (marshalString (atv_Value a) = Ret v) in Ev. destruct (parseAny_str _ _ Hb Ev) as (tg & Ht & -> & _ & Hp). exists tg. split; [exact Ht|]. split; [now rewrite app_nil_r|exact Hp].
Qed.
Lemma atv_parse a e : oid_ok (atv_Type a) -> bytes_ok (atv_Value a) -> makeField cATV noP a = Ret e -> zlen e < 2 ^ 31 -> forall rest, parseATV (e ++ rest) = Ret (a, rest).
Proof.
  intros Ho Hb E Hz rest. destruct (atv_make _ _ Ho Hb E) as (tg & Ht & -> & Hp). pose proof (el_len 0 16 true (el 0 6 false (oid_bytes (atv_Type a)) ++ el 0 tg false (atv_Value a))) as L1. rewrite zlen_app in L1.
  pose proof (zlen_nonneg (el 0 6 false (oid_bytes (atv_Type a)))). pose proof (zlen_nonneg (el 0 tg false (atv_Value a))).
  unfold parseATV. rewrite (el_read 0 16 true _ rest T_SEQUENCE); [|reflexivity|tagok|lia|exact Hz]. rd. rewrite readOID_el by (auto; lia). rd.
  rewrite <- (app_nil_r (el 0 tg false (atv_Value a))). rewrite el_any; [|destruct Ht as [-> | ->]; tagok|destruct Ht; lia|lia]. rd.
  replace (0 * 64 + 0 + tg) with tg by lia. rewrite Hp. destruct a; reflexivity.
Qed.
Definition atv_fine (a : ATV) : Prop := oid_ok (atv_Type a) /\ bytes_ok (atv_Value a).
Lemma rdn_make rdn bs : makeField (cSeqOf true cATV) noP (Some rdn) = Ret bs -> exists l2 es, Permutation rdn l2 /\ mapM (makeField cATV noP) l2 = Ret es /\ bs = el 0 17 true (List.concat es).
Proof.
  intros E. unfold makeField in E. cbn [p_omit noP p_opt andb p_def c_whole cSeqOf p_set c_tag c_body p_tag c_comp] in E. apply bind_inv in E as (b & Eb & E). change (Ret (el 0 17 true b) = Ret bs) in E.
  assert (bs = el 0 17 true b) by congruence. subst bs. clear E. unfold seq_body in Eb. apply bind_inv in Eb as (es & Em & Eb). change (TagSet =? TagSet) with true in Eb. cbn [andb] in Eb.
  destruct (1 <? List.length rdn)%nat.
  - destruct (mapM_perm _ _ _ (sort_bytes es) Em (sort_perm es)) as (l2 & P2 & E2). exists l2, (sort_bytes es). split; [exact P2|]. split; [exact E2|]. f_equal. congruence.
  - exists rdn, es. split; [reflexivity|]. split; [exact Em|]. f_equal. congruence.
Qed.
Lemma Forall2_eq {A} (l m : list A) : Forall2 eq l m -> l = m.
Proof. induction 1; congruence. Qed.
Lemma rdn_parse rdn e : Forall atv_fine rdn -> makeField (cSeqOf true cATV) noP (Some rdn) = Ret e -> zlen e < 2 ^ 31 -> exists rdn', Permutation rdn rdn' /\ e <> [] /\ forall rest, parseRDN (e ++ rest) = Ret (rdn', rest).
Proof.
  intros Hf E Hz. destruct (rdn_make _ _ E) as (l2 & es & P2 & Em & ->). exists l2. split; [exact P2|]. split; [apply el_ne|]. intros rest. pose proof (el_len 0 17 true (List.concat es)) as L.
  unfold parseRDN. rewrite (el_read 0 17 true _ rest T_SET); [|reflexivity|tagok|lia|exact Hz]. rd.
  destruct (many_made (makeField cATV noP) parseATV eq l2 es Em) as (bs & F & ->).
  - intros a e Ha He Ee. exists a. split; [reflexivity|]. apply (Permutation_Forall P2) in Hf. rewrite Forall_forall in Hf. destruct (Hf a Ha) as [Ho Hb].
    pose proof (concat_in es e He). split; [|apply atv_parse; auto; lia]. destruct (atv_make _ _ Ho Hb Ee) as (tg & _ & -> & _). apply el_ne.
  - apply Forall2_eq in F. subst bs. reflexivity.
Qed.
Lemma name_parse n bs : name_ok n -> marshalName n = Ret bs -> zlen bs < 2 ^ 31 -> exists body n', bs = el 0 16 true body /\ same_name n n' /\ parseName bs = Ret n'.
Proof.
  intros Hn E Hz. unfold marshalName, Marshal in E.
  assert (K : exists es, mapM (makeField (cSeqOf true cATV) noP) (map Some n) = Ret es /\ bs = el 0 16 true (List.concat es)).
  { unfold makeField in E. cbn [p_omit noP p_opt andb p_def c_whole cSeqOf p_set c_tag c_body p_tag c_comp] in E. apply bind_inv in E as (b & Eb & E). change (Ret (el 0 16 true b) = Ret bs) in E.
    unfold seq_body in Eb. apply bind_inv in Eb as (es & Em & Eb). exists es. split; [exact Em|]. change (Ret (List.concat es) = Ret b) in Eb. assert (b = List.concat es) by congruence. subst b. congruence. }
  clear E. destruct K as (es & Em & ->). pose proof (el_len 0 16 true (List.concat es)) as L.
  assert (Em2 : mapM (fun r => makeField (cSeqOf true cATV) noP (Some r)) n = Ret es). { rewrite <- Em. clear. induction n as [|r n IH]; [reflexivity|]. cbn [map mapM]. rewrite IH. reflexivity. }
  destruct (many_made _ parseRDN (@Permutation ATV) n es Em2) as (n' & F & M).
  { intros r e Hr He Ee. unfold name_ok in Hn. rewrite Forall_forall in Hn. pose proof (concat_in es e He). apply rdn_parse; [exact (Hn r Hr)|exact Ee|lia]. }
  exists (List.concat es), n'. split; [reflexivity|]. split; [exact F|]. unfold parseName. rewrite <- (app_nil_r (el 0 16 true (List.concat es))). rewrite (el_read 0 16 true _ [] T_SEQUENCE); [|reflexivity|tagok|lia|exact Hz]. rd. exact M.
Qed.

(** ** Times *)
Lemma time_body_len t : zlen (time_body t) <= 15.
Proof. unfold time_body, time_common, two_digits. destruct (_ || _); unfold zlen; cbn [app List.length]; lia. Qed.
Lemma time_parse t e : valid_civil t -> marshalTime t = Ret e -> forall rest, parseTime (e ++ rest) = Ret (t, rest).
Proof.
  intros V E rest. rewrite marshalTime_el in E by (destruct V; assumption). assert (e = el 0 (time_tag t) false (time_body t)) by congruence. subst e. clear E.
  pose proof (time_body_len t) as L. assert (Z : zlen (el 0 (time_tag t) false (time_body t)) < 2 ^ 31).
  { assert (time_tag t <= 30) by (unfold time_tag; destruct (_ || _); lia). pose proof (el_ub 0 (time_tag t) false (time_body t) H ltac:(lia)). lia. }
  unfold parseTime. assert (Ht : time_tag t = 23 \/ time_tag t = 24) by (unfold time_tag; destruct (_ || _); auto). destruct Ht as [Ht|Ht]; rewrite Ht in *.
  - rewrite el_peek by lia. change (0 * 64 + 0 + 23 =? T_UTCTime) with true. cbv iota. rewrite (el_read 0 23 false _ rest T_UTCTime); [|reflexivity|tagok|lia|exact Z]. rd.
    destruct (time_body_utc t V Ht) as (-> & t' & -> & Et). rewrite Et. reflexivity.
  - rewrite el_peek by lia. change (0 * 64 + 0 + 24 =? T_UTCTime) with false. cbv iota. rewrite el_peek by lia. change (0 * 64 + 0 + 24 =? T_GeneralizedTime) with true. cbv iota.
    rewrite (el_read 0 24 false _ rest T_GeneralizedTime); [|reflexivity|tagok|lia|exact Z]. rewrite (time_body_gen t V Ht). reflexivity.
Qed.
Lemma validity_parse a b ea eb : valid_civil a -> valid_civil b -> marshalTime a = Ret ea -> marshalTime b = Ret eb -> parseValidity (ea ++ eb) = Ret (a, b).
Proof.
  intros Va Vb Ea Eb. unfold parseValidity. rewrite (time_parse _ _ Va Ea). cbn [bind]. rewrite <- (app_nil_r eb), (time_parse _ _ Vb Eb). reflexivity.
Qed.

(** ** Extensions *)
Lemma bool_read rest : readBool (el 0 1 false [255] ++ rest) = Some (true, rest).
Proof. unfold readBool. rewrite (el_read 0 1 false [255] rest T_BOOLEAN); [|reflexivity|tagok|lia|vm_compute; reflexivity]. reflexivity. Qed.
Lemma ext_parse x e : ext_ok x -> makeField cExt noP x = Ret e -> zlen e < 2 ^ 31 -> e <> [] /\ forall rest, parseExtStep (e ++ rest) = Ret (x, rest).
Proof.
  intros Hx E Hz. destruct (ext_make _ _ E) as (ob & Eo & ->). rewrite (oid_body_ok _ Hx) in Eo. assert (ob = oid_bytes (x_Id x)) by congruence. subst ob. split; [apply el_ne|]. intros rest. clear Eo E.
  unfold parseExtStep. rewrite (el_read 0 16 true _ rest T_SEQUENCE); [|reflexivity|tagok|lia|exact Hz]. rd.
  match goal with |- bind (parseExtension ?b) _ = _ => enough (P : parseExtension b = Ret x) by (rewrite P; reflexivity) end.
  destruct x as [id [|] v]; unfold ext_ok in Hx; cbn [x_Id x_Critical x_Value app] in *; unfold parseExtension.
  - pose proof (el_len 0 16 true (el 0 6 false (oid_bytes id) ++ el 0 1 false [255] ++ el 0 4 false v)) as L. rewrite !zlen_app in L.
    pose proof (zlen_nonneg (el 0 6 false (oid_bytes id))). pose proof (zlen_nonneg (el 0 4 false v)). pose proof (zlen_nonneg (el 0 1 false [255])).
    rewrite readOID_el by (auto; lia). rd. rewrite el_peek by lia. change (0 * 64 + 0 + 1 =? T_BOOLEAN) with true. cbv iota. rewrite bool_read. rd. rewrite <- (app_nil_r (el 0 4 false v)). rewrite (el_read 0 4 false _ [] T_OCTET_STRING); [|reflexivity|tagok|lia|lia]. reflexivity.
  - pose proof (el_len 0 16 true (el 0 6 false (oid_bytes id) ++ el 0 4 false v)) as L. rewrite !zlen_app in L.
    pose proof (zlen_nonneg (el 0 6 false (oid_bytes id))). pose proof (zlen_nonneg (el 0 4 false v)).
    rewrite readOID_el by (auto; lia). rd. rewrite <- (app_nil_r (el 0 4 false v)). rewrite el_peek by lia. change (0 * 64 + 0 + 4 =? T_BOOLEAN) with false. cbv iota. cbn [bind]. rewrite (el_read 0 4 false _ [] T_OCTET_STRING); [|reflexivity|tagok|lia|lia]. reflexivity.
Qed.
Lemma exts_make exts xs : makeField (cSeqOf false cExt) (optExplicitP 3) (Some exts) = Ret xs ->
  exists es, mapM (makeField cExt noP) exts = Ret es /\ xs = el 2 3 true (el 0 16 true (List.concat es)).
Proof.
  intros E. unfold makeField in E. cbn [p_omit optExplicitP p_opt andb p_def c_iszero cSeqOf c_whole p_set] in E. apply bind_inv in E as (b & Eb & E). change (Ret (el 2 3 true (el 0 16 true b)) = Ret xs) in E.
  cbn [c_body cSeqOf] in Eb. unfold seq_body in Eb. apply bind_inv in Eb as (es & Em & Eb). exists es. split; [exact Em|]. change (Ret (List.concat es) = Ret b) in Eb. assert (b = List.concat es) by congruence. subst b. congruence.
Qed.
Lemma tail_parse net exts xs i : Forall ext_ok exts -> makeField (cSeqOf false cExt) (optExplicitP 3) (Some exts) = Ret xs -> zlen xs < 2 ^ 31 -> processExtensions net info0 exts = Ret i ->
  parseTail net 3 xs = Ret (exts, i).
Proof.
  intros Hx E Hz Hp. destruct (exts_make _ _ E) as (es & Em & ->). pose proof (el_len 2 3 true (el 0 16 true (List.concat es))) as L1. pose proof (el_len 0 16 true (List.concat es)) as L2.
  unfold parseTail. change (1 <? 3) with true. cbv iota. rewrite <- (app_nil_r (el 2 3 true (el 0 16 true (List.concat es)))). unfold skipOptional. rewrite el_peek by lia. change (2 * 64 + 32 + 3 =? ctxc 1) with false. cbv iota. rd.
  rewrite el_peek by lia. change (2 * 64 + 32 + 3 =? ctxc 2) with false. cbv iota. rd. change (3 =? 3) with true. cbv iota.
  unfold readOptional. rewrite el_peek by lia. change (2 * 64 + 32 + 3 =? ctxc 3) with true. cbv iota. rewrite (el_read 2 3 true _ [] (ctxc 3)); [|reflexivity|tagok|lia|exact Hz]. rd.
  rewrite <- (app_nil_r (el 0 16 true (List.concat es))). rewrite (el_read 0 16 true _ [] T_SEQUENCE); [|reflexivity|tagok|lia|lia]. rd.
  destruct (many_made (makeField cExt noP) parseExtStep eq exts es Em) as (bs & F & ->).
  - intros x e Hi He Ee. exists x. split; [reflexivity|]. rewrite Forall_forall in Hx. pose proof (concat_in es e He). apply ext_parse; [exact (Hx x Hi)|exact Ee|lia].
  - apply Forall2_eq in F. subst bs. cbn [bind]. rewrite Hp. reflexivity.
Qed.
Lemma exts_sizes exts xs : makeField (cSeqOf false cExt) (optExplicitP 3) (Some exts) = Ret xs -> Forall (fun e => zlen (x_Value e) <= zlen xs) exts.
Proof.
  intros E. destruct (exts_make _ _ E) as (es & Em & ->). pose proof (el_len 2 3 true (el 0 16 true (List.concat es))) as L1.
  apply Forall_forall. intros e Hi. pose proof (exts_value_len exts (List.concat es) e (mk_seq _ _ _ Em) Hi). lia.
Qed.

(** ** The certificate *)
Lemma big_make n bs : makeField cBig noP (Some n) = Ret bs -> bs = el 0 2 false (bigint_content n).
Proof. intros E. change (Ret (el 0 2 false (bigint_content n)) = Ret bs) in E. congruence. Qed.
Lemma fullBits_make b bs : makeField cBits noP (fullBits b) = Ret bs -> bs = el 0 3 false (0 :: b).
Proof. intros E. change (Ret (el 0 3 false ((8 - Z.rem (zlen b * 8) 8) mod 8 :: b)) = Ret bs) in E. rewrite Z.rem_mul in E by lia. change ((8 - 0) mod 8) with 0 in E. congruence. Qed.
Lemma raw_make b bs : b <> [] -> makeField cRaw noP (mkRaw 0 0 false None (Some b)) = Ret bs -> bs = b.
Proof. intros N E. destruct b as [|x b]; [congruence|]. change (Ret (x :: b) = Ret bs) in E. congruence. Qed.
Lemma bits_read b rest : zlen (el 0 3 false (0 :: b)) < 2 ^ 31 -> readBitString (el 0 3 false (0 :: b) ++ rest) = Some (mkBits (Some b) (8 * zlen b), rest).
Proof.
  intros Hz. unfold readBitString. rewrite (el_read 0 3 false _ rest T_BIT_STRING); [|reflexivity|tagok|lia|exact Hz].
  change (7 <? 0) with false. change (2 ^ 0 - 1) with 0. rewrite Z.land_0_r. change (negb (0 =? 0)) with false. rewrite !andb_false_r. cbn [orb]. rewrite Z.sub_0_r. reflexivity.
Qed.
Lemma tbs_parts t n ai issuer subject pk pkAlg exts tbs : tp_SerialNumber t = Some n -> issuer <> [] -> subject <> [] -> Marshal cTbs (tbsOf t ai issuer subject pk pkAlg exts) = Ret tbs ->
  exists aib t1 t2 spki xs, makeField cAI noP ai = Ret aib /\ marshalTime (tp_NotBefore t) = Ret t1 /\ marshalTime (tp_NotAfter t) = Ret t2 /\
    makeField cPKI noP (mkPKI None pkAlg (fullBits pk)) = Ret spki /\ makeField (cSeqOf false cExt) (optExplicitP 3) (Some exts) = Ret xs /\
    tbs = el 0 16 true (el 2 0 true [2; 1; 2] ++ el 0 2 false (bigint_content n) ++ aib ++ issuer ++ el 0 16 true (t1 ++ t2) ++ subject ++ spki ++ xs).
Proof.
  intros Hn Hi Hs E. unfold Marshal, cTbs in E. apply structRaw_make_inv in E as (body & E & ->); [|reflexivity]. cbn [tbsOf tc_Version tc_Serial tc_SigAlg tc_Issuer tc_Validity tc_Subject tc_PublicKey tc_UniqueId tc_SubjectUniqueId tc_Extensions] in E.
  apply f_cons_inv in E as (x0 & y & E0 & E & ->). change (Ret (el 2 0 true [2; 1; 2]) = Ret x0) in E0. assert (x0 = el 2 0 true [2; 1; 2]) by congruence. subst x0. clear E0.
  apply f_cons_inv in E as (x1 & y1 & E1 & E & ->). rewrite Hn in E1. apply big_make in E1. subst x1.
  apply f_cons_inv in E as (aib & y2 & E2 & E & ->). apply f_cons_inv in E as (x3 & y3 & E3 & E & ->). apply raw_make in E3; [|exact Hi]. subst x3.
  apply f_cons_inv in E as (x4 & y4 & E4 & E & ->). unfold cValidity in E4. apply struct_make_inv in E4 as (vb & E4 & ->).
  apply f_cons_inv in E4 as (t1 & z1 & T1 & E4 & ->). apply f_cons_inv in E4 as (t2 & z2 & T2 & E4 & ->). apply f_nil_inv in E4. subst z2. change (marshalTime (tp_NotBefore t) = Ret t1) in T1. change (marshalTime (tp_NotAfter t) = Ret t2) in T2.
  apply f_cons_inv in E as (x5 & y5 & E5 & E & ->). apply raw_make in E5; [|exact Hs]. subst x5.
  apply f_cons_inv in E as (spki & y6 & E6 & E & ->). apply f_cons_inv in E as (x7 & y7 & E7 & E & ->). change (Ret [] = Ret x7) in E7. assert (x7 = []) by congruence. subst x7. clear E7.
  apply f_cons_inv in E as (x8 & y8 & E8 & E & ->). change (Ret [] = Ret x8) in E8. assert (x8 = []) by congruence. subst x8. clear E8.
  apply f_cons_inv in E as (xs & y9 & E9 & E & ->). apply f_nil_inv in E. subst y9.
  exists aib, t1, t2, spki, xs. repeat (split; [assumption|]). rewrite !app_nil_r. reflexivity.
Qed.
Lemma cert_parts tb ai sig der : makeField cCert noP (mkCS None tb ai (fullBits sig)) = Ret der ->
  exists tbs aib, makeField cTbs noP tb = Ret tbs /\ makeField cAI noP ai = Ret aib /\ der = el 0 16 true (tbs ++ aib ++ el 0 3 false (0 :: sig)).
Proof.
  intros E. unfold cCert in E. apply structRaw_make_inv in E as (body & E & ->); [|reflexivity]. cbn [cs_Tbs cs_Alg cs_Sig] in E.
  apply f_cons_inv in E as (tbs & y & E0 & E & ->). apply f_cons_inv in E as (aib & y1 & E1 & E & ->). apply f_cons_inv in E as (sb & y2 & E2 & E & ->). apply f_nil_inv in E. subst y2. apply fullBits_make in E2. subst sb.
  exists tbs, aib. split; [exact E0|]. split; [exact E1|]. now rewrite app_nil_r.
Qed.
(** a name in its encoded form *)
Definition encoded_name (b : bytes) (n : RDNSequence) : Prop := (exists c, b = el 0 16 true c) /\ parseName b = Ret n.
Lemma cert_parse net P rand key h pss ai t issuer subject iN sN pk pkAlg pub exts der n a info :
  signCert P rand key h pss ai (tbsOf t ai issuer subject pk pkAlg exts) = Ret der -> zlen der < 2 ^ 31 -> tp_SerialNumber t = Some n -> reparsed ai = Ret a ->
  encoded_name issuer iN -> encoded_name subject sN -> valid_civil (tp_NotBefore t) -> valid_civil (tp_NotAfter t) -> good_pub pub -> marshalPublicKey pub = Ret (pk, pkAlg) ->
  Forall ext_ok exts -> (Forall (fun e => zlen (x_Value e) < 2 ^ 31) exts -> processExtensions net info0 exts = Ret info) ->
  exists tbs spki digest sig, Marshal cTbs (tbsOf t ai issuer subject pk pkAlg exts) = Ret tbs /\ Marshal cPKI (mkPKI None pkAlg (fullBits pk)) = Ret spki /\
    toSign P h tbs = Ret digest /\ sg_Sign key rand digest (h, pss) = Ret sig /\
    parseCertificate net der = Ret (mkCert der tbs spki subject issuer sig a (key_family pub) pub 3 n iN sN (tp_NotBefore t) (tp_NotAfter t) exts info).
Proof.
  intros E Hz Hn Hr ((ic & Hi) & Pi) ((sc & Hs) & Ps) Vb Va Gp Mp Hx Hp. unfold signCert in E. apply bind_inv in E as (tbs & Et & E). apply bind_inv in E as (digest & Ed & E). apply bind_inv in E as (sig & Es & E). apply bind_inv in E as (der' & Ec & E).
  assert (der' = der). { destruct (_ || _) in E; [congruence|]. destruct (checkSignature _ _ _ _ _) in E; congruence. } subst der'. clear E.
  unfold Marshal in Ec. apply cert_parts in Ec as (tbs' & aib' & Et' & Ea' & Ed').
  pose proof (el_len 0 16 true (tbs' ++ aib' ++ el 0 3 false (0 :: sig))) as L0. rewrite <- Ed' in L0. rewrite !zlen_app in L0.
  pose proof (zlen_nonneg tbs'). pose proof (zlen_nonneg aib'). pose proof (zlen_nonneg (el 0 3 false (0 :: sig))).
  assert (tbs' = tbs). { unfold Marshal in Et. unfold cTbs in Et, Et'. eapply raw_remake; [| |exact Et|exact Et'|lia]; reflexivity. } subst tbs'. clear Et'.
  destruct (tbs_parts t n ai issuer subject pk pkAlg exts tbs Hn) as (aib & t1 & t2 & spki & xs & Ea & T1 & T2 & Ek & Ex & Etb); [rewrite Hi; apply el_ne|rewrite Hs; apply el_ne|exact Et|].
  assert (aib' = aib) by congruence. subst aib'. clear Ea'.
  pose proof (el_len 0 16 true (el 2 0 true [2; 1; 2] ++ el 0 2 false (bigint_content n) ++ aib ++ issuer ++ el 0 16 true (t1 ++ t2) ++ subject ++ spki ++ xs)) as L1. rewrite <- Etb in L1. rewrite !zlen_app in L1.
  pose proof (zlen_nonneg (el 2 0 true [2; 1; 2])). pose proof (zlen_nonneg (el 0 2 false (bigint_content n))). pose proof (zlen_nonneg aib). pose proof (zlen_nonneg issuer). pose proof (zlen_nonneg (el 0 16 true (t1 ++ t2))). pose proof (zlen_nonneg subject). pose proof (zlen_nonneg spki). pose proof (zlen_nonneg xs).
  assert (Sx : Forall (fun e => zlen (x_Value e) < 2 ^ 31) exts). { eapply Forall_impl; [|exact (exts_sizes _ _ Ex)]. cbv beta. intros e He. lia. }
  specialize (Hp Sx).
  (* the algorithm *)
  assert (A : exists aic a', aib = el 0 16 true aic /\ parseAI aic = Ret a' /\ getSignatureAlgorithmFromAI a' = a).
  { assert (Ea2 := Ea). unfold cAI in Ea2. apply struct_make_inv in Ea2 as (aic & _ & Haic). exists aic. unfold reparsed in Hr. apply bind_inv in Hr as (b & Eb & Hr). change (makeField cAI noP ai = Ret b) in Eb.
    assert (b = el 0 16 true aic) by congruence. subst b. rewrite <- (app_nil_r (el 0 16 true aic)) in Hr. rewrite (el_read 0 16 true _ [] T_SEQUENCE) in Hr; [|reflexivity|tagok|lia|rewrite <- Haic; lia]. unfold need at 1 in Hr. cbn [bind] in Hr.
    apply bind_inv in Hr as (a' & Pa & Hr). exists a'. split; [exact Haic|]. split; [exact Pa|]. congruence. }
  destruct A as (aic & a' & Haib & Pa & Ga).
  (* the key *)
  destruct (pk_read pub pk pkAlg Gp Mp) as (kc & ka & K1 & K2 & K3 & K4 & K5).
  assert (K : spki = el 0 16 true (el 0 16 true kc ++ el 0 3 false (0 :: pk))).
  { unfold cPKI in Ek. apply structRaw_make_inv in Ek as (body & Ek & ->); [|reflexivity]. cbn [pki_Algo pki_PublicKey] in Ek. apply f_cons_inv in Ek as (x & y & X1 & Ek & ->). apply f_cons_inv in Ek as (z & w & X2 & Ek & ->). apply f_nil_inv in Ek. subst w.
    apply fullBits_make in X2. subst z. rewrite app_nil_r. congruence. }
  pose proof (el_len 0 16 true (el 0 16 true kc ++ el 0 3 false (0 :: pk))) as L2. rewrite <- K in L2. rewrite zlen_app in L2. pose proof (zlen_nonneg (el 0 16 true kc)). pose proof (zlen_nonneg (el 0 3 false (0 :: pk))).
  pose proof (el_len 0 3 false (0 :: pk)) as L3. rewrite zlen_cons in L3.
  exists tbs, spki, digest, sig. split; [exact Et|]. split; [exact Ek|]. split; [exact Ed|]. split; [exact Es|].
  set (cert := mkCert _ _ _ _ _ _ _ _ _ _ _ _ _ _ _ _ _).
  (* everything as tlv *)
  assert (Ti : issuer = tlv T_SEQUENCE ic). { rewrite Hi. apply (el_tlv 0 16 true); [lia|]. pose proof (el_len 0 16 true ic) as LL. rewrite <- Hi in LL. lia. }
  assert (Ts : subject = tlv T_SEQUENCE sc). { rewrite Hs. apply (el_tlv 0 16 true); [lia|]. pose proof (el_len 0 16 true sc) as LL. rewrite <- Hs in LL. lia. }
  assert (Ta : aib = tlv T_SEQUENCE aic). { rewrite Haib. apply (el_tlv 0 16 true); [lia|]. pose proof (el_len 0 16 true aic) as LL. rewrite <- Haib in LL. lia. }
  assert (Tv : el 0 16 true (t1 ++ t2) = tlv T_SEQUENCE (t1 ++ t2)). { apply (el_tlv 0 16 true); [lia|]. pose proof (el_len 0 16 true (t1 ++ t2)). lia. }
  assert (Tn : el 0 2 false (bigint_content n) = tlv T_INTEGER (bigint_content n)). { apply (el_tlv 0 2 false); [lia|]. pose proof (el_len 0 2 false (bigint_content n)). lia. }
  assert (Tk : spki = tlv T_SEQUENCE (tlv T_SEQUENCE kc ++ el 0 3 false (0 :: pk))). { assert (Tc : el 0 16 true kc = tlv T_SEQUENCE kc) by (apply (el_tlv 0 16 true kc); [lia|pose proof (zlen_nonneg kc); lia]). rewrite <- Tc, K. apply (el_tlv 0 16 true); [lia|]. rewrite zlen_app. lia. }
  assert (Tver : el 2 0 true [2; 1; 2] = tlv (ctxc 0) (tlv T_INTEGER (bigint_content 2))) by (vm_compute; reflexivity).
  assert (Ttbs : tbs = tlv T_SEQUENCE (tlv (ctxc 0) (tlv T_INTEGER (bigint_content 2)) ++ tlv T_INTEGER (bigint_content n) ++ tlv T_SEQUENCE aic ++ issuer ++ tlv T_SEQUENCE (t1 ++ t2) ++ subject ++ spki ++ xs)).
  { rewrite Etb. rewrite <- Tver, <- Tn, <- Ta, <- Tv. apply (el_tlv 0 16 true); [lia|]. rewrite !zlen_app. lia. }
  assert (Tder : der = tlv T_SEQUENCE (tbs ++ tlv T_SEQUENCE aic ++ el 0 3 false (0 :: sig))). { rewrite Ed', <- Ta. apply (el_tlv 0 16 true); [lia|]. rewrite !zlen_app. lia. }
  assert (Lo : layout net cert (tlv (ctxc 0) (tlv T_INTEGER (bigint_content 2))) 2 aic ic (t1 ++ t2) sc kc (el 0 3 false (0 :: pk)) xs (el 0 3 false (0 :: sig))).
  { constructor; cbn [cert c_Raw c_RawTBSCertificate c_SerialNumber c_RawIssuer c_RawSubject c_RawSubjectPublicKeyInfo c_Version c_Issuer c_Subject c_SignatureAlgorithm c_NotBefore c_NotAfter c_PublicKeyAlgorithm c_PublicKey c_Extensions c_Info c_Signature].
    - exact Tder.
    - exact Ttbs.
    - right. split; [reflexivity|]. unfold int64. lia.
    - split; [lia|]. split; [reflexivity|lia].
    - split; [exact Ti|exact Pi].
    - split; [exact Ts|exact Ps].
    - exists a'. split; [exact Pa|congruence].
    - apply validity_parse; assumption.
    - exact Tk.
    - exists ka, (mkBits (Some pk) (8 * zlen pk)), []. split; [exact K3|]. split; [rewrite <- (app_nil_r (el 0 3 false (0 :: pk))); apply bits_read; lia|]. split; [congruence|]. apply K5. lia.
    - apply tail_parse; [exact Hx|exact Ex|lia|exact Hp].
    - exists (mkBits (Some sig) (8 * zlen sig)), []. split; [rewrite <- (app_nil_r (el 0 3 false (0 :: sig))); apply bits_read; lia|]. now rewrite RightAlign_full. }
  rewrite <- (app_nil_r der) at 1. apply (parse_ok net cert [] _ _ _ _ _ _ _ _ _ _ Lo). cbn [cert c_RawTBSCertificate c_SerialNumber c_RawIssuer c_RawSubject c_RawSubjectPublicKeyInfo].
  constructor; [rewrite <- Ta, !zlen_app; unfold max_content; lia|]. constructor; [|constructor]. rewrite <- Tver, <- Tn, <- Ta, <- Tv, !zlen_app. unfold max_content. lia.
Qed.
