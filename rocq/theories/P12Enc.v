(** * Encode followed by DecodeAll: the encodings written by package pkcs12 *)
From Verif Require Import Base Words ECModel SM2Model CryptoByte Asn1 Asn1Proofs Asn1Safe KeysModel KeysProofs BMPModel PbkdfSpec PbkdfModel P12Model P12Proofs.
Open Scope Z_scope.

(** ** one TLV *)
Definition el (cls tag : Z) (comp : bool) (b : bytes) : bytes := hdr cls tag comp (zlen b) ++ b.
Lemma el_len cls tag comp b : zlen b + 2 <= zlen (el cls tag comp b).
Proof. unfold el. rewrite zlen_app. pose proof (hdr_zlen cls tag comp (zlen b)). lia. Qed.
Lemma el_ne cls tag comp b : el cls tag comp b <> [].
Proof. intros E. pose proof (el_len cls tag comp b) as H. rewrite E in H. change (zlen (@nil Z)) with 0 in H. pose proof (zlen_nonneg b). lia. Qed.
Lemma hdr_ok cls tag comp n : 0 <= cls <= 3 -> 0 <= tag <= 30 -> 0 <= n < 2 ^ 32 -> bytes_ok (hdr cls tag comp n).
Proof.
  intros Hc Ht Hn. unfold hdr, appendTagAndLength. cbn [t_class t_comp t_tag t_len]. apply bytes_ok_app. split.
  - replace (31 <=? tag) with false by lia. repeat constructor; unfold byte_ok; destruct comp; lia.
  - destruct (Z.leb_spec 128 n); [|repeat constructor; unfold byte_ok; lia]. apply bytes_ok_cons. split; [|apply Z_to_be_ok].
    assert (nbytes n <= 4)%nat; [|unfold byte_ok; lia]. unfold nbytes. replace (n =? 0) with false by lia.
    assert (Z.log2 n < 32) by (apply Z.log2_lt_pow2; lia). assert (0 <= Z.log2 n) by apply Z.log2_nonneg.
    assert (Z.log2 n / 8 < 4) by (apply Z.div_lt_upper_bound; lia). lia.
Qed.
Lemma el_ok cls tag comp b : 0 <= cls <= 3 -> 0 <= tag <= 30 -> zlen b < 2 ^ 32 -> bytes_ok b -> bytes_ok (el cls tag comp b).
Proof. intros. apply bytes_ok_app. split; auto. apply hdr_ok; auto. pose proof (zlen_nonneg b). lia. Qed.
Lemma el_elem cls tag comp b : 0 <= cls <= 3 -> 0 <= tag <= 30 -> zlen b < 2 ^ 31 -> elem (el cls tag comp b) (mkTL cls tag (zlen b) comp) b.
Proof. intros. apply hdr_elem; auto. unfold maxInt32. lia. Qed.

(** ** fields *)
Lemma mk_bytes b : makeField cBytes noP (Some b) = Ret (el 0 4 false b). Proof. reflexivity. Qed.
Lemma mk_bytes_exp n b : makeField cBytes (explicitP n) (Some b) = Ret (el 2 n true (el 0 4 false b)). Proof. reflexivity. Qed.
Lemma mk_bytes_imp n b : makeField cBytes (optImplicitP n) (Some b) = Ret (el 2 n false b). Proof. reflexivity. Qed.
Lemma mk_int n : makeField cInt noP n = Ret (el 0 2 false (bigint_content n)). Proof. reflexivity. Qed.
Lemma mk_oid o ob : oid_body o = Ret ob -> makeField cOID noP o = Ret (el 0 6 false ob).
Proof. intros E. unfold makeField. cbn [p_omit p_opt p_def noP andb c_whole cOID prim p_set c_tag c_body p_tag]. rewrite E. reflexivity. Qed.
Lemma mk_struct {X A} (fs : fcodec X) (mk : X -> A) un a bs : f_enc fs (un a) = Ret bs -> makeField (cStruct fs mk un) noP a = Ret (el 0 16 true bs).
Proof. intros E. unfold makeField. cbn [p_omit p_opt p_def noP andb c_whole cStruct p_set c_tag c_body p_tag]. rewrite E. reflexivity. Qed.
Lemma mk_seq {A} (c : codec A) l es : mapM (makeField c noP) l = Ret es -> makeField (cSeqOf false c) noP (Some l) = Ret (el 0 16 true (List.concat es)).
Proof. intros E. unfold makeField. cbn [p_omit p_opt p_def noP andb c_whole cSeqOf p_set c_tag c_body p_tag]. unfold seq_body. rewrite E. reflexivity. Qed.
Lemma f_cons {A B} p (c : codec A) (fs : fcodec B) a b x y : makeField c p a = Ret x -> f_enc fs b = Ret y -> f_enc (fcons p c fs) (a, b) = Ret (x ++ y).
Proof. intros Ex Ey. cbn [f_enc fcons fst snd]. rewrite Ex. cbn [bind]. rewrite Ey. reflexivity. Qed.
Lemma f_one {A} p (c : codec A) a x : makeField c p a = Ret x -> f_enc (fcons p c fnil) (a, tt) = Ret x.
Proof. intros Ex. rewrite (f_cons p c fnil a tt x [] Ex eq_refl). now rewrite app_nil_r. Qed.
Definition ctx0 (b : bytes) : rawValue := mkRaw 2 0 true (Some b) None.
Definition ctx0' (b : bytes) : rawValue := mkRaw 2 0 true (Some b) (Some (el 2 0 true b)).
Lemma mk_ctx0 p b : p = explicitP 0 \/ p = optExplicitP 0 -> makeField cRaw p (ctx0 b) = Ret (el 2 0 true b).
Proof. intros [-> | ->]; reflexivity. Qed.
Lemma rt_ctx0 p b : p = explicitP 0 \/ p = optExplicitP 0 -> b <> [] -> field_rt cRaw p (ctx0 b) (ctx0' b).
Proof.
  intros Hp Hb bs tail E Hz. rewrite (mk_ctx0 p b Hp) in E. assert (bs = el 2 0 true b) by congruence. subst bs.
  pose proof (el_len 2 0 true b). pose proof (el_elem 2 0 true b ltac:(lia) ltac:(lia) ltac:(lia)) as El.
  unfold ctx0'. change (mkRaw 2 0 true (Some b) (Some (el 2 0 true b))) with (mkRaw (t_class (mkTL 2 0 (zlen b) true)) (t_tag (mkTL 2 0 (zlen b) true)) (t_comp (mkTL 2 0 (zlen b) true)) (Some b) (Some (el 2 0 true b))).
  apply (raw_parse_explicit p 0); auto; try (destruct Hp as [-> | ->]; reflexivity). destruct b; [congruence|discriminate].
Qed.
Lemma unm_rt {A} (c : codec A) a a' bs : field_rt c noP a a' -> makeField c noP a = Ret bs -> zlen bs < 2 ^ 31 -> unmarshal c bs = Ret a'.
Proof. intros R E Hz. apply unm_ret. apply (marshal_rt c a a' bs R E Hz). Qed.
Lemma struct_to {X A} (fs : fcodec X) (mk : X -> A) un a x' a' : mk x' = a' -> frt fs (un a) x' -> field_rt (cStruct fs mk un) noP a a'.
Proof. intros <-. apply struct_rt. Qed.
Lemma struct_body_to {X A} (fs : fcodec X) (mk : X -> A) un set a x' a' : mk x' = a' -> frt fs (un a) x' -> body_rt (cStruct fs mk un) set a a'.
Proof. intros <-. apply struct_body_rt. Qed.
Lemma rt_bytes_imp b : field_rt cBytes (optImplicitP 0) (Some b) (Some b).
Proof.
  apply make_rt; [cbn; unfold maxInt32; lia|reflexivity|now compute|reflexivity|split; reflexivity|]. exact (bytes_body_rt _ (Some b)).
Qed.
Ltac oidok := repeat constructor; vm_compute; discriminate.

(** ** certificate bags *)
Lemma cCB_rt o d : oid_ok o -> field_rt cCB noP (mkCB o (Some d)) (mkCB o (Some d)).
Proof.
  intros Ho. eapply (struct_to _ _ _ (mkCB o (Some d)) (o, (Some d, tt))); [reflexivity|].
  apply frt_cons; [now apply oid_rt_f|]. apply frt_cons; [|apply frt_nil].
  apply make_rt; [cbn; unfold maxInt32; lia|reflexivity|now compute|reflexivity|split; reflexivity|]. exact (bytes_body_rt _ (Some d)).
Qed.
Definition certBag_oid : bytes := Eval vm_compute in match oid_body oidCertTypeX509Certificate with Ret b => b | _ => [] end.
Definition certBag_bytes (raw : bytes) : bytes := el 0 16 true (el 0 6 false certBag_oid ++ el 2 0 true (el 0 4 false raw)).
Lemma certBag_mk raw : makeField cCB noP (mkCB oidCertTypeX509Certificate (Some raw)) = Ret (certBag_bytes raw).
Proof.
  apply (mk_struct _ _ _ (mkCB oidCertTypeX509Certificate (Some raw))). cbn [cb_Id cb_Data]. apply f_cons; [apply mk_oid; reflexivity|]. apply f_one. apply mk_bytes_exp.
Qed.
Lemma encodeCertBag_eq raw : encodeCertBag raw = Ret (certBag_bytes raw).
Proof. unfold encodeCertBag, Marshal. rewrite certBag_mk. reflexivity. Qed.
Lemma oid_ok_x509 : oid_ok oidCertTypeX509Certificate. Proof. oidok. Qed.
Lemma decodeCertBag_eq raw : zlen (certBag_bytes raw) < 2 ^ 31 -> decodeCertBag (certBag_bytes raw) = Ret raw.
Proof.
  intros Hz. unfold decodeCertBag. rewrite (unm_rt cCB _ _ _ (cCB_rt _ raw oid_ok_x509) (certBag_mk raw) Hz). cbn [cb_Id cb_Data sl].
  change (oid_eqb oidCertTypeX509Certificate oidCertTypeX509Certificate) with true. reflexivity.
Qed.
Lemma certBag_len raw : zlen raw + 6 <= zlen (certBag_bytes raw).
Proof.
  unfold certBag_bytes. match goal with |- context [el 0 16 true ?x] => pose proof (el_len 0 16 true x) as H0; rewrite zlen_app in H0 end.
  pose proof (el_len 2 0 true (el 0 4 false raw)). pose proof (el_len 0 4 false raw). pose proof (zlen_nonneg (el 0 6 false certBag_oid)). lia.
Qed.
Lemma certBag_ok raw : bytes_ok raw -> zlen (certBag_bytes raw) < 2 ^ 31 -> bytes_ok (certBag_bytes raw).
Proof.
  intros Ho Hz. unfold certBag_bytes in *.
  match goal with H : zlen (el 0 16 true ?x) < _ |- _ => pose proof (el_len 0 16 true x) as H0; pose proof H0 as H1; rewrite zlen_app in H1 end.
  pose proof (el_len 2 0 true (el 0 4 false raw)). pose proof (el_len 0 4 false raw). pose proof (zlen_nonneg (el 0 6 false certBag_oid)).
  apply el_ok; try lia. apply bytes_ok_app. split; [apply bytes_okb_spec; reflexivity|]. apply el_ok; try lia. apply el_ok; try lia. exact Ho.
Qed.

(** ** safe bags *)
Definition attr_oid : bytes := Eval vm_compute in match oid_body oidLocalKeyID with Ret b => b | _ => [] end.
Definition attr_of (fp : bytes) : pkcs12Attribute := mkAttr oidLocalKeyID (mkRaw 0 17 true (Some fp) None).
Definition attr_of' (fp : bytes) : pkcs12Attribute := mkAttr oidLocalKeyID (mkRaw 0 17 true (Some fp) (Some (el 0 17 true fp))).
Definition attr_bytes (fp : bytes) : bytes := el 0 16 true (el 0 6 false attr_oid ++ el 0 17 true fp).
Lemma attr_eq fp : makeField cAttr noP (attr_of fp) = Ret (attr_bytes fp).
Proof. apply (mk_struct _ _ _ (attr_of fp)). cbn [at_Id at_Value attr_of]. apply f_cons; [apply mk_oid; reflexivity|]. apply f_one. reflexivity. Qed.
Lemma attr_rt fp : zlen fp < 2 ^ 31 -> field_rt cAttr noP (attr_of fp) (attr_of' fp).
Proof.
  intros Hf. eapply (struct_to _ _ _ (attr_of fp) (oidLocalKeyID, (mkRaw 0 17 true (Some fp) (Some (el 0 17 true fp)), tt))); [reflexivity|].
  apply frt_cons; [apply oid_rt_f; oidok|]. apply frt_cons; [|apply frt_nil]. intros bs tail E Hz.
  assert (bs = el 0 17 true fp). { change (Ret (el 0 17 true fp) = Ret bs) in E. congruence. } subst bs.
  exact (raw_parse setP _ (mkTL 0 17 (zlen fp) true) fp tail eq_refl eq_refl (el_elem 0 17 true fp ltac:(lia) ltac:(lia) Hf)).
Qed.
Definition bag_of (id : oid) (b : bytes) (fps : list bytes) : safeBag := mkBag id (ctx0 b) (Some (map attr_of fps)).
Definition bag_of' (id : oid) (b : bytes) (fps : list bytes) : safeBag := mkBag id (ctx0' b) (Some (map attr_of' fps)).
Lemma bag_rt id b fps : oid_ok id -> b <> [] -> (List.length fps <= 1)%nat -> Forall (fun fp => zlen fp < 2 ^ 31) fps ->
  field_rt cBag noP (bag_of id b fps) (bag_of' id b fps).
Proof.
  intros Ho Hb Hl Hf. eapply (struct_to _ _ _ (bag_of id b fps) (id, (ctx0' b, (Some (map attr_of' fps), tt)))); [reflexivity|].
  cbn [bag_Id bag_Value bag_Attributes bag_of]. apply frt_cons; [now apply oid_rt_f|]. apply frt_cons; [apply rt_ctx0; auto|]. apply frt_cons; [|apply frt_nil].
  apply make_rt; [reflexivity|reflexivity|now compute|reflexivity|split; reflexivity|]. apply seq_body_rt; [reflexivity|now compute|right; rewrite map_length; exact Hl|].
  induction Hf; cbn [map]; constructor; [now apply attr_rt|]. apply IHHf. cbn [List.length] in Hl. lia.
Qed.
Definition bag_bytes (ob b : bytes) (fps : list bytes) : bytes := el 0 16 true (el 0 6 false ob ++ el 2 0 true b ++ el 0 17 true (List.concat (map attr_bytes fps))).
Lemma bag_eq id ob b fps : oid_body id = Ret ob -> (List.length fps <= 1)%nat -> makeField cBag noP (bag_of id b fps) = Ret (bag_bytes ob b fps).
Proof.
  intros Ho Hl. apply (mk_struct _ _ _ (bag_of id b fps)). cbn [bag_Id bag_Value bag_Attributes bag_of].
  apply f_cons; [now apply mk_oid|]. apply f_cons; [apply mk_ctx0; auto|]. apply f_one.
  unfold makeField. cbn [p_omit p_opt p_def optSetP andb c_whole cSeqOf p_set c_tag c_body p_tag c_iszero]. change (TagSequence =? TagSequence) with true. cbn [negb andb].
  unfold seq_body. replace (mapM (makeField cAttr noP) (map attr_of fps)) with (Ret (map attr_bytes fps)).
  - cbn [bind]. rewrite map_length. replace (1 <? List.length fps)%nat with false by (symmetry; apply Nat.ltb_ge; exact Hl). rewrite andb_false_r. reflexivity.
  - clear. induction fps as [|fp fps IH]; [reflexivity|]. cbn [map mapM]. rewrite attr_eq. cbn [bind]. rewrite <- IH. reflexivity.
Qed.
Lemma bag_len ob b fps : zlen b + 4 <= zlen (bag_bytes ob b fps) /\ Forall (fun fp => zlen fp <= zlen (bag_bytes ob b fps)) fps.
Proof.
  unfold bag_bytes. match goal with |- context [el 0 16 true ?x] => set (y := x); pose proof (el_len 0 16 true y) as H0 end.
  assert (Hy : zlen y = zlen (el 0 6 false ob) + (zlen (el 2 0 true b) + zlen (el 0 17 true (List.concat (map attr_bytes fps))))) by (unfold y; now rewrite !zlen_app).
  pose proof (el_len 2 0 true b). pose proof (el_len 0 17 true (List.concat (map attr_bytes fps))) as Ha. pose proof (zlen_nonneg (el 0 6 false ob)). pose proof (zlen_nonneg b).
  pose proof (zlen_nonneg (List.concat (map attr_bytes fps))).
  split; [lia|]. assert (F : Forall (fun fp => zlen fp <= zlen (List.concat (map attr_bytes fps))) fps).
  { clear. induction fps as [|fp fps IH]; constructor; cbn [map List.concat]; rewrite zlen_app.
    - pose proof (zlen_nonneg (List.concat (map attr_bytes fps))). unfold attr_bytes at 1.
      match goal with |- context [el 0 16 true ?x] => pose proof (el_len 0 16 true x) as H0; rewrite zlen_app in H0 end.
      pose proof (el_len 0 17 true fp). pose proof (zlen_nonneg (el 0 6 false attr_oid)). lia.
    - eapply Forall_impl; [|exact IH]. intros a Ha. cbn beta in *. pose proof (zlen_nonneg (attr_bytes fp)). lia. }
  eapply Forall_impl; [|exact F]. intros a Hfa. cbn beta in *. lia.
Qed.
Lemma bag_ok ob b fps : bytes_ok ob -> bytes_ok b -> Forall bytes_ok fps -> zlen (bag_bytes ob b fps) < 2 ^ 31 -> bytes_ok (bag_bytes ob b fps).
Proof.
  intros Hob Hb Hf Hz. unfold bag_bytes in *. match goal with |- context [el 0 16 true ?x] => set (y := x) in *; pose proof (el_len 0 16 true y) as H0 end.
  assert (Hy : zlen y = zlen (el 0 6 false ob) + (zlen (el 2 0 true b) + zlen (el 0 17 true (List.concat (map attr_bytes fps))))) by (unfold y; now rewrite !zlen_app).
  pose proof (el_len 2 0 true b). pose proof (el_len 0 6 false ob). pose proof (el_len 0 17 true (List.concat (map attr_bytes fps))) as Ha.
  pose proof (zlen_nonneg ob). pose proof (zlen_nonneg b). pose proof (zlen_nonneg (List.concat (map attr_bytes fps))).
  apply el_ok; try lia. unfold y. apply bytes_ok_app. split; [apply el_ok; auto; lia|]. apply bytes_ok_app. split; [apply el_ok; auto; lia|].
  apply el_ok; try lia. assert (Hc : zlen (List.concat (map attr_bytes fps)) < 2 ^ 31) by lia. clear - Hf Hc.
  induction Hf as [|fp fps Hfp Hf IH]; [constructor|]. cbn [map List.concat] in *. rewrite zlen_app in Hc.
  pose proof (zlen_nonneg (attr_bytes fp)). pose proof (zlen_nonneg (List.concat (map attr_bytes fps))). apply bytes_ok_app. split; [|apply IH; lia].
  unfold attr_bytes in *. match goal with |- context [el 0 16 true ?x] => pose proof (el_len 0 16 true x) as H2; pose proof H2 as H3; rewrite zlen_app in H3 end.
  pose proof (el_len 0 17 true fp). pose proof (zlen_nonneg (el 0 6 false attr_oid)).
  apply el_ok; try lia. apply bytes_ok_app. split; [apply bytes_okb_spec; reflexivity|]. apply el_ok; auto; lia.
Qed.

(** ** algorithm identifiers and encrypted data *)
Definition pbe_bytes (salt : bytes) : bytes := el 0 16 true (el 0 4 false salt ++ el 0 2 false [8; 0]).
Lemma pbe_eq salt : Marshal cPbe (mkPbe (Some salt) 2048) = Ret (pbe_bytes salt).
Proof. apply (mk_struct _ _ _ (mkPbe (Some salt) 2048)). apply f_cons; [reflexivity|]. apply f_one. reflexivity. Qed.
Definition pbe_ai (o : oid) (salt : bytes) : AI := mkAI o (mkRaw 0 0 false None (Some (pbe_bytes salt))).
Definition pbe_ai' (o : oid) (salt : bytes) : AI := mkAI o (mkRaw 0 16 true (Some (el 0 4 false salt ++ el 0 2 false [8; 0])) (Some (pbe_bytes salt))).
Lemma pbe_len8 salt : zlen salt = 8 -> zlen (pbe_bytes salt) = 16.
Proof. intros E. unfold pbe_bytes, el. rewrite !zlen_app, E. reflexivity. Qed.
Lemma pbe_elem salt : zlen salt = 8 -> elem (pbe_bytes salt) (mkTL 0 16 14 true) (el 0 4 false salt ++ el 0 2 false [8; 0]).
Proof.
  intros E. assert (L : zlen (el 0 4 false salt ++ el 0 2 false [8; 0]) = 14) by (unfold el; rewrite !zlen_app, E; reflexivity).
  pose proof (el_elem 0 16 true (el 0 4 false salt ++ el 0 2 false [8; 0]) ltac:(lia) ltac:(lia) ltac:(lia)) as H. rewrite L in H. exact H.
Qed.
Lemma pbe_unm salt : zlen salt = 8 -> unmarshal cPbe (pbe_bytes salt) = Ret (mkPbe (Some salt) 2048).
Proof.
  intros E. apply (unm_rt cPbe (mkPbe (Some salt) 2048)); [|apply pbe_eq|rewrite pbe_len8 by auto; lia].
  eapply (struct_to _ _ _ (mkPbe (Some salt) 2048) (Some salt, (2048, tt))); [reflexivity|].
  apply frt_cons; [apply bytes_rt|]. apply frt_cons; [apply int_rt; lia|apply frt_nil].
Qed.
Lemma pbe_ok salt : zlen salt = 8 -> bytes_ok salt -> bytes_ok (pbe_bytes salt).
Proof.
  intros E Ho. unfold pbe_bytes. apply el_ok; try lia.
  - unfold el. rewrite !zlen_app, E. vm_compute. reflexivity.
  - apply bytes_ok_app. split; [apply el_ok; auto; lia|]. apply bytes_okb_spec. reflexivity.
Qed.
Lemma pbe_ai_rt o salt : oid_ok o -> zlen salt = 8 -> field_rt cAI noP (pbe_ai o salt) (pbe_ai' o salt).
Proof.
  intros Ho E. apply cAI_rt; auto. apply (frt_params _ (pbe_bytes salt) (mkTL 0 16 14 true)); [reflexivity| |now apply pbe_elem].
  unfold raw_whole. cbn [rv_full sl]. destruct (pbe_bytes salt) eqn:Ep; [exfalso; apply (el_ne 0 16 true _ Ep)|reflexivity].
Qed.
Definition ai_bytes (ob salt : bytes) : bytes := el 0 16 true (el 0 6 false ob ++ pbe_bytes salt).
Lemma pbe_ai_eq o ob salt : oid_body o = Ret ob -> makeField cAI noP (pbe_ai o salt) = Ret (ai_bytes ob salt).
Proof.
  intros Eo. apply (mk_struct _ _ _ (pbe_ai o salt)). cbn [ai_alg ai_params pbe_ai]. apply f_cons; [now apply mk_oid|]. apply f_one.
  unfold makeField. cbn [p_omit p_opt p_def optP andb c_whole cRaw c_iszero]. unfold raw_whole. cbn [rv_full sl].
  destruct (pbe_bytes salt) eqn:Ep; [exfalso; apply (el_ne 0 16 true _ Ep)|reflexivity].
Qed.
Lemma ai_bytes_ok ob salt : zlen ob <= 100 -> bytes_ok ob -> zlen salt = 8 -> bytes_ok salt -> bytes_ok (ai_bytes ob salt) /\ zlen (ai_bytes ob salt) <= 200.
Proof.
  intros Lo Oo Ls Os. unfold ai_bytes. assert (L1 : zlen (el 0 6 false ob) <= 106).
  { unfold el. rewrite zlen_app. pose proof (hdr_zlen_upper 0 6 false (zlen ob) ltac:(lia) ltac:(pose proof (zlen_nonneg ob); lia)). lia. }
  assert (L2 : zlen (el 0 6 false ob ++ pbe_bytes salt) <= 122) by (rewrite zlen_app, pbe_len8 by auto; lia). split.
  - apply el_ok; try lia. apply bytes_ok_app. split; [apply el_ok; auto; lia|now apply pbe_ok].
  - unfold el at 1. rewrite zlen_app. pose proof (zlen_nonneg (el 0 6 false ob ++ pbe_bytes salt)).
    pose proof (hdr_zlen_upper 0 16 true (zlen (el 0 6 false ob ++ pbe_bytes salt)) ltac:(lia) ltac:(lia)). lia.
Qed.
(** EncryptedPrivateKeyInfo *)
Definition tdes_oid : bytes := Eval vm_compute in match oid_body oidPBEWithSHAAnd3KeyTripleDESCBC with Ret b => b | _ => [] end.
Definition rc2_oid : bytes := Eval vm_compute in match oid_body oidPBEWithSHAAnd40BitRC2CBC with Ret b => b | _ => [] end.
Definition epki_bytes (salt enc : bytes) : bytes := el 0 16 true (ai_bytes tdes_oid salt ++ el 0 4 false enc).
Lemma epki_eq salt enc : Marshal cEPKI (mkEPKI (pbe_ai oidPBEWithSHAAnd3KeyTripleDESCBC salt) (Some enc)) = Ret (epki_bytes salt enc).
Proof.
  apply (mk_struct _ _ _ (mkEPKI (pbe_ai oidPBEWithSHAAnd3KeyTripleDESCBC salt) (Some enc))). cbn [epki_Algorithm epki_Data].
  apply f_cons; [apply pbe_ai_eq; reflexivity|]. apply f_one. reflexivity.
Qed.
Lemma epki_unm salt enc : zlen salt = 8 -> zlen (epki_bytes salt enc) < 2 ^ 31 ->
  unmarshal cEPKI (epki_bytes salt enc) = Ret (mkEPKI (pbe_ai' oidPBEWithSHAAnd3KeyTripleDESCBC salt) (Some enc)).
Proof.
  intros Hs Hz. apply (unm_rt cEPKI (mkEPKI (pbe_ai oidPBEWithSHAAnd3KeyTripleDESCBC salt) (Some enc))); [|apply epki_eq|exact Hz].
  eapply (struct_to _ _ _ (mkEPKI (pbe_ai oidPBEWithSHAAnd3KeyTripleDESCBC salt) (Some enc)) (pbe_ai' oidPBEWithSHAAnd3KeyTripleDESCBC salt, (Some enc, tt))); [reflexivity|].
  apply frt_cons; [apply pbe_ai_rt; [oidok|exact Hs]|]. apply frt_cons; [apply bytes_rt|apply frt_nil].
Qed.
Lemma epki_len salt enc : zlen enc + 4 <= zlen (epki_bytes salt enc).
Proof.
  unfold epki_bytes. match goal with |- context [el 0 16 true ?x] => pose proof (el_len 0 16 true x) as H0; rewrite zlen_app in H0 end.
  pose proof (el_len 0 4 false enc). pose proof (zlen_nonneg (ai_bytes tdes_oid salt)). lia.
Qed.
Lemma epki_ok salt enc : zlen salt = 8 -> bytes_ok salt -> bytes_ok enc -> zlen (epki_bytes salt enc) < 2 ^ 31 -> bytes_ok (epki_bytes salt enc).
Proof.
  intros Ls Os Oe Hz. unfold epki_bytes in *. match goal with |- context [el 0 16 true ?x] => pose proof (el_len 0 16 true x) as H0; pose proof H0 as H1; rewrite zlen_app in H1 end.
  pose proof (el_len 0 4 false enc). pose proof (zlen_nonneg (ai_bytes tdes_oid salt)).
  apply el_ok; try lia. apply bytes_ok_app. split; [|apply el_ok; auto; lia]. apply ai_bytes_ok; [vm_compute; discriminate|apply bytes_okb_spec; reflexivity|exact Ls|exact Os].
Qed.
(** EncryptedData *)
Definition data_oid : bytes := Eval vm_compute in match oid_body oidDataContentType with Ret b => b | _ => [] end.
Definition encData_oid : bytes := Eval vm_compute in match oid_body oidEncryptedDataContentType with Ret b => b | _ => [] end.
Definition ed_bytes (salt enc : bytes) : bytes :=
  el 0 16 true (el 0 2 false [0] ++ el 0 16 true (el 0 6 false data_oid ++ ai_bytes rc2_oid salt ++ el 2 0 false enc)).
Definition ed_of (salt enc : bytes) : encryptedData := mkED 0 (mkECI oidDataContentType (pbe_ai oidPBEWithSHAAnd40BitRC2CBC salt) (Some enc)).
Definition ed_of' (salt enc : bytes) : encryptedData := mkED 0 (mkECI oidDataContentType (pbe_ai' oidPBEWithSHAAnd40BitRC2CBC salt) (Some enc)).
Lemma ed_eq salt enc : Marshal cED (ed_of salt enc) = Ret (ed_bytes salt enc).
Proof.
  apply (mk_struct _ _ _ (ed_of salt enc)). cbn [ed_Version ed_Info ed_of]. apply f_cons; [apply mk_int|]. apply f_one.
  apply (mk_struct _ _ _ (mkECI oidDataContentType (pbe_ai oidPBEWithSHAAnd40BitRC2CBC salt) (Some enc))). cbn [eci_ContentType eci_Algorithm eci_Data].
  apply f_cons; [apply mk_oid; reflexivity|]. apply f_cons; [apply pbe_ai_eq; reflexivity|]. apply f_one. apply mk_bytes_imp.
Qed.
Lemma ed_unm salt enc : zlen salt = 8 -> zlen (ed_bytes salt enc) < 2 ^ 31 -> unmarshal cED (ed_bytes salt enc) = Ret (ed_of' salt enc).
Proof.
  intros Hs Hz. apply (unm_rt cED (ed_of salt enc)); [|apply ed_eq|exact Hz].
  eapply (struct_to _ _ _ (ed_of salt enc) (0, (mkECI oidDataContentType (pbe_ai' oidPBEWithSHAAnd40BitRC2CBC salt) (Some enc), tt))); [reflexivity|].
  apply frt_cons; [apply int_rt; lia|]. apply frt_cons; [|apply frt_nil].
  eapply (struct_to _ _ _ (mkECI oidDataContentType (pbe_ai oidPBEWithSHAAnd40BitRC2CBC salt) (Some enc))
    (oidDataContentType, (pbe_ai' oidPBEWithSHAAnd40BitRC2CBC salt, (Some enc, tt)))); [reflexivity|].
  apply frt_cons; [apply oid_rt_f; oidok|]. apply frt_cons; [apply pbe_ai_rt; [oidok|exact Hs]|]. apply frt_cons; [|apply frt_nil].
  apply rt_bytes_imp.
Qed.
Lemma ed_len salt enc : zlen enc + 6 <= zlen (ed_bytes salt enc).
Proof.
  unfold ed_bytes. match goal with |- context [el 0 16 true (?a ++ el 0 16 true ?x)] => pose proof (el_len 0 16 true (a ++ el 0 16 true x)) as H0; rewrite zlen_app in H0; pose proof (el_len 0 16 true x) as H1; rewrite !zlen_app in H1; pose proof (zlen_nonneg a) end.
  pose proof (el_len 2 0 false enc). pose proof (zlen_nonneg (ai_bytes rc2_oid salt)). pose proof (zlen_nonneg (el 0 6 false data_oid)). lia.
Qed.
(** ContentInfo *)
Definition ci_bytes (ob b : bytes) : bytes := el 0 16 true (el 0 6 false ob ++ el 2 0 true b).
Lemma ci_eq o ob b : oid_body o = Ret ob -> makeField cCI noP (mkCI o (ctx0 b)) = Ret (ci_bytes ob b).
Proof.
  intros E. apply (mk_struct _ _ _ (mkCI o (ctx0 b))). cbn [ci_ContentType ci_Content]. apply f_cons; [now apply mk_oid|]. apply f_one. apply mk_ctx0. auto.
Qed.
Lemma ci_rt o b : oid_ok o -> b <> [] -> field_rt cCI noP (mkCI o (ctx0 b)) (mkCI o (ctx0' b)).
Proof.
  intros Ho Hb. eapply (struct_to _ _ _ (mkCI o (ctx0 b)) (o, (ctx0' b, tt))); [reflexivity|].
  apply frt_cons; [now apply oid_rt_f|]. apply frt_cons; [apply rt_ctx0; auto|apply frt_nil].
Qed.
Lemma ci_len ob b : zlen b + 4 <= zlen (ci_bytes ob b).
Proof.
  unfold ci_bytes. match goal with |- context [el 0 16 true ?x] => pose proof (el_len 0 16 true x) as H0; rewrite zlen_app in H0 end.
  pose proof (el_len 2 0 true b). pose proof (zlen_nonneg (el 0 6 false ob)). lia.
Qed.
(** PFX *)
Definition sha1_oid : bytes := Eval vm_compute in match oid_body oidSHA1 with Ret b => b | _ => [] end.
Definition mac_of (digest salt : bytes) : macData := mkMac (mkDI (mkAI oidSHA1 rawZero) (Some digest)) (Some salt) 1.
Definition mac_bytes (digest salt : bytes) : bytes := el 0 16 true (el 0 16 true (el 0 16 true (el 0 6 false sha1_oid) ++ el 0 4 false digest) ++ el 0 4 false salt).
Lemma mac_enc digest salt : f_enc (fcons noP cDI (fcons noP cBytes (fcons (defaultP 1) cInt fnil))) (mac_Mac (mac_of digest salt), (mac_MacSalt (mac_of digest salt), (mac_Iterations (mac_of digest salt), tt)))
  = Ret (el 0 16 true (el 0 16 true (el 0 6 false sha1_oid) ++ el 0 4 false digest) ++ el 0 4 false salt).
Proof.
  cbn [mac_Mac mac_MacSalt mac_Iterations mac_of]. apply f_cons.
  - apply (mk_struct _ _ _ (mkDI (mkAI oidSHA1 rawZero) (Some digest))). cbn [di_Algorithm di_Digest]. apply f_cons; [|apply f_one; reflexivity].
    apply (mk_struct _ _ _ (mkAI oidSHA1 rawZero)). cbn [ai_alg ai_params]. rewrite <- (app_nil_r (el 0 6 false sha1_oid)). apply f_cons; [apply mk_oid; reflexivity|]. reflexivity.
  - rewrite <- (app_nil_r (el 0 4 false salt)). apply f_cons; [reflexivity|]. reflexivity.
Qed.
Lemma mac_rt digest salt : field_rt cMac optP (mac_of digest salt) (mac_of digest salt).
Proof.
  apply make_rt; [reflexivity|reflexivity|now compute|reflexivity|split; reflexivity|].
  eapply (struct_body_to _ _ _ _ (mac_of digest salt) (mkDI (mkAI oidSHA1 rawZero) (Some digest), (Some salt, (1, tt)))); [reflexivity|].
  cbn [mac_Mac mac_MacSalt mac_Iterations mac_of]. apply frt_cons; [|apply frt_cons; [apply bytes_rt|]].
  - eapply (struct_to _ _ _ (mkDI (mkAI oidSHA1 rawZero) (Some digest)) (mkAI oidSHA1 rawZero, (Some digest, tt))); [reflexivity|].
    apply frt_cons; [apply cAI_rt; [oidok|apply frt_params_zero]|]. apply frt_cons; [apply bytes_rt|apply frt_nil].
  - apply frt_skip_end; [reflexivity|reflexivity|reflexivity|apply frt_nil].
Qed.
Definition pfx_of (c : bytes) (digest salt : bytes) : pfxPdu := mkPfx 3 (mkCI oidDataContentType (ctx0 c)) (mac_of digest salt).
Definition pfx_of' (c : bytes) (digest salt : bytes) : pfxPdu := mkPfx 3 (mkCI oidDataContentType (ctx0' c)) (mac_of digest salt).
Definition pfx_bytes (c digest salt : bytes) : bytes := el 0 16 true (el 0 2 false [3] ++ ci_bytes data_oid c ++ mac_bytes digest salt).
Lemma pfx_eq c digest salt : Marshal cPfx (pfx_of c digest salt) = Ret (pfx_bytes c digest salt).
Proof.
  apply (mk_struct _ _ _ (pfx_of c digest salt)). cbn [pfx_Version pfx_AuthSafe pfx_MacData pfx_of]. apply f_cons; [apply mk_int|].
  apply f_cons; [apply ci_eq; reflexivity|]. apply f_one. unfold makeField. cbn [p_omit p_opt p_def optP andb].
  replace (c_iszero cMac (mac_of digest salt)) with false by reflexivity. cbn [c_whole cMac cStruct p_set optP andb c_tag c_body p_tag].
  rewrite mac_enc. reflexivity.
Qed.
Lemma pfx_unm c digest salt : c <> [] -> zlen (pfx_bytes c digest salt) < 2 ^ 31 -> unmarshal cPfx (pfx_bytes c digest salt) = Ret (pfx_of' c digest salt).
Proof.
  intros Hc Hz. apply (unm_rt cPfx (pfx_of c digest salt)); [|apply pfx_eq|exact Hz].
  eapply (struct_to _ _ _ (pfx_of c digest salt) (3, (mkCI oidDataContentType (ctx0' c), (mac_of digest salt, tt)))); [reflexivity|].
  apply frt_cons; [apply int_rt; lia|]. apply frt_cons; [apply ci_rt; [oidok|exact Hc]|]. apply frt_cons; [apply mac_rt|apply frt_nil].
Qed.
Lemma pfx_len c digest salt : zlen c + 6 <= zlen (pfx_bytes c digest salt).
Proof.
  unfold pfx_bytes. match goal with |- context [el 0 16 true ?x] => pose proof (el_len 0 16 true x) as H0; rewrite !zlen_app in H0 end.
  pose proof (ci_len data_oid c). pose proof (zlen_nonneg (el 0 2 false [3])). pose proof (zlen_nonneg (mac_bytes digest salt)). lia.
Qed.
