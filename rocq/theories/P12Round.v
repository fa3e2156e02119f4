(** * Encode followed by DecodeAll *)
From Verif Require Import Base Words ECModel SM2Model CryptoByte Asn1 Asn1Proofs Asn1Safe KeysModel KeysProofs BMPModel PbkdfSpec PbkdfModel P12Model P12Proofs P12Enc.
Open Scope Z_scope.

Lemma el_ub cls tag comp b : tag <= 30 -> zlen b < 2 ^ 32 -> zlen (el cls tag comp b) <= zlen b + 6.
Proof. intros Ht Hz. unfold el. rewrite zlen_app. pose proof (zlen_nonneg b). pose proof (hdr_zlen_upper cls tag comp (zlen b) Ht ltac:(lia)). lia. Qed.
Lemma certBag_ub raw : zlen raw < 2 ^ 31 -> zlen (certBag_bytes raw) <= zlen raw + 60.
Proof.
  intros Hz. unfold certBag_bytes. pose proof (el_ub 0 4 false raw ltac:(lia) ltac:(lia)). pose proof (el_ub 2 0 true (el 0 4 false raw) ltac:(lia) ltac:(lia)).
  assert (L : zlen (el 0 6 false certBag_oid) <= 20) by (vm_compute; discriminate).
  match goal with |- context [el 0 16 true ?x] => assert (Hx : zlen x <= zlen raw + 40) by (rewrite zlen_app; lia); pose proof (el_ub 0 16 true x ltac:(lia) ltac:(lia)) end. lia.
Qed.
Lemma attr_ub fp : zlen fp <= 1000 -> zlen (attr_bytes fp) <= zlen fp + 60.
Proof.
  intros Hz. unfold attr_bytes. pose proof (el_ub 0 17 true fp ltac:(lia) ltac:(lia)).
  assert (L : zlen (el 0 6 false attr_oid) <= 20) by (vm_compute; discriminate).
  match goal with |- context [el 0 16 true ?x] => assert (Hx : zlen x <= zlen fp + 40) by (rewrite zlen_app; lia); pose proof (el_ub 0 16 true x ltac:(lia) ltac:(lia)) end. lia.
Qed.
Lemma bag_ub ob b fps : zlen ob <= 20 -> zlen b < 2 ^ 31 -> (List.length fps <= 1)%nat -> Forall (fun fp => zlen fp <= 30) fps -> zlen (bag_bytes ob b fps) <= zlen b + 150.
Proof.
  intros Ho Hb Hl Hf. unfold bag_bytes. pose proof (el_ub 0 6 false ob ltac:(lia) ltac:(lia)). pose proof (el_ub 2 0 true b ltac:(lia) ltac:(lia)).
  assert (La : zlen (List.concat (map attr_bytes fps)) <= 90).
  { destruct fps as [|fp [|? ?]]; cbn [map List.concat]; [vm_compute; discriminate| |cbn [List.length] in Hl; lia]. rewrite app_nil_r. inversion Hf; subst. pose proof (attr_ub fp ltac:(lia)). lia. }
  pose proof (el_ub 0 17 true (List.concat (map attr_bytes fps)) ltac:(lia) ltac:(lia)).
  match goal with |- context [el 0 16 true ?x] => assert (Hx : zlen x <= zlen b + 144) by (rewrite !zlen_app; lia); pose proof (el_ub 0 16 true x ltac:(lia) ltac:(lia)) end. lia.
Qed.
Lemma ci_ub ob b : zlen ob <= 20 -> zlen b < 2 ^ 31 -> zlen (ci_bytes ob b) <= zlen b + 50.
Proof.
  intros Ho Hb. unfold ci_bytes. pose proof (el_ub 0 6 false ob ltac:(lia) ltac:(lia)). pose proof (el_ub 2 0 true b ltac:(lia) ltac:(lia)).
  match goal with |- context [el 0 16 true ?x] => assert (Hx : zlen x <= zlen b + 44) by (rewrite !zlen_app; lia); pose proof (el_ub 0 16 true x ltac:(lia) ltac:(lia)) end. lia.
Qed.
Lemma ai_ub ob salt : zlen ob <= 20 -> zlen salt = 8 -> zlen (ai_bytes ob salt) <= 60.
Proof.
  intros Ho Hs. unfold ai_bytes. pose proof (el_ub 0 6 false ob ltac:(lia) ltac:(lia)). pose proof (pbe_len8 salt Hs).
  match goal with |- context [el 0 16 true ?x] => assert (Hx : zlen x <= 50) by (rewrite !zlen_app; lia); pose proof (el_ub 0 16 true x ltac:(lia) ltac:(lia)) end. lia.
Qed.
Lemma epki_ub salt enc : zlen salt = 8 -> zlen enc < 2 ^ 31 -> zlen (epki_bytes salt enc) <= zlen enc + 100.
Proof.
  intros Hs He. unfold epki_bytes. assert (Lo : zlen tdes_oid <= 20) by (vm_compute; discriminate). pose proof (ai_ub tdes_oid salt Lo Hs). pose proof (el_ub 0 4 false enc ltac:(lia) ltac:(lia)).
  match goal with |- context [el 0 16 true ?x] => assert (Hx : zlen x <= zlen enc + 66) by (rewrite !zlen_app; lia); pose proof (el_ub 0 16 true x ltac:(lia) ltac:(lia)) end. lia.
Qed.
Lemma ed_ub salt enc : zlen salt = 8 -> zlen enc < 2 ^ 31 -> zlen (ed_bytes salt enc) <= zlen enc + 150.
Proof.
  intros Hs He. unfold ed_bytes. assert (Lo : zlen rc2_oid <= 20) by (vm_compute; discriminate). pose proof (ai_ub rc2_oid salt Lo Hs). pose proof (el_ub 2 0 false enc ltac:(lia) ltac:(lia)).
  assert (L1 : zlen (el 0 6 false data_oid) <= 20) by (vm_compute; discriminate). assert (L2 : zlen (el 0 2 false [0]) <= 20) by (vm_compute; discriminate).
  match goal with |- context [el 0 16 true (_ ++ el 0 16 true ?x)] => assert (Hx : zlen x <= zlen enc + 100) by (rewrite !zlen_app; lia); pose proof (el_ub 0 16 true x ltac:(lia) ltac:(lia)) end.
  match goal with |- context [el 0 16 true (el 0 2 false [0] ++ ?x)] => assert (Hy : zlen (el 0 2 false [0] ++ x) <= zlen enc + 130) by (rewrite !zlen_app; lia); pose proof (el_ub 0 16 true (el 0 2 false [0] ++ x) ltac:(lia) ltac:(lia)) end.
  lia.
Qed.
Lemma mac_ub digest salt : zlen digest = 20 -> zlen salt = 8 -> zlen (mac_bytes digest salt) <= 200.
Proof.
  intros Hd Hs. unfold mac_bytes. pose proof (el_ub 0 4 false digest ltac:(lia) ltac:(lia)). pose proof (el_ub 0 4 false salt ltac:(lia) ltac:(lia)).
  assert (L1 : zlen (el 0 16 true (el 0 6 false sha1_oid)) <= 30) by (vm_compute; discriminate).
  match goal with |- context [el 0 16 true (el 0 16 true ?x ++ _)] => assert (Hx : zlen x <= 100) by (rewrite !zlen_app; lia); pose proof (el_ub 0 16 true x ltac:(lia) ltac:(lia)) end.
  match goal with |- zlen (el 0 16 true ?x) <= _ => assert (Hy : zlen x <= 150) by (rewrite !zlen_app; lia); pose proof (el_ub 0 16 true x ltac:(lia) ltac:(lia)) end. lia.
Qed.
Lemma pfx_ub c digest salt : zlen c < 2 ^ 31 -> zlen digest = 20 -> zlen salt = 8 -> zlen (pfx_bytes c digest salt) <= zlen c + 300.
Proof.
  intros Hc Hd Hs. unfold pfx_bytes. assert (L0 : zlen data_oid <= 20) by (vm_compute; discriminate). pose proof (ci_ub data_oid c L0 Hc). pose proof (mac_ub digest salt Hd Hs).
  assert (L1 : zlen (el 0 2 false [3]) <= 20) by (vm_compute; discriminate).
  match goal with |- zlen (el 0 16 true ?x) <= _ => assert (Hy : zlen x <= zlen c + 280) by (rewrite !zlen_app; lia); pose proof (el_ub 0 16 true x ltac:(lia) ltac:(lia)) end. lia.
Qed.

(** ** the two encryptions *)
Definition pbe_oid (o : oid) : Prop := o = oidPBEWithSHAAnd3KeyTripleDESCBC \/ o = oidPBEWithSHAAnd40BitRC2CBC.
Lemma pb_written P o salt m pwd : prims_ok P -> pbe_oid o -> zlen salt = 8 -> bytes_ok salt -> bytes_ok pwd -> bytes_ok m ->
  exists enc, pbEncrypt P (pbe_ai o salt) m pwd = Ret enc /\ bytes_ok enc /\ zlen enc <= zlen m + 8 /\ pbDecrypt P (pbe_ai' o salt) enc pwd = Ret m.
Proof.
  intros HP Ho Ls Os Op Om. assert (Ha : ai_ok (pbe_ai o salt)) by (exact (pbe_ok salt Ls Os)).
  destruct (pbe_total P (pbe_ai o salt) (Some salt) 2048 pwd HP Ha Op Ho (pbe_unm salt Ls)) as (bc & iv & E).
  destruct (pb_roundtrip P (pbe_ai o salt) m pwd bc iv HP Ha Op Om E) as (enc & E1 & E2 & E3 & E4).
  exists enc. split; [exact E1|]. split; [exact E2|]. pose proof (pad_range m). split; [lia|]. exact E4.
Qed.
Lemma keybag_written P edPub key der t i pwd salt : prims_ok P -> zlen salt = 8 -> bytes_ok salt -> bytes_ok pwd -> bytes_ok der -> zlen der < 2 ^ 30 ->
  elem der t i -> ParsePKCS8PrivateKey edPub der = Ret key ->
  exists enc, pbEncrypt P (pbe_ai oidPBEWithSHAAnd3KeyTripleDESCBC salt) der pwd = Ret enc /\ bytes_ok enc /\ zlen enc <= zlen der + 8 /\
    decodePkcs8ShroudedKeyBag P edPub (epki_bytes salt enc) pwd = Ret key.
Proof.
  intros HP Ls Os Op Od Ld El Ek. destruct (pb_written P _ salt der pwd HP (or_introl eq_refl) Ls Os Op Od) as (enc & E1 & E2 & E3 & E4).
  exists enc. split; [exact E1|]. split; [exact E2|]. split; [exact E3|].
  unfold decodePkcs8ShroudedKeyBag. pose proof (epki_ub salt enc Ls ltac:(lia)). rewrite epki_unm by (auto; lia). cbn [epki_Algorithm epki_Data sl].
  rewrite E4. pose proof (raw_parse noP der t i [] eq_refl eq_refl El) as R. rewrite app_nil_r in R. unfold unmarshal, Unmarshal. rewrite R. cbn [bind]. rewrite Ek. reflexivity.
Qed.

(** ** lists of bags *)
Definition bagspec := (oid * bytes * (bytes * list bytes))%type.  (* bag id, its encoding, value, attribute values *)
Definition bs_ok (s : bagspec) : Prop := let '(id, ob, (b, fps)) := s in
  oid_ok id /\ oid_body id = Ret ob /\ zlen ob <= 20 /\ bytes_ok ob /\ b <> [] /\ bytes_ok b /\ (List.length fps <= 1)%nat /\
  Forall (fun fp => zlen fp <= 30) fps /\ Forall bytes_ok fps.
Definition bs_bag (s : bagspec) : safeBag := let '(id, ob, (b, fps)) := s in bag_of id b fps.
Definition bs_bag' (s : bagspec) : safeBag := let '(id, ob, (b, fps)) := s in bag_of' id b fps.
Definition bs_bytes (s : bagspec) : bytes := let '(id, ob, (b, fps)) := s in bag_bytes ob b fps.
Definition bs_val (s : bagspec) : bytes := let '(id, ob, (b, fps)) := s in b.
Definition bags_bytes (l : list bagspec) : bytes := el 0 16 true (List.concat (map bs_bytes l)).
Fixpoint bags_size (l : list bagspec) : Z := match l with [] => 0 | s :: r => zlen (bs_val s) + 150 + bags_size r end.
Lemma bags_size_nonneg l : 0 <= bags_size l.
Proof. induction l as [|s l IH]; cbn [bags_size]; [lia|]. pose proof (zlen_nonneg (bs_val s)). lia. Qed.
Lemma bags_eq l : Forall bs_ok l -> makeField (cSeqOf false cBag) noP (Some (map bs_bag l)) = Ret (bags_bytes l).
Proof.
  intros H. apply mk_seq. induction H as [|s l Hs Hl IH]; [reflexivity|]. cbn [map mapM].
  destruct s as [[id ob] [b fps]]. destruct Hs as (_ & Eo & _ & _ & _ & _ & Hf & _). cbn [bs_bag bs_bytes]. rewrite (bag_eq id ob b fps Eo Hf). cbn [bind]. rewrite IH. reflexivity.
Qed.
Lemma bags_concat l : Forall bs_ok l -> bags_size l < 2 ^ 31 -> zlen (List.concat (map bs_bytes l)) <= bags_size l /\ bytes_ok (List.concat (map bs_bytes l)).
Proof.
  induction 1 as [|s l Hs Hl IH]; cbn [map List.concat bags_size]; intros Hz; [split; [vm_compute; discriminate|constructor]|].
  destruct s as [[id ob] [b fps]]. destruct Hs as (_ & _ & Lo & Oo & _ & Ob & Hf & Lf & Of). cbn [bs_val bs_bytes] in *.
  pose proof (zlen_nonneg b). pose proof (bags_size_nonneg l). destruct (IH ltac:(lia)) as [I1 I2].
  pose proof (bag_ub ob b fps Lo ltac:(lia) Hf Lf). rewrite zlen_app. split; [lia|]. apply bytes_ok_app. split; [apply bag_ok; auto; lia|exact I2].
Qed.
Lemma bags_bytes_bound l : Forall bs_ok l -> bags_size l < 2 ^ 30 -> zlen (bags_bytes l) <= bags_size l + 6 /\ bytes_ok (bags_bytes l).
Proof.
  intros H Hz. destruct (bags_concat l H ltac:(lia)) as [A B]. pose proof (bags_size_nonneg l). unfold bags_bytes. split.
  - pose proof (el_ub 0 16 true (List.concat (map bs_bytes l)) ltac:(lia) ltac:(lia)). lia.
  - apply el_ok; auto; lia.
Qed.
Lemma bags_unm l : Forall bs_ok l -> bags_size l < 2 ^ 30 -> unmarshal (cSeqOf false cBag) (bags_bytes l) = Ret (Some (map bs_bag' l)).
Proof.
  intros H Hz. destruct (bags_bytes_bound l H Hz) as [A _]. apply (unm_rt (cSeqOf false cBag) (Some (map bs_bag l))); [|now apply bags_eq|lia].
  apply make_rt; [reflexivity|reflexivity|apply tag_small; reflexivity|reflexivity|split; reflexivity|]. apply seq_body_rt; [reflexivity|apply tag_small; reflexivity|left; reflexivity|].
  clear Hz A. induction H as [|s l Hs Hl IH]; cbn [map]; constructor; auto. destruct s as [[id ob] [b fps]]. destruct Hs as (Oi & _ & _ & _ & Nb & _ & Hf & Lf & _).
  apply bag_rt; auto. eapply Forall_impl; [|exact Lf]. cbn beta. intros; lia.
Qed.

(** ** the authenticated safe *)
Definition safe_bytes (ed c1 : bytes) : bytes := el 0 16 true (ci_bytes encData_oid ed ++ ci_bytes data_oid c1).
Lemma safe_eq ed c1 : Marshal (cSeqOf false cCI) (Some [mkCI oidEncryptedDataContentType (ctx0 ed); mkCI oidDataContentType (ctx0 c1)]) = Ret (safe_bytes ed c1).
Proof.
  unfold Marshal, safe_bytes. rewrite <- (app_nil_r (ci_bytes data_oid c1)). apply (mk_seq cCI _ [ci_bytes encData_oid ed; ci_bytes data_oid c1]). cbn [mapM].
  rewrite (ci_eq oidEncryptedDataContentType encData_oid ed) by reflexivity. cbn [bind]. rewrite (ci_eq oidDataContentType data_oid c1) by reflexivity. reflexivity.
Qed.
Lemma oid_ok_data : oid_ok oidDataContentType. Proof. oidok. Qed.
Lemma oid_ok_enc : oid_ok oidEncryptedDataContentType. Proof. oidok. Qed.
Lemma safe_unm ed c1 : ed <> [] -> c1 <> [] -> zlen (safe_bytes ed c1) < 2 ^ 31 ->
  unmarshal (cSeqOf false cCI) (safe_bytes ed c1) = Ret (Some [mkCI oidEncryptedDataContentType (ctx0' ed); mkCI oidDataContentType (ctx0' c1)]).
Proof.
  intros He Hc Hz. apply (unm_rt (cSeqOf false cCI) (Some [mkCI oidEncryptedDataContentType (ctx0 ed); mkCI oidDataContentType (ctx0 c1)])); [|apply safe_eq|exact Hz].
  apply make_rt; [reflexivity|reflexivity|apply tag_small; reflexivity|reflexivity|split; reflexivity|]. apply seq_body_rt; [reflexivity|apply tag_small; reflexivity|left; reflexivity|].
  constructor; [apply ci_rt; [apply oid_ok_enc|exact He]|]. constructor; [apply ci_rt; [apply oid_ok_data|exact Hc]|constructor].
Qed.
Lemma safe_ub ed c1 : zlen ed + zlen c1 < 2 ^ 31 -> zlen (safe_bytes ed c1) <= zlen ed + zlen c1 + 150.
Proof.
  intros Hz. pose proof (zlen_nonneg ed). pose proof (zlen_nonneg c1). unfold safe_bytes.
  assert (L0 : zlen data_oid <= 20) by (vm_compute; discriminate). assert (L1 : zlen encData_oid <= 20) by (vm_compute; discriminate).
  pose proof (ci_ub data_oid c1 L0 ltac:(lia)). pose proof (ci_ub encData_oid ed L1 ltac:(lia)).
  match goal with |- zlen (el 0 16 true ?x) <= _ => assert (Hy : zlen x <= zlen ed + zlen c1 + 100) by (rewrite !zlen_app; lia); pose proof (el_ub 0 16 true x ltac:(lia) ltac:(lia)) end. lia.
Qed.
Lemma safes_loop_written P pwd salt enc l0 l1 : zlen salt = 8 -> zlen enc < 2 ^ 30 -> Forall bs_ok l0 -> bags_size l0 < 2 ^ 30 -> Forall bs_ok l1 -> bags_size l1 < 2 ^ 29 ->
  pbDecrypt P (pbe_ai' oidPBEWithSHAAnd40BitRC2CBC salt) enc pwd = Ret (bags_bytes l0) ->
  safes_loop P pwd [mkCI oidEncryptedDataContentType (ctx0' (ed_bytes salt enc)); mkCI oidDataContentType (ctx0' (el 0 4 false (bags_bytes l1)))]
    = Ret (map bs_bag' l0 ++ map bs_bag' l1).
Proof.
  intros Ls Le H0 Z0 H1 Z1 Ed. cbn [safes_loop ci_ContentType ci_Content ctx0' rv_bytes sl].
  change (oid_eqb oidEncryptedDataContentType oidDataContentType) with false. change (oid_eqb oidEncryptedDataContentType oidEncryptedDataContentType) with true.
  change (oid_eqb oidDataContentType oidDataContentType) with true. cbn iota.
  pose proof (ed_ub salt enc Ls ltac:(lia)). rewrite ed_unm by (auto; lia). cbn [bind ed_of' ed_Version ed_Info eci_Algorithm eci_Data sl]. change (negb (0 =? 0)) with false. cbn iota.
  rewrite Ed. cbn [bind]. rewrite bags_unm by auto. cbn [bind].
  destruct (bags_bytes_bound l1 H1 ltac:(lia)) as [Lb _].
  assert (U : unmarshal cBytes (el 0 4 false (bags_bytes l1)) = Ret (Some (bags_bytes l1))).
  { apply (unm_rt cBytes (Some (bags_bytes l1))); [apply bytes_rt|apply mk_bytes|]. pose proof (el_ub 0 4 false (bags_bytes l1) ltac:(lia) ltac:(lia)). lia. }
  rewrite U. cbn [bind sl]. rewrite bags_unm by (auto; lia). cbn [bind]. rewrite app_nil_r. reflexivity.
Qed.
Lemma getSafe_written P pwd salt enc l0 l1 digest msalt : prims_ok P -> bytes_ok pwd -> zlen salt = 8 -> bytes_ok msalt -> zlen msalt = 8 -> zlen digest = 20 ->
  zlen enc < 2 ^ 30 -> Forall bs_ok l0 -> bags_size l0 < 2 ^ 30 -> Forall bs_ok l1 -> bags_size l1 < 2 ^ 29 ->
  pbDecrypt P (pbe_ai' oidPBEWithSHAAnd40BitRC2CBC salt) enc pwd = Ret (bags_bytes l0) ->
  let safe := safe_bytes (ed_bytes salt enc) (el 0 4 false (bags_bytes l1)) in
  verifyMac P (mac_of digest msalt) safe pwd = Ret tt ->
  getSafeContents P (pfx_bytes (el 0 4 false safe) digest msalt) pwd = Ret (map bs_bag' l0 ++ map bs_bag' l1, pwd).
Proof.
  intros HP Op Ls Om Lm Ld Le H0 Z0 H1 Z1 Ed safe Ev. destruct (bags_bytes_bound l1 H1 ltac:(lia)) as [Lb _]. pose proof (bags_size_nonneg l1).
  pose proof (el_ub 0 4 false (bags_bytes l1) ltac:(lia) ltac:(lia)) as L4. pose proof (ed_ub salt enc Ls ltac:(lia)) as L5.
  pose proof (safe_ub (ed_bytes salt enc) (el 0 4 false (bags_bytes l1)) ltac:(lia)) as L6. fold safe in L6.
  pose proof (el_ub 0 4 false safe ltac:(lia) ltac:(lia)) as L7. pose proof (pfx_ub (el 0 4 false safe) digest msalt ltac:(lia) Ld Lm) as L8.
  unfold getSafeContents. rewrite pfx_unm by (try apply el_ne; lia). cbn [pfx_of' pfx_Version pfx_AuthSafe pfx_MacData ci_ContentType ci_Content ctx0' rv_bytes sl].
  change (negb (3 =? 3)) with false. change (negb (oid_eqb oidDataContentType oidDataContentType)) with false. cbn iota.
  assert (U : unmarshal cRaw (el 0 4 false safe) = Ret (mkRaw 0 4 false (Some safe) (Some (el 0 4 false safe)))).
  { pose proof (raw_parse noP (el 0 4 false safe) (mkTL 0 4 (zlen safe) false) safe [] eq_refl eq_refl (el_elem 0 4 false safe ltac:(lia) ltac:(lia) ltac:(lia))) as R.
    rewrite app_nil_r in R. unfold unmarshal, Unmarshal. rewrite R. reflexivity. }
  rewrite U. cbn [bind rv_bytes sl mac_of mac_Mac di_Algorithm ai_alg oidSHA1]. unfold checkMac. change (mkMac (mkDI (mkAI [1; 3; 14; 3; 2; 26] rawZero) (Some digest)) (Some msalt) 1) with (mac_of digest msalt).
  rewrite Ev. cbn [bind]. unfold safe. rewrite safe_unm; [|apply el_ne|apply el_ne|fold safe; lia]. cbn [bind List.length]. change (negb (2 =? 2)%nat) with false. cbn iota.
  rewrite (safes_loop_written P pwd salt enc l0 l1) by auto. reflexivity.
Qed.

(** ** Encode *)
Definition certBag_id : bytes := Eval vm_compute in match oid_body oidCertBag with Ret b => b | _ => [] end.
Definition keyBag_id : bytes := Eval vm_compute in match oid_body oidPKCS8ShroundedKeyBag with Ret b => b | _ => [] end.
Definition cert_spec (raw : bytes) (fps : list bytes) : bagspec := (oidCertBag, certBag_id, (certBag_bytes raw, fps)).
Definition key_spec (shrouded : bytes) (fps : list bytes) : bagspec := (oidPKCS8ShroundedKeyBag, keyBag_id, (shrouded, fps)).
Definition fp_of (P : prims) (raw : bytes) : bytes := el 0 4 false (sha1 P raw).
Definition certs_spec (P : prims) (certRaw : bytes) (caRaws : list bytes) : list bagspec :=
  cert_spec certRaw [fp_of P certRaw] :: map (fun r => cert_spec r []) caRaws.
Fixpoint total_size (l : list bytes) : Z := match l with [] => 0 | b :: r => zlen b + 250 + total_size r end.
Lemma total_nonneg l : 0 <= total_size l.
Proof. induction l as [|b l IH]; cbn [total_size]; [lia|]. pose proof (zlen_nonneg b). lia. Qed.
Lemma oid_ok_cert : oid_ok oidCertBag. Proof. oidok. Qed.
Lemma oid_ok_key : oid_ok oidPKCS8ShroundedKeyBag. Proof. oidok. Qed.
Lemma fp_ok P raw : prims_ok P -> zlen (fp_of P raw) <= 30 /\ bytes_ok (fp_of P raw).
Proof.
  intros (HS & _). destruct (HS raw) as [L O]. unfold fp_of. split; [pose proof (el_ub 0 4 false (sha1 P raw) ltac:(lia) ltac:(lia)); lia|]. apply el_ok; auto; lia.
Qed.
Lemma cert_spec_ok raw fps : bytes_ok raw -> zlen raw < 2 ^ 30 -> (List.length fps <= 1)%nat -> Forall (fun fp => zlen fp <= 30 /\ bytes_ok fp) fps -> bs_ok (cert_spec raw fps).
Proof.
  intros Ho Hz Hl Hf. pose proof (certBag_ub raw ltac:(lia)). split; [apply oid_ok_cert|]. split; [reflexivity|]. split; [vm_compute; discriminate|]. split; [apply bytes_okb_spec; reflexivity|].
  split; [apply el_ne|]. split; [apply certBag_ok; auto; lia|]. split; [exact Hl|].
  split; eapply Forall_impl; try exact Hf; cbn beta; tauto.
Qed.
Lemma key_spec_ok b fps : bytes_ok b -> b <> [] -> (List.length fps <= 1)%nat -> Forall (fun fp => zlen fp <= 30 /\ bytes_ok fp) fps -> bs_ok (key_spec b fps).
Proof.
  intros Ho Hz Hl Hf. split; [apply oid_ok_key|]. split; [reflexivity|]. split; [vm_compute; discriminate|]. split; [apply bytes_okb_spec; reflexivity|].
  split; [exact Hz|]. split; [exact Ho|]. split; [exact Hl|]. split; eapply Forall_impl; try exact Hf; cbn beta; tauto.
Qed.
Lemma certs_spec_ok P certRaw caRaws : prims_ok P -> bytes_ok certRaw -> Forall bytes_ok caRaws -> total_size (certRaw :: caRaws) < 2 ^ 29 ->
  Forall bs_ok (certs_spec P certRaw caRaws) /\ bags_size (certs_spec P certRaw caRaws) <= total_size (certRaw :: caRaws).
Proof.
  intros HP Ho Hcs Hz. cbn [total_size] in Hz. pose proof (zlen_nonneg certRaw). pose proof (total_nonneg caRaws). pose proof (fp_ok P certRaw HP) as HF. pose proof (certBag_ub certRaw ltac:(lia)) as HB.
  unfold certs_spec. cbn [bags_size total_size bs_val cert_spec].
  assert (R : Forall bs_ok (map (fun r => cert_spec r []) caRaws) /\ bags_size (map (fun r => cert_spec r []) caRaws) <= total_size caRaws).
  { assert (Hz' : total_size caRaws < 2 ^ 29) by lia. clear - Hcs Hz'. induction Hcs as [|c l Hc Hl IH]; cbn [map bags_size total_size] in *; [split; [constructor|lia]|].
    pose proof (zlen_nonneg c). pose proof (total_nonneg l). destruct (IH ltac:(lia)) as [I1 I2]. pose proof (certBag_ub c ltac:(lia)). split.
    - constructor; auto. apply cert_spec_ok; [auto|lia|cbn; lia|constructor].
    - cbn [bs_val cert_spec]. lia. }
  destruct R as [R1 R2]. split; [|lia]. constructor; auto. apply cert_spec_ok; [auto|lia|cbn; lia|]. constructor; [exact HF|constructor].
Qed.
Lemma read8_ok rnd : 8 <= zlen rnd -> read8 rnd = Ret (firstn 8 rnd, skipn 8 rnd) /\ zlen (firstn 8 rnd) = 8 /\ zlen (skipn 8 rnd) = zlen rnd - 8.
Proof.
  intros H. unfold read8. replace (zlen rnd <? 8) with false by lia. split; [reflexivity|]. unfold zlen in *. rewrite firstn_length, skipn_length. lia.
Qed.
Definition salt1 (rnd : bytes) := firstn 8 rnd.
Definition salt2 (rnd : bytes) := firstn 8 (skipn 8 rnd).
Definition salt3 (rnd : bytes) := firstn 8 (skipn 8 (skipn 8 rnd)).
Lemma makeCertBag_eq raw fps : makeCertBag raw (Some (map attr_of fps)) = Ret (bs_bag (cert_spec raw fps)).
Proof. unfold makeCertBag. rewrite encodeCertBag_eq. reflexivity. Qed.
Lemma caBags_eq caRaws : mapM (fun raw => makeCertBag raw (Some [])) caRaws = Ret (map bs_bag (map (fun r => cert_spec r []) caRaws)).
Proof. induction caRaws as [|r l IH]; [reflexivity|]. cbn [mapM]. rewrite (makeCertBag_eq r [] : makeCertBag r (Some []) = _). cbn [bind]. rewrite IH. reflexivity. Qed.
(** the written bytes are bytes *)
Lemma el_ok' cls tag comp b : 0 <= cls <= 3 -> 0 <= tag <= 30 -> zlen (el cls tag comp b) < 2 ^ 32 -> bytes_ok b -> bytes_ok (el cls tag comp b).
Proof. intros Hc Ht Hz Hb. apply el_ok; auto. unfold el in Hz. rewrite zlen_app in Hz. pose proof (zlen_nonneg (hdr cls tag comp (zlen b))). lia. Qed.
Ltac elok := repeat first [ assumption | apply el_ok'; [lia|lia|try lia|] | apply bytes_ok_app; split ].
Lemma ci_ok ob b : bytes_ok ob -> zlen ob <= 20 -> zlen b < 2 ^ 31 -> bytes_ok b -> bytes_ok (ci_bytes ob b).
Proof.
  intros Ho Lo Lb Hb. pose proof (ci_ub ob b Lo Lb). unfold ci_bytes in *. pose proof (el_ub 0 6 false ob ltac:(lia) ltac:(lia)). pose proof (el_ub 2 0 true b ltac:(lia) ltac:(lia)). elok.
Qed.
Lemma mac_ok digest salt : zlen digest = 20 -> zlen salt = 8 -> bytes_ok digest -> bytes_ok salt -> bytes_ok (mac_bytes digest salt).
Proof.
  intros Ld Ls Hd Hs. pose proof (mac_ub digest salt Ld Ls) as U. unfold mac_bytes in *. pose proof (el_ub 0 4 false digest ltac:(lia) ltac:(lia)). pose proof (el_ub 0 4 false salt ltac:(lia) ltac:(lia)).
  assert (O1 : bytes_ok (el 0 16 true (el 0 6 false sha1_oid))) by (apply bytes_okb_spec; reflexivity).
  assert (L1 : zlen (el 0 16 true (el 0 6 false sha1_oid)) <= 30) by (vm_compute; discriminate).
  apply el_ok'; [lia|lia|lia|]. apply bytes_ok_app; split; [|elok]. apply el_ok; [lia|lia|rewrite zlen_app; lia|]. apply bytes_ok_app; split; [exact O1|]. elok.
Qed.
Lemma ed_ok salt enc : zlen salt = 8 -> zlen enc < 2 ^ 31 -> bytes_ok salt -> bytes_ok enc -> bytes_ok (ed_bytes salt enc).
Proof.
  intros Ls Le Hs He. pose proof (ed_ub salt enc Ls Le) as U. unfold ed_bytes in *. assert (Od : bytes_ok (el 0 6 false data_oid)) by (apply bytes_okb_spec; reflexivity).
  assert (O0 : bytes_ok (el 0 2 false [0])) by (apply bytes_okb_spec; reflexivity). assert (Or : bytes_ok rc2_oid) by (apply bytes_okb_spec; reflexivity).
  assert (Lr : zlen rc2_oid <= 20) by (vm_compute; discriminate). destruct (ai_bytes_ok rc2_oid salt ltac:(lia) Or Ls Hs) as [Oa La]. pose proof (el_ub 2 0 false enc ltac:(lia) ltac:(lia)).
  assert (Ld : zlen (el 0 6 false data_oid) <= 20) by (vm_compute; discriminate).
  apply el_ok'; [lia|lia|lia|]. apply bytes_ok_app; split; [exact O0|]. apply el_ok; [lia|lia|rewrite !zlen_app; lia|]. elok.
Qed.
Lemma safe_ok ed c1 : zlen ed + zlen c1 < 2 ^ 31 -> bytes_ok ed -> bytes_ok c1 -> bytes_ok (safe_bytes ed c1).
Proof.
  intros L He Hc. pose proof (safe_ub ed c1 L) as U. pose proof (zlen_nonneg ed). pose proof (zlen_nonneg c1). unfold safe_bytes in *.
  apply el_ok'; [lia|lia|lia|]. apply bytes_ok_app; split; apply ci_ok; auto; try lia; first [apply bytes_okb_spec; reflexivity | vm_compute; discriminate].
Qed.
Lemma pfx_ok c digest salt : zlen c < 2 ^ 31 -> zlen digest = 20 -> zlen salt = 8 -> bytes_ok c -> bytes_ok digest -> bytes_ok salt -> bytes_ok (pfx_bytes c digest salt).
Proof.
  intros Hc Hd Hs Oc Od Os. pose proof (pfx_ub c digest salt Hc Hd Hs) as U. unfold pfx_bytes in *. apply el_ok'; [lia|lia|lia|]. apply bytes_ok_app; split; [apply bytes_okb_spec; reflexivity|].
  apply bytes_ok_app; split; [|now apply mac_ok]. apply ci_ok; auto; [apply bytes_okb_spec; reflexivity|vm_compute; discriminate].
Qed.
Lemma Encode_written P edPub rnd key der t i certRaw caRaws password pwd :
  prims_ok P -> bmpString password = Ret pwd -> bytes_ok rnd -> 24 <= zlen rnd ->
  MarshalPKCS8PrivateKey key = Ret der -> bytes_ok der -> zlen der < 2 ^ 28 -> elem der t i -> ParsePKCS8PrivateKey edPub der = Ret key ->
  bytes_ok certRaw -> Forall bytes_ok caRaws -> total_size (certRaw :: caRaws) < 2 ^ 29 ->
  exists out enck, Encode P rnd key certRaw caRaws password = Ret out /\
    decodePkcs8ShroudedKeyBag P edPub (epki_bytes (salt1 rnd) enck) pwd = Ret key /\
    getSafeContents P out pwd = Ret (map bs_bag' (certs_spec P certRaw caRaws) ++ [bs_bag' (key_spec (epki_bytes (salt1 rnd) enck) [fp_of P certRaw])], pwd) /\
    bytes_ok out.
Proof.
  intros HP Epw Or Lr Ek Od Ld El Ep Oc Oca Hz. pose proof (bmpString_ok _ _ Epw) as Opw.
  destruct (read8_ok rnd ltac:(lia)) as (R1 & L1 & K1). destruct (read8_ok (skipn 8 rnd) ltac:(lia)) as (R2 & L2 & K2). destruct (read8_ok (skipn 8 (skipn 8 rnd)) ltac:(lia)) as (R3 & L3 & K3).
  assert (O1 : bytes_ok (salt1 rnd)) by (unfold salt1; auto). assert (O2 : bytes_ok (salt2 rnd)) by (unfold salt2; auto). assert (O3 : bytes_ok (salt3 rnd)) by (unfold salt3; auto).
  fold (salt1 rnd) in R1, L1. fold (salt2 rnd) in R2, L2. fold (salt3 rnd) in R3, L3.
  destruct (keybag_written P edPub key der t i pwd (salt1 rnd) HP L1 O1 Opw Od ltac:(lia) El Ep) as (enck & Ee & Oe & Le & De).
  destruct (certs_spec_ok P certRaw caRaws HP Oc Oca Hz) as [HC SC]. pose proof (fp_ok P certRaw HP) as HF.
  destruct (bags_bytes_bound (certs_spec P certRaw caRaws) HC ltac:(lia)) as [LD0 OD0].
  destruct (pb_written P _ (salt2 rnd) (bags_bytes (certs_spec P certRaw caRaws)) pwd HP (or_intror eq_refl) L2 O2 Opw OD0) as (enc0 & E0 & Oe0 & Le0 & D0).
  set (shr := epki_bytes (salt1 rnd) enck) in *. pose proof (epki_ub (salt1 rnd) enck L1 ltac:(lia)) as Lshr. fold shr in Lshr.
  assert (HK : bs_ok (key_spec shr [fp_of P certRaw])).
  { apply key_spec_ok; [apply epki_ok; auto; fold shr; lia|apply el_ne|cbn; lia|constructor; [exact HF|constructor]]. }
  assert (HK1 : Forall bs_ok [key_spec shr [fp_of P certRaw]]) by (constructor; [exact HK|constructor]).
  assert (SK : bags_size [key_spec shr [fp_of P certRaw]] < 2 ^ 29) by (cbn [bags_size bs_val key_spec]; pose proof (zlen_nonneg shr); lia).
  set (safe := safe_bytes (ed_bytes (salt2 rnd) enc0) (el 0 4 false (bags_bytes [key_spec shr [fp_of P certRaw]]))).
  set (digest := hmac_sha1 P (kdf (sha1 P) 20 64 (salt3 rnd) pwd 1 3 20) safe).
  exists (pfx_bytes (el 0 4 false safe) digest (salt3 rnd)), enck. split; [|split; [|split]].
  - unfold Encode. rewrite Epw. cbn [bind]. change (Marshal cBytes (Some (sha1 P certRaw))) with (@Ret bytes (fp_of P certRaw)). cbn [bind].
    change (mkAttr oidLocalKeyID (mkRaw 0 17 true (Some (fp_of P certRaw)) None)) with (attr_of (fp_of P certRaw)).
    change (Some [attr_of (fp_of P certRaw)]) with (Some (map attr_of [fp_of P certRaw])). rewrite makeCertBag_eq. cbn [bind]. rewrite caBags_eq. cbn [bind].
    unfold encodePkcs8ShroudedKeyBag. rewrite Ek, R1. cbn [bind]. rewrite pbe_eq. cbn [bind]. fold (pbe_ai oidPBEWithSHAAnd3KeyTripleDESCBC (salt1 rnd)). rewrite Ee. cbn [bind]. rewrite epki_eq. cbn [bind]. fold shr.
    unfold makeSafeContents. change (bs_bag (cert_spec certRaw [fp_of P certRaw]) :: map bs_bag (map (fun r => cert_spec r []) caRaws)) with (map bs_bag (certs_spec P certRaw caRaws)).
    unfold Marshal at 1. rewrite (bags_eq _ HC). cbn [bind]. rewrite R2. cbn [bind]. rewrite pbe_eq. cbn [bind]. fold (pbe_ai oidPBEWithSHAAnd40BitRC2CBC (salt2 rnd)). rewrite E0. cbn [bind].
    change (mkED 0 (mkECI oidDataContentType (pbe_ai oidPBEWithSHAAnd40BitRC2CBC (salt2 rnd)) (Some enc0))) with (ed_of (salt2 rnd) enc0). rewrite ed_eq. cbn [bind].
    change [mkBag oidPKCS8ShroundedKeyBag (mkRaw 2 0 true (Some shr) None) (Some (map attr_of [fp_of P certRaw]))] with (map bs_bag [key_spec shr [fp_of P certRaw]]).
    unfold Marshal at 1. rewrite (bags_eq _ HK1). cbn [bind]. change (Marshal cBytes (Some (bags_bytes [key_spec shr [fp_of P certRaw]]))) with (@Ret bytes (el 0 4 false (bags_bytes [key_spec shr [fp_of P certRaw]]))). cbn [bind].
    fold (ctx0 (ed_bytes (salt2 rnd) enc0)). fold (ctx0 (el 0 4 false (bags_bytes [key_spec shr [fp_of P certRaw]]))). rewrite safe_eq. fold safe. cbn [bind]. rewrite R3. cbn [bind].
    unfold computeMac. cbn [mac_Mac di_Algorithm ai_alg mac_MacSalt mac_Iterations sl]. change (negb (oid_eqb oidSHA1 oidSHA1)) with false. cbn iota.
    assert (EK : pbkdf (sha1 P) 20 64 (salt3 rnd) pwd 1 3 20 = Ret (kdf (sha1 P) 20 64 (salt3 rnd) pwd 1 3 20)).
    { destruct HP as (HS & _). assert (HL : forall x, List.length (sha1 P x) = 20%nat) by (intros x; destruct (HS x) as [HL _]; unfold zlen in HL; lia).
      exact (PbkdfProofs.pbkdf_kdf (sha1 P) HL (fun x => proj2 (HS x)) 64 ltac:(lia) (salt3 rnd) pwd 1 3 O3 Opw 20 ltac:(lia)). }
    rewrite EK. cbn [bind]. fold digest. change (Marshal cBytes (Some safe)) with (@Ret bytes (el 0 4 false safe)). cbn [bind].
    change (mkPfx 3 (mkCI oidDataContentType (mkRaw 2 0 true (Some (el 0 4 false safe)) None)) (mkMac (mkDI (mkAI oidSHA1 rawZero) (Some digest)) (Some (salt3 rnd)) 1)) with (pfx_of (el 0 4 false safe) digest (salt3 rnd)).
    rewrite pfx_eq. reflexivity.
  - exact De.
  - change [bs_bag' (key_spec shr [fp_of P certRaw])] with (map bs_bag' [key_spec shr [fp_of P certRaw]]).
    apply getSafe_written; auto; try lia.
    + unfold digest. apply HP.
    + fold safe. rewrite verifyMac_spec by auto. cbn [mac_of mac_Mac di_Algorithm ai_alg di_Digest mac_MacSalt mac_Iterations sl]. change (negb (oid_eqb oidSHA1 oidSHA1)) with false. cbn iota.
      change (Z.to_nat (Z.max 1 1)) with 1%nat. fold digest. rewrite bytes_eqb_refl. reflexivity.
  - destruct (bags_bytes_bound _ HK1 ltac:(lia)) as [LB1 OB1]. pose proof (el_ub 0 4 false (bags_bytes [key_spec shr [fp_of P certRaw]]) ltac:(lia) ltac:(lia)) as LB2. pose proof (ed_ub (salt2 rnd) enc0 L2 ltac:(lia)) as LE.
    pose proof (safe_ub (ed_bytes (salt2 rnd) enc0) (el 0 4 false (bags_bytes [key_spec shr [fp_of P certRaw]])) ltac:(lia)) as LS. fold safe in LS. pose proof (el_ub 0 4 false safe ltac:(lia) ltac:(lia)) as LS2.
    assert (OS : bytes_ok safe). { apply safe_ok; [lia|apply ed_ok; auto; lia|apply el_ok; [lia|lia|lia|exact OB1]]. }
    apply pfx_ok; auto; [lia|unfold digest; apply HP|apply el_ok; [lia|lia|lia|exact OS]|unfold digest; apply HP].
Qed.

(** ** DecodeAll of the written bags *)
Section Dec.
Variable P : prims.
Variable edPub : bytes -> bytes.
Variable C : Type.
Variable parseCerts : bytes -> outcome (list C).
Lemma loop_cert pwd st raw fps c rest : zlen raw < 2 ^ 30 -> parseCerts raw = Ret [c] ->
  exists e, bags_loop P edPub C parseCerts true pwd st (bs_bag' (cert_spec raw fps) :: rest) =
    bags_loop P edPub C parseCerts true pwd (mkDS C (ds_key C st) (ds_certs C st ++ [c]) e) rest.
Proof.
  intros Hz Ec. cbn [bags_loop bs_bag' cert_spec bag_of' bag_Id bag_Value ctx0' rv_bytes sl]. change (oid_eqb oidCertBag oidCertBag) with true. cbn iota.
  pose proof (certBag_ub raw ltac:(lia)). rewrite decodeCertBag_eq by lia. cbn [bind]. rewrite Ec. cbn [bind]. eexists. reflexivity.
Qed.
Lemma loop_certs pwd l cs : Forall2 (fun raw c => parseCerts raw = Ret [c]) l cs -> total_size l < 2 ^ 29 -> forall st rest,
  exists e, bags_loop P edPub C parseCerts true pwd st (map bs_bag' (map (fun r => cert_spec r []) l) ++ rest) =
    bags_loop P edPub C parseCerts true pwd (mkDS C (ds_key C st) (ds_certs C st ++ cs) e) rest.
Proof.
  induction 1 as [|raw c l cs Hc Hl IH]; intros Hz st rest; cbn [map app total_size] in *.
  - exists (ds_err C st). rewrite app_nil_r. destruct st; reflexivity.
  - pose proof (zlen_nonneg raw). pose proof (total_nonneg l). destruct (loop_cert pwd st raw [] c (map bs_bag' (map (fun r => cert_spec r []) l) ++ rest) ltac:(lia) Hc) as (e & E).
    rewrite E. destruct (IH ltac:(lia) (mkDS C (ds_key C st) (ds_certs C st ++ [c]) e) rest) as (e' & E'). rewrite E'. exists e'. cbn [ds_key ds_certs]. rewrite <- app_assoc. reflexivity.
Qed.
Lemma Encode_DecodeAll rnd key der t i certRaw caRaws c cs password pwd :
  prims_ok P -> bmpString password = Ret pwd -> bytes_ok rnd -> 24 <= zlen rnd ->
  MarshalPKCS8PrivateKey key = Ret der -> bytes_ok der -> zlen der < 2 ^ 28 -> elem der t i -> ParsePKCS8PrivateKey edPub der = Ret key ->
  bytes_ok certRaw -> Forall bytes_ok caRaws -> total_size (certRaw :: caRaws) < 2 ^ 29 ->
  parseCerts certRaw = Ret [c] -> Forall2 (fun raw c => parseCerts raw = Ret [c]) caRaws cs ->
  exists out, Encode P rnd key certRaw caRaws password = Ret out /\ DecodeAll P edPub C parseCerts out password = Ret (key, c :: cs, None).
Proof.
  intros HP Epw Or Lr Ek Od Ld El Ep Oc Oca Hz Hc Hcs.
  destruct (Encode_written P edPub rnd key der t i certRaw caRaws password pwd HP Epw Or Lr Ek Od Ld El Ep Oc Oca Hz) as (out & enck & E1 & E2 & E3 & Oo).
  exists out. split; [exact E1|]. unfold DecodeAll, decode_gen. rewrite Epw. cbn [bind]. rewrite E3. cbn [bind].
  unfold certs_spec. cbn [map app total_size] in *. pose proof (zlen_nonneg certRaw). pose proof (total_nonneg caRaws).
  destruct (loop_cert pwd (mkDS C None [] None) certRaw [fp_of P certRaw] c (map bs_bag' (map (fun r => cert_spec r []) caRaws) ++ [bs_bag' (key_spec (epki_bytes (salt1 rnd) enck) [fp_of P certRaw])]) ltac:(lia) Hc) as (e & E).
  rewrite E. cbn [ds_key ds_certs app].
  destruct (loop_certs pwd caRaws cs Hcs ltac:(lia) (mkDS C None [c] e) [bs_bag' (key_spec (epki_bytes (salt1 rnd) enck) [fp_of P certRaw])]) as (e' & E').
  rewrite E'. cbn [ds_key ds_certs app]. cbn [bags_loop bs_bag' key_spec bag_of' bag_Id bag_Value ctx0' rv_bytes sl].
  change (oid_eqb oidPKCS8ShroundedKeyBag oidCertBag) with false. change (oid_eqb oidPKCS8ShroundedKeyBag oidPKCS8ShroundedKeyBag) with true. cbn iota.
  rewrite E2. cbn [bind bags_loop ds_certs ds_key ds_err]. reflexivity.
Qed.
End Dec.

(** ** The PKCS#8 encoding of an SM2 key *)
Ltac pok := unfold params_ok; cbn -[maxInt32]; first [reflexivity | unfold maxInt32; lia].
Lemma eok_AI : eok cAI (fun a => raw_ok (ai_params a) /\ 0 <= rv_class (ai_params a) <= 3 /\ 0 <= rv_tag (ai_params a) <= maxInt32).
Proof.
  eapply eok_struct; [apply feok_cons; [pok|apply eok_oid|apply feok_cons; [pok|apply eok_raw|apply feok_nil]]|].
  cbn. tauto.
Qed.
Lemma eok_EC : eok cEC (fun e => bytes_ok (sl (ec_PrivateKey e)) /\ bytes_ok (sl (Asn1.bs_bytes (ec_PublicKey e)))).
Proof.
  eapply eok_struct; [apply feok_cons; [pok|apply eok_int|apply feok_cons; [pok|apply eok_bytes|apply feok_cons; [pok|apply eok_oid|apply feok_cons; [pok|apply eok_bits|apply feok_nil]]]]|].
  cbn. tauto.
Qed.
Lemma eok_P8 : eok cP8 (fun e => (raw_ok (ai_params (p8_Algo e)) /\ 0 <= rv_class (ai_params (p8_Algo e)) <= 3 /\ 0 <= rv_tag (ai_params (p8_Algo e)) <= maxInt32) /\ bytes_ok (sl (p8_PrivateKey e))).
Proof.
  eapply eok_struct; [apply feok_cons; [pok|apply eok_int|apply feok_cons; [pok|apply eok_AI|apply feok_cons; [pok|apply eok_bytes|apply feok_nil]]]|].
  cbn. tauto.
Qed.
Lemma ec8_ok id x y d inner der : marshal_ec8 id x y d inner = Ret der -> zlen der < 2 ^ 31 -> bytes_ok der /\ exists t i, elem der t i.
Proof.
  unfold marshal_ec8. destruct (oidFromNamedCurve id) as [o|] eqn:Ho; [|discriminate]. destruct (curve_of id) as [c|] eqn:Ec; [|discriminate]. intros E Hz.
  destruct (Marshal cOID o) as [ob| |] eqn:Eo; cbn [bind] in E; try discriminate E.
  destruct (marshalECPrivateKeyWithOID _ _ _ _ _) as [pk| |] eqn:Ep; cbn [bind] in E; try discriminate E.
  pose proof (cP8_inner_len _ _ _ E) as Lpk.
  assert (Opk : bytes_ok pk).
  { unfold marshalECPrivateKeyWithOID in Ep. destruct (FillBytes _ d) as [fb| |] eqn:Ef; cbn [bind] in Ep; try discriminate Ep.
    destruct (elliptic_Marshal c x y) as [pub| |] eqn:Eu; cbn [bind] in Ep; try discriminate Ep.
    eapply (eok_make cEC _ noP); [apply eok_EC|pok| |exact Ep|lia]. cbn [ec_PrivateKey ec_PublicKey Asn1.bs_bytes sl].
    assert (FB : forall n v b, FillBytes n v = Ret b -> bytes_ok b).
    { intros n v b EE. unfold FillBytes in EE. repeat match type of EE with context [if ?c then _ else _] => destruct c end; try discriminate EE.
      assert (b = Z_to_be n (Z.abs v)) by congruence. subst b. apply Z_to_be_ok. }
    split; [eapply FB; eauto|]. unfold elliptic_Marshal in Eu. destruct (FillBytes _ x) as [fx| |] eqn:Fx; cbn [bind] in Eu; try discriminate Eu.
    destruct (FillBytes _ y) as [fy| |] eqn:Fy; cbn [bind] in Eu; try discriminate Eu. assert (pub = 4 :: fx ++ fy) by congruence. subst pub.
    apply bytes_ok_cons. split; [red; lia|]. apply bytes_ok_app. split; eapply FB; eauto. }
  assert (Oob : bytes_ok ob).
  { destruct (named_curve_cases id o Ho) as (_ & _ & _ & ob' & f & _ & _ & Ef & Lf & _). assert (f = ob) by congruence. subst f.
    eapply (eok_make cOID _ noP); [apply eok_oid|pok|exact I|exact Eo|lia]. }
  split.
  - eapply (eok_make cP8 _ noP); [apply eok_P8|pok| |exact E|lia]. cbn -[maxInt32]. unfold raw_ok. cbn -[maxInt32]. repeat split; auto; try (unfold maxInt32; lia); constructor.
  - destruct (make_elem cP8 _ der eq_refl (tag_small cP8 eq_refl) E Hz) as (b & _ & _ & El). eauto.
Qed.
