(** * Property C128 (x509: which byte strings ParsePKIXPublicKey takes for an elliptic-curve key) *)
From Verif Require Import Base Words CryptoByte ECSpec ECModel SM2Model Asn1 Asn1Proofs Asn1Safe KeysModel KeysProofs P12Enc X509Model X509Proofs X509ExtProofs X509CertProofs PropertiesKeys.
From Coq Require Import ZifyBool ZifyNat.
Open Scope Z_scope.

(** ** An element is read exactly when it is there *)
Lemma parse_el {A} (c : codec A) s a r : c_any c = false -> 0 <= c_tag c <= 30 -> bytes_ok s ->
  (Unmarshal c s = Ret (a, r) <->
   exists body, s = el 0 (c_tag c) (c_comp c) body ++ r /\ zlen body < 2 ^ 31 /\
     c_parse c (mkTL 0 (c_tag c) (zlen body) (c_comp c)) (el 0 (c_tag c) (c_comp c) body) body = Ret a).
Proof.
  intros Ha Ht Hs. split.
  - intros E. pose proof E as E0. unfold Unmarshal, parseField in E. destruct s as [|b s]; [discriminate E|].
    destruct (parseTagAndLength (b :: s)) as [[t s1]| |] eqn:ET; cbn [bind] in E; try discriminate E.
    cbn [p_exp noP] in E. pose proof (ptl_inv _ _ _ Hs ET) as (Es & _ & _ & Hl).
    unfold parseFieldTail in E. cbn [p_exp p_tag p_set noP] in E. rewrite Ha in E. cbn [negb andb] in E.
    destruct (_ || _) eqn:EQ; [cbn in E; discriminate E|].
    destruct (Z.ltb_spec (zlen s1) (t_len t)) as [|Hz]; [discriminate E|].
    apply orb_false_iff in EQ as [EQ1 EQ3]. apply orb_false_iff in EQ1 as [EQ1 EQ2].
    apply negb_false_iff in EQ1, EQ2, EQ3. apply Z.eqb_eq in EQ1, EQ2. apply eqb_prop in EQ3.
    set (body := firstn (Z.to_nat (t_len t)) s1) in *.
    assert (Lb : zlen body = t_len t) by (unfold body, zlen in *; rewrite firstn_length; lia).
    assert (Et : t = mkTL 0 (c_tag c) (zlen body) (c_comp c)).
    { destruct t as [tc tt tl tcomp]. cbn [t_class t_tag t_len t_comp] in *. unfold ClassUniversal in *. rewrite EQ1, EQ2, EQ3, Lb. reflexivity. }
    destruct (c_parse c t _ body) as [x| |] eqn:EP; cbn [bind] in E; try discriminate E. injection E as E1 E2.
    exists body. split; [|split; [lia|]].
    + rewrite Es, <- E2. rewrite <- (firstn_skipn (Z.to_nat (t_len t)) s1) at 1. fold body. unfold el, hdr.
      rewrite Et at 1. rewrite <- app_assoc. reflexivity.
    + rewrite <- E1, <- EP. rewrite <- Et. f_equal. rewrite Es. unfold el, hdr. rewrite <- Et.
      rewrite !app_length, skipn_length.
      replace (List.length (appendTagAndLength t) + List.length s1 - (List.length s1 - Z.to_nat (t_len t)))%nat
        with (List.length (appendTagAndLength t) + Z.to_nat (t_len t))%nat by (unfold zlen in *; lia).
      rewrite firstn_app_2. reflexivity.
  - intros (body & -> & Hz & E). unfold el in *. rewrite <- app_assoc. pose proof (Unmarshal_hdr c body r Ha Ht Hz) as U.
    change ClassUniversal with 0 in U. rewrite U, E. reflexivity.
Qed.

(** ** The optional parameters of an algorithm identifier *)
Lemma parse_raw_inv s v r : bytes_ok s -> parseField cRaw optP s = Ret (v, r) ->
  (s = [] /\ r = [] /\ v = rawZero) \/ (exists f, s = f ++ r /\ f <> [] /\ rv_full v = Some f).
Proof.
  intros Hs E. destruct s as [|b s0] eqn:Ew; [left; cbn in E; injection E as <- <-; auto|right]. rewrite <- Ew in *.
  assert (E' : (do (t, s1) <- parseTagAndLength s; parseFieldTail cRaw optP s t s1) = Ret (v, r)) by (rewrite Ew in *; exact E). clear E.
  destruct (parseTagAndLength s) as [[t s1]| |] eqn:ET; cbn [bind] in E'; try discriminate E'.
  pose proof (ptl_inv _ _ _ Hs ET) as (Es & _ & _ & Hl).
  unfold parseFieldTail in E'. cbn [p_exp p_tag p_set optP c_any cRaw negb andb orb] in E'.
  destruct (Z.ltb_spec (zlen s1) (t_len t)) as [|Hz]; [discriminate E'|]. cbn [c_parse cRaw bind] in E'. injection E' as E1 E2.
  assert (Es' : s = (appendTagAndLength t ++ firstn (Z.to_nat (t_len t)) s1) ++ r) by (rewrite Es, <- E2, <- app_assoc, firstn_skipn; reflexivity).
  exists (appendTagAndLength t ++ firstn (Z.to_nat (t_len t)) s1). split; [exact Es'|].
  split; [unfold appendTagAndLength; destruct (31 <=? t_tag t); discriminate|]. rewrite <- E1. cbn [rv_full]. f_equal. rewrite E2. rewrite Es' at 2. rewrite Es' at 1. rewrite app_length, Nat.add_sub. apply firstn_app_exact; reflexivity.
Qed.

(** ** Bit strings *)
Lemma shift_right_length sh prev b : List.length (shift_right sh prev b) = List.length b.
Proof. revert prev. induction b as [|x b IH]; intros prev; cbn; [reflexivity|]. rewrite IH. reflexivity. Qed.
(** a byte: the low [sh] bits of the byte before it, followed by its own high bits *)
Lemma lor_byte sh prev x : 1 <= sh <= 7 -> byte_ok prev -> byte_ok x ->
  Z.lor (Z.shiftl prev (8 - sh) mod 256) (Z.shiftr x sh) = (prev mod 2 ^ sh) * 2 ^ (8 - sh) + x / 2 ^ sh.
Proof.
  intros Hs Hp Hx. rewrite Z.shiftl_mul_pow2, Z.shiftr_div_pow2 by lia.
  assert (P : 2 ^ 8 = 2 ^ sh * 2 ^ (8 - sh)) by (rewrite <- Z.pow_add_r by lia; f_equal; lia).
  assert (A : (prev * 2 ^ (8 - sh)) mod 256 = (prev mod 2 ^ sh) * 2 ^ (8 - sh)).
  { change 256 with (2 ^ 8). rewrite P. apply Z.mul_mod_distr_r; apply Z.pow_nonzero; lia. }
  rewrite A. unfold byte_ok in *.
  assert (B : 0 <= x / 2 ^ sh < 2 ^ (8 - sh)).
  { split; [apply Z.div_pos; [lia|apply Z.pow_pos_nonneg; lia]|]. apply Z.div_lt_upper_bound; [apply Z.pow_pos_nonneg; lia|].
    rewrite <- P. change (2 ^ 8) with 256. lia. }
  enough (LA : Z.land (prev mod 2 ^ sh * 2 ^ (8 - sh)) (x / 2 ^ sh) = 0) by (rewrite <- Z.lxor_lor by exact LA; symmetry; apply Z.add_nocarry_lxor; exact LA).
  apply Z.bits_inj'. intros n Hn. rewrite Z.land_spec, Z.bits_0.
  destruct (Z.lt_ge_cases n (8 - sh)) as [L|L].
  - rewrite Z.mul_pow2_bits_low by lia. reflexivity.
  - apply andb_false_iff. right. destruct (Z.eq_dec (x / 2 ^ sh) 0) as [->|Z0]; [apply Z.bits_0|].
    apply Z.bits_above_log2; [lia|]. apply Z.log2_lt_pow2; [lia|]. apply Z.lt_le_trans with (2 ^ (8 - sh)); [lia|]. apply Z.pow_le_mono_r; lia.
Qed.
Lemma shift_right_value sh : 1 <= sh <= 7 -> forall b prev, byte_ok prev -> bytes_ok b ->
  bytes_ok (shift_right sh prev b) /\ be_to_Z (shift_right sh prev b) = ((prev mod 2 ^ sh) * 256 ^ zlen b + be_to_Z b) / 2 ^ sh.
Proof.
  intros Hs. assert (Hp : 0 < 2 ^ sh) by (apply Z.pow_pos_nonneg; lia).
  assert (P : 256 = 2 ^ (8 - sh) * 2 ^ sh) by (rewrite <- Z.pow_add_r by lia; replace (8 - sh + sh) with 8 by lia; reflexivity).
  induction b as [|x b IH]; intros prev Op Ob.
  - split; [constructor|]. cbn [shift_right]. rewrite be_to_Z_nil. change (zlen (@nil Z)) with 0. rewrite Z.pow_0_r, Z.add_0_r, Z.mul_1_r.
    rewrite Z.div_small; [reflexivity|]. apply Z.mod_pos_bound; lia.
  - apply bytes_ok_cons in Ob as [Ox Ob]. destruct (IH x Ox Ob) as [I1 I2]. cbn [shift_right]. rewrite (lor_byte sh prev x Hs Op Ox).
    pose proof (Z.mod_pos_bound prev (2 ^ sh) Hp) as Mp. pose proof (Z.mod_pos_bound x (2 ^ sh) Hp) as Mx. pose proof (Z.div_mod x (2 ^ sh) ltac:(lia)) as Dx.
    unfold byte_ok in Ox. split.
    + apply bytes_ok_cons. split; [|exact I1]. unfold byte_ok.
      assert (0 <= x / 2 ^ sh < 2 ^ (8 - sh)).
      { split; [apply Z.div_pos; lia|]. apply Z.div_lt_upper_bound; [lia|]. rewrite Z.mul_comm, <- P. lia. }
      set (h := 2 ^ (8 - sh)) in *. clearbody h. set (d := x / 2 ^ sh) in *. clearbody d. set (w := 2 ^ sh) in *. clearbody w. nia.
    + rewrite be_to_Z_cons, (be_to_Z_cons x), zlen_cons. unfold zlen at 1. rewrite shift_right_length. fold (zlen b). rewrite I2.
      assert (E256 : 256 ^ (1 + zlen b) = 256 * 256 ^ zlen b) by (rewrite Z.pow_add_r by (pose proof (zlen_nonneg b); lia); reflexivity).
      replace (zlen b + 1) with (1 + zlen b) by lia. rewrite E256. set (B := 256 ^ zlen b) in *. set (R := be_to_Z b) in *. clearbody B R.
      set (pm := prev mod 2 ^ sh) in *. clearbody pm. set (d := x / 2 ^ sh) in *. set (m := x mod 2 ^ sh) in *.
      replace (pm * (256 * B) + (x * B + R)) with ((pm * 2 ^ (8 - sh) * B + d * B) * 2 ^ sh + (m * B + R)).
      2:{ rewrite Dx. rewrite P. ring. }
      rewrite Z.div_add_l by lia. ring.
Qed.
Lemma last_value b : b <> [] -> bytes_ok b -> forall k, 0 <= k <= 8 -> be_to_Z b mod 2 ^ k = last b 0 mod 2 ^ k.
Proof.
  intros Hb Ob k Hk. rewrite (app_removelast_last 0 Hb) at 1. rewrite be_to_Z_snoc.
  replace 256 with (2 ^ (8 - k) * 2 ^ k) by (rewrite <- Z.pow_add_r by lia; replace (8 - k + k) with 8 by lia; reflexivity).
  rewrite Z.mul_assoc, Z.add_comm, Z_mod_plus_full. reflexivity.
Qed.
(** what a BIT STRING of whole bytes, shifted to the right, contains *)
Lemma bits_exact c q : bytes_ok c -> bytes_ok q -> q <> [] ->
  ((exists v, bits_parse c = Ret v /\ RightAlign v = q) <->
   exists pad bits, c = pad :: bits /\ 0 <= pad <= 7 /\ List.length bits = List.length q /\ be_to_Z bits = 2 ^ pad * be_to_Z q).
Proof.
  intros Oc Oq Nq. split.
  - intros (v & E & R). unfold bits_parse in E. destruct c as [|pad bits]; [discriminate|].
    apply bytes_ok_cons in Oc as [Op Ob]. unfold byte_ok in Op. exists pad, bits. split; [reflexivity|].
    destruct (_ || _) eqn:B in E; [discriminate E|]. injection E as <-. apply orb_false_iff in B as [B B3]. apply orb_false_iff in B as [B1 B2].
    apply Z.ltb_ge in B1. apply negb_false_iff, Z.eqb_eq in B3. split; [lia|].
    unfold RightAlign in R. cbn [bs_len bs_bytes sl] in R.
    assert (Nb : bits <> []) by (intros ->; cbn in R; rewrite orb_true_r in R; congruence).
    assert (Hz : 0 < zlen bits) by (destruct bits; [congruence|rewrite zlen_cons; pose proof (zlen_nonneg bits); lia]).
    destruct (Z.eq_dec pad 0) as [->|Np].
    + rewrite Z.sub_0_r, Z.rem_mul in R by lia. change (8 - 0 =? 8) with true in R. cbn [orb] in R. subst q. rewrite Z.pow_0_r. split; [reflexivity|lia].
    + replace (Z.rem (zlen bits * 8 - pad) 8) with (8 - pad) in R.
      2:{ rewrite Z.rem_mod_nonneg by lia. replace (zlen bits * 8 - pad) with ((8 - pad) + (zlen bits - 1) * 8) by ring. rewrite Z_mod_plus_full. symmetry. apply Z.mod_small. lia. }
      replace (8 - (8 - pad)) with pad in R by lia. replace (pad =? 8) with false in R by lia.
      replace (List.length bits =? 0)%nat with false in R by (destruct bits; [congruence|reflexivity]). cbn [orb] in R.
      destruct (shift_right_value pad ltac:(lia) bits 0 ltac:(unfold byte_ok; lia) Ob) as [_ V]. rewrite Zmod_0_l, Z.mul_0_l, Z.add_0_l in V.
      split; [subst q; rewrite shift_right_length; reflexivity|]. rewrite R in V.
      assert (M : be_to_Z bits mod 2 ^ pad = 0).
      { rewrite last_value by (auto; lia). rewrite <- Z.land_ones by lia. rewrite Z.ones_equiv.
        replace (last (pad :: bits) 0) with (last bits 0) in B3 by (destruct bits; [congruence|reflexivity]). exact B3. }
      rewrite V. apply Z_div_exact_2 in M; [exact M|]. pose proof (Z.pow_pos_nonneg 2 pad); lia.
  - intros (pad & bits & -> & Hp & HL & HV). apply bytes_ok_cons in Oc as [Op Ob].
    assert (Nb : bits <> []) by (intros ->; destruct q; [congruence|discriminate HL]).
    assert (Hz : 0 < zlen bits) by (destruct bits; [congruence|rewrite zlen_cons; pose proof (zlen_nonneg bits); lia]).
    unfold bits_parse. assert (B : (7 <? pad) || ((zlen (pad :: bits) =? 1) && (0 <? pad)) || negb (Z.land (last (pad :: bits) 0) (2 ^ pad - 1) =? 0) = false).
    { rewrite zlen_cons. replace (7 <? pad) with false by lia. replace (1 + zlen bits =? 1) with false by lia. cbn [andb orb].
      apply negb_false_iff, Z.eqb_eq. replace (last (pad :: bits) 0) with (last bits 0) by (destruct bits; [congruence|reflexivity]).
      replace (2 ^ pad - 1) with (Z.ones pad) by (rewrite Z.ones_equiv; lia). rewrite Z.land_ones by lia. rewrite <- last_value by (auto; lia).
      rewrite HV, Z.mul_comm. apply Z_mod_mult. }
    rewrite B. eexists. split; [reflexivity|]. unfold RightAlign. cbn [bs_len bs_bytes sl].
    destruct (Z.eq_dec pad 0) as [->|Np].
    + rewrite Z.sub_0_r, Z.rem_mul by lia. change (8 - 0 =? 8) with true. cbn [orb]. apply be_to_Z_inj; auto. lia.
    + replace (Z.rem (zlen bits * 8 - pad) 8) with (8 - pad).
      2:{ rewrite Z.rem_mod_nonneg by lia. replace (zlen bits * 8 - pad) with ((8 - pad) + (zlen bits - 1) * 8) by ring. rewrite Z_mod_plus_full. symmetry. apply Z.mod_small. lia. }
      replace (8 - (8 - pad)) with pad by lia. replace (pad =? 8) with false by lia.
      replace (List.length bits =? 0)%nat with false by (destruct bits; [congruence|reflexivity]). cbn [orb].
      destruct (shift_right_value pad ltac:(lia) bits 0 ltac:(unfold byte_ok; lia) Ob) as [VO V]. rewrite Zmod_0_l, Z.mul_0_l, Z.add_0_l in V.
      apply be_to_Z_inj; auto; [rewrite shift_right_length; auto|]. rewrite V, HV, Z.mul_comm. apply Z.div_mul. pose proof (Z.pow_pos_nonneg 2 pad); lia.
Qed.

(** ** Points *)
(** the curve's equation, and coordinates in the field *)
Definition on_named (c : curve) (x y : Z) : Prop :=
  0 <= x < cv_P c /\ 0 <= y < cv_P c /\ (y * y) mod cv_P c = (x * x * x - 3 * x + cv_B c) mod cv_P c.
Lemma on_named_iff c x y : IsOnCurve (cv_P c) (cv_B c) x y = true <-> on_named c x y.
Proof.
  unfold IsOnCurve, on_named, polynomial. replace (x * x * x - (x + x + x) + cv_B c) with (x * x * x - 3 * x + cv_B c) by ring.
  destruct (_ || _) eqn:E; split; intros H; try discriminate.
  - lia.
  - apply Z.eqb_eq in H. rewrite H. repeat split; lia.
  - apply Z.eqb_eq. tauto.
Qed.
(** a point, uncompressed: 04, then both coordinates in as many bytes as the field needs *)
Definition uncompressed (c : curve) (x y : Z) : bytes :=
  let n := Z.to_nat ((cv_BitSize c + 7) / 8) in 4 :: Z_to_be n x ++ Z_to_be n y.
Lemma uncompressed_ok c x y : bytes_ok (uncompressed c x y).
Proof. unfold uncompressed. apply bytes_ok_cons; split; [unfold byte_ok; lia|apply bytes_ok_app; split; apply Z_to_be_ok]. Qed.
Lemma point_exact id c q x y : curve_of id = Some c -> bytes_ok q ->
  (elliptic_Unmarshal c q = Some (x, y) <-> q = uncompressed c x y /\ on_named c x y).
Proof.
  intros Hc Oq. split.
  - intros E. pose proof (elliptic_Unmarshal_sound _ _ _ _ E) as S. apply on_named_iff in S. split; [|exact S].
    unfold elliptic_Unmarshal in E. unfold uncompressed. fold (byteLen (cv_BitSize c)). set (n := byteLen (cv_BitSize c)) in *.
    destruct (Nat.eqb_spec (List.length q) (1 + 2 * n)) as [L|]; cbn [negb] in E; [|discriminate E].
    destruct q as [|b r]; [discriminate E|]. apply bytes_ok_cons in Oq as [_ Or]. destruct (Z.eqb_spec b 4) as [->|]; cbn [negb] in E; [|discriminate E].
    destruct (_ || _) in E; [discriminate E|]. destruct (IsOnCurve _ _ _ _) in E; [|discriminate E]. injection E as <- <-. f_equal.
    assert (Lr : List.length r = (n + n)%nat) by (cbn [List.length] in L; lia).
    rewrite <- (firstn_skipn n r) in Or. apply bytes_ok_app in Or as [O1 O2].
    assert (L1 : List.length (firstn n r) = n) by (rewrite firstn_length; lia). assert (L2 : List.length (skipn n r) = n) by (rewrite skipn_length; lia).
    pose proof (Z_to_be_be_to_Z _ O1) as E1. pose proof (Z_to_be_be_to_Z _ O2) as E2. rewrite L1 in E1. rewrite L2 in E2. rewrite E1, E2. symmetry. apply firstn_skipn.
  - intros [-> S]. apply on_named_iff in S. destruct (elliptic_roundtrip id c x y Hc S) as (pub & Em & Eu & _). rewrite <- Eu. f_equal.
    apply on_named_iff in S. destruct S as (Sx & Sy & _). rewrite (elliptic_Marshal_ok id) in Em by tauto. injection Em as <-. reflexivity.
Qed.

(** ** The whole structure *)
Definition ec_key (id x y : Z) : pubKey := if id =? SM2P256V1_id then PKsm2 (mkPub id x y) else PKecdsa id x y.
Lemma tlv_el t comp body : 0 <= t <= 30 -> zlen body < 2 ^ 31 -> tlv ((if comp : bool then 32 else 0) + t) body = el 0 t comp body.
Proof. intros Ht Hz. rewrite el_tlv by lia. reflexivity. Qed.
Lemma tlv_len t body : zlen body < zlen (tlv t body).
Proof. unfold tlv. rewrite zlen_cons, zlen_app. match goal with |- _ < 1 + (zlen ?a + _) => pose proof (zlen_nonneg a) end. lia. Qed.
Lemma ECDSA_oid o : getPublicKeyAlgorithmFromOID o = ECDSA <-> o = oidPublicKeyECDSA.
Proof.
  split; [|intros ->; reflexivity]. unfold getPublicKeyAlgorithmFromOID, oid_eqb. destruct (bytes_eqb o oidPublicKeyRSA); [discriminate|].
  destruct (bytes_eqb o oidPublicKeyDSA); [discriminate|]. destruct (bytes_eqb o oidPublicKeyECDSA) eqn:E; [intros _; apply bytes_eqb_spec; exact E|].
  destruct (bytes_eqb o oidPublicKeyEd25519); discriminate.
Qed.
Lemma named_oid o id : namedCurveFromOID o = Some id -> oidFromNamedCurve id = Some o.
Proof.
  unfold namedCurveFromOID, oid_eqb. intros H.
  repeat match type of H with
  | (if ?b then _ else _) = _ => let B := fresh "B" in destruct b eqn:B; [apply bytes_eqb_spec in B; subst o; injection H as <-; reflexivity|]
  end. discriminate H.
Qed.
Lemma oid_short o id : oidFromNamedCurve id = Some o -> oid_ok o /\ zlen (oid_bytes o) <= 100.
Proof.
  intros H. destruct (named_curve_cases id o H) as (Ook & _ & _ & ob & f & Eob & Lob & _). split; [exact Ook|].
  rewrite (oid_body_ok o Ook) in Eob. injection Eob as ->. exact Lob.
Qed.
Lemma tlv_ok_inv t body : bytes_ok (tlv t body) -> bytes_ok body.
Proof. unfold tlv. intros H. apply bytes_ok_cons in H as [_ H]. apply bytes_ok_app in H. tauto. Qed.
Lemma ecdsa_ok : oid_ok oidPublicKeyECDSA. Proof. repeat constructor; vm_compute; discriminate. Qed.

(** the SubjectPublicKeyInfo structure, field by field *)
Lemma spki_fields der pki : bytes_ok der ->
  (Unmarshal cPKI der = Ret (pki, []) <->
   exists alg ai bits e2, der = tlv 48 (tlv 48 ai ++ tlv 3 bits ++ e2) /\ zlen (tlv 48 ai ++ tlv 3 bits ++ e2) < 2 ^ 31 /\
     (exists raw, ai = oid_tlv alg ++ raw /\ oid_ok alg /\
        (exists rv r, parseField cRaw optP raw = Ret (rv, r) /\ exists bs, bits_parse bits = Ret bs /\ pki = mkPKI (Some der) (mkAI alg rv) bs))).
Proof.
  intros Od. split.
  - intros E. apply parse_el in E; [|reflexivity|cbn; unfold TagSequence; lia|exact Od]. destruct E as (body & Ed & Hz & E). rewrite app_nil_r in Ed.
    cbn [c_tag c_comp cPKI cStructRaw] in Ed. unfold TagSequence in Ed.
    assert (Ed' : der = tlv 48 body) by (rewrite Ed; symmetry; apply (tlv_el 16 true); lia).
    assert (Ob : bytes_ok body) by (rewrite Ed' in Od; apply tlv_ok_inv in Od; exact Od).
    cbn [c_parse cPKI cStructRaw f_dec fcons fnil] in E.
    destruct (parseField cAI noP body) as [[a r1]| |] eqn:E1; cbn [bind] in E; try discriminate E.
    destruct (parseField cBits noP r1) as [[b r2]| |] eqn:E2; cbn [bind] in E; try discriminate E. injection E as <-.
    change (parseField cAI noP body) with (Unmarshal cAI body) in E1. apply parse_el in E1; [|reflexivity|cbn; unfold TagSequence; lia|exact Ob].
    destruct E1 as (aib & Eb & Hz1 & E1). cbn [c_tag c_comp cAI cStruct] in Eb. unfold TagSequence in Eb. rewrite <- (tlv_el 16 true) in Eb by lia. change (32 + 16) with 48 in Eb.
    pose proof Ob as Ob'. rewrite Eb in Ob'. apply bytes_ok_app in Ob' as [Oa Or1]. apply tlv_ok_inv in Oa.
    change (parseField cBits noP r1) with (Unmarshal cBits r1) in E2. apply parse_el in E2; [|reflexivity|cbn; unfold TagBitString; lia|exact Or1].
    destruct E2 as (bits & Er & Hz2 & E2). cbn [c_tag c_comp cBits prim] in Er. unfold TagBitString in Er. rewrite <- (tlv_el 3 false) in Er by lia. change (0 + 3) with 3 in Er.
    cbn [c_parse cBits prim] in E2.
    cbn [c_parse cAI cStruct f_dec fcons fnil] in E1.
    destruct (parseField cOID noP aib) as [[o r3]| |] eqn:E3; cbn [bind] in E1; try discriminate E1.
    destruct (parseField cRaw optP r3) as [[rv r4]| |] eqn:E4; cbn [bind] in E1; try discriminate E1. injection E1 as <-.
    change (parseField cOID noP aib) with (Unmarshal cOID aib) in E3. apply parse_el in E3; [|reflexivity|cbn; unfold TagOID; lia|exact Oa].
    destruct E3 as (ob & Ea & Hz3 & E3). cbn [c_tag c_comp cOID prim] in Ea. unfold TagOID in Ea. rewrite <- (tlv_el 6 false) in Ea by lia. change (0 + 6) with 6 in Ea.
    cbn [c_parse cOID prim] in E3.
    pose proof Oa as Oa'. rewrite Ea in Oa'. apply bytes_ok_app in Oa' as [Oo _]. apply tlv_ok_inv in Oo. apply oid_parse_inv in E3 as [-> Hok]; [|exact Oo].
    exists o, aib, bits, r2. rewrite <- Er, <- Eb. split; [exact Ed'|]. split; [exact Hz|]. exists r3. split; [exact Ea|]. split; [exact Hok|].
    exists rv, r4. split; [exact E4|]. exists b. split; [exact E2|]. f_equal. f_equal. rewrite Ed' at 1. rewrite (tlv_el 16 true) by lia. reflexivity.
  - intros (alg & ai & bits & e2 & Ed & Hz & raw & Ea & Hok & rv & r & E4 & bs & Eb & ->).
    assert (Ob : bytes_ok (tlv 48 ai ++ tlv 3 bits ++ e2)) by (rewrite Ed in Od; apply tlv_ok_inv in Od; exact Od).
    pose proof Ob as Ob'. apply bytes_ok_app in Ob' as [Oa Or1]. apply tlv_ok_inv in Oa.
    pose proof Hz as Hz0. rewrite !zlen_app in Hz0. pose proof (tlv_len 48 ai). pose proof (tlv_len 3 bits). pose proof (zlen_nonneg e2). pose proof (zlen_nonneg ai). pose proof (zlen_nonneg bits).
    assert (Hzo : zlen (oid_bytes alg) < 2 ^ 31) by (rewrite Ea, zlen_app in *; unfold oid_tlv in *; pose proof (tlv_len T_OID (oid_bytes alg)); pose proof (zlen_nonneg raw); lia).
    apply parse_el; [reflexivity|cbn; unfold TagSequence; lia|exact Od|]. exists (tlv 48 ai ++ tlv 3 bits ++ e2). rewrite app_nil_r.
    cbn [c_tag c_comp cPKI cStructRaw]. unfold TagSequence. rewrite <- (tlv_el 16 true) by lia. change (32 + 16) with 48. split; [exact Ed|]. split; [exact Hz|].
    cbn [c_parse cPKI cStructRaw f_dec fcons fnil].
    assert (U1 : parseField cAI noP (tlv 48 ai ++ tlv 3 bits ++ e2) = Ret (mkAI alg rv, tlv 3 bits ++ e2)).
    { change (Unmarshal cAI (tlv 48 ai ++ tlv 3 bits ++ e2) = Ret (mkAI alg rv, tlv 3 bits ++ e2)). apply parse_el; [reflexivity|cbn; unfold TagSequence; lia|exact Ob|].
      exists ai. cbn [c_tag c_comp cAI cStruct]. unfold TagSequence. rewrite <- (tlv_el 16 true) by lia. split; [reflexivity|]. split; [lia|].
      cbn [c_parse cAI cStruct f_dec fcons fnil].
      assert (U3 : parseField cOID noP ai = Ret (alg, raw)).
      { change (Unmarshal cOID ai = Ret (alg, raw)). apply parse_el; [reflexivity|cbn; unfold TagOID; lia|exact Oa|]. exists (oid_bytes alg).
        cbn [c_tag c_comp cOID prim]. unfold TagOID. rewrite <- (tlv_el 6 false) by lia. split; [exact Ea|]. split; [exact Hzo|]. cbn [c_parse cOID prim]. apply (oid_rt alg); [exact Hok|apply oid_body_ok; exact Hok]. }
      rewrite U3. cbn [bind]. rewrite E4. reflexivity. }
    rewrite U1. cbn [bind].
    assert (U2 : parseField cBits noP (tlv 3 bits ++ e2) = Ret (bs, e2)).
    { change (Unmarshal cBits (tlv 3 bits ++ e2) = Ret (bs, e2)). apply parse_el; [reflexivity|cbn; unfold TagBitString; lia|exact Or1|].
      exists bits. cbn [c_tag c_comp cBits prim]. unfold TagBitString. rewrite <- (tlv_el 3 false) by lia. split; [reflexivity|]. split; [lia|]. exact Eb. }
    rewrite U2. cbn [bind]. rewrite <- Ed. reflexivity.
Qed.

(** ** Property C128: the accepted encodings *)
(** [pad] unused bits and the octets of a BIT STRING hold the octets [q], moved [pad] bits to the left *)
Definition holds (pad : Z) (bits q : bytes) : Prop :=
  0 <= pad <= 7 /\ List.length bits = List.length q /\ be_to_Z bits = 2 ^ pad * be_to_Z q.
Definition INTEGER (n : Z) : bytes := tlv 2 (bigint_content n).
(** what the algorithm, its parameters and the key octets of each type of key are *)
Definition key_form (k : pubKey) (alg : oid) (params q : bytes) : Prop :=
  match k with
  | PKsm2 p => exists c, curve_of SM2P256V1_id = Some c /\ pk_Curve p = SM2P256V1_id /\ alg = oidPublicKeyECDSA /\ params = oid_tlv oidNamedCurveSM2P256 /\
      on_named c (pk_X p) (pk_Y p) /\ q = uncompressed c (pk_X p) (pk_Y p)
  | PKecdsa id x y => id <> SM2P256V1_id /\ exists c o, curve_of id = Some c /\ oidFromNamedCurve id = Some o /\ alg = oidPublicKeyECDSA /\ params = oid_tlv o /\
      on_named c x y /\ q = uncompressed c x y
  | PKrsa n e => 0 < n /\ 0 < e < 2 ^ 63 /\ alg = oidPublicKeyRSA /\ params = [5; 0] /\ exists z1 z2, q = tlv 48 (INTEGER n ++ INTEGER e ++ z1) ++ z2
  | PKed25519 b => List.length b = 32%nat /\ alg = oidPublicKeyEd25519 /\ params = [] /\ q = b
  | PKdsa y p pq g => 0 < y /\ 0 < p /\ 0 < pq /\ 0 < g /\ alg = oidPublicKeyDSA /\
      (exists z1, params = tlv 48 (INTEGER p ++ INTEGER pq ++ INTEGER g ++ z1)) /\ exists z2, q = INTEGER y ++ z2
  | PKother => False
  end.

Lemma tlv_nonempty t b : tlv t b <> []. Proof. discriminate. Qed.
Lemma raw_tlv t body tail : tag_ok t -> zlen body < 2 ^ 31 -> exists rv, parseField cRaw optP (tlv t body ++ tail) = Ret (rv, tail) /\ rv_full rv = Some (tlv t body).
Proof.
  intros [Ht1 Ht2] Hz. unfold byte_ok in Ht1.
  assert (Hd : exists cls comp tg, t = cls * 64 + (if comp : bool then 32 else 0) + tg /\ 0 <= cls <= 3 /\ 0 <= tg <= 30).
  { change 31 with (Z.ones 5) in Ht2 at 1. rewrite Z.land_ones in Ht2 by lia. change (2 ^ 5) with 32 in Ht2. exists (t / 64), (32 <=? t mod 64), (t mod 32). destruct (Z.leb_spec 32 (t mod 64)); lia. }
  destruct Hd as (cls & comp & tg & -> & Hc & Hg). pose proof (zlen_nonneg body).
  pose proof (hdr_elem cls tg comp body Hc ltac:(unfold maxInt32; lia) Hz) as El. rewrite hdr_tlv in El by lia.
  eexists. split; [apply (raw_parse optP _ _ _ tail eq_refl eq_refl El)|reflexivity].
Qed.

Lemma T_INT n : tlv T_INTEGER (bigint_content n) = INTEGER n. Proof. reflexivity. Qed.
Lemma form_nonempty k alg params q : key_form k alg params q -> q <> [].
Proof.
  destruct k; cbn [key_form]; intros H.
  - destruct H as (_ & _ & _ & _ & z1 & z2 & ->). discriminate.
  - destruct H as (_ & c0 & o & _ & _ & _ & _ & _ & ->). discriminate.
  - destruct H as (c0 & _ & _ & _ & _ & _ & ->). discriminate.
  - destruct H as (L & _ & _ & ->). intros ->. discriminate L.
  - destruct H as (_ & _ & _ & _ & _ & _ & z2 & ->). discriminate.
  - contradiction.
Qed.
Lemma form_params k alg params q : key_form k alg params q -> params = [] \/ exists t body, tag_ok t /\ params = tlv t body.
Proof.
  destruct k; cbn [key_form]; intros H.
  - right. destruct H as (_ & _ & _ & -> & _). exists 5, []. split; [split; [unfold byte_ok; lia|discriminate]|reflexivity].
  - right. destruct H as (_ & c0 & o & _ & _ & _ & -> & _). exists 6, (oid_bytes o). split; [split; [unfold byte_ok; lia|discriminate]|reflexivity].
  - right. destruct H as (c0 & _ & _ & _ & -> & _). exists 6, (oid_bytes oidNamedCurveSM2P256). split; [split; [unfold byte_ok; lia|discriminate]|reflexivity].
  - left. tauto.
  - right. destruct H as (_ & _ & _ & _ & _ & (z1 & ->) & _). exists 48. eexists. split; [split; [unfold byte_ok; lia|discriminate]|reflexivity].
  - contradiction.
Qed.
Lemma form_alg k alg params q : key_form k alg params q -> oid_ok alg.
Proof.
  assert (A : alg = oidPublicKeyRSA \/ alg = oidPublicKeyDSA \/ alg = oidPublicKeyECDSA \/ alg = oidPublicKeyEd25519 -> oid_ok alg) by (intros [->|[->|[->| ->]]]; repeat constructor; vm_compute; discriminate).
  destruct k; cbn [key_form]; intros H; apply A; [tauto| | |tauto|tauto|contradiction].
  - destruct H as (_ & c0 & o & _ & _ & -> & _). auto.
  - destruct H as (c0 & _ & _ & -> & _). auto.
Qed.
Lemma RightAlign_ok c v : bytes_ok c -> bits_parse c = Ret v -> bytes_ok (RightAlign v).
Proof.
  intros Oc E. unfold bits_parse in E. destruct c as [|pad bits]; [discriminate|]. apply bytes_ok_cons in Oc as [_ Ob]. destruct (_ || _) eqn:B0 in E; [discriminate E|]. injection E as <-.
  apply orb_false_iff in B0 as [B0 _]. apply orb_false_iff in B0 as [B0 _]. unfold RightAlign. cbn [bs_len bs_bytes sl]. destruct (_ || _) eqn:B; [exact Ob|]. apply orb_false_iff in B as [B B2].
  pose proof (Z.rem_bound_pos (zlen bits * 8 - pad) 8) as R.
  assert (0 <= zlen bits * 8 - pad).
  { destruct bits as [|x b]; [|rewrite zlen_cons; pose proof (zlen_nonneg b); lia]. exfalso. cbn [List.length Nat.eqb] in B2. discriminate B2. }
  apply shift_right_value; auto; [lia|unfold byte_ok; lia].
Qed.
Lemma RightAlign_len c v : bits_parse c = Ret v -> zlen (RightAlign v) < zlen c.
Proof.
  intros E. unfold bits_parse in E. destruct c as [|pad bits]; [discriminate|]. destruct (_ || _) in E; [discriminate E|]. injection E as <-.
  unfold RightAlign. cbn [bs_len bs_bytes sl]. rewrite zlen_cons. destruct (_ || _); [lia|]. unfold zlen. rewrite shift_right_length. lia.
Qed.
(** parsePublicKey on an algorithm identifier's parameters and the key octets *)
Lemma parsePublicKey_exact alg rv bs (params q : bytes) full k : bytes_ok params -> bytes_ok q -> zlen params < 2 ^ 31 -> zlen q < 2 ^ 31 ->
  sl (rv_full rv) = params -> RightAlign bs = q ->
  (match getPublicKeyAlgorithmFromOID alg with UnknownPublicKeyAlgorithm => Err "x509: unknown public key algorithm" | a => parsePublicKey a (mkPKI full (mkAI alg rv) bs) end = Ret k
   -> exists params' z, params = params' ++ z /\ key_form k alg params' q /\ (params' = [] -> z = [])) /\
  (key_form k alg params q ->
   match getPublicKeyAlgorithmFromOID alg with UnknownPublicKeyAlgorithm => Err "x509: unknown public key algorithm" | a => parsePublicKey a (mkPKI full (mkAI alg rv) bs) end = Ret k).
Proof.
  intros Op Oq Zp Zq Er Eq. split.
  - unfold getPublicKeyAlgorithmFromOID, oid_eqb.
    destruct (bytes_eqb alg oidPublicKeyRSA) eqn:B1; [apply bytes_eqb_spec in B1|destruct (bytes_eqb alg oidPublicKeyDSA) eqn:B2; [apply bytes_eqb_spec in B2|
    destruct (bytes_eqb alg oidPublicKeyECDSA) eqn:B3; [apply bytes_eqb_spec in B3|destruct (bytes_eqb alg oidPublicKeyEd25519) eqn:B4; [apply bytes_eqb_spec in B4|discriminate]]]];
    unfold parsePublicKey; cbn [pki_PublicKey pki_Algo ai_params]; rewrite Er, Eq; intros H.
    + destruct (bytes_eqb params NullBytes) eqn:N; cbn [negb] in H; [|discriminate H]. apply bytes_eqb_spec in N.
      destruct (readASN1 T_SEQUENCE q) as [[c r]|] eqn:R1; [|discriminate H]. apply readASN1_inv in R1 as (E1 & _ & _); [|exact Oq].
      assert (Oc : bytes_ok c) by (rewrite E1 in Oq; apply bytes_ok_app in Oq as [Oq _]; apply tlv_ok_inv in Oq; exact Oq).
      destruct (readBigInt c) as [[n c1]|] eqn:R2; [|discriminate H]. apply readBigInt_inv in R2 as (E2 & _); [|exact Oc].
      assert (Oc1 : bytes_ok c1) by (rewrite E2 in Oc; apply bytes_ok_app in Oc; tauto).
      destruct (readInt64 c1) as [[e c2]|] eqn:R3; [|discriminate H]. apply readInt64_inv in R3 as (E3 & I64); [|exact Oc1]. unfold int64 in I64.
      destruct (n <=? 0) eqn:Pn; [discriminate H|]. destruct (e <=? 0) eqn:Pe; [discriminate H|]. injection H as <-.
      exists params, []. rewrite app_nil_r. split; [reflexivity|]. split; [|auto]. cbn [key_form]. split; [lia|]. split; [lia|]. split; [exact B1|]. split; [exact N|].
      exists c2, r. rewrite E1, E2, E3, !T_INT. reflexivity.
    + destruct (readBigInt q) as [[y z]|] eqn:R1; [|discriminate H]. apply readBigInt_inv in R1 as (E1 & _); [|exact Oq].
      destruct (readASN1 T_SEQUENCE params) as [[c r]|] eqn:R2; [|discriminate H]. apply readASN1_inv in R2 as (E2 & _ & _); [|exact Op].
      assert (Oc : bytes_ok c) by (rewrite E2 in Op; apply bytes_ok_app in Op as [Op _]; apply tlv_ok_inv in Op; exact Op).
      destruct (readBigInt c) as [[p c1]|] eqn:R3; [|discriminate H]. apply readBigInt_inv in R3 as (E3 & _); [|exact Oc].
      assert (Oc1 : bytes_ok c1) by (rewrite E3 in Oc; apply bytes_ok_app in Oc; tauto).
      destruct (readBigInt c1) as [[pq c2]|] eqn:R4; [|discriminate H]. apply readBigInt_inv in R4 as (E4 & _); [|exact Oc1].
      assert (Oc2 : bytes_ok c2) by (rewrite E4 in Oc1; apply bytes_ok_app in Oc1; tauto).
      destruct (readBigInt c2) as [[g c3]|] eqn:R5; [|discriminate H]. apply readBigInt_inv in R5 as (E5 & _); [|exact Oc2].
      destruct (_ || _) eqn:B in H; [discriminate H|]. injection H as <-.
      exists (tlv 48 c), r. split; [exact E2|]. split; [|discriminate]. cbn [key_form]. split; [lia|]. split; [lia|]. split; [lia|]. split; [lia|]. split; [exact B2|].
      split; [exists c3; rewrite E3, E4, E5, !T_INT; reflexivity|exists z; exact E1].
    + destruct (readOID params) as [[o z]|] eqn:R1; [|discriminate H]. apply readOID_inv in R1 as (E1 & _ & _); [|exact Op].
      destruct (namedCurveFromOID o) as [id|] eqn:N; [|discriminate H]. apply named_oid in N.
      destruct (curve_of id) as [c|] eqn:C; [|discriminate H]. destruct (elliptic_Unmarshal c q) as [[x y]|] eqn:U; [|discriminate H].
      apply (point_exact id c) in U as [E2 S]; auto. exists (oid_tlv o), z. split; [exact E1|]. split; [|discriminate].
      destruct (Z.eqb_spec id SM2P256V1_id) as [->|]; injection H as <-; cbn [key_form pk_Curve pk_X pk_Y].
      * exists c. injection N as <-. auto 10.
      * split; [assumption|]. exists c, o. auto 10.
    + destruct params as [|p0 params]; [|discriminate H]. destruct (Z.eqb_spec (zlen q) 32) as [L|]; cbn [negb] in H; [|discriminate H]. injection H as <-.
      exists [], []. split; [reflexivity|]. split; [|auto]. cbn [key_form]. split; [unfold zlen in L; lia|]. auto.
  - destruct k; cbn [key_form]; intros H.
    + destruct H as (Hn & He & -> & Ep & z1 & z2 & E2). change (getPublicKeyAlgorithmFromOID oidPublicKeyRSA) with RSA. cbn iota.
      unfold parsePublicKey. cbn [pki_PublicKey pki_Algo ai_params]. rewrite Er, Eq, Ep. change (bytes_eqb [5; 0] NullBytes) with true. cbn [negb].
      assert (Zc : zlen (INTEGER n ++ INTEGER e ++ z1) < 2 ^ 31) by (rewrite E2, zlen_app in Zq; pose proof (tlv_len 48 (INTEGER n ++ INTEGER e ++ z1)); pose proof (zlen_nonneg z2); lia).
      assert (Zn : zlen (bigint_content n) < 2 ^ 31) by (rewrite zlen_app in Zc; pose proof (tlv_len 2 (bigint_content n)); unfold INTEGER in Zc at 1; pose proof (zlen_nonneg (INTEGER e ++ z1)); lia).
      rewrite E2. rewrite readASN1_tlv; [|split; [unfold byte_ok; lia|discriminate]|unfold max_content; lia].
      unfold INTEGER at 1. rewrite readBigInt_tlv by (unfold max_content; lia). unfold INTEGER. rewrite readInt64_tlv by (unfold int64; lia).
      replace (n <=? 0) with false by lia. replace (e <=? 0) with false by lia. reflexivity.
    + destruct H as (Hi & cc & o & C & N & -> & Ep & S & E2). change (getPublicKeyAlgorithmFromOID oidPublicKeyECDSA) with ECDSA. cbn iota.
      unfold parsePublicKey. cbn [pki_PublicKey pki_Algo ai_params]. rewrite Er, Eq, Ep. destruct (oid_short _ _ N) as [Oo Zo]. destruct (named_curve_cases _ _ N) as (_ & Nc & _).
      pose proof (readOID_tlv o [] Oo ltac:(unfold max_content; lia)) as R. rewrite app_nil_r in R. rewrite R, Nc, C.
      destruct (point_exact c cc q x y C Oq) as [_ PE]. rewrite PE by auto. replace (c =? SM2P256V1_id) with false by lia. reflexivity.
    + destruct H as (cc & C & Hid & -> & Ep & S & E2). change (getPublicKeyAlgorithmFromOID oidPublicKeyECDSA) with ECDSA. cbn iota.
      unfold parsePublicKey. cbn [pki_PublicKey pki_Algo ai_params]. rewrite Er, Eq, Ep.
      assert (N : oidFromNamedCurve SM2P256V1_id = Some oidNamedCurveSM2P256) by reflexivity.
      destruct (oid_short _ _ N) as [Oo Zo]. destruct (named_curve_cases _ _ N) as (_ & Nc & _).
      pose proof (readOID_tlv _ [] Oo ltac:(unfold max_content; lia)) as R. rewrite app_nil_r in R. rewrite R, Nc, C.
      destruct (point_exact _ cc q (pk_X k) (pk_Y k) C Oq) as [_ PE]. rewrite PE by auto. rewrite Z.eqb_refl. rewrite <- Hid. destruct k; reflexivity.
    + destruct H as (L & -> & Ep & E2). change (getPublicKeyAlgorithmFromOID oidPublicKeyEd25519) with Ed25519. cbn iota.
      unfold parsePublicKey. cbn [pki_PublicKey pki_Algo ai_params]. rewrite Er, Eq, Ep, E2. replace (zlen k =? 32) with true by (unfold zlen; lia). reflexivity.
    + destruct H as (H1 & H2 & H3 & H4 & -> & (z1 & Ep) & z2 & E2). change (getPublicKeyAlgorithmFromOID oidPublicKeyDSA) with DSA. cbn iota.
      unfold parsePublicKey. cbn [pki_PublicKey pki_Algo ai_params]. rewrite Er, Eq.
      assert (Zy : zlen (bigint_content y) < 2 ^ 31) by (rewrite E2, zlen_app in Zq; pose proof (tlv_len 2 (bigint_content y)); unfold INTEGER in Zq; pose proof (zlen_nonneg z2); lia).
      assert (Zc : zlen (INTEGER p ++ INTEGER q0 ++ INTEGER g ++ z1) < 2 ^ 31) by (rewrite Ep in Zp; pose proof (tlv_len 48 (INTEGER p ++ INTEGER q0 ++ INTEGER g ++ z1)); lia).
      pose proof Zc as Zc'. rewrite !zlen_app in Zc'. unfold INTEGER in Zc'. pose proof (tlv_len 2 (bigint_content p)). pose proof (tlv_len 2 (bigint_content q0)). pose proof (tlv_len 2 (bigint_content g)).
      pose proof (zlen_nonneg (bigint_content p)). pose proof (zlen_nonneg (bigint_content q0)). pose proof (zlen_nonneg (bigint_content g)). pose proof (zlen_nonneg z1).
      rewrite E2. unfold INTEGER at 1. rewrite readBigInt_tlv by (unfold max_content; lia).
      rewrite Ep. rewrite <- (app_nil_r (tlv 48 _)). rewrite readASN1_tlv; [|split; [unfold byte_ok; lia|discriminate]|unfold max_content; lia].
      unfold INTEGER at 1. rewrite readBigInt_tlv by (unfold max_content; lia). unfold INTEGER at 1. rewrite readBigInt_tlv by (unfold max_content; lia).
      unfold INTEGER at 1. rewrite readBigInt_tlv by (unfold max_content; lia). replace ((y <=? 0) || (p <=? 0) || (q0 <=? 0) || (g <=? 0)) with false by lia. reflexivity.
    + contradiction.
Qed.

(** ParsePKIXPublicKey returns a key exactly for these byte strings: a SEQUENCE of an algorithm identifier SEQUENCE and a
    BIT STRING, with nothing after it, where
    - the algorithm identifier holds the object identifier of the key's type and its parameters (the curve's object identifier;
      NULL; nothing; the three DSA numbers), followed by anything ([e1]) unless the type has no parameters,
    - the BIT STRING holds the key octets, possibly shifted left by its unused bits,
    - the BIT STRING may be followed by anything ([e2]). *)
Theorem C128_exact : forall der k, bytes_ok der ->
  (ParsePKIXPublicKey der = Ret k <->
   exists alg params e1 pad bits q e2,
     der = tlv 48 (tlv 48 (oid_tlv alg ++ params ++ e1) ++ tlv 3 (pad :: bits) ++ e2) /\
     zlen (tlv 48 (oid_tlv alg ++ params ++ e1) ++ tlv 3 (pad :: bits) ++ e2) < 2 ^ 31 /\
     bytes_ok q /\ holds pad bits q /\ (params = [] -> e1 = []) /\ key_form k alg params q).
Proof.
  intros der k Od. split.
  - unfold ParsePKIXPublicKey. destruct (Unmarshal cPKI der) as [[pki r]| |] eqn:U; [|destruct (ok _); discriminate|discriminate].
    destruct r; [|discriminate]. apply spki_fields in U; [|exact Od].
    destruct U as (alg & ai & bits & e2 & Ed & Hz & raw & Ea & Hok & rv & r & E4 & bs & Eb & ->). cbn [pki_Algo ai_alg]. intros H.
    assert (Ob : bytes_ok (tlv 48 ai ++ tlv 3 bits ++ e2)) by (rewrite Ed in Od; apply tlv_ok_inv in Od; exact Od).
    apply bytes_ok_app in Ob as [Oa Or1]. apply tlv_ok_inv in Oa. apply bytes_ok_app in Or1 as [Obt _]. apply tlv_ok_inv in Obt.
    assert (Or : bytes_ok raw) by (rewrite Ea in Oa; apply bytes_ok_app in Oa; tauto).
    assert (HQ : bytes_ok (RightAlign bs)). { exact (RightAlign_ok _ _ Obt Eb). }
    assert (HL : zlen (RightAlign bs) < 2 ^ 31).
    { pose proof (RightAlign_len _ _ Eb). rewrite !zlen_app in Hz. pose proof (tlv_len 3 bits). pose proof (zlen_nonneg e2). pose proof (zlen_nonneg (tlv 48 ai)). lia. }
    assert (HP : exists z, raw = sl (rv_full rv) ++ z /\ (sl (rv_full rv) = [] -> z = [])).
    { destruct (parse_raw_inv _ _ _ Or E4) as [(-> & -> & ->)|(f & -> & Nf & Ef)]; [exists []; auto|]. rewrite Ef. cbn [sl]. exists r. split; [reflexivity|]. intros F0. contradiction. }
    destruct HP as (z & Hraw & Hnil).
    assert (Op : bytes_ok (sl (rv_full rv))) by (rewrite Hraw in Or; apply bytes_ok_app in Or; tauto).
    assert (LP : zlen (sl (rv_full rv)) < 2 ^ 31).
    { rewrite !zlen_app in Hz. pose proof (tlv_len 48 ai). rewrite Ea, Hraw, !zlen_app in *. pose proof (zlen_nonneg e2). pose proof (zlen_nonneg (tlv 3 bits)). pose proof (zlen_nonneg (oid_tlv alg)). pose proof (zlen_nonneg z). lia. }
    destruct (parsePublicKey_exact alg rv bs _ _ (Some der) k Op HQ LP HL eq_refl eq_refl) as [F _].
    destruct (F H) as (params' & z' & E5 & KF & Hn'). clear F H.
    pose proof (form_nonempty _ _ _ _ KF) as NQ.
    destruct (proj1 (bits_exact bits (RightAlign bs) Obt HQ NQ)) as (pad & bb & -> & Hpad & HLen & HV); [eauto|].
    exists alg, params', (z' ++ z), pad, bb, (RightAlign bs), e2. rewrite (app_assoc params'), <- E5, <- Hraw, <- Ea. split; [exact Ed|]. split; [exact Hz|]. split; [exact HQ|].
    split; [split; auto|]. split; [|exact KF]. intros Hp. rewrite (Hn' Hp) in *. apply Hnil. rewrite E5, Hp. reflexivity.
  - intros (alg & params & e1 & pad & bits & q & e2 & Ed & Hz & Oq & (Hpad & HLen & HV) & Hn & KF).
    assert (Ob : bytes_ok (tlv 48 (oid_tlv alg ++ params ++ e1) ++ tlv 3 (pad :: bits) ++ e2)) by (rewrite Ed in Od; apply tlv_ok_inv in Od; exact Od).
    apply bytes_ok_app in Ob as [Oa Or1]. apply tlv_ok_inv in Oa. apply bytes_ok_app in Or1 as [Obt _]. apply tlv_ok_inv in Obt.
    apply bytes_ok_app in Oa as [_ Or]. pose proof Or as Or'. apply bytes_ok_app in Or' as [Op _].
    pose proof (form_nonempty _ _ _ _ KF) as NQ.
    destruct (proj2 (bits_exact (pad :: bits) q Obt Oq NQ)) as (bs & Ebs & ER); [eauto 8|].
    pose proof Hz as Hz0. rewrite !zlen_app in Hz0. pose proof (tlv_len 3 (pad :: bits)) as L3. rewrite zlen_cons in L3. pose proof (tlv_len 48 (oid_tlv alg ++ params ++ e1)) as L4. rewrite !zlen_app in L4.
    pose proof (zlen_nonneg e2). pose proof (zlen_nonneg e1). pose proof (zlen_nonneg (oid_tlv alg)). pose proof (zlen_nonneg params). pose proof (zlen_nonneg bits).
    assert (LQ : zlen q = zlen bits) by (unfold zlen; lia).
    assert (RV : exists rv r, parseField cRaw optP (params ++ e1) = Ret (rv, r) /\ sl (rv_full rv) = params).
    { destruct (form_params _ _ _ _ KF) as [E0|(t & body & Ht & E0)].
      - rewrite E0, (Hn E0). exists rawZero, []. split; reflexivity.
      - pose proof (tlv_len t body). rewrite E0 in *. destruct (raw_tlv t body e1 Ht ltac:(lia)) as (rv & R1 & R2). exists rv, e1. rewrite R2. auto. }
    destruct RV as (rv & r & R1 & R2).
    unfold ParsePKIXPublicKey.
    assert (U : Unmarshal cPKI der = Ret (mkPKI (Some der) (mkAI alg rv) bs, [])).
    { apply spki_fields; [exact Od|]. exists alg, (oid_tlv alg ++ params ++ e1), (pad :: bits), e2. split; [exact Ed|]. split; [exact Hz|].
      exists (params ++ e1). split; [reflexivity|]. split; [exact (form_alg _ _ _ _ KF)|]. exists rv, r. split; [exact R1|]. exists bs. auto. }
    rewrite U. cbn [pki_Algo ai_alg].
    destruct (parsePublicKey_exact alg rv bs params q (Some der) k Op Oq ltac:(lia) ltac:(lia) R2 ER) as [_ F]. apply F. exact KF.
Qed.
Print Assumptions C128_exact.

(** The same, for SM2 keys, in numbers: 1.2.840.10045.2.1 (ecPublicKey) and 1.2.156.10197.1.301 (SM2), and 65 octets that hold
    04 || x || y, shifted left by at most five bits. *)
Theorem C128_sm2 : forall der x y, bytes_ok der ->
  (ParsePKIXPublicKey der = Ret (PKsm2 (mkPub SM2P256V1_id x y)) <->
   exists e1 pad bits e2,
     der = tlv 48 (tlv 48 ([6; 7; 0x2a; 0x86; 0x48; 0xce; 0x3d; 2; 1] ++ [6; 8; 0x2a; 0x81; 0x1c; 0xcf; 0x55; 1; 0x82; 0x2d] ++ e1) ++ tlv 3 (pad :: bits) ++ e2) /\
     zlen (tlv 48 ([6; 7; 0x2a; 0x86; 0x48; 0xce; 0x3d; 2; 1] ++ [6; 8; 0x2a; 0x81; 0x1c; 0xcf; 0x55; 1; 0x82; 0x2d] ++ e1) ++ tlv 3 (pad :: bits) ++ e2) < 2 ^ 31 /\
     0 <= pad <= 5 /\ List.length bits = 65%nat /\ be_to_Z bits = 2 ^ pad * (4 * 256 ^ 64 + x * 256 ^ 32 + y) /\
     0 <= x < sm2_P /\ 0 <= y < sm2_P /\ (y * y) mod sm2_P = (x * x * x - 3 * x + sm2_B) mod sm2_P).
Proof.
  intros der x y Od.
  assert (HC : exists c, curve_of SM2P256V1_id = Some c /\ cv_P c = sm2_P /\ cv_B c = sm2_B /\ (cv_BitSize c + 7) / 8 = 32) by (eexists; repeat split; reflexivity).
  destruct HC as (c & HC & HP & HB & HS).
  assert (P256 : 0 < sm2_P < 256 ^ 32) by (split; reflexivity).
  assert (QV : forall a b, 0 <= a < sm2_P -> 0 <= b < sm2_P -> be_to_Z (uncompressed c a b) = 4 * 256 ^ 64 + a * 256 ^ 32 + b).
  { intros a b Ha Hb. unfold uncompressed. rewrite HS. cbv zeta. change (Z.to_nat 32) with 32%nat. rewrite be_to_Z_cons, be_to_Z_app. unfold zlen. rewrite app_length, !Z_to_be_length.
    rewrite !be_to_Z_to_be_small by (change (Z.of_nat 32) with 32; lia). change (Z.of_nat (32 + 32)) with 64. change (Z.of_nat 32) with 32. ring. }
  assert (QL : forall a b, List.length (uncompressed c a b) = 65%nat) by (intros; unfold uncompressed; rewrite HS; cbn [List.length]; rewrite app_length, !Z_to_be_length; reflexivity).
  rewrite (C128_exact der _ Od). split.
  - intros (alg & params & e1 & pad & bits & q & e2 & Ed & Hz & Oq & (Hp & HL & HV) & _ & KF). cbn [key_form pk_Curve pk_X pk_Y] in KF.
    destruct KF as (c' & C' & _ & -> & -> & (Sx & Sy & Se) & ->). rewrite HC in C'. injection C' as <-. rewrite HP in *. rewrite HB in Se.
    exists e1, pad, bits, e2. change (oid_tlv oidPublicKeyECDSA) with [6; 7; 0x2a; 0x86; 0x48; 0xce; 0x3d; 2; 1] in *.
    change (oid_tlv oidNamedCurveSM2P256) with [6; 8; 0x2a; 0x81; 0x1c; 0xcf; 0x55; 1; 0x82; 0x2d] in *. rewrite QL in HL. rewrite QV in HV by lia.
    split; [exact Ed|]. split; [exact Hz|]. split; [|auto 10].
    assert (Ob : bytes_ok bits).
    { rewrite Ed in Od. apply tlv_ok_inv in Od. apply bytes_ok_app in Od as [_ Od]. apply bytes_ok_app in Od as [Od _]. apply tlv_ok_inv in Od. apply bytes_ok_cons in Od. tauto. }
    pose proof (be_to_Z_bound _ Ob) as Bd. unfold zlen in Bd. rewrite HL, HV in Bd. change (256 ^ Z.of_nat 65) with (2 ^ 6 * (4 * 256 ^ 64)) in Bd.
    split; [lia|]. assert (pad < 6); [|lia]. apply (Z.pow_lt_mono_r_iff 2); [lia|lia|]. nia.
  - intros (e1 & pad & bits & e2 & Ed & Hz & Hp & HL & HV & Sx & Sy & Se).
    exists oidPublicKeyECDSA, (oid_tlv oidNamedCurveSM2P256), e1, pad, bits, (uncompressed c x y), e2.
    change (oid_tlv oidPublicKeyECDSA) with [6; 7; 0x2a; 0x86; 0x48; 0xce; 0x3d; 2; 1].
    change (oid_tlv oidNamedCurveSM2P256) with [6; 8; 0x2a; 0x81; 0x1c; 0xcf; 0x55; 1; 0x82; 0x2d].
    split; [exact Ed|]. split; [exact Hz|]. split; [apply uncompressed_ok|]. split; [unfold holds; rewrite QL, QV by lia; repeat split; auto; lia|]. split; [discriminate|].
    cbn [key_form pk_Curve pk_X pk_Y]. exists c. unfold on_named. rewrite HP, HB. auto 10.
Qed.
Print Assumptions C128_sm2.

(** The encodings are not unique: any bytes may be put at the end of the outer SEQUENCE. *)
Theorem C128_extra : forall body extra k, bytes_ok body -> bytes_ok extra -> ParsePKIXPublicKey (tlv 48 body) = Ret k -> zlen body + zlen extra < 2 ^ 31 ->
  ParsePKIXPublicKey (tlv 48 (body ++ extra)) = Ret k.
Proof.
  intros body extra k Ob Oe E Hz. pose proof (zlen_nonneg extra). pose proof (zlen_nonneg body).
  assert (OT : forall b, bytes_ok b -> zlen b < 2 ^ 31 -> bytes_ok (tlv 48 b)).
  { intros b O Z. apply tlv_ok; auto. unfold byte_ok; lia. }
  apply C128_exact in E; [|apply OT; auto; lia]. destruct E as (alg & params & e1 & pad & bits & q & e2 & Ed & Hb & Oq & H1 & H2 & KF).
  assert (T48 : tag_ok 48) by (split; [unfold byte_ok; lia|discriminate]).
  match type of Ed with _ = tlv 48 ?b => destruct (tlv_inj 48 body [] 48 b [] T48 T48 ltac:(unfold max_content; lia) ltac:(unfold max_content; lia) (f_equal (fun z => z ++ []) Ed)) as (_ & Eb & _) end.
  rewrite Eb in Hz |- *. clear Ed.
  apply C128_exact; [apply OT; [apply bytes_ok_app; rewrite <- Eb; auto|rewrite zlen_app; lia]|].
  exists alg, params, e1, pad, bits, q, (e2 ++ extra). rewrite <- !app_assoc. split; [reflexivity|]. split; [rewrite !zlen_app in *; lia|]. auto 10.
Qed.
Print Assumptions C128_extra.

(** MarshalPKIXPublicKey writes the one without additions. *)
Theorem C128_written : forall id c o x y, curve_of id = Some c -> oidFromNamedCurve id = Some o -> on_named c x y ->
  MarshalPKIXPublicKey (ec_key id x y) = Ret (tlv 48 (tlv 48 (oid_tlv oidPublicKeyECDSA ++ oid_tlv o) ++ tlv 3 (0 :: uncompressed c x y))).
Proof.
  intros id c o x y Hc Ho Hon. destruct (oid_short _ _ Ho) as [Oo Zo]. destruct Hon as (Hx & Hy & He).
  assert (L : zlen (uncompressed c x y) <= 133).
  { destruct (curve_sizes id c Hc) as (B1 & _). unfold byteLen in B1. unfold uncompressed. rewrite zlen_cons, zlen_app. unfold zlen. rewrite !Z_to_be_length. lia. }
  assert (E : MarshalPKIXPublicKey (ec_key id x y) = do (b, ai) <- marshal_ec_pub id x y; match Marshal cPkix (mkPkix ai (mkBits (Some b) (8 * zlen b))) with Ret r => Ret r | Err _ => Ret [] | Panic => Panic end).
  { unfold ec_key. destruct (Z.eqb_spec id SM2P256V1_id) as [->|]; reflexivity. }
  rewrite E. clear E. unfold marshal_ec_pub. rewrite Ho, Hc. rewrite (elliptic_Marshal_ok id) by auto. cbn [bind].
  rewrite Marshal_oid by (auto; lia). cbn [bind]. change (4 :: Z_to_be (byteLen (cv_BitSize c)) x ++ Z_to_be (byteLen (cv_BitSize c)) y) with (uncompressed c x y).
  set (u := uncompressed c x y) in *. clearbody u. pose proof (zlen_nonneg u).
  assert (Em : Marshal cPkix (mkPkix (mkAI oidPublicKeyECDSA (mkRaw 0 0 false None (Some (oid_tlv o)))) (mkBits (Some u) (8 * zlen u))) =
     Ret (el 0 16 true (el 0 16 true (oid_tlv oidPublicKeyECDSA ++ oid_tlv o) ++ el 0 3 false (0 :: u)))).
  { unfold Marshal. apply mk_struct. cbn [pkx_Algo pkx_Bits]. apply f_cons.
    - apply mk_struct. cbn [ai_alg ai_params]. apply f_cons; [rewrite mk_oid_ok by (apply ecdsa_ok); reflexivity|]. apply f_one. reflexivity.
    - apply f_one. unfold makeField. cbn [p_omit p_opt p_def noP andb c_whole cBits prim p_set c_tag c_body p_tag]. unfold bits_body. cbn [bs_len bs_bytes].
      replace (Z.rem (8 * zlen u) 8) with 0 by (rewrite Z.mul_comm; symmetry; apply Z.rem_mul; lia). reflexivity. }
  rewrite Em. f_equal. assert (Zt : zlen (oid_tlv oidPublicKeyECDSA ++ oid_tlv o) <= 220).
  { rewrite zlen_app. change (zlen (oid_tlv oidPublicKeyECDSA)) with 9. unfold oid_tlv. pose proof (tlv_zlen T_OID (oid_bytes o)). lia. }
  assert (Zb : zlen (0 :: u) <= 134) by (rewrite zlen_cons; lia).
  rewrite (el_tlv 0 3 false (0 :: u)) by lia. rewrite (el_tlv 0 16 true (oid_tlv oidPublicKeyECDSA ++ oid_tlv o)) by lia. rewrite el_tlv; [reflexivity|lia|].
  rewrite zlen_app. pose proof (tlv_zlen (0 * 64 + 0 + 3) (0 :: u) ltac:(lia)). pose proof (tlv_zlen (0 * 64 + 32 + 16) (oid_tlv oidPublicKeyECDSA ++ oid_tlv o) ltac:(lia)). lia.
Qed.
Print Assumptions C128_written.

(** Two encodings of the generator's key: the written one, and one with unused bits and additional bytes in both SEQUENCEs. *)
Definition spki (e1 : bytes) (pad : Z) (e2 : bytes) : bytes :=
  tlv 48 (tlv 48 ([6; 7; 0x2a; 0x86; 0x48; 0xce; 0x3d; 2; 1] ++ [6; 8; 0x2a; 0x81; 0x1c; 0xcf; 0x55; 1; 0x82; 0x2d] ++ e1) ++
          tlv 3 (pad :: Z_to_be 65 (2 ^ pad * (4 * 256 ^ 64 + sm2_Gx * 256 ^ 32 + sm2_Gy))) ++ e2).
Example C128_nonvacuous :
  MarshalPKIXPublicKey (PKsm2 (mkPub SM2P256V1_id sm2_Gx sm2_Gy)) = Ret (spki [] 0 []) /\
  ParsePKIXPublicKey (spki [] 0 []) = Ret (PKsm2 (mkPub SM2P256V1_id sm2_Gx sm2_Gy)) /\
  ParsePKIXPublicKey (spki [5; 0; 7] 5 [1; 2; 3]) = Ret (PKsm2 (mkPub SM2P256V1_id sm2_Gx sm2_Gy)) /\
  spki [5; 0; 7] 5 [1; 2; 3] <> spki [] 0 [] /\
  ParsePKIXPublicKey (spki [] 6 []) = Err "x509: failed to unmarshal elliptic curve point".
Proof. repeat split; try (vm_compute; reflexivity). vm_compute. discriminate. Qed.
