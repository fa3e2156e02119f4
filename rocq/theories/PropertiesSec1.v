(** * Property C131 (x509: which byte strings ParseECPrivateKey and ParsePKCS8PrivateKey take for an elliptic-curve key) *)
From Verif Require Import Base Words CryptoByte ECSpec ECModel SM2Model Asn1 Asn1Proofs Asn1Safe KeysModel KeysProofs P12Enc X509Model X509Proofs X509ExtProofs X509CertProofs PropertiesKeys PropertiesKeysCurves PropertiesSpki.
From Coq Require Import ZifyBool ZifyNat.
Open Scope Z_scope.

(** ** A DER header: class, tag number, constructed or not, length *)
Definition header (t : tagLen) : Prop := 0 <= t_class t <= 3 /\ 0 <= t_tag t <= maxInt32 /\ 0 <= t_len t < 2 ^ 31.
Definition head_bytes (t : tagLen) : bytes := appendTagAndLength t.
(** [\[n\] EXPLICIT], with a length that announces something *)
Definition explicit (n L : Z) : bytes := (160 + n) :: match der_len L with Some l => l | None => [] end.
(** An OPTIONAL [\[n\] EXPLICIT] field whose content has the universal tag [tag]: bytes in which it is taken to be absent.
    Either nothing is left, or another element stands there, or the field has a content of another type. *)
Definition absent (n tag : Z) (s : bytes) : Prop :=
  s = [] \/
  (exists t s1, header t /\ s = head_bytes t ++ s1 /\ s1 <> [] /\ ~ (t_class t = 2 /\ t_tag t = n /\ (t_len t = 0 \/ t_comp t = true))) \/
  (exists L t s1, 0 < L < 2 ^ 31 /\ header t /\ s = explicit n L ++ head_bytes t ++ s1 /\ ~ (t_class t = 0 /\ t_tag t = tag /\ t_comp t = false)).

Lemma header_parse t s : header t -> parseTagAndLength (head_bytes t ++ s) = Ret (t, s).
Proof. intros (A & B & C). destruct t as [cl tg ln cm]. apply (hdr_parse cl tg cm ln s A B C). Qed.
Lemma header_inv s t r : bytes_ok s -> parseTagAndLength s = Ret (t, r) -> s = head_bytes t ++ r /\ header t.
Proof. intros O E. destruct (ptl_inv _ _ _ O E) as (A & B). split; [exact A|exact B]. Qed.
Lemma head_ne t s : head_bytes t ++ s <> [].
Proof. unfold head_bytes, appendTagAndLength. destruct (31 <=? t_tag t); discriminate. Qed.
Lemma explicit_head n L : 0 <= n <= 30 -> 0 <= L < 2 ^ 31 -> explicit n L = head_bytes (mkTL 2 n L true).
Proof.
  intros Hn HL. unfold explicit, head_bytes, appendTagAndLength. cbn [t_class t_tag t_len t_comp].
  replace (31 <=? n) with false by lia. cbn [app]. apply f_equal2; [lia|].
  destruct (der_len_cases L ltac:(lia)) as [[B ->]|(k & Hk & -> & B & B')].
  - replace (128 <=? L) with false by lia. reflexivity.
  - replace (128 <=? L) with true by lia. rewrite (nbytes_unique L k) by lia. reflexivity.
Qed.
Lemma parse_nonempty {A} (c : codec A) p s : s <> [] -> parseField c p s =
  do (t, s1) <- parseTagAndLength s;
      if p_exp p then
        match s1 with
        | [] => Err "explicit tag has no child"
        | _ =>
            if (t_class t =? ClassContext) && (t_tag t =? match p_tag p with Some n => n | None => -1 end)
               && ((t_len t =? 0) || t_comp t)
            then
              if c_any c then parseFieldTail c p s t s1
              else if 0 <? t_len t then
                do (t', s2) <- parseTagAndLength s1;
                parseFieldTail c p s t' s2
              else Err "zero length explicit tag was not an asn1.Flag"
            else match setDefault c p with Some a => Ret (a, s) | None => Err "explicitly tagged member didn't match" end
        end
      else parseFieldTail c p s t s1.
Proof. destruct s; [congruence|reflexivity]. Qed.

(** what an OPTIONAL, EXPLICIT field reads, exactly *)
Lemma opt_explicit {A} (tag : Z) (zero : A) iz l0 enc dec n s a r : 0 <= tag <= 30 -> 0 <= n <= 30 -> bytes_ok s ->
  (parseField (prim tag zero iz l0 enc dec) (optExplicitP n) s = Ret (a, r) <->
   (a = zero /\ r = s /\ absent n tag s) \/
   (exists L body, 0 < L < 2 ^ 31 /\ s = explicit n L ++ tlv tag body ++ r /\ zlen body < 2 ^ 31 /\ dec body = Ret a)).
Proof.
  intros Ht Hn Os. set (c := prim tag zero iz l0 enc dec). split.
  - intros E. destruct (bytes_eqb s []) eqn:Es.
    { apply bytes_eqb_spec in Es. subst s. cbn in E. injection E as <- <-. left. split; [reflexivity|]. split; [reflexivity|]. left. reflexivity. }
    assert (Ns : s <> []) by (intros ->; discriminate Es). rewrite parse_nonempty in E by exact Ns.
    destruct (parseTagAndLength s) as [[t s1]| |] eqn:ET; cbn [bind] in E; try discriminate E.
    destruct (header_inv _ _ _ Os ET) as (Eh & Hh). cbn [p_exp p_tag optExplicitP] in E.
    destruct s1 as [|y s1']; [discriminate E|]. remember (y :: s1') as s1 eqn:Ey.
    assert (O1 : bytes_ok s1) by (rewrite Eh in Os; apply bytes_ok_app in Os; tauto).
    destruct ((t_class t =? ClassContext) && (t_tag t =? n) && ((t_len t =? 0) || t_comp t)) eqn:B.
    + change (c_any c) with false in E. cbv iota in E. destruct (Z.ltb_spec 0 (t_len t)) as [HL|]; [|discriminate E].
      assert (Et : t = mkTL 2 n (t_len t) true).
      { destruct t as [cl tg ln cm]. cbn [t_class t_tag t_len t_comp] in *. unfold ClassContext in B.
        destruct cm; [|exfalso; lia]. f_equal; lia. }
      assert (HL2 : 0 < t_len t < 2 ^ 31) by (destruct Hh as (_ & _ & H); lia).
      destruct (parseTagAndLength s1) as [[t' s2]| |] eqn:ET2; cbn [bind] in E; try discriminate E.
      destruct (header_inv _ _ _ O1 ET2) as (Eh2 & Hh2).
      assert (Ex : s = explicit n (t_len t) ++ head_bytes t' ++ s2) by (rewrite Eh, Eh2, explicit_head by lia; rewrite <- Et; reflexivity).
      unfold parseFieldTail in E. cbn [p_set p_exp p_tag optExplicitP] in E.
      change (c_any c) with false in E. change (c_tag c) with tag in E. change (c_comp c) with false in E. cbn [negb andb] in E. unfold ClassUniversal in E.
      match type of E with (if ?b then _ else _) = _ => destruct b eqn:B2 end.
      * change (setDefault c (optExplicitP n)) with (Some zero) in E. cbv iota in E. injection E as <- <-. left. split; [reflexivity|]. split; [reflexivity|]. right. right. exists (t_len t), t', s2.
        split; [exact HL2|]. split; [exact Hh2|]. split; [exact Ex|]. intros (C1 & C2 & C3). rewrite C1, C2, C3, !Z.eqb_refl in B2. discriminate B2.
      * destruct (Z.ltb_spec (zlen s2) (t_len t')) as [|Hz]; [discriminate E|]. cbn [c_parse c prim] in E.
        destruct (dec (firstn (Z.to_nat (t_len t')) s2)) as [v| |] eqn:Ed; cbn [bind] in E; try discriminate E. injection E as <- <-.
        right. exists (t_len t), (firstn (Z.to_nat (t_len t')) s2). split; [exact HL2|].
        destruct Hh2 as (_ & _ & HL3). assert (Lb : zlen (firstn (Z.to_nat (t_len t')) s2) = t_len t') by (unfold zlen in *; rewrite firstn_length; lia).
        split; [|split; [lia|exact Ed]]. rewrite Ex at 1. f_equal.
        rewrite <- (Z.add_0_l tag) at 1. change 0 with (if false then 32 else 0) at 1. rewrite tlv_el by lia. unfold el, hdr. rewrite Lb.
        assert (Et' : t' = mkTL 0 tag (t_len t') false).
        { destruct t' as [cl tg ln cm]. cbn [t_class t_tag t_len t_comp] in *. destruct cm; [exfalso; cbn in B2; lia|]. f_equal; lia. }
        rewrite <- Et'. unfold head_bytes. rewrite <- app_assoc, firstn_skipn. reflexivity.
    + change (setDefault c (optExplicitP n)) with (Some zero) in E. cbv iota in E. injection E as <- <-. left. split; [reflexivity|]. split; [reflexivity|]. right. left. exists t, s1. split; [exact Hh|]. split; [exact Eh|].
      split; [subst s1; discriminate|]. intros (C1 & C2 & C3). rewrite C1, C2, Z.eqb_refl in B. unfold ClassContext in B. destruct C3 as [C3|C3]; rewrite C3 in B; cbn in B; lia.
  - intros [(-> & -> & [->|[(t & s1 & Hh & Es & N & C)|(L & t & s1 & HL & Hh & Es & C)]])|(L & body & HL & Es & Hb & Ed)].
    + reflexivity.
    + rewrite parse_nonempty by (rewrite Es; apply head_ne). rewrite Es at 1. rewrite header_parse by exact Hh. cbn [bind p_exp p_tag optExplicitP].
      destruct s1 as [|y s1]; [congruence|].
      replace (_ && _) with false by (unfold ClassContext; destruct t as [cl tg ln cm]; cbn [t_class t_tag t_len t_comp] in *; destruct cm; cbn; lia). reflexivity.
    + rewrite explicit_head in Es by lia. rewrite parse_nonempty by (rewrite Es; apply head_ne). rewrite Es at 1.
      rewrite header_parse by (repeat split; cbn; unfold maxInt32; lia). cbn [bind p_exp p_tag optExplicitP t_class t_tag t_len t_comp].
      pose proof (head_ne t s1) as Nh. destruct (head_bytes t ++ s1) as [|y l] eqn:Ey; [congruence|]. rewrite <- Ey in *.
      rewrite (Z.eqb_refl n), orb_true_r. change (2 =? ClassContext) with true. cbn [andb]. change (c_any c) with false. cbv iota. replace (0 <? L) with true by lia.
      rewrite header_parse by exact Hh. cbn [bind]. unfold parseFieldTail. cbn [p_set p_exp p_tag optExplicitP].
      change (c_any c) with false. change (c_tag c) with tag. change (c_comp c) with false.
      replace (_ || _) with true; [reflexivity|]. unfold ClassUniversal. destruct t as [cl tg ln cm]; cbn [t_class t_tag t_len t_comp negb andb] in *; destruct cm; cbn; lia.
    + rewrite explicit_head in Es by lia. rewrite parse_nonempty by (rewrite Es; apply head_ne). rewrite Es at 1.
      rewrite header_parse by (repeat split; cbn; unfold maxInt32; lia). cbn [bind p_exp p_tag optExplicitP t_class t_tag t_len t_comp].
      assert (Et : tlv tag body ++ r = head_bytes (mkTL 0 tag (zlen body) false) ++ body ++ r).
      { rewrite <- (Z.add_0_l tag) at 1. change 0 with (if false then 32 else 0) at 1. rewrite tlv_el by lia. unfold el, hdr, head_bytes. rewrite <- app_assoc. reflexivity. }
      rewrite Et in *. pose proof (zlen_nonneg body) as Pb.
      assert (Hh : header (mkTL 0 tag (zlen body) false)) by (repeat split; cbn; unfold maxInt32; lia).
      pose proof (head_ne (mkTL 0 tag (zlen body) false) (body ++ r)) as Nh.
      destruct (head_bytes (mkTL 0 tag (zlen body) false) ++ body ++ r) as [|y l] eqn:Ey; [congruence|]. rewrite <- Ey in *.
      rewrite (Z.eqb_refl n), orb_true_r. change (2 =? ClassContext) with true. cbn [andb]. change (c_any c) with false. cbv iota. replace (0 <? L) with true by lia.
      rewrite header_parse by exact Hh. cbn [bind]. unfold parseFieldTail. cbn [p_set p_exp p_tag optExplicitP].
      change (c_any c) with false. change (c_tag c) with tag. change (c_comp c) with false. cbn [t_class t_tag t_len t_comp negb andb].
      replace (_ || _) with false by (unfold ClassUniversal; cbn; lia).
      replace (zlen (body ++ r) <? zlen body) with false by (rewrite zlen_app; pose proof (zlen_nonneg r); lia).
      cbn [c_parse c prim]. unfold zlen. rewrite Nat2Z.id, firstn_app_exact by reflexivity. rewrite Ed. cbn [bind].
      rewrite skipn_app, skipn_all, Nat.sub_diag. reflexivity.
Qed.

(** ** The other fields *)
Lemma field_exact {A} (c : codec A) s a r : c_any c = false -> 0 <= c_tag c <= 30 -> bytes_ok s ->
  (parseField c noP s = Ret (a, r) <->
   exists body, s = tlv ((if c_comp c then 32 else 0) + c_tag c) body ++ r /\ zlen body < 2 ^ 31 /\
     c_parse c (mkTL 0 (c_tag c) (zlen body) (c_comp c)) (tlv ((if c_comp c then 32 else 0) + c_tag c) body) body = Ret a).
Proof.
  intros Ha Ht Os. change (parseField c noP s) with (Unmarshal c s). rewrite (parse_el c s a r Ha Ht Os). split; intros (body & H1 & H2 & H3); exists body.
  - rewrite (tlv_el _ _ _ Ht H2). auto.
  - rewrite (tlv_el _ _ _ Ht H2) in *. auto.
Qed.
Lemma int_parse_exact b n : bytes_ok b -> (int_parse b = Ret n <-> b = bigint_content n /\ - 2 ^ 63 <= n < 2 ^ 63).
Proof.
  intros Ob. unfold int_parse. split.
  - destruct (checkASN1Integer b) eqn:C; cbn [negb]; [|discriminate]. destruct (Z.ltb_spec 8 (zlen b)) as [|Hz]; [discriminate|]. intros [= <-].
    split; [now apply bigint_content_canonical|]. exact (twos_int64 b Ob C Hz).
  - intros (-> & Hn). destruct (bigint_content_roundtrip n) as [C R]. rewrite C, R. cbn [negb].
    pose proof (bigint_content_zlen n 8 ltac:(lia) ltac:(lia)). replace (8 <? zlen (bigint_content n)) with false by lia. reflexivity.
Qed.
Lemma f_int s n r : bytes_ok s -> (parseField cInt noP s = Ret (n, r) <-> s = INTEGER n ++ r /\ - 2 ^ 63 <= n < 2 ^ 63).
Proof.
  intros Os. rewrite (field_exact cInt s n r eq_refl ltac:(cbn; unfold TagInteger; lia) Os). cbn [c_tag c_comp c_parse cInt]. change (0 + TagInteger) with 2. unfold INTEGER. split.
  - intros (body & -> & Hz & E). apply bytes_ok_app in Os as [Ot _]. apply tlv_ok_inv in Ot. apply int_parse_exact in E as [-> Hn]; [|exact Ot]. auto.
  - intros (-> & Hn). exists (bigint_content n). split; [reflexivity|]. pose proof (bigint_content_zlen n 8 ltac:(lia) ltac:(lia)). split; [lia|].
    apply int_parse_exact; [apply bigint_content_spec|]. auto.
Qed.
Lemma f_octets s v r : bytes_ok s -> (parseField cBytes noP s = Ret (v, r) <-> exists b, v = Some b /\ s = tlv 4 b ++ r /\ zlen b < 2 ^ 31).
Proof.
  intros Os. rewrite (field_exact cBytes s v r eq_refl ltac:(cbn; unfold TagOctetString; lia) Os). cbn [c_tag c_comp c_parse cBytes prim]. change (0 + TagOctetString) with 4. split.
  - intros (body & -> & Hz & [= <-]). eauto.
  - intros (b & -> & -> & Hz). eauto.
Qed.
Lemma oid_parse_exact b o : bytes_ok b -> (oid_parse b = Ret o <-> b = oid_bytes o /\ oid_ok o).
Proof.
  intros Ob. split; [intros E; now apply oid_parse_inv|]. intros (-> & H). apply (oid_rt o); [exact H|now apply oid_body_ok].
Qed.
(** the padding of a BIT STRING: at most 7 bits, all of them zero, none in an empty string *)
Definition padded (pad : Z) (bits : bytes) : Prop := 0 <= pad <= 7 /\ be_to_Z bits mod 2 ^ pad = 0 /\ (bits = [] -> pad = 0).
Lemma last_mod b d k : 0 <= k <= 7 -> b <> [] -> bytes_ok b -> be_to_Z b mod 2 ^ k = last b d mod 2 ^ k.
Proof.
  intros Hk Nb Ob. destruct (exists_last Nb) as (b' & x & ->). rewrite last_last, be_to_Z_app.
  assert (E : 256 ^ zlen [x] = 2 ^ (8 - k) * 2 ^ k) by (rewrite <- Z.pow_add_r by lia; replace (8 - k + k) with 8 by lia; reflexivity).
  assert (Ex : be_to_Z [x] = x) by (cbn; lia).
  rewrite Ex. rewrite E. rewrite Z.mul_assoc, Z.add_comm, Z_mod_plus_full. reflexivity.
Qed.
Lemma bits_parse_exact c : bytes_ok c -> ((exists v, bits_parse c = Ret v) <-> exists pad bits, c = pad :: bits /\ padded pad bits).
Proof.
  intros Oc. unfold bits_parse, padded. destruct c as [|pad bits].
  - split; [intros (v & E); discriminate E|intros (p & b & E & _); discriminate E].
  - apply bytes_ok_cons in Oc as [Op Ob]. unfold byte_ok in Op.
    assert (HL : forall k, 0 <= k <= 7 -> bits <> [] -> Z.land (last (pad :: bits) 0) (2 ^ k - 1) = be_to_Z bits mod 2 ^ k).
    { intros k Hk Nb. rewrite (last_mod bits 0 k Hk Nb Ob). destruct bits as [|x bits]; [congruence|].
      change (last (pad :: x :: bits) 0) with (last (x :: bits) 0). rewrite <- Z.land_ones by lia. rewrite Z.ones_equiv. rewrite <- Z.sub_1_r. reflexivity. }
    split.
    + intros (v & E). exists pad, bits. split; [reflexivity|]. destruct (Z.ltb_spec 7 pad) as [|H7]; [cbn in E; discriminate E|].
      destruct bits as [|x bits].
      * cbn in E. destruct (Z.ltb_spec 0 pad) as [|H0]; [cbn in E; discriminate E|]. assert (pad = 0) by lia. subst pad. split; [lia|]. split; [reflexivity|auto].
      * rewrite (HL pad) in E by (try lia; discriminate). split; [lia|]. split; [|discriminate].
        destruct (Z.eqb_spec (be_to_Z (x :: bits) mod 2 ^ pad) 0) as [H0|]; [exact H0|]. cbn [negb] in E. rewrite orb_true_r in E. discriminate E.
    + intros (p & b & [= <- <-] & (Hp & Hm & Hn)). destruct bits as [|x bits].
      * rewrite (Hn eq_refl). exists (mkBits (Some []) 0). reflexivity.
      * rewrite (HL pad) by (try lia; discriminate). rewrite Hm.
        replace (zlen (pad :: x :: bits) =? 1) with false by (rewrite !zlen_cons; pose proof (zlen_nonneg bits); lia).
        replace (7 <? pad) with false by lia. cbn [orb andb negb Z.eqb]. eexists. reflexivity.
Qed.

(** ** RFC 5915 structures as Go reads them *)
(** behind the curve: the optional public key.  Its content is not looked at, beyond being a BIT STRING. *)
Definition pub_tail (s : bytes) : Prop :=
  absent 1 3 s \/
  exists L pad bits rest, 0 < L < 2 ^ 31 /\ s = explicit 1 L ++ tlv 3 (pad :: bits) ++ rest /\ zlen (pad :: bits) < 2 ^ 31 /\ padded pad bits.
(** behind the key: the optional curve, then the above *)
Definition ec_tail (s : bytes) (o : option oid) : Prop :=
  match o with
  | None => absent 0 6 s /\ pub_tail s
  | Some o => exists L rest, 0 < L < 2 ^ 31 /\ s = explicit 0 L ++ oid_tlv o ++ rest /\ zlen (oid_bytes o) < 2 ^ 31 /\ oid_ok o /\ pub_tail rest
  end.
Definition sec1 (der d : bytes) (o : option oid) : Prop :=
  exists tail junk, der = tlv 48 ([2; 1; 1] ++ tlv 4 d ++ tail) ++ junk /\ zlen ([2; 1; 1] ++ tlv 4 d ++ tail) < 2 ^ 31 /\ ec_tail tail o.

Lemma f_pub s : bytes_ok s -> ((exists v r, parseField cBits (optExplicitP 1) s = Ret (v, r)) <-> pub_tail s).
Proof.
  intros Os. unfold pub_tail, cBits. split.
  - intros (v & r & E). apply opt_explicit in E; [|unfold TagBitString; lia|lia|exact Os]. destruct E as [(_ & _ & H)|(L & body & HL & -> & Hz & E)]; [left; exact H|right].
    apply bytes_ok_app in Os as [_ Os]. apply bytes_ok_app in Os as [Ot _]. apply tlv_ok_inv in Ot.
    destruct (proj1 (bits_parse_exact body Ot)) as (pad & bits & -> & P); [eauto|]. exists L, pad, bits, r. auto.
  - intros [H|(L & pad & bits & rest & HL & Es & Hz & P)].
    + exists (mkBits None 0), s. apply opt_explicit; [unfold TagBitString; lia|lia|exact Os|]. left. auto.
    + pose proof Os as Ot. rewrite Es in Ot. apply bytes_ok_app in Ot as [_ Ot]. apply bytes_ok_app in Ot as [Ot _]. apply tlv_ok_inv in Ot.
      destruct (proj2 (bits_parse_exact _ Ot)) as (v & E); [eauto|]. exists v, rest. apply opt_explicit; [unfold TagBitString; lia|lia|exact Os|].
      right. exists L, (pad :: bits). auto.
Qed.
Lemma f_tail s o : bytes_ok s ->
  ((exists r v r', parseField cOID (optExplicitP 0) s = Ret (o, r) /\ parseField cBits (optExplicitP 1) r = Ret (v, r')) <->
   exists oo, ec_tail s oo /\ o = match oo with Some x => x | None => [] end).
Proof.
  intros Os. split.
  - intros (r & v & r' & E & Ep). unfold cOID in E. apply opt_explicit in E; [|unfold TagOID; lia|lia|exact Os].
    destruct E as [(-> & -> & H)|(L & body & HL & Es & Hz & E)].
    + exists None. split; [|reflexivity]. split; [exact H|]. apply f_pub; eauto.
    + pose proof Os as Ot. rewrite Es in Ot. apply bytes_ok_app in Ot as [_ Ot]. apply bytes_ok_app in Ot as [Ot Or]. apply tlv_ok_inv in Ot.
      apply oid_parse_exact in E as [-> Hok]; [|exact Ot]. exists (Some o). split; [|reflexivity]. exists L, r. split; [exact HL|]. split; [exact Es|]. split; [exact Hz|]. split; [exact Hok|]. apply f_pub; eauto.
  - intros ([oo|] & H & ->).
    + destruct H as (L & rest & HL & Es & Hz & Hok & P).
      pose proof Os as Ot. rewrite Es in Ot. apply bytes_ok_app in Ot as [_ Ot]. apply bytes_ok_app in Ot as [Ot Or]. apply tlv_ok_inv in Ot.
      destruct (proj2 (f_pub rest Or) P) as (v & r' & E). exists rest, v, r'. split; [|exact E]. unfold cOID. apply opt_explicit; [unfold TagOID; lia|lia|exact Os|].
      right. exists L, (oid_bytes oo). split; [exact HL|]. split; [exact Es|]. split; [exact Hz|]. apply oid_parse_exact; auto.
    + destruct H as (H & P). destruct (proj2 (f_pub s Os) P) as (v & r' & E). exists s, v, r'. split; [|exact E]. unfold cOID. apply opt_explicit; [unfold TagOID; lia|lia|exact Os|].
      left. auto.
Qed.
Lemma sec1_fields der d o : bytes_ok der ->
  ((exists v r, Unmarshal cEC der = Ret (v, r) /\ ec_Version v = 1 /\ ec_PrivateKey v = Some d /\ ec_OID v = o) <->
   exists oo, sec1 der d oo /\ o = match oo with Some x => x | None => [] end).
Proof.
  intros Od. unfold Unmarshal. split.
  - intros (v & r & E & E1 & E2 & E3). apply field_exact in E; [|reflexivity|cbn; unfold TagSequence; lia|exact Od].
    destruct E as (body & Ed & Hz & E). cbn [c_tag c_comp cEC cStruct] in Ed. change (32 + TagSequence) with 48 in Ed.
    assert (Ob : bytes_ok body) by (rewrite Ed in Od; apply bytes_ok_app in Od as [Od _]; apply tlv_ok_inv in Od; exact Od).
    cbn [c_parse cEC cStruct f_dec fcons fnil] in E.
    destruct (parseField cInt noP body) as [[ver r1]| |] eqn:F1; cbn [bind] in E; try discriminate E.
    destruct (parseField cBytes noP r1) as [[kb r2]| |] eqn:F2; cbn [bind] in E; try discriminate E.
    destruct (parseField cOID (optExplicitP 0) r2) as [[oo r3]| |] eqn:F3; cbn [bind] in E; try discriminate E.
    destruct (parseField cBits (optExplicitP 1) r3) as [[pb r4]| |] eqn:F4; cbn [bind] in E; try discriminate E.
    injection E as <-. cbn [ec_Version ec_PrivateKey ec_OID] in E1, E2, E3. subst ver kb oo.
    apply f_int in F1 as [Eb _]; [|exact Ob]. pose proof Ob as Ob'. rewrite Eb in Ob'. apply bytes_ok_app in Ob' as [_ Or1].
    apply f_octets in F2 as (b & [= <-] & Er1 & Hb); [|exact Or1]. pose proof Or1 as Or2. rewrite Er1 in Or2. apply bytes_ok_app in Or2 as [_ Or2].
    destruct (proj1 (f_tail r2 o Or2)) as (oo & T & Eo); [eauto|]. exists oo. split; [|exact Eo]. exists r2, r.
    assert (EI : body = [2; 1; 1] ++ tlv 4 d ++ r2) by (rewrite Eb, Er1; reflexivity). rewrite <- EI. auto.
  - intros (oo & (tail & junk & Ed & Hz & T) & Eo).
    assert (Ob : bytes_ok ([2; 1; 1] ++ tlv 4 d ++ tail)) by (rewrite Ed in Od; apply bytes_ok_app in Od as [Od _]; apply tlv_ok_inv in Od; exact Od).
    pose proof Ob as Ob'. apply bytes_ok_app in Ob' as [_ Or1]. pose proof Or1 as Or2. apply bytes_ok_app in Or2 as [_ Or2].
    destruct (proj2 (f_tail tail o Or2)) as (r & pb & r' & F3 & F4); [eauto|].
    exists (mkEC 1 (Some d) o pb), junk. split; [|auto].
    apply field_exact; [reflexivity|cbn; unfold TagSequence; lia|exact Od|]. exists ([2; 1; 1] ++ tlv 4 d ++ tail).
    cbn [c_tag c_comp cEC cStruct]. change (32 + TagSequence) with 48. split; [exact Ed|]. split; [exact Hz|].
    cbn [c_parse cEC cStruct f_dec fcons fnil].
    assert (F1 : parseField cInt noP ([2; 1; 1] ++ tlv 4 d ++ tail) = Ret (1, tlv 4 d ++ tail)) by (apply f_int; [exact Ob|]; split; [reflexivity|lia]).
    rewrite F1. cbn [bind].
    assert (F2 : parseField cBytes noP (tlv 4 d ++ tail) = Ret (Some d, tail)).
    { apply f_octets; [exact Or1|]. exists d. split; [reflexivity|]. split; [reflexivity|]. rewrite !zlen_app in Hz. pose proof (tlv_len 4 d). pose proof (zlen_nonneg tail). change (zlen [2; 1; 1]) with 3 in Hz. lia. }
    rewrite F2. cbn [bind]. rewrite F3. cbn [bind]. rewrite F4. reflexivity.
Qed.

(** ** C131.  Which byte strings are private keys *)
(** the key with scalar d on a named curve: its point is computed, [d]G *)
Definition ec_priv (id : Z) (c : curve) (d : Z) : privKey :=
  let xy := enc (curve_mulG c d) in
  if id =? SM2P256V1_id then SKsm2 (mkPriv (mkPub id (fst xy) (snd xy)) d) else SKecdsa id (fst xy) (snd xy) d.
(** the octets [d] are a key on the curve that the identifier [o] names *)
Definition key_on (o : oid) (d : bytes) (k : privKey) : Prop :=
  exists id c, oidFromNamedCurve id = Some o /\ curve_of id = Some c /\ be_to_Z d < cv_N c /\ k = ec_priv id c (be_to_Z d).

Lemma oid_named o id : oidFromNamedCurve id = Some o -> namedCurveFromOID o = Some id.
Proof.
  unfold oidFromNamedCurve.
  repeat (match goal with |- (if ?b then _ else _) = _ -> _ => let B := fresh "B" in destruct b eqn:B; [apply Z.eqb_eq in B; subst id; intros [= <-]; reflexivity|] end).
  discriminate.
Qed.
Lemma strip_zeros_total n k : bytes_ok k -> be_to_Z k < 256 ^ Z.of_nat n -> exists pk, strip_zeros n k = Ret pk.
Proof.
  intros Ok Hb. destruct (Nat.le_gt_cases (List.length k) n) as [L|L]; [exists k; now apply strip_zeros_short|].
  revert Ok Hb L. induction k as [|b k IH]; intros Ok Hb L; [cbn in L; lia|]. cbn [strip_zeros]. rewrite (proj2 (Nat.leb_gt _ _)) by exact L.
  apply bytes_ok_cons in Ok as [Ob Ok]. unfold byte_ok in Ob. cbn [List.length] in L.
  change (b :: k) with ([b] ++ k) in Hb. rewrite be_to_Z_app in Hb. pose proof (be_to_Z_bound k Ok) as [B0 _].
  assert (Eb : be_to_Z [b] = b) by (cbn; lia). rewrite Eb in Hb.
  assert (Hp : 256 ^ Z.of_nat n <= 256 ^ zlen k) by (apply Z.pow_le_mono_r; unfold zlen; lia).
  assert (b = 0) by nia. subst b. cbn [negb Z.eqb].
  destruct (Nat.le_gt_cases (List.length k) n) as [L'|L']; [exists k; now apply strip_zeros_short|]. apply IH; auto.
Qed.
Lemma parse_ec_exact hint der k : bytes_ok der ->
  (parseECPrivateKey hint der = Ret k <->
   exists d oo o, sec1 der d oo /\ (match hint with Some h => Some h | None => oo end) = Some o /\ key_on o d k).
Proof.
  intros Od. unfold parseECPrivateKey. split.
  - destruct (Unmarshal cEC der) as [[v r]| |] eqn:U; [| |discriminate].
    2:{ destruct (ok _); [discriminate|]. destruct (ok _); discriminate. }
    destruct (Z.eqb_spec (ec_Version v) 1) as [Ev|]; [|discriminate]. cbn [negb].
    assert (EK : exists d, ec_PrivateKey v = Some d).
    { pose proof U as U'. unfold Unmarshal in U'. apply field_exact in U'; [|reflexivity|cbn; unfold TagSequence; lia|exact Od].
      destruct U' as (body & Ed & Hz & E). cbn [c_tag c_comp cEC cStruct] in Ed. change (32 + TagSequence) with 48 in Ed.
      assert (Ob : bytes_ok body) by (rewrite Ed in Od; apply bytes_ok_app in Od as [Od _]; apply tlv_ok_inv in Od; exact Od).
      cbn [c_parse cEC cStruct f_dec fcons fnil] in E.
      destruct (parseField cInt noP body) as [[ver r1]| |] eqn:F1; cbn [bind] in E; try discriminate E.
      destruct (parseField cBytes noP r1) as [[kb r2]| |] eqn:F2; cbn [bind] in E; try discriminate E.
      destruct (parseField cOID (optExplicitP 0) r2) as [[oo r3]| |] eqn:F3; cbn [bind] in E; try discriminate E.
      destruct (parseField cBits (optExplicitP 1) r3) as [[pb r4]| |] eqn:F4; cbn [bind] in E; try discriminate E.
      injection E as <-. cbn [ec_PrivateKey].
      apply f_int in F1 as [Eb _]; [|exact Ob]. rewrite Eb in Ob. apply bytes_ok_app in Ob as [_ Or1].
      apply f_octets in F2 as (b & -> & _); [|exact Or1]. eauto. }
    destruct EK as (d & EK). rewrite EK. cbn [sl].
    destruct (proj1 (sec1_fields der d (ec_OID v) Od)) as (oo & S1 & Eo); [eauto 8|].
    set (o := match hint with Some o => o | None => ec_OID v end).
    destruct (namedCurveFromOID o) as [id|] eqn:En; [|discriminate]. destruct (curve_of id) as [c|] eqn:Ec; [|discriminate]. cbv zeta.
    destruct (Z.leb_spec (cv_N c) (be_to_Z d)) as [|Hlt]; [discriminate|].
    destruct (strip_zeros (byteLen (BitLen (cv_N c))) d) as [pk| |] eqn:Es; cbn [bind]; try discriminate.
    destruct (strip_zeros_spec _ _ _ Es) as (Lp & Bp & Op).
    assert (Okd : bytes_ok d).
    { destruct S1 as (tail & junk & Ed & _). rewrite Ed in Od. apply bytes_ok_app in Od as [Od _]. apply tlv_ok_inv in Od. apply bytes_ok_app in Od as [_ Od]. apply bytes_ok_app in Od as [Od _]. apply tlv_ok_inv in Od. exact Od. }
    set (pre := repeat 0 (byteLen (BitLen (cv_N c)) - List.length pk) ++ pk).
    assert (Opre : bytes_ok pre) by (apply bytes_ok_app; split; [apply Forall_forall; intros x Hx; apply repeat_spec in Hx; subst x; unfold byte_ok; lia|auto]).
    destruct (C116_scalar_base_mult id c pre Ec Opre) as [M _]. rewrite M. cbn [bind].
    assert (Epre : be_to_Z pre = be_to_Z d) by (unfold pre; rewrite be_to_Z_zeros; exact Bp). rewrite Epre.
    intros H. exists d, oo, o. split; [exact S1|]. split.
    + unfold o in *. destruct hint as [h|]; [reflexivity|]. destruct oo as [x|]; [rewrite Eo; reflexivity|]. rewrite Eo in En. discriminate En.
    + exists id, c. split; [now apply named_oid|]. split; [exact Ec|]. split; [exact Hlt|]. unfold ec_priv. destruct (id =? SM2P256V1_id); injection H as <-; reflexivity.
  - intros (d & oo & o & S1 & Ho & id & c & Hi & Hc & Hd & ->).
    destruct (proj2 (sec1_fields der d (match oo with Some x => x | None => [] end) Od)) as (v & r & U & Ev & EK & Eo); [eauto|].
    rewrite U, Ev, EK, Eo. cbn [negb Z.eqb sl].
    assert (En : namedCurveFromOID (match hint with Some o => o | None => match oo with Some x => x | None => [] end end) = Some id).
    { destruct hint as [h|]; [injection Ho as ->; now apply oid_named|]. destruct oo as [x|]; [injection Ho as ->; now apply oid_named|discriminate Ho]. }
    rewrite En, Hc. cbv zeta. replace (cv_N c <=? be_to_Z d) with false by lia.
    assert (Okd : bytes_ok d).
    { destruct S1 as (tail & junk & Ed & _). rewrite Ed in Od. apply bytes_ok_app in Od as [Od _]. apply tlv_ok_inv in Od. apply bytes_ok_app in Od as [_ Od]. apply bytes_ok_app in Od as [Od _]. apply tlv_ok_inv in Od. exact Od. }
    destruct (curve_sizes id c Hc) as (_ & _ & BN & _).
    destruct (strip_zeros_total (byteLen (BitLen (cv_N c))) d Okd ltac:(lia)) as (pk & Es). rewrite Es. cbn [bind].
    destruct (strip_zeros_spec _ _ _ Es) as (Lp & Bp & Op).
    set (pre := repeat 0 (byteLen (BitLen (cv_N c)) - List.length pk) ++ pk).
    assert (Opre : bytes_ok pre) by (apply bytes_ok_app; split; [apply Forall_forall; intros x Hx; apply repeat_spec in Hx; subst x; unfold byte_ok; lia|auto]).
    destruct (C116_scalar_base_mult id c pre Hc Opre) as [M _]. rewrite M. cbn [bind].
    assert (Epre : be_to_Z pre = be_to_Z d) by (unfold pre; rewrite be_to_Z_zeros; exact Bp). rewrite Epre.
    unfold ec_priv. destruct (id =? SM2P256V1_id); reflexivity.
Qed.

(** ParseECPrivateKey: a SEQUENCE of the version 1, the key octets, the curve in [\[0\]] and what [pub_tail] allows; bytes behind
    the SEQUENCE are ignored.  The key is the number the octets hold, below the order of the curve; leading zero octets do
    not matter; the public key in the structure is not used. *)
Theorem C131_sec1 : forall der k, bytes_ok der ->
  (ParseECPrivateKey der = Ret k <->
   exists d o L rest junk,
     der = tlv 48 ([2; 1; 1] ++ tlv 4 d ++ explicit 0 L ++ oid_tlv o ++ rest) ++ junk /\
     zlen ([2; 1; 1] ++ tlv 4 d ++ explicit 0 L ++ oid_tlv o ++ rest) < 2 ^ 31 /\
     0 < L < 2 ^ 31 /\ pub_tail rest /\ key_on o d k).
Proof.
  intros der k Od. unfold ParseECPrivateKey. rewrite (parse_ec_exact None der k Od). split.
  - intros (d & oo & o & (tail & junk & Ed & Hz & T) & -> & K). destruct T as (L & rest & HL & -> & Ho & Hok & P).
    exists d, o, L, rest, junk. auto.
  - intros (d & o & L & rest & junk & Ed & Hz & HL & P & K). exists d, (Some o), o. split; [|auto].
    exists (explicit 0 L ++ oid_tlv o ++ rest), junk. split; [exact Ed|]. split; [exact Hz|]. exists L, rest.
    destruct K as (id & c & Ho & _). destruct (oid_short _ _ Ho) as [Hok Hl]. repeat split; auto; lia.
Qed.
Print Assumptions C131_sec1.

(** ** PKCS#8 *)
Lemma raw_exact s v r : bytes_ok s ->
  (parseField cRaw optP s = Ret (v, r) <->
   (s = [] /\ r = [] /\ v = rawZero) \/
   exists t body, header t /\ zlen body = t_len t /\ s = head_bytes t ++ body ++ r /\
     v = mkRaw (t_class t) (t_tag t) (t_comp t) (Some body) (Some (head_bytes t ++ body))).
Proof.
  intros Os. split.
  - intros E. destruct (bytes_eqb s []) eqn:Es0.
    { apply bytes_eqb_spec in Es0. subst s. cbn in E. injection E as <- <-. left. auto. }
    assert (Ns : s <> []) by (intros ->; discriminate Es0). right. rewrite parse_nonempty in E by exact Ns.
    destruct (parseTagAndLength s) as [[t s1]| |] eqn:ET; cbn [bind] in E; try discriminate E. cbn [p_exp optP] in E.
    destruct (header_inv _ _ _ Os ET) as (Eh & Hh).
    unfold parseFieldTail in E. cbn [p_set p_exp p_tag optP c_any cRaw negb andb orb] in E.
    destruct (Z.ltb_spec (zlen s1) (t_len t)) as [|Hz]; [discriminate E|]. cbn [c_parse cRaw bind] in E. injection E as <- <-.
    destruct Hh as (H1 & H2 & H3). set (body := firstn (Z.to_nat (t_len t)) s1).
    assert (Lb : zlen body = t_len t) by (unfold body, zlen in *; rewrite firstn_length; lia).
    assert (E1 : s = (head_bytes t ++ body) ++ skipn (Z.to_nat (t_len t)) s1) by (rewrite Eh, <- app_assoc; unfold body; rewrite firstn_skipn; reflexivity).
    exists t, body. split; [repeat split; lia|]. split; [exact Lb|]. split; [rewrite E1 at 1; rewrite <- app_assoc; reflexivity|].
    f_equal. f_equal. rewrite E1 at 2. rewrite E1 at 1. rewrite app_length, Nat.add_sub. apply firstn_app_exact. reflexivity.
  - intros [(-> & -> & ->)|(t & body & Hh & Hl & -> & ->)]; [reflexivity|]. rewrite app_assoc.
    apply (raw_parse optP (head_bytes t ++ body) t body r eq_refl eq_refl). split; [now apply header_parse|exact Hl].
Qed.
Lemma oid_head b : zlen b < 2 ^ 31 -> header (mkTL 0 6 (zlen b) false) /\ tlv 6 b = head_bytes (mkTL 0 6 (zlen b) false) ++ b.
Proof.
  intros Hz. pose proof (zlen_nonneg b). split; [repeat split; cbn; unfold maxInt32; lia|].
  change (tlv 6 b) with (tlv ((if false then 32 else 0) + 6) b). rewrite tlv_el by lia. reflexivity.
Qed.
(** an element is an OBJECT IDENTIFIER or it is not *)
Lemma unmarshal_oid t body o r : header t -> zlen body = t_len t -> bytes_ok (head_bytes t ++ body) -> zlen (head_bytes t ++ body) < 2 ^ 31 ->
  (Unmarshal cOID (head_bytes t ++ body) = Ret (o, r) <-> r = [] /\ head_bytes t ++ body = oid_tlv o /\ oid_ok o).
Proof.
  intros Hh Hl Of HF. unfold Unmarshal. rewrite (field_exact cOID _ o r eq_refl ltac:(cbn; unfold TagOID; lia) Of). cbn [c_tag c_comp c_parse cOID prim]. change (0 + TagOID) with 6. split.
  - intros (b & Ef & Hz & E). destruct (oid_head b Hz) as [Hb Eb]. rewrite Eb in Ef.
    pose proof (header_parse t body Hh) as P1. rewrite Ef in P1. rewrite <- app_assoc in P1. rewrite header_parse in P1 by exact Hb. injection P1 as Et Eb2.
    rewrite <- Eb2, <- Et, zlen_app in Hl. cbn [t_len] in Hl. assert (zlen r = 0) by lia. destruct r; [|rewrite zlen_cons in *; pose proof (zlen_nonneg r); lia].
    split; [reflexivity|]. rewrite app_nil_r in *. pose proof Of as Ob. rewrite Ef in Ob. apply bytes_ok_app in Ob as [_ Ob]. apply oid_parse_exact in E as [-> Hok]; [|exact Ob].
    split; [|exact Hok]. rewrite Ef, <- Eb. reflexivity.
  - intros (-> & Ef & Hok). exists (oid_bytes o). rewrite app_nil_r. split; [exact Ef|].
    assert (Hz : zlen (oid_bytes o) < 2 ^ 31) by (pose proof (tlv_len 6 (oid_bytes o)); unfold oid_tlv in Ef; change T_OID with 6 in Ef; rewrite Ef in HF; lia).
    split; [exact Hz|]. apply oid_parse_exact; [|auto].
    unfold oid_tlv in Ef. rewrite Ef in Of. apply tlv_ok_inv in Of. exact Of.
Qed.

(** the parameters of the algorithm name a curve, or are absent, or are something else *)
Definition names (params e : bytes) (hint : option oid) : Prop :=
  match hint with
  | Some o => params = oid_tlv o /\ oid_ok o
  | None => (params = [] /\ e = []) \/
      exists t body, header t /\ zlen body = t_len t /\ params = head_bytes t ++ body /\ ~ (exists o, oid_ok o /\ params = oid_tlv o)
  end.
Lemma f_ai s a r : bytes_ok s ->
  (parseField cAI noP s = Ret (a, r) <->
   exists raw r', s = tlv 48 (oid_tlv (ai_alg a) ++ raw) ++ r /\ zlen (oid_tlv (ai_alg a) ++ raw) < 2 ^ 31 /\ oid_ok (ai_alg a) /\ parseField cRaw optP raw = Ret (ai_params a, r')).
Proof.
  intros Os. rewrite (field_exact cAI s a r eq_refl ltac:(cbn; unfold TagSequence; lia) Os). cbn [c_tag c_comp c_parse cAI cStruct f_dec fcons fnil]. change (32 + TagSequence) with 48. split.
  - intros (body & Es & Hz & E). assert (Ob : bytes_ok body) by (rewrite Es in Os; apply bytes_ok_app in Os as [Os _]; apply tlv_ok_inv in Os; exact Os).
    destruct (parseField cOID noP body) as [[o r1]| |] eqn:F1; cbn [bind] in E; try discriminate E.
    destruct (parseField cRaw optP r1) as [[rv r2]| |] eqn:F2; cbn [bind] in E; try discriminate E. injection E as <-. cbn [ai_alg ai_params fst snd].
    apply field_exact in F1; [|reflexivity|cbn; unfold TagOID; lia|exact Ob]. cbn [c_tag c_comp c_parse cOID prim] in F1. change (0 + TagOID) with 6 in F1. destruct F1 as (ob & Eb & Hzo & E1).
    assert (Oo : bytes_ok ob) by (rewrite Eb in Ob; apply bytes_ok_app in Ob as [Ob _]; apply tlv_ok_inv in Ob; exact Ob).
    apply oid_parse_exact in E1 as [-> Hok]; [|exact Oo]. exists r1, r2. unfold oid_tlv. change T_OID with 6. rewrite <- Eb. auto.
  - intros (raw & r' & Es & Hz & Hok & F2). exists (oid_tlv (ai_alg a) ++ raw). split; [exact Es|]. split; [exact Hz|].
    assert (Ob : bytes_ok (oid_tlv (ai_alg a) ++ raw)) by (rewrite Es in Os; apply bytes_ok_app in Os as [Os _]; apply tlv_ok_inv in Os; exact Os).
    assert (Hzo : zlen (oid_bytes (ai_alg a)) < 2 ^ 31) by (rewrite zlen_app in Hz; unfold oid_tlv in Hz; pose proof (tlv_len T_OID (oid_bytes (ai_alg a))); pose proof (zlen_nonneg raw); lia).
    assert (F1 : parseField cOID noP (oid_tlv (ai_alg a) ++ raw) = Ret (ai_alg a, raw)).
    { apply field_exact; [reflexivity|cbn; unfold TagOID; lia|exact Ob|]. exists (oid_bytes (ai_alg a)). cbn [c_tag c_comp c_parse cOID prim]. change (0 + TagOID) with 6.
      split; [reflexivity|]. split; [exact Hzo|]. apply oid_parse_exact; [|auto]. apply bytes_ok_app in Ob as [Ob _]. unfold oid_tlv in Ob. apply tlv_ok_inv in Ob. exact Ob. }
    rewrite F1. cbn [bind]. rewrite F2. cbn [bind fst snd]. destruct a; reflexivity.
Qed.
Definition is_ec (k : privKey) : Prop := match k with SKsm2 _ | SKecdsa _ _ _ _ => True | _ => False end.
Lemma key_on_ec o d k : key_on o d k -> is_ec k.
Proof. intros (id & c & _ & _ & _ & ->). unfold ec_priv. destruct (id =? SM2P256V1_id); exact I. Qed.

(** ParsePKCS8PrivateKey: a SEQUENCE of any INTEGER of at most eight bytes (the version is not looked at), the algorithm and
    an OCTET STRING with the structure above.  A curve named by the algorithm's parameters is used instead of the one in
    the inner structure, whichever that is; bytes behind any of the SEQUENCEs are ignored. *)
Theorem C131_pkcs8 : forall edPub der k, bytes_ok der ->
  (ParsePKCS8PrivateKey edPub der = Ret k /\ is_ec k <->
   exists n params e inner extra junk hint d oo o,
     der = tlv 48 (INTEGER n ++ tlv 48 (oid_tlv oidPublicKeyECDSA ++ params ++ e) ++ tlv 4 inner ++ extra) ++ junk /\
     zlen (INTEGER n ++ tlv 48 (oid_tlv oidPublicKeyECDSA ++ params ++ e) ++ tlv 4 inner ++ extra) < 2 ^ 31 /\
     - 2 ^ 63 <= n < 2 ^ 63 /\ names params e hint /\ sec1 inner d oo /\
     (match hint with Some h => Some h | None => oo end) = Some o /\ key_on o d k).
Proof.
  intros edPub der k Od. unfold ParsePKCS8PrivateKey. split.
  - intros [H Hec]. destruct (Unmarshal cP8 der) as [[v r]| |] eqn:U; [| |discriminate H].
    2:{ destruct (ok _); [discriminate H|]. destruct (ok _); discriminate H. }
    unfold Unmarshal in U. apply field_exact in U; [|reflexivity|cbn; unfold TagSequence; lia|exact Od].
    destruct U as (body & Ed & Hz & E). cbn [c_tag c_comp cP8 cStruct] in Ed. change (32 + TagSequence) with 48 in Ed.
    assert (Ob : bytes_ok body) by (rewrite Ed in Od; apply bytes_ok_app in Od as [Od _]; apply tlv_ok_inv in Od; exact Od).
    cbn [c_parse cP8 cStruct f_dec fcons fnil] in E.
    destruct (parseField cInt noP body) as [[ver r1]| |] eqn:F1; cbn [bind] in E; try discriminate E.
    destruct (parseField cAI noP r1) as [[a r2]| |] eqn:F2; cbn [bind] in E; try discriminate E.
    destruct (parseField cBytes noP r2) as [[kb r3]| |] eqn:F3; cbn [bind] in E; try discriminate E. injection E as <-.
    apply f_int in F1 as [Eb Hn]; [|exact Ob]. pose proof Ob as Or1. rewrite Eb in Or1. apply bytes_ok_app in Or1 as [_ Or1].
    apply f_ai in F2 as (raw & r' & Er1 & Hza & Hok & F2); [|exact Or1]. pose proof Or1 as Or2. rewrite Er1 in Or2. apply bytes_ok_app in Or2 as [Oai Or2]. apply tlv_ok_inv in Oai. apply bytes_ok_app in Oai as [_ Oraw].
    apply f_octets in F3 as (inner & -> & Er2 & Hzi); [|exact Or2].
    assert (Oi : bytes_ok inner) by (rewrite Er2 in Or2; apply bytes_ok_app in Or2 as [Or2 _]; apply tlv_ok_inv in Or2; exact Or2).
    cbn [p8_Algo p8_PrivateKey sl] in H. cbv zeta in H.
    destruct (oid_eqb (ai_alg a) oidPublicKeyRSA). { destruct (ParsePKCS1PrivateKey inner); try discriminate H. injection H as <-. contradiction Hec. }
    destruct (oid_eqb (ai_alg a) oidPublicKeyECDSA) eqn:EA.
    2:{ exfalso. destruct (oid_eqb (ai_alg a) oidPublicKeyEd25519); [|discriminate H]. destruct (sl (rv_full (ai_params a))); [|discriminate H].
        destruct (Unmarshal cBytes inner) as [[seed r5]| |]; try discriminate H. destruct (negb _); [discriminate H|]. injection H as <-. contradiction Hec. }
    apply bytes_eqb_spec in EA. rewrite EA in *.
    set (hint := match Unmarshal cOID (sl (rv_full (ai_params a))) with Ret (o, _) => Some o | _ => None end) in *.
    assert (HN : exists params e, raw = params ++ e /\ names params e hint).
    { apply raw_exact in F2; [|exact Oraw]. destruct F2 as [(-> & -> & Ev)|(t & b & Hh & Hl & Eraw & Ev)].
      - exists [], []. split; [reflexivity|]. unfold hint. rewrite Ev. cbn. auto.
      - exists (head_bytes t ++ b), r'. split; [rewrite Eraw, app_assoc; reflexivity|]. unfold hint. rewrite Ev. cbn [rv_full sl].
        assert (Of : bytes_ok (head_bytes t ++ b)) by (rewrite Eraw, app_assoc in Oraw; apply bytes_ok_app in Oraw; tauto).
        assert (HF : zlen (head_bytes t ++ b) < 2 ^ 31) by (rewrite zlen_app, Eraw, app_assoc, zlen_app in Hza; pose proof (zlen_nonneg (oid_tlv oidPublicKeyECDSA)); pose proof (zlen_nonneg r'); lia).
        destruct (Unmarshal cOID (head_bytes t ++ b)) as [[o r5]| |] eqn:UO.
        + apply unmarshal_oid in UO as (_ & U1 & U2); auto. split; auto.
        + right. exists t, b. split; [exact Hh|]. split; [exact Hl|]. split; [reflexivity|]. intros (o & Ho & Eo).
          pose proof (proj2 (unmarshal_oid t b o [] Hh Hl Of HF) (conj eq_refl (conj Eo Ho))) as U2. rewrite UO in U2. discriminate U2.
        + right. exists t, b. split; [exact Hh|]. split; [exact Hl|]. split; [reflexivity|]. intros (o & Ho & Eo).
          pose proof (proj2 (unmarshal_oid t b o [] Hh Hl Of HF) (conj eq_refl (conj Eo Ho))) as U2. rewrite UO in U2. discriminate U2. }
    destruct HN as (params & e & -> & HN).
    destruct (parseECPrivateKey hint inner) as [k'| |] eqn:PE; try discriminate H. injection H as ->.
    apply parse_ec_exact in PE; [|exact Oi]. destruct PE as (d & oo & o & S1 & Ho & K).
    exists ver, params, e, inner, r3, r, hint, d, oo, o. rewrite <- Er2, <- Er1, <- Eb. auto 10.
  - intros (n & params & e & inner & extra & junk & hint & d & oo & o & Ed & Hz & Hn & HN & S1 & Ho & K).
    split; [|eapply key_on_ec; exact K].
    assert (Ob : bytes_ok (INTEGER n ++ tlv 48 (oid_tlv oidPublicKeyECDSA ++ params ++ e) ++ tlv 4 inner ++ extra)) by (rewrite Ed in Od; apply bytes_ok_app in Od as [Od _]; apply tlv_ok_inv in Od; exact Od).
    pose proof Ob as Or1. apply bytes_ok_app in Or1 as [_ Or1]. pose proof Or1 as Or2. apply bytes_ok_app in Or2 as [Oai Or2]. apply tlv_ok_inv in Oai. apply bytes_ok_app in Oai as [_ Oraw].
    assert (Oi : bytes_ok inner) by (pose proof Or2 as X; apply bytes_ok_app in X as [X _]; apply tlv_ok_inv in X; exact X).
    pose proof Hz as Hz0. rewrite !zlen_app in Hz0.
    pose proof (tlv_len 48 (oid_tlv oidPublicKeyECDSA ++ params ++ e)) as L1. rewrite !zlen_app in L1. pose proof (tlv_len 4 inner) as L2.
    pose proof (zlen_nonneg (INTEGER n)). pose proof (zlen_nonneg extra). pose proof (zlen_nonneg inner). pose proof (zlen_nonneg params). pose proof (zlen_nonneg e). pose proof (zlen_nonneg (oid_tlv oidPublicKeyECDSA)).
    assert (RV : exists rv r', parseField cRaw optP (params ++ e) = Ret (rv, r') /\ (match Unmarshal cOID (sl (rv_full rv)) with Ret (o, _) => Some o | _ => None end) = hint).
    { assert (EL : forall t b, header t -> zlen b = t_len t -> params = head_bytes t ++ b -> exists rv, parseField cRaw optP (params ++ e) = Ret (rv, e) /\ sl (rv_full rv) = params).
      { intros t b Hh Hl ->. eexists. split; [apply raw_exact; [exact Oraw|]; right; exists t, b; split; [exact Hh|]; split; [exact Hl|]; split; [rewrite <- app_assoc; reflexivity|reflexivity]|reflexivity]. }
      assert (Op : bytes_ok params) by (apply bytes_ok_app in Oraw; tauto).
      destruct hint as [h|].
      - destruct HN as [Ep Hok].
        assert (Hzo : zlen (oid_bytes h) < 2 ^ 31) by (rewrite Ep in *; unfold oid_tlv in *; pose proof (tlv_len T_OID (oid_bytes h)); lia).
        destruct (oid_head (oid_bytes h) Hzo) as [Hh Eh]. unfold oid_tlv in Ep. change T_OID with 6 in Ep. rewrite Eh in Ep.
        destruct (EL _ _ Hh eq_refl Ep) as (rv & R1 & R2). exists rv, e. split; [exact R1|]. rewrite R2. rewrite Ep in Op |- *.
        assert (U : Unmarshal cOID (head_bytes (mkTL 0 6 (zlen (oid_bytes h)) false) ++ oid_bytes h) = Ret (h, [])).
        { apply unmarshal_oid; [exact Hh|reflexivity|exact Op|rewrite <- Ep; lia|]. split; [reflexivity|]. split; [rewrite <- Eh; reflexivity|exact Hok]. }
        rewrite U. reflexivity.
      - destruct HN as [(-> & ->)|(t & b & Hh & Hl & Ep & NO)].
        + exists rawZero, []. split; reflexivity.
        + destruct (EL _ _ Hh Hl Ep) as (rv & R1 & R2). exists rv, e. split; [exact R1|]. rewrite R2.
          destruct (Unmarshal cOID params) as [[o' r5]| |] eqn:UO; [exfalso|reflexivity|reflexivity]. rewrite Ep in UO, Op.
          apply unmarshal_oid in UO as (_ & U1 & U2); [|exact Hh|exact Hl|exact Op|rewrite <- Ep; lia]. apply NO. exists o'. split; [exact U2|]. rewrite Ep. exact U1. }
    destruct RV as (rv & r' & R1 & R2).
    assert (U : Unmarshal cP8 der = Ret (mkP8 n (mkAI oidPublicKeyECDSA rv) (Some inner), junk)).
    { unfold Unmarshal. apply field_exact; [reflexivity|cbn; unfold TagSequence; lia|exact Od|].
      exists (INTEGER n ++ tlv 48 (oid_tlv oidPublicKeyECDSA ++ params ++ e) ++ tlv 4 inner ++ extra). cbn [c_tag c_comp cP8 cStruct]. change (32 + TagSequence) with 48.
      split; [exact Ed|]. split; [exact Hz|]. cbn [c_parse cP8 cStruct f_dec fcons fnil].
      match goal with |- context [parseField cInt noP ?s] => assert (F1 : parseField cInt noP s = Ret (n, tlv 48 (oid_tlv oidPublicKeyECDSA ++ params ++ e) ++ tlv 4 inner ++ extra)) by (apply f_int; [exact Ob|]; auto) end.
      rewrite F1. cbn [bind].
      match goal with |- context [parseField cAI noP ?s] => assert (F2 : parseField cAI noP s = Ret (mkAI oidPublicKeyECDSA rv, tlv 4 inner ++ extra)) end.
      { apply f_ai; [exact Or1|]. exists (params ++ e), r'. cbn [ai_alg ai_params]. split; [reflexivity|]. split; [rewrite !zlen_app; lia|]. split; [exact ecdsa_ok|exact R1]. }
      rewrite F2. cbn [bind].
      assert (F3 : parseField cBytes noP (tlv 4 inner ++ extra) = Ret (Some inner, extra)) by (apply f_octets; [exact Or2|]; exists inner; split; [reflexivity|]; split; [reflexivity|lia]).
      rewrite F3. reflexivity. }
    rewrite U. cbn [p8_Algo p8_PrivateKey ai_alg ai_params sl]. cbv zeta. rewrite R2.
    change (oid_eqb oidPublicKeyECDSA oidPublicKeyRSA) with false. change (oid_eqb oidPublicKeyECDSA oidPublicKeyECDSA) with true. cbv iota.
    assert (PE : parseECPrivateKey hint inner = Ret k) by (apply parse_ec_exact; [exact Oi|]; exists d, oo, o; auto).
    rewrite PE. reflexivity.
Qed.
Print Assumptions C131_pkcs8.

(** ** What follows *)
(** Bytes behind the outer SEQUENCE never matter. *)
Theorem C131_trailing : forall der junk k, bytes_ok der -> bytes_ok junk ->
  ParseECPrivateKey der = Ret k -> ParseECPrivateKey (der ++ junk) = Ret k.
Proof.
  intros der junk k Od Oj H. apply C131_sec1 in H as (d & o & L & rest & j & -> & R); [|exact Od].
  apply C131_sec1; [apply bytes_ok_app; auto|]. exists d, o, L, rest, (j ++ junk). split; [symmetry; apply app_assoc|exact R].
Qed.
Print Assumptions C131_trailing.

(** A structure determines its octets and its curve. *)
Lemma sec1_unique der d o d' o' : bytes_ok der -> sec1 der d (Some o) -> sec1 der d' (Some o') -> d = d' /\ o = o'.
Proof.
  intros Od A B.
  assert (A' : exists oo, sec1 der d oo /\ o = match oo with Some x => x | None => [] end) by (exists (Some o); auto).
  assert (B' : exists oo, sec1 der d' oo /\ o' = match oo with Some x => x | None => [] end) by (exists (Some o'); auto).
  apply (sec1_fields der d o Od) in A' as (v & r & U & _ & D & O). apply (sec1_fields der d' o' Od) in B' as (v' & r' & U' & _ & D' & O').
  rewrite U in U'. injection U' as <- <-. split; congruence.
Qed.

(** The scalar alone decides: two structures that name the same curve and whose octets are the same number, however many
    zeros lead them, whatever public key they carry and whatever follows them, are the same key, or neither is one. *)
Theorem C131_scalar_decides : forall d d' o L L' rest rest' junk junk' k,
  let inside := [2; 1; 1] ++ tlv 4 d ++ explicit 0 L ++ oid_tlv o ++ rest in
  let inside' := [2; 1; 1] ++ tlv 4 d' ++ explicit 0 L' ++ oid_tlv o ++ rest' in
  bytes_ok (tlv 48 inside ++ junk) -> bytes_ok (tlv 48 inside' ++ junk') ->
  zlen inside < 2 ^ 31 -> zlen inside' < 2 ^ 31 -> oid_ok o ->
  0 < L < 2 ^ 31 -> 0 < L' < 2 ^ 31 -> pub_tail rest -> pub_tail rest' ->
  be_to_Z d = be_to_Z d' ->
  (ParseECPrivateKey (tlv 48 inside ++ junk) = Ret k <-> ParseECPrivateKey (tlv 48 inside' ++ junk') = Ret k).
Proof.
  assert (X : forall d d' o L L' rest rest' junk junk' k,
    let inside := [2; 1; 1] ++ tlv 4 d ++ explicit 0 L ++ oid_tlv o ++ rest in
    let inside' := [2; 1; 1] ++ tlv 4 d' ++ explicit 0 L' ++ oid_tlv o ++ rest' in
    bytes_ok (tlv 48 inside ++ junk) -> bytes_ok (tlv 48 inside' ++ junk') ->
    zlen inside < 2 ^ 31 -> zlen inside' < 2 ^ 31 -> oid_ok o ->
    0 < L < 2 ^ 31 -> 0 < L' < 2 ^ 31 -> pub_tail rest -> pub_tail rest' ->
    be_to_Z d = be_to_Z d' ->
    ParseECPrivateKey (tlv 48 inside ++ junk) = Ret k -> ParseECPrivateKey (tlv 48 inside' ++ junk') = Ret k).
  2:{ intros. split; apply X; auto. }
  intros d d' o L L' rest rest' junk junk' k inside inside' Oa Ob Z1 Z2 Ho HL HL' P P' E H.
  apply C131_sec1 in H as (d1 & o1 & L1 & r1 & j1 & Ea & Zz & HL1 & P1 & K); [|exact Oa].
  assert (SA : sec1 (tlv 48 inside ++ junk) d (Some o)).
  { exists (explicit 0 L ++ oid_tlv o ++ rest), junk. split; [reflexivity|]. split; [exact Z1|]. exists L, rest.
    split; [exact HL|]. split; [reflexivity|]. split; [|auto].
    pose proof (tlv_len T_OID (oid_bytes o)). unfold inside, oid_tlv in Z1. rewrite !zlen_app in Z1.
    pose proof (zlen_nonneg (tlv 4 d)). pose proof (zlen_nonneg (explicit 0 L)). pose proof (zlen_nonneg rest). pose proof (zlen_nonneg [2;1;1]). lia. }
  assert (SB : sec1 (tlv 48 inside ++ junk) d1 (Some o1)).
  { rewrite Ea. exists (explicit 0 L1 ++ oid_tlv o1 ++ r1), j1. split; [reflexivity|]. split; [exact Zz|]. exists L1, r1.
    destruct K as (id & c & Hoo & _). destruct (oid_short _ _ Hoo) as [Hok Hl]. repeat split; auto; lia. }
  destruct (sec1_unique _ _ _ _ _ Oa SA SB) as [<- <-].
  apply C131_sec1; [exact Ob|]. exists d', o, L', rest', junk'. split; [reflexivity|]. split; [exact Z2|]. split; [exact HL'|]. split; [exact P'|].
  unfold key_on in *. rewrite <- E. exact K.
Qed.
Print Assumptions C131_scalar_decides.

(** The curve named by the PKCS#8 parameters is the one used, whatever the inner structure names. *)
Theorem C131_outer_curve : forall edPub n o extra junk inner d oo k,
  let der := tlv 48 (INTEGER n ++ tlv 48 (oid_tlv oidPublicKeyECDSA ++ oid_tlv o) ++ tlv 4 inner ++ extra) ++ junk in
  bytes_ok der -> zlen (INTEGER n ++ tlv 48 (oid_tlv oidPublicKeyECDSA ++ oid_tlv o) ++ tlv 4 inner ++ extra) < 2 ^ 31 ->
  - 2 ^ 63 <= n < 2 ^ 63 -> sec1 inner d oo -> key_on o d k -> ParsePKCS8PrivateKey edPub der = Ret k.
Proof.
  intros edPub n o extra junk inner d oo k der Od Hz Hn Hs K.
  pose proof K as (id & c & Ho & _). destruct (oid_short _ _ Ho) as [Hok _].
  apply (fun x => proj1 (proj2 (C131_pkcs8 edPub der k Od) x)).
  exists n, (oid_tlv o), [], inner, extra, junk, (Some o), d, oo, o. rewrite app_nil_r.
  split; [reflexivity|]. split; [exact Hz|]. split; [exact Hn|]. split; [split; auto|]. split; [exact Hs|]. split; [reflexivity|exact K].
Qed.
Print Assumptions C131_outer_curve.

(** A concrete case: the SM2 key 1 with a leading zero octet, a wrong inner length, and trailing bytes. *)
Definition sm2_oid : oid := match oidFromNamedCurve SM2P256V1_id with Some o => o | None => [] end.
Definition odd_der : bytes := tlv 48 ([2; 1; 1] ++ tlv 4 [0; 1] ++ explicit 0 99 ++ oid_tlv sm2_oid) ++ [7; 7].
Example C131_case : exists k, ParseECPrivateKey odd_der = Ret k /\ key_on sm2_oid [0; 1] k.
Proof.
  assert (Od : bytes_ok odd_der) by (apply bytes_okb_spec; vm_compute; reflexivity).
  assert (C : exists c, curve_of SM2P256V1_id = Some c /\ 1 < cv_N c) by (eexists; split; [reflexivity|vm_compute; reflexivity]).
  destruct C as (c & C & HN).
  assert (K : key_on sm2_oid [0; 1] (ec_priv SM2P256V1_id c 1)).
  { exists SM2P256V1_id, c. split; [reflexivity|]. split; [exact C|]. split; [exact HN|reflexivity]. }
  exists (ec_priv SM2P256V1_id c 1). split; [|exact K]. apply C131_sec1; [exact Od|].
  exists [0; 1], sm2_oid, 99, [], [7; 7]. rewrite app_nil_r. split; [reflexivity|]. split; [vm_compute; reflexivity|]. split; [lia|].
  split; [left; left; reflexivity|exact K].
Qed.
