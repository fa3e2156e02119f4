(** * C137: the PKCS#12 file, byte for byte *)
From Coq Require Import String.
From Verif Require Import Base Words ECModel SM2Model CryptoByte Asn1 Asn1Proofs Asn1Safe KeysModel KeysProofs BMPModel RC2Spec PbkdfSpec PbkdfModel P12Spec P12Model P12Proofs P12Enc P12Round P12Cipher P12Open PropertiesP12.
Open Scope Z_scope.

(** ** The specification *)
(** a DER element: identifier octet, definite length in the shortest form, contents *)
Definition DER (t : Z) (c : bytes) : bytes :=
  t :: (if zlen c <? 128 then [zlen c] else (128 + Z.of_nat (nbytes (zlen c))) :: Z_to_be (nbytes (zlen c)) (zlen c)) ++ c.
Definition SEQ (c : bytes) : bytes := DER 48 c.          (* 30: SEQUENCE *)
Definition SETOF (c : bytes) : bytes := DER 49 c.        (* 31: SET *)
Definition OCTETS (c : bytes) : bytes := DER 4 c.        (* 04: OCTET STRING *)
Definition INTEGER (c : bytes) : bytes := DER 2 c.       (* 02: INTEGER, contents given *)
Definition OID (c : bytes) : bytes := DER 6 c.           (* 06: OBJECT IDENTIFIER, contents given *)
Definition CTX0 (c : bytes) : bytes := DER 160 c.        (* a0: [0], constructed *)
Definition CTX0P (c : bytes) : bytes := DER 128 c.       (* 80: [0], primitive *)

(** RFC 7292 and its references.  2a 86 48 86 f7 0d 01 = 1.2.840.113549.1 (rsadsi pkcs) *)
Definition rsadsi : bytes := [0x2a; 0x86; 0x48; 0x86; 0xf7; 0x0d; 0x01].
Definition id_data : bytes := rsadsi ++ [7; 1].                    (* 1.2.840.113549.1.7.1 *)
Definition id_encryptedData : bytes := rsadsi ++ [7; 6].           (* 1.2.840.113549.1.7.6 *)
Definition id_localKeyId : bytes := rsadsi ++ [9; 21].             (* 1.2.840.113549.1.9.21 *)
Definition id_x509Certificate : bytes := rsadsi ++ [9; 22; 1].     (* 1.2.840.113549.1.9.22.1 *)
Definition id_pbe_3des : bytes := rsadsi ++ [12; 1; 3].            (* 1.2.840.113549.1.12.1.3 pbeWithSHAAnd3-KeyTripleDES-CBC *)
Definition id_pbe_rc2_40 : bytes := rsadsi ++ [12; 1; 6].          (* 1.2.840.113549.1.12.1.6 pbeWithSHAAnd40BitRC2-CBC *)
Definition id_shroudedKeyBag : bytes := rsadsi ++ [12; 10; 1; 2].  (* 1.2.840.113549.1.12.10.1.2 *)
Definition id_certBag : bytes := rsadsi ++ [12; 10; 1; 3].         (* 1.2.840.113549.1.12.10.1.3 *)
Definition id_sha1 : bytes := [0x2b; 0x0e; 0x03; 0x02; 0x1a].      (* 1.3.14.3.2.26 *)

(** AlgorithmIdentifier with pkcs-12PbeParams { salt, iterations 2048 = 08 00 } *)
Definition pbe_algorithm (o salt : bytes) : bytes := SEQ (OID o ++ SEQ (OCTETS salt ++ INTEGER [8; 0])).
(** the attributes of a bag: nothing, or localKeyId = { OCTET STRING } *)
Definition local_key_id (fp : bytes) : bytes := SEQ (OID id_localKeyId ++ SETOF (OCTETS fp)).
Definition cert_bag (cert attrs : bytes) : bytes :=
  SEQ (OID id_certBag ++ CTX0 (SEQ (OID id_x509Certificate ++ CTX0 (OCTETS cert))) ++ SETOF attrs).
Definition key_bag (salt enc attrs : bytes) : bytes :=
  SEQ (OID id_shroudedKeyBag ++ CTX0 (SEQ (pbe_algorithm id_pbe_3des salt ++ OCTETS enc)) ++ SETOF attrs).
Definition encrypted_content (salt enc : bytes) : bytes :=
  SEQ (OID id_encryptedData ++ CTX0 (SEQ (INTEGER [0] ++ SEQ (OID id_data ++ pbe_algorithm id_pbe_rc2_40 salt ++ CTX0P enc)))).
Definition plain_content (content : bytes) : bytes := SEQ (OID id_data ++ CTX0 (OCTETS content)).
(** PFX { version 3, authSafe, macData { { sha1, digest }, salt } } (the iteration count 1 is the default, left out) *)
Definition pfx_file (authSafe digest salt : bytes) : bytes :=
  SEQ (INTEGER [3] ++ plain_content authSafe ++ SEQ (SEQ (SEQ (OID id_sha1) ++ OCTETS digest) ++ OCTETS salt)).
(** PKCS padding to 8 bytes *)
Definition padded (m : bytes) : bytes := m ++ repeat (8 - zlen m mod 8) (Z.to_nat (8 - zlen m mod 8)).
(** what the file must be, given the two ciphertexts *)
Definition p12_safe (sha1 : bytes -> bytes) (s1 s2 : bytes) (certRaw : bytes) (enck encc : bytes) : bytes :=
  SEQ (encrypted_content s2 encc ++ plain_content (SEQ (key_bag s1 enck (local_key_id (sha1 certRaw))))).
Definition p12_certs (sha1 : bytes -> bytes) (certRaw : bytes) (caRaws : list bytes) : bytes :=
  SEQ (cert_bag certRaw (local_key_id (sha1 certRaw)) ++ List.concat (map (fun ca => cert_bag ca []) caRaws)).

(** ** The model's encodings are these *)
Lemma el_der cls tag comp b : tag < 31 -> el cls tag comp b = DER (cls * 64 + (if comp then 32 else 0) + tag) b.
Proof.
  intros Ht. unfold el, hdr, appendTagAndLength, DER. cbn [t_class t_comp t_tag t_len]. replace (31 <=? tag) with false by lia.
  destruct (Z.ltb_spec (zlen b) 128) as [H|H]; [replace (128 <=? zlen b) with false by lia|replace (128 <=? zlen b) with true by lia]; reflexivity.
Qed.
Lemma el_seq b : el 0 16 true b = SEQ b. Proof. now rewrite el_der by lia. Qed.
Lemma el_set b : el 0 17 true b = SETOF b. Proof. now rewrite el_der by lia. Qed.
Lemma el_oct b : el 0 4 false b = OCTETS b. Proof. now rewrite el_der by lia. Qed.
Lemma el_int b : el 0 2 false b = INTEGER b. Proof. now rewrite el_der by lia. Qed.
Lemma el_oid b : el 0 6 false b = OID b. Proof. now rewrite el_der by lia. Qed.
Lemma el_c0 b : el 2 0 true b = CTX0 b. Proof. now rewrite el_der by lia. Qed.
Lemma el_c0p b : el 2 0 false b = CTX0P b. Proof. now rewrite el_der by lia. Qed.
Ltac els := rewrite ?el_seq, ?el_set, ?el_oct, ?el_int, ?el_oid, ?el_c0, ?el_c0p.

Lemma pbe_alg_eq ob salt : ai_bytes ob salt = pbe_algorithm ob salt.
Proof. unfold ai_bytes, pbe_bytes, pbe_algorithm. now els. Qed.
Lemma attr_lit P raw : attr_bytes (fp_of P raw) = local_key_id (sha1 P raw).
Proof. unfold attr_bytes, fp_of, local_key_id. els. reflexivity. Qed.
Lemma cert_lit raw attrs fps : List.concat (map attr_bytes fps) = attrs -> bs_bytes (cert_spec raw fps) = cert_bag raw attrs.
Proof. intros E. unfold cert_spec, bs_bytes, bag_bytes, certBag_bytes, cert_bag. rewrite E. els. reflexivity. Qed.
Lemma key_lit salt enc attrs fps : List.concat (map attr_bytes fps) = attrs -> bs_bytes (key_spec (epki_bytes salt enc) fps) = key_bag salt enc attrs.
Proof. intros E. unfold key_spec, bs_bytes, bag_bytes, epki_bytes, key_bag. rewrite E, pbe_alg_eq. els. reflexivity. Qed.
Lemma certs_lit P certRaw caRaws : bags_bytes (certs_spec P certRaw caRaws) = p12_certs (sha1 P) certRaw caRaws.
Proof.
  unfold bags_bytes, certs_spec, p12_certs. cbn [map List.concat].
  rewrite (cert_lit certRaw (local_key_id (sha1 P certRaw))) by (cbn [map List.concat]; rewrite app_nil_r; apply attr_lit).
  rewrite el_seq. do 2 f_equal. f_equal. rewrite map_map. apply map_ext. intros ca. now apply cert_lit.
Qed.
Lemma safe_lit P s1 s2 certRaw enck encc :
  safe_bytes (ed_bytes s2 encc) (el 0 4 false (bags_bytes [key_spec (epki_bytes s1 enck) [fp_of P certRaw]])) = p12_safe (sha1 P) s1 s2 certRaw enck encc.
Proof.
  unfold safe_bytes, p12_safe, bags_bytes. cbn [map List.concat]. rewrite app_nil_r.
  rewrite (key_lit s1 enck (local_key_id (sha1 P certRaw))) by (cbn [map List.concat]; rewrite app_nil_r; apply attr_lit).
  unfold ci_bytes, ed_bytes, encrypted_content, plain_content. rewrite pbe_alg_eq. els. reflexivity.
Qed.
Lemma pfx_lit safe digest salt : pfx_bytes (el 0 4 false safe) digest salt = pfx_file safe digest salt.
Proof. unfold pfx_bytes, ci_bytes, mac_bytes, pfx_file, plain_content. els. reflexivity. Qed.

(** the ciphertexts *)
Lemma enc_lit P o s salt m pwd c : prims_ok P -> (o = oidPBEWithSHAAnd3KeyTripleDESCBC /\ s = TripleDES3 \/ o = oidPBEWithSHAAnd40BitRC2CBC /\ s = RC2_40) ->
  zlen salt = 8 -> bytes_ok salt -> bytes_ok pwd -> bytes_ok m -> pbEncrypt P (pbe_ai o salt) m pwd = Ret c ->
  exists E, pbe_block (sha1 P) (tdes_enc P) s salt 2048 pwd E /\ cbc E (pbe_iv (sha1 P) salt 2048 pwd) (padded m) c.
Proof.
  intros HP Ho Ls Os Op Om E. apply C38_encrypt_spec in E; auto; [|exact (pbe_ok salt Ls Os)].
  destruct E as (s' & salt' & it & B & Hs & Hu & Hb & Hc). pose proof (pbe_unm salt Ls) as Hu'.
  change (unmarshal cPbe (pbe_bytes salt) = Ret (mkPbe salt' it)) in Hu. rewrite Hu' in Hu. injection Hu as <- <-. cbn [sl] in *.
  cbn [pbe_ai ai_alg] in Hs. assert (s' = s); [|subst s'; eauto].
  destruct Ho as [[-> ->]|[-> ->]]; destruct Hs as [[Q ->]|[Q ->]]; try reflexivity; discriminate Q.
Qed.

(** ** C137 *)
(** Encode writes exactly the file of RFC 7292: the certificates (the first tied to the key by the SHA-1 of the
    certificate) encrypted with 40-bit RC2 under salt bytes 8..15, the PKCS#8 key encrypted with three-key triple DES
    under salt bytes 0..7, 2048 iterations each, and the HMAC-SHA1 of the authenticated safe under salt bytes 16..23
    and one iteration. *)
Theorem C137_p12_file : forall P rnd key der certRaw caRaws password pwd,
  prims_ok P -> bmpString password = Ret pwd -> bytes_ok rnd -> 24 <= zlen rnd ->
  MarshalPKCS8PrivateKey key = Ret der -> bytes_ok der -> zlen der < 2 ^ 28 ->
  bytes_ok certRaw -> Forall bytes_ok caRaws -> total_size (certRaw :: caRaws) < 2 ^ 29 ->
  let s1 := firstn 8 rnd in let s2 := firstn 8 (skipn 8 rnd) in let s3 := firstn 8 (skipn 16 rnd) in
  exists enck encc Ek Ec,
    pbe_block (sha1 P) (tdes_enc P) TripleDES3 s1 2048 pwd Ek /\ cbc Ek (pbe_iv (sha1 P) s1 2048 pwd) (padded der) enck /\
    pbe_block (sha1 P) (tdes_enc P) RC2_40 s2 2048 pwd Ec /\ cbc Ec (pbe_iv (sha1 P) s2 2048 pwd) (padded (p12_certs (sha1 P) certRaw caRaws)) encc /\
    let safe := p12_safe (sha1 P) s1 s2 certRaw enck encc in
    Encode P rnd key certRaw caRaws password = Ret (pfx_file safe (hmac_sha1 P (p12_kdf (sha1 P) s3 pwd 1 3 20) safe) s3).
Proof.
  intros P rnd key der certRaw caRaws password pwd HP Epw Or Lr Ek Od Ld Oc Oca Hz s1 s2 s3. pose proof (bmpString_ok _ _ Epw) as Opw.
  destruct (read8_ok rnd ltac:(lia)) as (R1 & L1 & K1). destruct (read8_ok (skipn 8 rnd) ltac:(lia)) as (R2 & L2 & K2). destruct (read8_ok (skipn 8 (skipn 8 rnd)) ltac:(lia)) as (R3 & L3 & K3).
  assert (Q3 : s3 = salt3 rnd) by (unfold s3, salt3; rewrite skipn_skipn; reflexivity).
  assert (O1 : bytes_ok (salt1 rnd)) by (unfold salt1; auto). assert (O2 : bytes_ok (salt2 rnd)) by (unfold salt2; auto). assert (O3 : bytes_ok (salt3 rnd)) by (unfold salt3; auto).
  fold (salt1 rnd) in R1, L1. fold (salt2 rnd) in R2, L2. fold (salt3 rnd) in R3, L3.
  change s1 with (salt1 rnd). change s2 with (salt2 rnd). rewrite Q3. clear s1 s2 s3 Q3.
  destruct (pb_written P _ (salt1 rnd) der pwd HP (or_introl eq_refl) L1 O1 Opw Od) as (enck & Ee & Oe & Le & De).
  destruct (certs_spec_ok P certRaw caRaws HP Oc Oca Hz) as [HC SC]. pose proof (fp_ok P certRaw HP) as HF.
  destruct (bags_bytes_bound (certs_spec P certRaw caRaws) HC ltac:(lia)) as [LD0 OD0].
  destruct (pb_written P _ (salt2 rnd) (bags_bytes (certs_spec P certRaw caRaws)) pwd HP (or_intror eq_refl) L2 O2 Opw OD0) as (enc0 & E0 & Oe0 & Le0 & D0).
  destruct (enc_lit P _ TripleDES3 (salt1 rnd) der pwd enck HP (or_introl (conj eq_refl eq_refl)) L1 O1 Opw Od Ee) as (Bk & HBk & HCk).
  destruct (enc_lit P _ RC2_40 (salt2 rnd) _ pwd enc0 HP (or_intror (conj eq_refl eq_refl)) L2 O2 Opw OD0 E0) as (Bc & HBc & HCc).
  exists enck, enc0, Bk, Bc. split; [exact HBk|]. split; [exact HCk|]. split; [exact HBc|]. split; [rewrite <- certs_lit; exact HCc|].
  rewrite <- (safe_lit P (salt1 rnd) (salt2 rnd) certRaw enck enc0). cbv zeta. rewrite <- pfx_lit.
  set (shr := epki_bytes (salt1 rnd) enck) in *. pose proof (epki_ub (salt1 rnd) enck L1 ltac:(lia)) as Lshr. fold shr in Lshr.
  assert (HK : bs_ok (key_spec shr [fp_of P certRaw])).
  { apply key_spec_ok; [apply epki_ok; auto; fold shr; lia|apply el_ne|cbn; lia|constructor; [exact HF|constructor]]. }
  assert (HK1 : Forall bs_ok [key_spec shr [fp_of P certRaw]]) by (constructor; [exact HK|constructor]).
  set (safe := safe_bytes (ed_bytes (salt2 rnd) enc0) (el 0 4 false (bags_bytes [key_spec shr [fp_of P certRaw]]))).
  unfold p12_kdf. change (Z.to_nat (Z.max 1 1)) with 1%nat.
  set (digest := hmac_sha1 P (kdf (sha1 P) 20 64 (salt3 rnd) pwd 1 3 20) safe).
  unfold Encode. rewrite Epw. cbn [bind]. change (Marshal cBytes (Some (sha1 P certRaw))) with (@Ret bytes (fp_of P certRaw)). cbn [bind].
  change (mkAttr oidLocalKeyID (mkRaw 0 17 true (Some (fp_of P certRaw)) None)) with (attr_of (fp_of P certRaw)).
  change (Some [attr_of (fp_of P certRaw)]) with (Some (map attr_of [fp_of P certRaw])). rewrite makeCertBag_eq. cbn [bind]. rewrite caBags_eq. cbn [bind].
  unfold encodePkcs8ShroudedKeyBag. rewrite Ek, R1. cbn [bind]. rewrite pbe_eq. cbn [bind]. fold (pbe_ai oidPBEWithSHAAnd3KeyTripleDESCBC (salt1 rnd)). rewrite Ee. cbn [bind]. rewrite epki_eq. cbn [bind]. fold shr.
  unfold makeSafeContents. change (bs_bag (cert_spec certRaw [fp_of P certRaw]) :: map bs_bag (map (fun r => cert_spec r []) caRaws)) with (map bs_bag (certs_spec P certRaw caRaws)).
  unfold Marshal at 1. rewrite (bags_eq _ HC). cbn [bind]. rewrite R2. cbn [bind]. rewrite pbe_eq. cbn [bind]. fold (pbe_ai oidPBEWithSHAAnd40BitRC2CBC (salt2 rnd)). rewrite E0. cbn [bind].
  change (mkED 0 (mkECI oidDataContentType (pbe_ai oidPBEWithSHAAnd40BitRC2CBC (salt2 rnd)) (Some enc0))) with (ed_of (salt2 rnd) enc0). rewrite ed_eq. cbn [bind].
  change [mkBag oidPKCS8ShroundedKeyBag (mkRaw 2 0 true (Some shr) None) (Some (map attr_of [fp_of P certRaw]))] with (map bs_bag [key_spec shr [fp_of P certRaw]]).
  unfold Marshal at 1. rewrite (bags_eq _ HK1). cbn [bind]. change (Marshal cBytes (Some (bags_bytes [key_spec shr [fp_of P certRaw]]))) with (@Ret bytes (el 0 4 false (bags_bytes [key_spec shr [fp_of P certRaw]]))). cbn [bind].
  fold (ctx0 (ed_bytes (salt2 rnd) enc0)). fold (ctx0 (el 0 4 false (bags_bytes [key_spec shr [fp_of P certRaw]]))). rewrite safe_eq. fold safe. cbn [bind]. rewrite R3. cbn [bind].
  unfold computeMac. cbn [mac_Mac di_Algorithm ai_alg mac_MacSalt mac_Iterations sl]. change (negb (oid_eqb oidSHA1 oidSHA1)) with false. cbn iota.
  assert (EK : pbkdf (sha1 P) 20 64 (salt3 rnd) pwd 1 3 20 = Ret (kdf (sha1 P) 20 64 (salt3 rnd) pwd 1 3 20)).
  { destruct HP as (HS & _). assert (HL : forall x, List.length (sha1 P x) = 20%nat) by (intros x; destruct (HS x) as [HL _]; unfold zlen in HL; lia).
    exact (PbkdfProofs.pbkdf_kdf (sha1 P) HL (fun x => proj2 (HS x)) 64 ltac:(lia) (salt3 rnd) pwd 1 3 O3 Opw 20 ltac:(lia)). }
  rewrite EK. cbn [bind]. fold digest. change (Marshal cBytes (Some safe)) with (@Ret bytes (el 0 4 false safe)). cbn [bind].
  change (mkPfx 3 (mkCI oidDataContentType (mkRaw 2 0 true (Some (el 0 4 false safe)) None)) (mkMac (mkDI (mkAI oidSHA1 rawZero) (Some digest)) (Some (salt3 rnd)) 1)) with (pfx_of (el 0 4 false safe) digest (salt3 rnd)).
  rewrite pfx_eq. reflexivity.
Qed.
Print Assumptions C137_p12_file.
(** the hypotheses can be met: an SM2 key, a certificate and a chain of one *)
Example C137_instance : exists der, MarshalPKCS8PrivateKey (PropertiesP12.sm2_key 1) = Ret der /\ bytes_ok der /\ zlen der < 2 ^ 28 /\
  bmpString [112; 119] = Ret [0; 112; 0; 119; 0; 0] /\ 24 <= zlen (repeat 5 24) /\ total_size [[48; 1; 7]; [48; 0]] < 2 ^ 29 /\
  exists authSafe digest rest, Encode toy (repeat 5 24) (PropertiesP12.sm2_key 1) [48; 1; 7] [[48; 0]] [112; 119] = Ret (pfx_file authSafe digest (repeat 5 8)) /\ authSafe = 48 :: rest.
Proof.
  destruct (sm2_der (fun x => x) 1) as (der & t & i & E & Ob & L & _); [unfold sm2_N; lia|]. exists der. split; [exact E|]. split; [exact Ob|]. split; [lia|]. split; [reflexivity|]. split; [vm_compute; discriminate|]. split; [vm_compute; reflexivity|].
  destruct (C137_p12_file toy (repeat 5 24) (PropertiesP12.sm2_key 1) der [48; 1; 7] [[48; 0]] [112; 119] [0; 112; 0; 119; 0; 0] toy_ok eq_refl) as (enck & encc & Ek & Ec & _ & _ & _ & _ & H);
    [apply bytes_okb_spec; reflexivity|vm_compute; discriminate|exact E|exact Ob|lia|apply bytes_okb_spec; reflexivity|constructor; [apply bytes_okb_spec; reflexivity|constructor]|vm_compute; reflexivity|].
  eexists _, _, _. split; [exact H|]. unfold p12_safe, SEQ, DER. reflexivity.
Qed.
