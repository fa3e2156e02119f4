(** * C140: the certificate, byte for byte *)
From Coq Require Import String Ascii Permutation ZifyBool ZifyNat.
From Verif Require Import Base Words Utf8 BMPModel ECModel SM2Model CryptoByte Asn1 Asn1Proofs KeysModel KeysProofs P12Enc X509Model X509Sig X509Build X509Proofs X509StrProofs PropertiesX509Str X509ExtProofs X509NCProofs PropertiesX509Ext PropertiesX509Sig X509Crl X509CrlProofs X509CsrProofs X509CreateProofs PropertiesX509Exts PropertiesX509Crl PropertiesX509Create PropertiesX509Written PropertiesX509Time PropertiesP12Pem PropertiesWire PropertiesWireCert.
Open Scope Z_scope.

(** ** The specification *)
(** signature algorithm identifiers: RFC 3279, 4055, 5758, 8410 and GM/T 0009: parameters NULL for RSA, absent for the others *)
Definition NULL : bytes := [5; 0].
Definition rsa_alg (k : Z) : bytes := SEQ (OID (oid_octets [1; 2; 840; 113549; 1; 1; k]) ++ NULL).
(** RFC 4055: RSASSA-PSS with SHA-2, MGF1 with the same hash, and salt as long as the hash *)
Definition pss_alg (k len : Z) : bytes :=
  let sha2 := SEQ (OID (oid_octets [2; 16; 840; 1; 101; 3; 4; 2; k]) ++ NULL) in
  SEQ (OID (oid_octets [1; 2; 840; 113549; 1; 1; 10]) ++
       SEQ (CTX0 sha2 ++ DER 0xa1 (SEQ (OID (oid_octets [1; 2; 840; 113549; 1; 1; 8]) ++ sha2)) ++ DER 0xa2 (INTEGER (int_octets len)))).
Definition plain_alg (o : oid) : bytes := SEQ (OID (oid_octets o)).
Definition algorithms : list (Z * bytes) :=
  [ (MD5WithRSA, rsa_alg 4); (SHA1WithRSA, rsa_alg 5); (SHA256WithRSA, rsa_alg 11); (SHA384WithRSA, rsa_alg 12); (SHA512WithRSA, rsa_alg 13);
    (SHA256WithRSAPSS, pss_alg 1 32); (SHA384WithRSAPSS, pss_alg 2 48); (SHA512WithRSAPSS, pss_alg 3 64);
    (ECDSAWithSHA1, plain_alg [1; 2; 840; 10045; 4; 1]); (ECDSAWithSHA256, plain_alg [1; 2; 840; 10045; 4; 3; 2]);
    (ECDSAWithSHA384, plain_alg [1; 2; 840; 10045; 4; 3; 3]); (ECDSAWithSHA512, plain_alg [1; 2; 840; 10045; 4; 3; 4]);
    (PureEd25519, plain_alg [1; 3; 101; 112]); (SM2WithSM3, plain_alg [1; 2; 156; 10197; 1; 501]) ].
(** RFC 5280, 4.1.2.5: UTCTime from 1950 to 2049, GeneralizedTime otherwise; both to the second, in UTC *)
Definition time_der (t : civil) : bytes :=
  let rest := dec2 (t_Month t) ++ dec2 (t_Day t) ++ dec2 (t_Hour t) ++ dec2 (t_Min t) ++ dec2 (t_Sec t) ++ chars "Z" in
  if (1950 <=? t_Year t) && (t_Year t <=? 2049) then DER 23 (dec2 (t_Year t mod 100) ++ rest)
  else DER 24 (dec2 (t_Year t / 100) ++ dec2 (t_Year t mod 100) ++ rest).
(** 4.1: Extension: the critical flag is left out when false *)
Definition ext_der (e : Extension) : bytes := SEQ (OID (oid_octets (x_Id e)) ++ (if x_Critical e then [1; 1; 255] else []) ++ OCTETS (x_Value e)).
(** the name in a template: the given encoding, or the subject *)
Definition name_written (t : Template) (b : bytes) : Prop :=
  tp_RawSubject t <> [] /\ b = tp_RawSubject t \/ tp_RawSubject t = [] /\ name_der (tp_Subject t) b.
(** TBSCertificate, version 3, without unique identifiers *)
Definition tbs_der (serial : Z) (alg issuer nb na subject spki : bytes) (exts : list Extension) : bytes :=
  SEQ (CTX0 (INTEGER [2]) ++ INTEGER (int_octets serial) ++ alg ++ issuer ++ SEQ (nb ++ na) ++ subject ++ spki ++ DER 0xa3 (SEQ (each ext_der exts))).
Definition cert_der (tbs alg sig : bytes) : bytes := SEQ (tbs ++ alg ++ DER 3 (0 :: sig)).

(** ** Proofs *)
Lemma two_dec n : 0 <= n < 100 -> two_digits n = dec2 n.
Proof. intros H. unfold two_digits, dec2. rewrite (Z.mod_small (n / 10) 10); [reflexivity|]. split; [apply Z.div_pos; lia|apply Z.div_lt_upper_bound; lia]. Qed.
Lemma days_le m y : 1 <= m <= 12 -> days_in m y <= 31.
Proof. intros H. unfold days_in. repeat match goal with |- context[if ?c then _ else _] => destruct c end; lia. Qed.
Lemma time_written t b : utc_time t -> marshalTime t = Ret b -> b = time_der t.
Proof.
  intros (Y & Mo & D & H & Mi & S & _) E. pose proof (days_le (t_Month t) (t_Year t) Mo) as DL. unfold marshalTime, time_common in E. cbv zeta in E. unfold time_der. cbv zeta.
  change (chars "Z") with [90]. rewrite (two_dec (t_Month t)), (two_dec (t_Day t)), (two_dec (t_Hour t)), (two_dec (t_Min t)), (two_dec (t_Sec t)) in E by lia.
  remember (dec2 (t_Month t) ++ dec2 (t_Day t) ++ dec2 (t_Hour t) ++ dec2 (t_Min t) ++ dec2 (t_Sec t) ++ [90]) as rest eqn:Er. clear Er.
  destruct (Z.ltb_spec (t_Year t) 1950); destruct (Z.leb_spec 2050 (t_Year t)); cbn [orb] in E; try lia.
  - replace ((t_Year t <? 0) || (9999 <? t_Year t)) with false in E by lia. replace (1950 <=? t_Year t) with false by lia. cbn [andb].
    rewrite (two_dec (t_Year t / 100)), (two_dec (t_Year t mod 100)) in E by (first [apply Z.mod_pos_bound; lia|split; [apply Z.div_pos; lia|apply Z.div_lt_upper_bound; lia]]). rewrite <- (el_der 0 24 false) by lia. injection E as <-. reflexivity.
  - replace ((t_Year t <? 0) || (9999 <? t_Year t)) with false in E by lia. replace (t_Year t <=? 2049) with false by lia. rewrite andb_false_r.
    rewrite (two_dec (t_Year t / 100)), (two_dec (t_Year t mod 100)) in E by (first [apply Z.mod_pos_bound; lia|split; [apply Z.div_pos; lia|apply Z.div_lt_upper_bound; lia]]). rewrite <- (el_der 0 24 false) by lia. injection E as <-. reflexivity.
  - replace (1950 <=? t_Year t) with true by lia. replace (t_Year t <=? 2049) with true by lia. cbn [andb].
    assert (Q : (if t_Year t <? 2000 then t_Year t - 1900 else t_Year t - 2000) = t_Year t mod 100).
    { destruct (Z.ltb_spec (t_Year t) 2000); [apply (Z.mod_unique _ _ 19); lia|apply (Z.mod_unique _ _ 20); lia]. }
    rewrite Q, two_dec in E by (apply Z.mod_pos_bound; lia). rewrite <- (el_der 0 23 false) by lia. injection E as <-. reflexivity.
Qed.
Lemma alg_written pub req h ai aib : signingParamsForPublicKey pub req = Ret (h, ai) -> makeField cAI noP ai = Ret aib ->
  exists a, chosen_alg pub req a /\ In (a, aib) algorithms /\ lookupDetails a = (h, key_family pub).
Proof.
  intros Es Ea. destruct (proj1 (C57_consistent pub req) h ai Es) as (a & ND & Ca & _ & _ & Fa & La). exists a.
  split. { destruct Ca as [[-> Hd]|[H1 H2]]; [left; auto|right; auto]. } split; [|exact La]. clear Fa La. unfold signingParamsForPublicKey in Es. apply bind_inv in Es as ([[ty dh] dai] & Ed & Es).
  assert (DI : forall a', default_alg pub = Some a' -> exists b, makeField cAI noP dai = Ret b /\ In (a', b) algorithms).
  { intros a' Ha'. clear Es Ca ND. destruct pub as [n e|c x y|k|k|y p q g|]; cbn [default_alg defaultSigning] in *; try discriminate.
    - injection Ed as <- <- <-. injection Ha' as <-. eexists. split; [vm_compute; reflexivity|]. vm_compute. tauto.
    - destruct (Z.eq_dec c 224) as [->|]; [injection Ed as <- <- <-; injection Ha' as <-; eexists; split; [vm_compute; reflexivity|vm_compute; tauto]|].
      destruct (Z.eq_dec c 256) as [->|]; [injection Ed as <- <- <-; injection Ha' as <-; eexists; split; [vm_compute; reflexivity|vm_compute; tauto]|].
      destruct (Z.eq_dec c 384) as [->|]; [injection Ed as <- <- <-; injection Ha' as <-; eexists; split; [vm_compute; reflexivity|vm_compute; tauto]|].
      destruct (Z.eq_dec c 521) as [->|]; [injection Ed as <- <- <-; injection Ha' as <-; eexists; split; [vm_compute; reflexivity|vm_compute; tauto]|].
      replace (c =? 224) with false in Ed by lia. replace (c =? 256) with false in Ed by lia. replace (c =? 384) with false in Ed by lia. replace (c =? 521) with false in Ed by lia. discriminate.
    - destruct (pk_Curve k =? SM2P256V1_id); [|discriminate]. injection Ed as <- <- <-. injection Ha' as <-. eexists. split; [vm_compute; reflexivity|]. vm_compute. tauto.
    - injection Ed as <- <- <-. injection Ha' as <-. eexists. split; [vm_compute; reflexivity|]. vm_compute. tauto. }
  destruct (Z.eqb_spec req 0) as [R0|R0].
  - destruct Ca as [[_ Hd]|[H _]]; [|contradiction]. injection Es as <- <-. destruct (DI a Hd) as (b & Eb & Hb). assert (b = aib) by congruence. subst b. exact Hb.
  - destruct Ca as [[H _]|[_ H]]; [contradiction|subst a]. destruct (find _ _) as [d|] eqn:Ef; [|discriminate]. apply find_some in Ef as [Hin Hal]. apply Z.eqb_eq in Hal.
    destruct (pkAlgo_eqb (sd_pub d) ty) eqn:Ek; cbn [negb] in Es; [|discriminate]. destruct ((sd_hash d =? 0) && _) eqn:Eh; [discriminate|]. injection Es as <- <-.
    assert (TP : (ty = RSA -> ai_params dai = NullRawValue) /\ (ty <> RSA -> ai_params dai = rawZero) /\ (ty = RSA \/ ty = ECDSA \/ ty = Ed25519)).
    { clear - Ed. destruct pub as [n e|c x y|k|k|y p q g|]; cbn [defaultSigning] in Ed; try discriminate Ed.
      - injection Ed as <- <- <-. split; [reflexivity|]. split; [congruence|tauto].
      - destruct ((c =? 224) || (c =? 256)); [injection Ed as <- <- <-; split; [congruence|split; [reflexivity|tauto]]|]. destruct (c =? 384); [injection Ed as <- <- <-; split; [congruence|split; [reflexivity|tauto]]|].
        destruct (c =? 521); [injection Ed as <- <- <-; split; [congruence|split; [reflexivity|tauto]]|discriminate].
      - destruct (pk_Curve k =? SM2P256V1_id); [|discriminate]. injection Ed as <- <- <-. split; [congruence|split; [reflexivity|tauto]].
      - injection Ed as <- <- <-. split; [congruence|split; [reflexivity|tauto]]. }
    destruct TP as (T1 & T2 & KF). assert (Ek' : sd_pub d = ty) by (destruct (sd_pub d), ty; try discriminate Ek; reflexivity). clear DI Ed ND R0 Ek. unfold signatureAlgorithmDetails in Hin.
    repeat (destruct Hin as [<-|Hin]; [cbn [sd_algo sd_pub sd_hash sd_oid] in *; subst req; subst ty;
      first [discriminate Eh | (exfalso; destruct KF as [K|[K|K]]; discriminate K) | rewrite (T1 eq_refl) in Ea | rewrite (T2 ltac:(discriminate)) in Ea | (exfalso; destruct KF as [K|[K|K]]; discriminate K)];
      try (vm_compute in Ea; injection Ea as <-; vm_compute; tauto)|]). destruct Hin.
Qed.
Lemma name_is_written t b : has_name t -> subjectBytes t = Ret b -> name_written t b.
Proof.
  intros Hn E. unfold subjectBytes in E. unfold name_written. destruct (tp_RawSubject t) as [|x r] eqn:R; [right|left; split; [discriminate|congruence]]. split; [reflexivity|].
  apply C136_name; [|exact E]. destruct Hn as [(_ & Hn)|(c & n & Hr & _)]; [|rewrite R in Hr; discriminate]. unfold strings_ok. eapply Forall_impl; [|exact Hn]. cbv beta. intros l Hl. eapply Forall_impl; [|exact Hl]. cbv beta. tauto.
Qed.
Lemma spki_written pub pk ai b : marshalPublicKey pub = Ret (pk, ai) -> makeField cPKI noP (mkPKI None ai (fullBits pk)) = Ret b ->
  MarshalPKIXPublicKey pub = Ret b /\ exists kalg, b = SEQ (kalg ++ DER 3 (0 :: pk)).
Proof.
  intros E M. unfold cPKI in M. apply structRaw_make_inv in M as (body & M & ->); [|reflexivity]. cbn [pki_Algo pki_PublicKey] in M. apply f_cons_inv in M as (x & y & X1 & M & ->). apply f_cons_inv in M as (z & w & X2 & M & ->). apply f_nil_inv in M. subst w.
  pose proof X2 as X2'. apply fullBits_make in X2'. rewrite app_nil_r. split.
  - unfold MarshalPKIXPublicKey. rewrite E. cbn [bind]. assert (Q : Marshal cPkix (mkPkix ai (mkBits (Some pk) (8 * zlen pk))) = Ret (el 0 16 true (x ++ z))); [|rewrite Q; reflexivity].
    apply (mk_struct _ _ _ (mkPkix ai (mkBits (Some pk) (8 * zlen pk)))). apply f_cons; [exact X1|]. apply f_one. unfold fullBits in X2. rewrite Z.mul_comm. exact X2.
  - exists x. rewrite el_seq, X2'. rewrite (el_der 0 3 false) by lia. reflexivity.
Qed.
Lemma exts_written exts xs : Forall ext_ok exts -> makeField (cSeqOf false cExt) (optExplicitP 3) (Some exts) = Ret xs -> xs = DER 0xa3 (SEQ (each ext_der exts)).
Proof.
  intros Hx E. apply exts_make in E as (es & Em & ->). rewrite el_seq, (el_der 2 3 true) by lia. change (2 * 64 + 32 + 3) with 0xa3. do 2 f_equal. unfold each. f_equal. apply mapM_Forall2 in Em.
  induction Em as [|e b l bs H _ IH]; [reflexivity|]. inversion Hx as [|? ? H1 H2]; subst. cbn [map]. f_equal; [|exact (IH H2)].
  apply ext_make in H as (ob & Eo & ->). rewrite (oid_body_ok _ H1) in Eo. assert (ob = oid_bytes (x_Id e)) by congruence. subst ob. rewrite el_seq, PropertiesWire.el_oid, el_oct, (oid_octets_eq _ H1). unfold ext_der. destruct (x_Critical e); reflexivity.
Qed.

(** ** C140 *)
Theorem C140_certificate : forall P rand t parent pub key der netsp netsx,
  CreateCertificate P rand t parent pub (ASigner key) = Ret der -> zlen der < 2 ^ 31 ->
  has_name t -> has_name parent -> utc_time (tp_NotBefore t) -> utc_time (tp_NotAfter t) ->
  Forall (fun e => valid_oid (x_Id e)) (tp_ExtraExtensions t) ->
  Forall valid_oid (i_UnknownExtKeyUsage (tp_Info t)) -> Forall valid_oid (i_PolicyIdentifiers (tp_Info t)) ->
  Forall2 network_octets (nc_IP (i_Permitted (tp_Info t))) netsp -> Forall2 network_octets (nc_IP (i_Excluded (tp_Info t))) netsx ->
  exists a alg n issuer subject spki kalg pk aki ski tbs digest sig,
    (* the algorithm, the serial number, the names and the key *)
    chosen_alg (sg_Public key) (tp_SignatureAlgorithm t) a /\ In (a, alg) algorithms /\ tp_SerialNumber t = Some n /\
    name_written parent issuer /\ name_written t subject /\ MarshalPKIXPublicKey pub = Ret spki /\ spki = SEQ (kalg ++ DER 3 (0 :: pk)) /\
    (* the key identifiers *)
    aki = (if bytes_eqb issuer subject || negb (given (i_SubjectKeyId (tp_Info parent))) then i_AuthorityKeyId (tp_Info t) else i_SubjectKeyId (tp_Info parent)) /\
    ski = (if given (i_SubjectKeyId (tp_Info t)) || negb (i_IsCA (tp_Info t)) then i_SubjectKeyId (tp_Info t) else hash_fn P H_SHA1 pk) /\
    (* the bytes *)
    tbs = tbs_der n alg issuer (time_der (tp_NotBefore t)) (time_der (tp_NotAfter t)) subject spki
            (written (tp_Info t) (tp_ExtraExtensions t) (bytes_eqb subject (SEQ [])) aki ski netsp netsx) /\
    toSign P (fst (lookupDetails a)) tbs = Ret digest /\ sg_Sign key rand digest (fst (lookupDetails a), isRSAPSS (tp_SignatureAlgorithm t)) = Ret sig /\
    der = cert_der tbs alg sig.
Proof.
  intros P rand t parent pub key der netsp netsx E Hz Ht Hpa Vb Va Hx Hu Hpol Hp Hxn.
  destruct (create_inv _ _ _ _ _ _ _ E) as (key' & n & h & ai & pk & pkAlg & issuer & subject & exts & Hk & Hn & Es & Ep & Ei & Esub & _ & Ex & _ & S). injection Hk as <-. clear E.
  destruct (subject_ne parent issuer Hpa Ei) as [ic Hic]. destruct (subject_ne t subject Ht Esub) as [sc Hsc].
  assert (Nei : issuer <> []) by (rewrite Hic; apply el_ne). assert (Nes : subject <> []) by (rewrite Hsc; apply el_ne).
  pose proof (built_exts_ok _ _ _ _ _ Ex Hx) as Ox.
  unfold signCert in S. apply bind_inv in S as (tbs & Et & S). apply bind_inv in S as (digest & Ed & S). apply bind_inv in S as (sig & Esg & S). apply bind_inv in S as (der' & Ec & S).
  assert (der' = der). { destruct (_ || _) in S; [congruence|]. destruct (checkSignature _ _ _ _ _) in S; congruence. } subst der'. clear S.
  unfold Marshal in Ec. apply cert_parts in Ec as (tbs' & aib' & Et' & Ea' & Ed').
  pose proof (el_len 0 16 true (tbs' ++ aib' ++ el 0 3 false (0 :: sig))) as L0. rewrite <- Ed' in L0. rewrite !zlen_app in L0.
  pose proof (zlen_nonneg tbs'). pose proof (zlen_nonneg aib'). pose proof (zlen_nonneg (el 0 3 false (0 :: sig))).
  assert (tbs' = tbs). { unfold Marshal in Et. unfold cTbs in Et, Et'. eapply raw_remake; [| |exact Et|exact Et'|lia]; reflexivity. } subst tbs'. clear Et'.
  destruct (tbs_parts t n ai issuer subject pk pkAlg exts tbs Hn Nei Nes Et) as (aib & t1 & t2 & spki & xs & Ea & T1 & T2 & Ek & Exx & Etb).
  assert (aib' = aib) by congruence. subst aib'. clear Ea'.
  destruct (alg_written _ _ _ _ _ Es Ea) as (a & Ca & Ia & La). destruct (spki_written _ _ _ _ Ep Ek) as (Hspki & kalg & Hkalg).
  exists a, aib, n, issuer, subject, spki, kalg, pk, (chooseAKI t parent issuer subject), (chooseSKI P t pk), tbs, digest, sig.
  split; [exact Ca|]. split; [exact Ia|]. split; [exact Hn|]. split; [apply name_is_written; assumption|]. split; [apply name_is_written; assumption|]. split; [exact Hspki|]. split; [exact Hkalg|].
  split. { unfold chooseAKI. rewrite isnil_given. destruct (bytes_eqb issuer subject), (given (i_SubjectKeyId (tp_Info parent))); reflexivity. }
  split. { unfold chooseSKI. rewrite <- (isnil_given (i_SubjectKeyId (tp_Info t))). destruct (isnil (i_SubjectKeyId (tp_Info t))), (i_IsCA (tp_Info t)); reflexivity. }
  split.
  - apply (C139_extensions t _ _ _ exts netsp netsx) in Ex; try assumption. change (SEQ []) with emptyASN1Subject. rewrite <- Ex.
    apply time_written in T1; [|exact Vb]. apply time_written in T2; [|exact Va]. apply exts_written in Exx; [|exact Ox]. subst t1 t2 xs.
    rewrite Etb. unfold tbs_der. rewrite !el_seq, el_c0, el_int, int_octets_eq. reflexivity.
  - rewrite La. cbn [fst]. split; [exact Ed|]. split; [exact Esg|]. rewrite Ed'. rewrite el_seq, (el_der 0 3 false) by lia. reflexivity.
Qed.
Print Assumptions C140_certificate.
(** ** A case: the certificate [leaf0] issued by [ca0] (PropertiesX509Create.v) meets the hypotheses, and its bytes are *)
Example C140_instance :
  CreateCertificate prims0 [] leaf0 ca0 (PKrsa 91 5) (ASigner rsa_signer) = Ret der2 /\ zlen der2 < 2 ^ 31 /\
  has_name leaf0 /\ has_name ca0 /\ utc_time (tp_NotBefore leaf0) /\ utc_time (tp_NotAfter leaf0) /\
  Forall (fun e => valid_oid (x_Id e)) (tp_ExtraExtensions leaf0) /\ Forall valid_oid (i_UnknownExtKeyUsage (tp_Info leaf0)) /\ Forall valid_oid (i_PolicyIdentifiers (tp_Info leaf0)) /\
  Forall2 network_octets (nc_IP (i_Permitted (tp_Info leaf0))) [] /\ Forall2 network_octets (nc_IP (i_Excluded (tp_Info leaf0))) [] /\
  exists issuer sig, subjectBytes ca0 = Ret issuer /\
    der2 = cert_der
      (SEQ (CTX0 (INTEGER [2]) ++ INTEGER [254; 212] ++ rsa_alg 12 ++ issuer ++
            SEQ (DER 24 (chars "19491231000000Z") ++ DER 23 (chars "240229010203Z")) ++ SEQ [] ++
            SEQ (rsa_alg 1 ++ DER 3 (0 :: SEQ (INTEGER [91] ++ INTEGER [5]))) ++
            DER 0xa3 (SEQ (
              SEQ (OID [0x55; 29; 15] ++ [1; 1; 255] ++ OCTETS [3; 2; 7; 128]) ++
              SEQ (OID [0x55; 29; 37] ++ OCTETS (SEQ (OID [0x2b; 6; 1; 5; 5; 7; 3; 1]))) ++
              SEQ (OID [0x55; 29; 14] ++ OCTETS (OCTETS [5])) ++
              SEQ (OID [0x55; 29; 17] ++ [1; 1; 255] ++ OCTETS (SEQ (DER 0x82 (chars "a.cn")))) ++
              SEQ (OID [0x2a; 3] ++ OCTETS [5; 0])))))
      (rsa_alg 12) sig.
Proof.
  split; [exact made2|]. split; [vm_compute; reflexivity|]. split; [exact (proj1 (proj2 fine2))|]. split; [exact (proj1 (proj2 fine1))|].
  split; [cbn; repeat split; discriminate|]. split; [cbn; repeat split; discriminate|].
  split; [constructor; [exists 1, 2, [3]; split; [reflexivity|]; repeat split; try lia; constructor; [lia|constructor]|constructor]|]. split; [constructor|]. split; [constructor|]. split; [constructor|]. split; [constructor|].
  exists (der_of (subjectBytes ca0)), [1; 2; 3]. split; vm_compute; reflexivity.
Qed.
