(** * C70-C73, C89, C90: the certificate parser *)
From Coq Require Import String Ascii ZifyBool ZifyNat.
From Verif Require Import Base Words Utf8 BMPModel ECModel SM2Model CryptoByte Asn1 Asn1Proofs KeysModel KeysProofs P12Enc X509Model X509Sig X509Build X509Proofs X509StrProofs PropertiesX509Str X509ExtProofs X509NCProofs PropertiesX509Ext X509CertProofs PropertiesX509Build.
Open Scope Z_scope.

(** ** Specification *)
Definition substring (a b : bytes) : Prop := exists p s, b = p ++ a ++ s.
(** tags: SEQUENCE 0x30, INTEGER 2, [0] 0xa0; [tlv tag content] is the DER element *)
Definition SEQ (content : bytes) : bytes := tlv 0x30 content.
Definition INT (n : Z) : bytes := tlv 2 (bigint_content n).
(** the version field: absent for version 1 *)
Definition VERSION (ver : bytes) (v : Z) : Prop := (ver = [] /\ v = 0) \/ (ver = tlv 0xa0 (INT v) /\ 0 <= v < 2 ^ 63).

(** ** C70 *)
Lemma Parse_inv net der c : ParseCertificate net der = Ret c -> parseCertificate net der = Ret c /\ List.length der = List.length (c_Raw c).
Proof.
  unfold ParseCertificate. destruct (parseCertificate net der) as [c'| |]; cbn [bind]; try discriminate. destruct (Nat.eqb_spec (List.length der) (List.length (c_Raw c'))); cbn [negb]; [|discriminate].
  intros [= <-]. auto.
Qed.
Lemma Parse_raw net der c : bytes_ok der -> ParseCertificate net der = Ret c -> c_Raw c = der.
Proof.
  intros Hb E. apply Parse_inv in E as [E L]. apply parse_inv in E as (rest & ? & ? & ? & ? & ? & ? & ? & ? & ? & ? & E & _); [|exact Hb].
  rewrite E in L. rewrite app_length in L. destruct rest; [now rewrite app_nil_r in E|cbn in L; lia].
Qed.
Lemma parse_again net der c rest : bytes_ok der -> parseCertificate net der = Ret c -> parseCertificate net (c_Raw c ++ rest) = Ret c.
Proof. intros Hb E. apply parse_inv in E as (r & ? & ? & ? & ? & ? & ? & ? & ? & ? & ? & E & L & S); [|exact Hb]. eapply parse_ok; eauto. Qed.
Lemma sub_tlv p a s q : p ++ a ++ s = q -> substring a (tlv T_SEQUENCE q).
Proof. intros <-. unfold tlv. exists ((T_SEQUENCE :: match der_len (zlen (p ++ a ++ s)) with Some l => l | None => [] end) ++ p), s. cbn [app]. f_equal. now rewrite <- app_assoc. Qed.
Theorem C70_exact : forall net der c, bytes_ok der -> ParseCertificate net der = Ret c ->
  c_Raw c = der /\ substring (c_RawTBSCertificate c) der /\
  substring (c_RawIssuer c) (c_RawTBSCertificate c) /\ substring (c_RawSubject c) (c_RawTBSCertificate c) /\ substring (c_RawSubjectPublicKeyInfo c) (c_RawTBSCertificate c).
Proof.
  intros net der c Hb E. pose proof (Parse_raw _ _ _ Hb E) as R. apply Parse_inv in E as [E _]. apply parse_inv in E as (rest & ver & v & ai & ? & val & ? & ? & ? & tail & sigF & E & L & _); [|exact Hb].
  split; [exact R|]. rewrite <- R, (lo_raw _ _ _ _ _ _ _ _ _ _ _ _ L). pose proof sub_tlv as T. split.
  - apply (T [] _ (tlv T_SEQUENCE ai ++ sigF)). reflexivity.
  - rewrite (lo_tbs _ _ _ _ _ _ _ _ _ _ _ _ L).
    split; [|split].
    + apply (T (ver ++ tlv T_INTEGER (bigint_content (c_SerialNumber c)) ++ tlv T_SEQUENCE ai) _ (tlv T_SEQUENCE val ++ c_RawSubject c ++ c_RawSubjectPublicKeyInfo c ++ tail)). now rewrite <- !app_assoc.
    + apply (T (ver ++ tlv T_INTEGER (bigint_content (c_SerialNumber c)) ++ tlv T_SEQUENCE ai ++ c_RawIssuer c ++ tlv T_SEQUENCE val) _ (c_RawSubjectPublicKeyInfo c ++ tail)). now rewrite <- !app_assoc.
    + apply (T (ver ++ tlv T_INTEGER (bigint_content (c_SerialNumber c)) ++ tlv T_SEQUENCE ai ++ c_RawIssuer c ++ tlv T_SEQUENCE val ++ c_RawSubject c) _ tail). now rewrite <- !app_assoc.
Qed.
Print Assumptions C70_exact.
Theorem C70_trailing_data : forall net der c suffix, bytes_ok der -> ParseCertificate net der = Ret c -> suffix <> [] ->
  ParseCertificate net (der ++ suffix) = Err "x509: trailing data".
Proof.
  intros net der c suffix Hb E N. pose proof (Parse_raw _ _ _ Hb E) as R. apply Parse_inv in E as [E _]. pose proof (parse_again net der c suffix Hb E) as P. rewrite R in P.
  unfold ParseCertificate. rewrite P. cbn [bind]. rewrite R, app_length. destruct (Nat.eqb_spec (List.length der + List.length suffix) (List.length der)); [|reflexivity]. destruct suffix; [congruence|cbn in *; lia].
Qed.
Print Assumptions C70_trailing_data.

(** ** C71 *)
Theorem C71_concatenation : forall net ders certs, Forall bytes_ok ders -> Forall2 (fun d c => ParseCertificate net d = Ret c) ders certs ->
  ParseCertificates net (List.concat ders) = Ret certs.
Proof.
  intros net ders certs Hb H. unfold ParseCertificates. apply many_es. revert Hb. induction H as [|d c ders certs E _ IH]; intros Hb; [constructor|]. inversion Hb as [|? ? B1 B2]; subst. constructor; [|auto].
  pose proof (Parse_raw _ _ _ B1 E) as R. apply Parse_inv in E as [E _]. split.
  - apply parse_inv in E as (? & ? & ? & ? & ? & ? & ? & ? & ? & ? & ? & E & L & _); [|exact B1]. rewrite E, (lo_raw _ _ _ _ _ _ _ _ _ _ _ _ L). unfold tlv. discriminate.
  - intros rest. pose proof (parse_again net d c rest B1 E) as P. rewrite R in P. rewrite P. cbn [bind]. rewrite R, skipn_len_app. reflexivity.
Qed.
Print Assumptions C71_concatenation.
Theorem C71_exact : forall net der certs, bytes_ok der -> ParseCertificates net der = Ret certs ->
  der = List.concat (map c_Raw certs) /\ Forall (fun c => ParseCertificate net (c_Raw c) = Ret c) certs.
Proof.
  intros net der certs Hb E. unfold ParseCertificates in E.
  assert (G : exists es, der = List.concat es /\ Forall2 (fun c e => e = c_Raw c /\ ParseCertificate net (c_Raw c) = Ret c) certs es).
  { eapply many_inv; [|exact Hb|exact E]. clear. intros s c r Hs E. apply bind_inv in E as (c' & P & E). assert (c' = c /\ skipn (List.length (c_Raw c')) s = r) as [-> <-] by (split; congruence). clear E. rename c into c'.
    pose proof (parse_again net s c' [] Hs P) as A. rewrite app_nil_r in A. apply parse_inv in P as (rest & ? & ? & ? & ? & ? & ? & ? & ? & ? & ? & E & L & _); [|exact Hs].
    exists (c_Raw c'). rewrite E. rewrite skipn_len_app. split; [reflexivity|]. split; [rewrite (lo_raw _ _ _ _ _ _ _ _ _ _ _ _ L); unfold tlv; discriminate|]. split.
    - split; [reflexivity|]. unfold ParseCertificate. rewrite A. cbn [bind]. now rewrite Nat.eqb_refl.
    - rewrite E in Hs. apply bytes_ok_app in Hs. apply Hs. }
  destruct G as (es & -> & G). clear - G. induction G as [|c e l es [-> H] _ [I1 I2]]; [split; [reflexivity|constructor]|]. cbn [List.concat map]. split; [now f_equal|constructor; auto].
Qed.
Print Assumptions C71_exact.

(** ** C72 *)
Lemma tlv_ge T c : zlen c <= zlen (tlv T c).
Proof. unfold tlv. rewrite zlen_cons, zlen_app. pose proof (zlen_nonneg (match der_len (zlen c) with Some l => l | None => [] end)). lia. Qed.
Theorem C72_same_algorithm : forall net der c, bytes_ok der -> ParseCertificate net der = Ret c ->
  exists ver v ai rest tail,
    der = SEQ (c_RawTBSCertificate c ++ SEQ ai ++ tail) /\
    c_RawTBSCertificate c = SEQ (ver ++ INT (c_SerialNumber c) ++ SEQ ai ++ c_RawIssuer c ++ rest) /\
    VERSION ver v /\ ((v < 3 /\ c_Version c = v + 1) \/ (v = 2 ^ 63 - 1 /\ c_Version c = - 2 ^ 63)).
Proof.
  intros net der c Hb E. pose proof (Parse_raw _ _ _ Hb E) as R. apply Parse_inv in E as [E _]. apply parse_inv in E as (r0 & ver & v & ai & ? & val & ? & ? & ? & tail & sigF & E & L & _); [|exact Hb].
  exists ver, v, ai, (tlv T_SEQUENCE val ++ c_RawSubject c ++ c_RawSubjectPublicKeyInfo c ++ tail), sigF.
  split; [rewrite <- R; exact (lo_raw _ _ _ _ _ _ _ _ _ _ _ _ L)|]. split; [exact (lo_tbs _ _ _ _ _ _ _ _ _ _ _ _ L)|].
  destruct (lo_version _ _ _ _ _ _ _ _ _ _ _ _ L) as (V0 & V1 & V2). pose proof (lo_ver _ _ _ _ _ _ _ _ _ _ _ _ L) as VF.
  assert (HV : 0 <= v < 2 ^ 63) by (destruct VF as [[_ ->]|[_ H]]; [lia|unfold int64 in H; lia]). split.
  - destruct VF as [[-> ->]|[-> H]]; [left; auto|right; split; [reflexivity|lia]].
  - destruct (Z.eq_dec v (2 ^ 63 - 1)) as [->|N]; [right; split; [reflexivity|rewrite V1; reflexivity]|]. left. assert (W : wrap64 (v + 1) = v + 1) by (unfold wrap64; rewrite Z.mod_small; lia). rewrite W in V1. lia.
Qed.
Print Assumptions C72_same_algorithm.
(** the exception is reachable: writing the version 2^63-1 into any accepted certificate gives an accepted certificate of
    negative version, all of whose extensions are ignored *)
Theorem C72_version_overflow : forall net der c, bytes_ok der -> zlen der < 2 ^ 31 -> ParseCertificate net der = Ret c ->
  exists der' c', ParseCertificate net der' = Ret c' /\ c_Version c' = - 2 ^ 63 /\ c_Extensions c' = [] /\ c_Info c' = info0 /\
    c_Subject c' = c_Subject c /\ c_Issuer c' = c_Issuer c /\ c_PublicKey c' = c_PublicKey c /\ c_SerialNumber c' = c_SerialNumber c.
Proof.
  intros net der c Hb Hz E. pose proof (Parse_raw _ _ _ Hb E) as R. apply Parse_inv in E as [E _]. apply parse_inv in E as (r0 & ver & v & ai & ic & val & sc & pa & pk & tail & sigF & E & L & S); [|exact Hb].
  apply Forall_cons_iff in S as [S1 S2]. apply Forall_cons_iff in S2 as [S2 _]. destruct L as [Lraw Ltbs Lver Lvn Li Ls La Lval Lspki Lk Lt Lsig].
  remember (tlv (ctxc 0) (tlv T_INTEGER (bigint_content (2 ^ 63 - 1)))) as ver' eqn:Ever.
  remember (tlv T_SEQUENCE (ver' ++ tlv T_INTEGER (bigint_content (c_SerialNumber c)) ++ tlv T_SEQUENCE ai ++ c_RawIssuer c ++ tlv T_SEQUENCE val ++ c_RawSubject c ++ c_RawSubjectPublicKeyInfo c ++ tail)) as tbs' eqn:Etbs.
  remember (tlv T_SEQUENCE (tbs' ++ tlv T_SEQUENCE ai ++ sigF)) as der' eqn:Eder.
  set (c' := mkCert der' tbs' (c_RawSubjectPublicKeyInfo c) (c_RawSubject c) (c_RawIssuer c) (c_Signature c) (c_SignatureAlgorithm c) (c_PublicKeyAlgorithm c) (c_PublicKey c) (- 2 ^ 63) (c_SerialNumber c) (c_Issuer c) (c_Subject c) (c_NotBefore c) (c_NotAfter c) [] info0).
  assert (Z' : zlen ver' = 12) by (subst ver'; vm_compute; reflexivity).
  assert (P : parseCertificate net (c_Raw c' ++ []) = Ret c').
  { eapply parse_ok; [constructor; subst c'; cbn [c_Raw c_RawTBSCertificate c_SerialNumber c_RawIssuer c_RawSubject c_RawSubjectPublicKeyInfo c_Version c_Issuer c_Subject c_SignatureAlgorithm c_NotBefore c_NotAfter c_PublicKeyAlgorithm c_PublicKey c_Extensions c_Info c_Signature]|].
    - exact Eder.
    - exact Etbs.
    - right. split; [exact Ever|]. split; reflexivity || lia.
    - split; [lia|]. split; [reflexivity|]. lia.
    - exact Li.
    - exact Ls.
    - exact La.
    - exact Lval.
    - exact Lspki.
    - exact Lk.
    - reflexivity.
    - exact Lsig.
    - subst c'; cbn [c_Raw c_RawTBSCertificate c_SerialNumber c_RawIssuer c_RawSubject c_RawSubjectPublicKeyInfo].
      assert (Zt : zlen (tlv T_INTEGER (bigint_content (c_SerialNumber c)) ++ tlv T_SEQUENCE ai ++ c_RawIssuer c ++ tlv T_SEQUENCE val ++ c_RawSubject c ++ c_RawSubjectPublicKeyInfo c ++ tail) <= zlen (c_RawTBSCertificate c)).
      { rewrite Ltbs. etransitivity; [|apply tlv_ge]. rewrite (zlen_app ver). pose proof (zlen_nonneg ver). lia. }
      assert (Zd : zlen (c_RawTBSCertificate c) + zlen (tlv T_SEQUENCE ai ++ sigF) < 2 ^ 31).
      { rewrite <- zlen_app. eapply (zlen_tlv_lt T_SEQUENCE). rewrite <- Lraw, R. exact Hz. }
      pose proof (zlen_nonneg (tlv T_SEQUENCE ai ++ sigF)) as Zn.
      unfold small. rewrite !Forall_cons_iff. unfold max_content.
      assert (Zb : zlen (ver' ++ tlv T_INTEGER (bigint_content (c_SerialNumber c)) ++ tlv T_SEQUENCE ai ++ c_RawIssuer c ++ tlv T_SEQUENCE val ++ c_RawSubject c ++ c_RawSubjectPublicKeyInfo c ++ tail) <= zlen (c_RawTBSCertificate c) + 12) by (rewrite zlen_app, Z'; lia).
      split; [|split; [|constructor]].
      + rewrite zlen_app. rewrite Etbs. match goal with |- zlen (tlv _ ?x) + _ <= _ => pose proof (tlv_zlen T_SEQUENCE x) as TT; remember x as bb eqn:Ebb in * end. clear - TT Zb Zd Zn Zt. pose proof (zlen_nonneg (c_RawTBSCertificate c)). lia.
      + lia. }
  rewrite app_nil_r in P. exists (c_Raw c'), c'. split; [|repeat split; reflexivity]. unfold ParseCertificate. rewrite P. cbn [bind]. now rewrite Nat.eqb_refl.
Qed.
Print Assumptions C72_version_overflow.

Lemma readBitString_app s b r extra : bytes_ok s -> readBitString s = Some (b, r) -> readBitString (s ++ extra) = Some (b, r ++ extra).
Proof.
  intros Hs. unfold readBitString. destruct (readASN1 T_BIT_STRING s) as [[c r']|] eqn:E; [|discriminate]. apply readASN1_inv in E as (E & T & Z0); [|exact Hs]. rewrite E, <- app_assoc, readASN1_tlv by auto.
  destruct c as [|pad c]; [discriminate|]. destruct (_ || _ || _); [discriminate|]. intros [= <- <-]. reflexivity.
Qed.
(** ** C89: bytes the parser does not look at *)
(** inside the outer SEQUENCE, after the signature, anything is accepted: the certificate is the same except for Raw *)
Theorem C89_hidden_bytes : forall net der c extra, bytes_ok der -> ParseCertificate net der = Ret c -> zlen der + zlen extra < 2 ^ 31 ->
  exists content c', der = SEQ content /\ ParseCertificate net (SEQ (content ++ extra)) = Ret c' /\
    c' = mkCert (SEQ (content ++ extra)) (c_RawTBSCertificate c) (c_RawSubjectPublicKeyInfo c) (c_RawSubject c) (c_RawIssuer c) (c_Signature c) (c_SignatureAlgorithm c)
           (c_PublicKeyAlgorithm c) (c_PublicKey c) (c_Version c) (c_SerialNumber c) (c_Issuer c) (c_Subject c) (c_NotBefore c) (c_NotAfter c) (c_Extensions c) (c_Info c).
Proof.
  intros net der c extra Hb E Hz. pose proof (Parse_raw _ _ _ Hb E) as R. apply Parse_inv in E as [E _]. apply parse_inv in E as (r0 & ver & v & ai & ic & val & sc & pa & pk & tail & sigF & E & L & S); [|exact Hb].
  apply Forall_cons_iff in S as [S1 S2]. apply Forall_cons_iff in S2 as [S2 _]. destruct L as [Lraw Ltbs Lver Lvn Li Ls La Lval Lspki Lk Lt (b & r & Rb & Eb)].
  exists (c_RawTBSCertificate c ++ tlv T_SEQUENCE ai ++ sigF). eexists. split; [rewrite <- R; exact Lraw|]. split; [|reflexivity].
  remember (SEQ ((c_RawTBSCertificate c ++ tlv T_SEQUENCE ai ++ sigF) ++ extra)) as der' eqn:Eder.
  match goal with |- ParseCertificate net der' = Ret ?x => remember x as c' eqn:Ec end.
  assert (Er : c_Raw c' = der') by (subst c'; reflexivity).
  assert (P : parseCertificate net (c_Raw c' ++ []) = Ret c').
  { eapply (parse_ok net c' [] ver v ai ic val sc pa pk tail (sigF ++ extra)); [constructor; subst c'; cbn [c_Raw c_RawTBSCertificate c_SerialNumber c_RawIssuer c_RawSubject c_RawSubjectPublicKeyInfo c_Version c_Issuer c_Subject c_SignatureAlgorithm c_NotBefore c_NotAfter c_PublicKeyAlgorithm c_PublicKey c_Extensions c_Info c_Signature]; auto|].
    - rewrite Eder. unfold SEQ. rewrite <- !app_assoc. reflexivity.
    - exists b, (r ++ extra). split; [|exact Eb]. apply readBitString_app; auto. rewrite <- R, Lraw in Hb. rewrite <- (app_nil_r (tlv T_SEQUENCE _)) in Hb. apply tlv_bytes in Hb as [Hb _]. apply bytes_ok_app in Hb as [_ Hb]. apply bytes_ok_app in Hb. apply Hb.
    - assert (Z1 : zlen (c_RawTBSCertificate c ++ tlv T_SEQUENCE ai ++ sigF) <= zlen der) by (rewrite <- R, Lraw; apply tlv_ge).
      subst c'. cbn [c_Raw c_RawTBSCertificate c_SerialNumber c_RawIssuer c_RawSubject c_RawSubjectPublicKeyInfo]. unfold small. rewrite !Forall_cons_iff. split; [|split; [exact S2|constructor]].
      rewrite !app_assoc in *. rewrite (zlen_app _ extra). unfold max_content. pose proof (zlen_nonneg extra). lia. }
  rewrite app_nil_r, Er in P. unfold ParseCertificate. rewrite P. cbn [bind]. rewrite Er. now rewrite Nat.eqb_refl.
Qed.
Print Assumptions C89_hidden_bytes.

(** ** C73 for certificates *)
Lemma parseTail_info net ver tail l i : parseTail net ver tail = Ret (l, i) -> processExtensions net info0 l = Ret i.
Proof.
  unfold parseTail. destruct (1 <? ver); [|intros [= <- <-]; reflexivity]. intros E. apply bind_inv in E as (t1 & _ & E). apply bind_inv in E as (t2 & _ & E).
  destruct (ver =? 3); [|injection E as <- <-; reflexivity]. apply bind_inv in E as ([[p e] r] & _ & E). destruct p; [|injection E as <- <-; reflexivity].
  apply bind_inv in E as ([e' r'] & _ & E). apply bind_inv in E as (l' & _ & E). apply bind_inv in E as (i' & P & E). injection E as <- <-. exact P.
Qed.
Theorem C73_certificate : forall net der c, bytes_ok der -> ParseCertificate net der = Ret c ->
  exists m, sub (fun e => x_Critical e = true /\ not_understood net e) (c_Extensions c) m /\ i_Unhandled (c_Info c) = map x_Id m.
Proof.
  intros net der c Hb E. apply Parse_inv in E as [E _]. apply parse_inv in E as (r0 & ver & v & ai & ? & val & ? & ? & ? & tail & sigF & E & L & _); [|exact Hb].
  apply C73_unhandled. eapply parseTail_info. exact (lo_tail _ _ _ _ _ _ _ _ _ _ _ _ L).
Qed.
Print Assumptions C73_certificate.

(** ** an example: a version 3 certificate of an SM2 key with a key usage, an unknown critical and an unknown other extension *)
Definition net0 : netlib := mkNet (fun _ => None) (fun _ => false).
Definition example_der : bytes :=
[ 48; 129; 244; 48; 129; 218; 160; 3; 2; 1; 2; 2; 1; 1; 48; 10; 6; 8; 42; 129; 28; 207; 85; 1; 131; 117; 48; 13; 49; 11; 48; 9; 6; 3; 85; 4; 3; 19; 2;
67; 65; 48; 30; 23; 13; 50; 52; 48; 49; 48; 49; 48; 48; 48; 48; 48; 48; 90; 23; 13; 51; 52; 48; 49; 48; 49; 48; 48; 48; 48; 48; 48; 90; 48; 15; 49;
13; 48; 11; 6; 3; 85; 4; 3; 19; 4; 104; 111; 115; 116; 48; 89; 48; 19; 6; 7; 42; 134; 72; 206; 61; 2; 1; 6; 8; 42; 129; 28; 207; 85; 1; 130; 45; 3;
66; 0; 4; 50; 196; 174; 44; 31; 25; 129; 25; 95; 153; 4; 70; 106; 57; 201; 148; 143; 227; 11; 191; 242; 102; 11; 225; 113; 90; 69; 137; 51; 76; 116;
199; 188; 55; 54; 162; 244; 246; 119; 156; 89; 189; 206; 227; 107; 105; 33; 83; 208; 169; 135; 124; 198; 42; 71; 64; 2; 223; 50; 229; 33; 57; 240;
160; 163; 41; 48; 39; 48; 14; 6; 3; 85; 29; 15; 1; 1; 255; 4; 4; 3; 2; 1; 6; 48; 11; 6; 2; 42; 3; 1; 1; 255; 4; 2; 5; 0; 48; 8; 6; 2; 42; 4; 4; 2; 5;
0; 48; 10; 6; 8; 42; 129; 28; 207; 85; 1; 131; 117; 3; 9; 0; 48; 6; 2; 1; 1; 2; 1; 1 ].
Example certificate_instance : bytes_ok example_der /\ exists c, ParseCertificate net0 example_der = Ret c /\
  c_Version c = 3 /\ c_SerialNumber c = 1 /\ c_SignatureAlgorithm c = SM2WithSM3 /\ c_Subject c = [[mkATV [2; 5; 4; 3] (chars "host")]] /\
  c_NotBefore c = mkCivil 2024 1 1 0 0 0 0 /\ i_KeyUsage (c_Info c) = 96 /\ i_Unhandled (c_Info c) = [[1; 2; 3]] /\ List.length (c_Extensions c) = 3%nat.
Proof.
  split; [apply bytes_okb_spec; vm_compute; reflexivity|]. eexists. split; [vm_compute; reflexivity|]. repeat split; vm_compute; reflexivity.
Qed.
