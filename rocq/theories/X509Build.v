(** * Model of the writing side of x509/x509.go: extensions, certificates, requests and revocation lists *)
From Coq Require Import String.
From Verif Require Import Base Words Utf8 ECModel SM3Model SM2Model CryptoByte Asn1 KeysModel X509Model X509Sig.
Open Scope Z_scope.

(** ** Extension values *)
(** x509.go:1119-1124; [in] is a byte, shifts are byte shifts *)
Definition reverseBitsInAByte (b : Z) : Z :=
  let b1 := Z.lor (Z.shiftr b 4) (Z.land (Z.shiftl b 4) 0xff) in
  let b2 := Z.lor (Z.land (Z.shiftr b1 2) 0x33) (Z.land (Z.shiftl b1 2) 0xcc) in
  Z.lor (Z.land (Z.shiftr b2 1) 0x55) (Z.land (Z.shiftl b2 1) 0xaa).
(** x509.go:1135-1140: the inner loop; Some is the return of line 1137 *)
Fixpoint low_bit_loop (n : nat) (b bit bitLen : Z) : option Z * Z :=
  match n with
  | O => (None, bitLen)
  | S n' => if Z.land (Z.shiftr b bit) 1 =? 1 then (Some bitLen, bitLen) else low_bit_loop n' b (bit + 1) (bitLen - 1)
  end.
(** x509.go:1132-1141: the bytes from the last to the first *)
Fixpoint bitlen_loop (rev_bytes : bytes) (bitLen : Z) : Z :=
  match rev_bytes with
  | [] => 0
  | b :: r => match low_bit_loop 8 b 0 bitLen with (Some l, _) => l | (None, l) => bitlen_loop r l end
  end.
(** x509.go:1129-1144 *)
Definition asn1BitLength (bitString : bytes) : Z := bitlen_loop (rev bitString) (zlen bitString * 8).
(** x509.go:1167-1174 *)
Definition oidInExtensions (o : oid) (l : list Extension) : bool := existsb (fun e => oid_eqb (x_Id e) o) l.
(** net.IP.To4 *)
Definition v4InV6Prefix : bytes := [0; 0; 0; 0; 0; 0; 0; 0; 0; 0; 255; 255].
Definition IP_To4 (ip : bytes) : option bytes :=
  if (List.length ip =? 4)%nat then Some ip
  else if (List.length ip =? 16)%nat && bytes_eqb (firstn 12 ip) v4InV6Prefix then Some (skipn 12 ip)
  else None.
(** a context-specific primitive RawValue *)
Definition ctxRaw (tag : Z) (b : bytes) : rawValue := mkRaw 2 tag false (Some b) None.
Definition errIA5 : string := "x509: cannot be encoded as an IA5String".
(** x509.go:1178-1208: a name must be an IA5 string *)
Definition ia5Raw (tag : Z) (b : bytes) : outcome rawValue := if isIA5String b then Ret (ctxRaw tag b) else Err errIA5.
Definition marshalSANs (dnsNames emails ips : list bytes) (uris : list urlT) : outcome bytes :=
  do d <- mapM (ia5Raw nameTypeDNS) dnsNames;
  do e <- mapM (ia5Raw nameTypeEmail) emails;
  let i := map (fun ip => ctxRaw nameTypeIP (match IP_To4 ip with Some v4 => v4 | None => ip end)) ips in
  do u <- mapM (fun u => ia5Raw nameTypeURI (u_String u)) uris;
  Marshal (cSeqOf false cRaw) (Some (d ++ e ++ i ++ u)).
(** x509.go:1443-1462; byte(ku) and byte(ku>>8) of an int *)
Definition marshalKeyUsage (ku : Z) : outcome Extension :=
  let a0 := reverseBitsInAByte (ku mod 256) in
  let a1 := reverseBitsInAByte (Z.shiftr ku 8 mod 256) in
  let bitString := if negb (a1 =? 0) then [a0; a1] else [a0] in
  do v <- Marshal cBits (mkBits (Some bitString) (asn1BitLength bitString));
  Ret (mkExt oidExtensionKeyUsage true v).
(** x509.go:1464-1484 *)
Definition marshalExtKeyUsage (extUsages : list Z) (unknownUsages : list oid) : outcome Extension :=
  do oids <- mapM (fun u => match oidFromExtKeyUsage u with Some o => Ret o | None => Err "x509: unknown extended key usage" end) extUsages;
  do v <- Marshal (cSeqOf false cOID) (Some (oids ++ unknownUsages));
  Ret (mkExt oidExtensionExtendedKeyUsage false v).
(** x509.go:1083-1086 *)
Definition cBC : codec (bool * Z) :=
  cStruct (fcons optP cBool (fcons (defaultP (-1)) cInt fnil)) (fun '(a, (b, _)) => (a, b)) (fun '(a, b) => (a, (b, tt))).
(** x509.go:1486-1500: an error of Marshal is dropped (the value is then nil) *)
Definition marshalBasicConstraints (isCA : bool) (maxPathLen : Z) (maxPathLenZero : bool) : outcome Extension :=
  let maxPathLen := if (maxPathLen =? 0) && negb maxPathLenZero then -1 else maxPathLen in
  match Marshal cBC (isCA, maxPathLen) with
  | Ret v => Ret (mkExt oidExtensionBasicConstraints true v)
  | Err _ => Ret (mkExt oidExtensionBasicConstraints true [])
  | Panic => Panic
  end.
(** x509.go:1089-1092 *)
Definition cPolicy : codec oid := cStruct (fcons noP cOID fnil) (fun '(a, _) => a) (fun a => (a, tt)).
(** x509.go:1502-1514 *)
Definition marshalCertificatePolicies (l : list oid) : outcome Extension :=
  do v <- Marshal (cSeqOf false cPolicy) (Some l);
  Ret (mkExt oidExtensionCertificatePolicies false v).
(** x509.go:196-198 *)
Definition cAuthKeyId : codec (option bytes) := cStruct (fcons (optImplicitP 0) cBytes fnil) (fun '(a, _) => a) (fun a => (a, tt)).
(** x509.go:1102-1105 *)
Definition cAIA : codec (oid * rawValue) :=
  cStruct (fcons noP cOID (fcons noP cRaw fnil)) (fun '(a, (b, _)) => (a, b)) (fun '(a, b) => (a, (b, tt))).
(** x509.go:1271-1285 *)
Definition marshalAIA (ocsp issuing : list bytes) : outcome bytes :=
  Marshal (cSeqOf false cAIA) (Some (map (fun n => (oidAuthorityInfoAccessOcsp, ctxRaw 6 n)) ocsp ++
                                     map (fun n => (oidAuthorityInfoAccessIssuers, ctxRaw 6 n)) issuing)).
(** x509.go:1114-1117; RelativeName is always nil here and its type is left out *)
Definition cDPName : codec (option (list rawValue)) :=
  cStruct (fcons (optImplicitP 0) (cSeqOf false cRaw) (fcons (optImplicitP 1) (cSeqOf false cRaw) fnil)) (fun '(a, _) => a) (fun a => (a, (None, tt))).
(** x509.go:1108-1112 *)
Record distPoint := mkDP { dp_Name : option (list rawValue); dp_Reason : bitString; dp_Issuer : rawValue }.
Definition cDP : codec distPoint :=
  cStruct (fcons (optImplicitP 0) cDPName (fcons (optImplicitP 1) cBits (fcons (optImplicitP 2) cRaw fnil)))
    (fun '(a, (b, (c, _))) => mkDP a b c) (fun d => (dp_Name d, (dp_Reason d, (dp_Issuer d, tt)))).
(** x509.go:1417-1429 *)
Definition marshalCRLDP (names : list bytes) : outcome bytes :=
  Marshal (cSeqOf false cDP) (Some (map (fun n => mkDP (Some [ctxRaw 6 n]) (mkBits None 0) rawZero) names)).
(** net.IP.Mask *)
Definition all_ff (l : bytes) : bool := forallb (fun b => b =? 255) l.
Fixpoint and_bytes (a b : bytes) : bytes := match a, b with x :: a, y :: b => Z.land x y :: and_bytes a b | _, _ => [] end.
Definition IP_Mask (ip mask : bytes) : bytes :=
  let mask := if (List.length mask =? 16)%nat && (List.length ip =? 4)%nat && all_ff (firstn 12 mask) then skipn 12 mask else mask in
  let ip := if (List.length mask =? 4)%nat && (List.length ip =? 16)%nat && bytes_eqb (firstn 12 ip) v4InV6Prefix then skipn 12 ip else ip in
  if (List.length ip =? List.length mask)%nat then and_bytes ip mask else [].
(** x509.go:1323-1329 *)
Definition ipAndMask (n : IPNet) : bytes := IP_Mask (ipn_IP n) (ipn_Mask n) ++ ipn_Mask n.
(** x509.go:1339-1343: SEQUENCE { [tag] value } *)
Definition subtree (tag : Z) (v : bytes) : outcome bytes := do b <- addASN1 (ctx tag) v; addASN1 T_SEQUENCE b.
Definition ia5Subtree (tag : Z) (v : bytes) : outcome bytes := if isIA5String v then subtree tag v else Err errIA5.
(** x509.go:1331-1379.  (The Builder reports its errors only at the end, after the IA5String checks: only the choice among
    two errors differs.) *)
Definition serialiseConstraints (c : constraints) : outcome bytes :=
  do d <- mapM (ia5Subtree 2) (nc_DNS c);
  do i <- mapM (fun n => subtree 7 (ipAndMask n)) (nc_IP c);
  do e <- mapM (ia5Subtree 1) (nc_Email c);
  do u <- mapM (ia5Subtree 6) (nc_URI c);
  Ret (List.concat (d ++ i ++ e ++ u)).
(** x509.go:1391-1406 *)
Definition marshalNC (p x : constraints) : outcome bytes :=
  do permitted <- serialiseConstraints p;
  do excluded <- serialiseConstraints x;
  do a <- match permitted with [] => Ret [] | _ => addASN1 (ctxc 0) permitted end;
  do b <- match excluded with [] => Ret [] | _ => addASN1 (ctxc 1) excluded end;
  addASN1 T_SEQUENCE (a ++ b).

(** ** Templates *)
(** x509.go:814-914: the fields of the template and of the parent that CreateCertificate reads.  Subject stands for
    Subject.ToRDNSequence(), the times for their UTC() civil fields; URIs and names are those of [tp_Info]. *)
Record Template := mkTmpl {
  tp_SerialNumber : option Z; tp_SignatureAlgorithm : Z;
  tp_RawSubject : bytes; tp_Subject : RDNSequence;
  tp_NotBefore : civil; tp_NotAfter : civil;
  tp_Info : extInfo; tp_ExtraExtensions : list Extension;
  tp_PublicKey : option pubKey }.
Definition isnil {A} (l : list A) : bool := match l with [] => true | _ => false end.
Definition san_empty (s : SANs) : bool := isnil (san_DNS s) && isnil (san_Email s) && isnil (san_IP s) && isnil (san_URI s).
Definition nc_empty (c : constraints) : bool := isnil (nc_DNS c) && isnil (nc_IP c) && isnil (nc_Email c) && isnil (nc_URI c).
(** one conditional block of buildCertExtensions: nothing, or one extension *)
Definition block (cond : bool) (o : oid) (extra : list Extension) (mk : outcome Extension) : outcome (list Extension) :=
  if cond && negb (oidInExtensions o extra) then do e <- mk; Ret [e] else Ret [].
(** x509.go:1221-1441; at most ten extensions are built, so the array index never overflows *)
Definition buildCertExtensions (t : Template) (subjectIsEmpty : bool) (authorityKeyId subjectKeyId : bytes) : outcome (list Extension) :=
  let i := tp_Info t in
  let extra := tp_ExtraExtensions t in
  let value (o : oid) (crit : bool) (v : outcome bytes) : outcome Extension := do b <- v; Ret (mkExt o crit b) in
  do e1 <- block (negb (i_KeyUsage i =? 0)) oidExtensionKeyUsage extra (marshalKeyUsage (i_KeyUsage i));
  do e2 <- block (negb (isnil (i_ExtKeyUsage i)) || negb (isnil (i_UnknownExtKeyUsage i))) oidExtensionExtendedKeyUsage extra
             (marshalExtKeyUsage (i_ExtKeyUsage i) (i_UnknownExtKeyUsage i));
  do e3 <- block (i_BasicConstraintsValid i) oidExtensionBasicConstraints extra
             (marshalBasicConstraints (i_IsCA i) (i_MaxPathLen i) (i_MaxPathLenZero i));
  do e4 <- block (negb (isnil subjectKeyId)) oidExtensionSubjectKeyId extra
             (value oidExtensionSubjectKeyId false (Marshal cBytes (Some subjectKeyId)));
  do e5 <- block (negb (isnil authorityKeyId)) oidExtensionAuthorityKeyId extra
             (value oidExtensionAuthorityKeyId false (Marshal cAuthKeyId (Some authorityKeyId)));
  do e6 <- block (negb (isnil (i_OCSPServer i)) || negb (isnil (i_IssuingCertificateURL i))) oidExtensionAuthorityInfoAccess extra
             (value oidExtensionAuthorityInfoAccess false (marshalAIA (i_OCSPServer i) (i_IssuingCertificateURL i)));
  do e7 <- block (negb (san_empty (i_SAN i))) oidExtensionSubjectAltName extra
             (value oidExtensionSubjectAltName subjectIsEmpty
                (marshalSANs (san_DNS (i_SAN i)) (san_Email (i_SAN i)) (san_IP (i_SAN i)) (san_URI (i_SAN i))));
  do e8 <- block (negb (isnil (i_PolicyIdentifiers i))) oidExtensionCertificatePolicies extra (marshalCertificatePolicies (i_PolicyIdentifiers i));
  do e9 <- block (negb (nc_empty (i_Permitted i)) || negb (nc_empty (i_Excluded i))) oidExtensionNameConstraints extra
             (value oidExtensionNameConstraints (i_PermittedDNSDomainsCritical i) (marshalNC (i_Permitted i) (i_Excluded i)));
  do e10 <- block (negb (isnil (i_CRLDistributionPoints i))) oidExtensionCRLDistributionPoints extra
             (value oidExtensionCRLDistributionPoints false (marshalCRLDP (i_CRLDistributionPoints i)));
  Ret (e1 ++ e2 ++ e3 ++ e4 ++ e5 ++ e6 ++ e7 ++ e8 ++ e9 ++ e10 ++ extra).

(** ** encoding/asn1 strings and times (marshalling only) *)
(** marshal.go isPrintable with rejectAsterisk and rejectAmpersand *)
Definition printable_strict (r : Z) : bool := isPrintable r && negb (r =? 42) && negb (r =? 38).
(** marshal.go makeField for a string without a string type *)
Definition marshalString (s : bytes) : outcome bytes :=
  if forallb (fun r => (r <? 128) && printable_strict r) (runes s) then Ret (hdr ClassUniversal 19 false (zlen s) ++ s)
  else if utf8_valid s then Ret (hdr ClassUniversal 12 false (zlen s) ++ s)
  else Err "asn1: string not valid UTF-8".
Definition cStr : codec bytes :=
  Codec false 19 false [] (fun s => isnil s) (fun _ => None) (fun _ _ => false) (fun _ => false) (fun s => Some (marshalString s))
    (fun _ _ => Err "") (fun _ _ _ => Err "not modelled").
(** pkix.AttributeTypeAndValue with a string value *)
Definition cATV : codec ATV :=
  cStruct (fcons noP cOID (fcons noP cStr fnil)) (fun '(a, (b, _)) => mkATV a b) (fun a => (atv_Type a, (atv_Value a, tt))).
(** pkix.RDNSequence: a SEQUENCE OF RelativeDistinguishedNameSET (a SET OF by its name) *)
Definition marshalName (n : RDNSequence) : outcome bytes := Marshal (cSeqOf false (cSeqOf true cATV)) (Some (map Some n)).
(** marshal.go appendTwoDigitInt, for 0 <= v *)
Definition two_digits (v : Z) : bytes := [48 + (v / 10) mod 10; 48 + v mod 10].
(** marshal.go appendTimeCommon, for a time in UTC *)
Definition time_common (t : civil) : bytes :=
  two_digits (t_Month t) ++ two_digits (t_Day t) ++ two_digits (t_Hour t) ++ two_digits (t_Min t) ++ two_digits (t_Sec t) ++ [90].
(** marshal.go makeField, makeUTCTime, makeGeneralizedTime, for a time in UTC *)
Definition marshalTime (t : civil) : outcome bytes :=
  let y := t_Year t in
  if (y <? 1950) || (2050 <=? y) then
    if (y <? 0) || (9999 <? y) then Err "cannot represent time as GeneralizedTime"
    else let c := two_digits (y / 100) ++ two_digits (y mod 100) ++ time_common t in Ret (hdr ClassUniversal 24 false (zlen c) ++ c)
  else let c := two_digits (if y <? 2000 then y - 1900 else y - 2000) ++ time_common t in Ret (hdr ClassUniversal 23 false (zlen c) ++ c).
Definition zeroTime : civil := mkCivil 1 1 1 0 0 0 0.
Definition civil_eqb (a b : civil) : bool :=
  (t_Year a =? t_Year b) && (t_Month a =? t_Month b) && (t_Day a =? t_Day b) && (t_Hour a =? t_Hour b) && (t_Min a =? t_Min b) &&
  (t_Sec a =? t_Sec b) && (t_Off a =? t_Off b).
Definition cTime : codec civil :=
  Codec false 23 false zeroTime (fun t => civil_eqb t zeroTime) (fun _ => None) (fun _ _ => false) (fun _ => false) (fun t => Some (marshalTime t))
    (fun _ _ => Err "") (fun _ _ _ => Err "not modelled").
(** pkix.Extension *)
Definition cExt : codec Extension :=
  cStruct (fcons noP cOID (fcons optP cBool (fcons noP cBytes fnil)))
    (fun '(a, (b, (c, _))) => mkExt a b (sl c)) (fun e => (x_Id e, (x_Critical e, (Some (x_Value e), tt)))).

(** ** CreateCertificate *)
(** x509.go:1535-1541 *)
Definition subjectBytes (t : Template) : outcome bytes :=
  match tp_RawSubject t with [] => marshalName (tp_Subject t) | r => Ret r end.
(** x509.go:185-187 *)
Definition cValidity : codec (civil * civil) :=
  cStruct (fcons noP cTime (fcons noP cTime fnil)) (fun '(a, (b, _)) => (a, b)) (fun '(a, b) => (a, (b, tt))).
(** x509.go:167-179 *)
Record tbsCert := mkTbs {
  tc_Raw : option bytes; tc_Version : Z; tc_Serial : option Z; tc_SigAlg : AI; tc_Issuer : rawValue; tc_Validity : civil * civil;
  tc_Subject : rawValue; tc_PublicKey : publicKeyInfo; tc_UniqueId : bitString; tc_SubjectUniqueId : bitString;
  tc_Extensions : option (list Extension) }.
Definition cTbs : codec tbsCert :=
  cStructRaw
    (fcons (mkP true true (Some 0) false (Some 0) false) cInt (fcons noP cBig (fcons noP cAI (fcons noP cRaw (fcons noP cValidity (fcons noP cRaw
      (fcons noP cPKI (fcons (optImplicitP 1) cBits (fcons (optImplicitP 2) cBits (fcons (optExplicitP 3) (cSeqOf false cExt) fnil))))))))))
    (fun raw '(v, (s, (a, (i, (va, (su, (pk, (u, (w, (e, _)))))))))) => mkTbs raw v s a i va su pk u w e) tc_Raw
    (fun t => (tc_Version t, (tc_Serial t, (tc_SigAlg t, (tc_Issuer t, (tc_Validity t, (tc_Subject t, (tc_PublicKey t,
       (tc_UniqueId t, (tc_SubjectUniqueId t, (tc_Extensions t, tt))))))))))).
(** x509.go:160-165 *)
Record certStruct := mkCS { cs_Raw : option bytes; cs_Tbs : tbsCert; cs_Alg : AI; cs_Sig : bitString }.
Definition cCert : codec certStruct :=
  cStructRaw (fcons noP cTbs (fcons noP cAI (fcons noP cBits fnil))) (fun raw '(t, (a, (s, _))) => mkCS raw t a s) cs_Raw
    (fun c => (cs_Tbs c, (cs_Alg c, (cs_Sig c, tt)))).
Definition noBits : bitString := mkBits None 0.
Definition fullBits (b : bytes) : bitString := mkBits (Some b) (zlen b * 8).
(** a crypto.Signer: its public key, and Sign on a random stream, a digest and the options (hash number; PSS?) *)
Record Signer := mkSigner { sg_Public : pubKey; sg_Sign : bytes -> bytes -> Z * bool -> outcome bytes }.
(** a private key as an interface value: *sm2.PrivateKey has a method Sign(rand, in, uid), which is not that of crypto.Signer
    (sm2.go:115) *)
Inductive anyPriv := ASigner (s : Signer) | ASM2 (k : PrivateKey) | AOther.
Definition asSigner (p : anyPriv) : option Signer := match p with ASigner s => Some s | _ => None end.
(** PublicKey.Equal of the supported key types *)
Definition pub_Equal (a b : pubKey) : bool :=
  match a, b with
  | PKrsa n e, PKrsa n' e' => (n =? n') && (e =? e')
  | PKecdsa c x y, PKecdsa c' x' y' => (x =? x') && (y =? y') && (c =? c')
  | PKsm2 k, PKsm2 k' => PublicKey_Equal k (Some k')
  | PKed25519 k, PKed25519 k' => bytes_eqb k k'
  | _, _ => false
  end.
Definition errNotSigner : string := "x509: certificate private key does not implement crypto.Signer".
(** x509.go:1627 *)
Definition emptyASN1Subject : bytes := [48; 0].
Section Prims.
Variable P : sigPrims.
(** the digest handed to the signer: the message itself when there is no hash *)
Definition toSign (hashFunc : Z) (msg : bytes) : outcome bytes := if hashFunc =? 0 then Ret msg else hashSum P hashFunc msg.
(** x509.go:1740-1755: the TBS structure *)
Definition tbsOf (t : Template) (sigAlg : AI) (issuer subject : bytes) (pkBytes : bytes) (pkAlg : AI) (exts : list Extension) : tbsCert :=
  mkTbs None 2 (tp_SerialNumber t) sigAlg (mkRaw 0 0 false None (Some issuer)) (tp_NotBefore t, tp_NotAfter t)
    (mkRaw 0 0 false None (Some subject)) (mkPKI None pkAlg (fullBits pkBytes)) noBits noBits (Some exts).
(** x509.go:1757-1806: encode, sign, encode, check.  (crypto/sha1 of line 1726 is [hash_fn] of SHA-1's number.) *)
Definition signCert (rand : bytes) (key : Signer) (hashFunc : Z) (pss : bool) (sigAlg : AI) (c : tbsCert) : outcome bytes :=
  do tbs <- Marshal cTbs c;
  do signed <- toSign hashFunc tbs;
  do signature <- sg_Sign key rand signed (hashFunc, pss);
  do der <- Marshal cCert (mkCS None (mkTbs (Some tbs) (tc_Version c) (tc_Serial c) (tc_SigAlg c) (tc_Issuer c) (tc_Validity c) (tc_Subject c)
                                       (tc_PublicKey c) (tc_UniqueId c) (tc_SubjectUniqueId c) (tc_Extensions c)) sigAlg (fullBits signature));
  let alg := getSignatureAlgorithmFromAI sigAlg in
  if (alg =? MD5WithRSA) || (alg =? SHA1WithRSA) || (alg =? ECDSAWithSHA1) then Ret der else
  match checkSignature P alg tbs signature (sg_Public key) with
  | Ret _ => Ret der
  | Err e => Err (errcat "x509: signature over certificate returned by signer is invalid: " e)
  | Panic => Panic
  end.
(** x509.go:1715-1728 *)
Definition chooseAKI (t parent : Template) (issuer subject : bytes) : bytes :=
  if negb (bytes_eqb issuer subject) && negb (isnil (i_SubjectKeyId (tp_Info parent))) then i_SubjectKeyId (tp_Info parent)
  else i_AuthorityKeyId (tp_Info t).
Definition chooseSKI (t : Template) (pkBytes : bytes) : bytes :=
  if isnil (i_SubjectKeyId (tp_Info t)) && i_IsCA (tp_Info t) then hash_fn P H_SHA1 pkBytes else i_SubjectKeyId (tp_Info t).
(** x509.go:1681-1807 *)
Definition CreateCertificate (rand : bytes) (t parent : Template) (pub : pubKey) (priv : anyPriv) : outcome bytes :=
  match asSigner priv with
  | None => Err errNotSigner
  | Some key =>
      match tp_SerialNumber t with
      | None => Err "x509: no SerialNumber given"
      | Some _ =>
          let i := tp_Info t in
          if i_BasicConstraintsValid i && negb (i_IsCA i) && negb (i_MaxPathLen i =? -1) && (negb (i_MaxPathLen i =? 0) || i_MaxPathLenZero i)
          then Err "x509: only CAs are allowed to specify MaxPathLen" else
          do (hashFunc, sigAlg) <- signingParamsForPublicKey (sg_Public key) (tp_SignatureAlgorithm t);
          do (pkBytes, pkAlg) <- marshalPublicKey pub;
          do issuer <- subjectBytes parent;
          do subject <- subjectBytes t;
          if match tp_PublicKey parent with Some pk => negb (pub_Equal (sg_Public key) pk) | None => false end
          then Err "x509: provided PrivateKey doesn't match parent's PublicKey" else
          do exts <- buildCertExtensions t (bytes_eqb subject emptyASN1Subject) (chooseAKI t parent issuer subject) (chooseSKI t pkBytes);
          signCert rand key hashFunc (isRSAPSS (tp_SignatureAlgorithm t)) sigAlg (tbsOf t sigAlg issuer subject pkBytes pkAlg exts)
      end
  end.
End Prims.
