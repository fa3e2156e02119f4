(** * Model of the revocation lists and certificate requests of x509/x509.go *)
From Coq Require Import String.
From Verif Require Import Base Words Utf8 ECModel SM3Model SM2Model CryptoByte Asn1 KeysModel X509Model X509Sig X509Build.
Open Scope Z_scope.

(** ** encoding/asn1: interface{} values and times *)
(** a time.Time in UTC: civil fields and nanoseconds (the library's monotonic reading is left out) *)
Record timeT := mkTime { tm_civil : civil; tm_ns : Z }.
Definition timeZero : timeT := mkTime zeroTime 0.
(** time.Time.Before, for two times in UTC *)
Definition civil_list (t : timeT) : list Z :=
  [t_Year (tm_civil t); t_Month (tm_civil t); t_Day (tm_civil t); t_Hour (tm_civil t); t_Min (tm_civil t); t_Sec (tm_civil t); tm_ns t].
Fixpoint lex_ltb (a b : list Z) : bool :=
  match a, b with
  | x :: a, y :: b => (x <? y) || ((x =? y) && lex_ltb a b)
  | _, _ => false
  end.
Definition time_Before (a b : timeT) : bool := lex_ltb (civil_list a) (civil_list b).
(** asn1.go parseUTCTime, parseGeneralizedTime (Go 1.18; same formats as parser.go) *)
Definition asn1_UTCTime (s : bytes) : outcome timeT :=
  match (match parse_utc false s with Some t => Some t | None => parse_utc true s end) with
  | None => Err "asn1: malformed UTCTime"
  | Some t => Ret (mkTime (if 2050 <=? t_Year t then mkCivil (t_Year t - 100) (t_Month t) (t_Day t) (t_Hour t) (t_Min t) (t_Sec t) (t_Off t) else t) 0)
  end.
Definition asn1_GeneralizedTime (s : bytes) : outcome timeT :=
  match parse_generalized s with Some t => Ret (mkTime t 0) | None => Err "asn1: malformed GeneralizedTime" end.
(** time.Time as encoding/asn1 sees it once the header has told which of the two tags is there (asn1.go parseField: "Special
    case for time: UTCTime and GeneralizedTime both map to the Go type time.Time") *)
Definition cTimeAs (tag : Z) (dec : bytes -> outcome timeT) : codec timeT :=
  Codec false tag false timeZero (fun t => civil_eqb (tm_civil t) zeroTime && (tm_ns t =? 0)) (fun _ => None) (fun _ _ => false) (fun _ => false)
    (fun t => Some (marshalTime (tm_civil t))) (fun _ _ => Err "") (fun _ _ b => dec b).
Definition cUTC : codec timeT := cTimeAs 23 asn1_UTCTime.
Definition cGeneralized : codec timeT := cTimeAs 24 asn1_GeneralizedTime.
Definition timeCodec (s : bytes) : codec timeT :=
  match parseTagAndLength s with
  | Ret (t, _) => if (t_class t =? ClassUniversal) && (t_tag t =? 24) then cGeneralized else cUTC
  | _ => cUTC
  end.
(** a struct field of type time.Time *)
Definition fconsTime {B} (p : params) (fs : fcodec B) : fcodec (timeT * B) :=
  FC (timeZero, f_zero fs) (fun ab => c_iszero cUTC (fst ab) && f_iszero fs (snd ab))
     (fun ab => do x <- makeField cUTC p (fst ab); do y <- f_enc fs (snd ab); Ret (x ++ y))
     (fun s => do (a, r) <- parseField (timeCodec s) p s; do b <- f_dec fs r; Ret (a, b)).
(** interface{}: the Go values encoding/asn1 stores in one, and nil *)
Inductive anyVal := VNone | VStr (s : bytes) | VInt (n : Z) | VBits (b : bitString) | VOid (o : oid) | VTime (t : timeT) | VBytes (b : bytes).
(** marshal.go makeField on the value in the interface *)
Definition marshalAny (v : anyVal) : outcome bytes :=
  match v with
  | VNone => Err "asn1: structure error: cannot marshal nil value"
  | VStr s => marshalString s
  | VInt n => makeField cInt noP n
  | VBits b => makeField cBits noP b
  | VOid o => makeField cOID noP o
  | VTime t => makeField cUTC noP t
  | VBytes b => makeField cBytes noP (Some b)
  end.
(** asn1.go parsePrintableString, parseNumericString, parseIA5String, parseT61String, parseUTF8String, parseBMPString:
    parser.go's parseASN1String accepts the same strings (its model is reused; only the IA5 check is written differently:
    byte >= RuneSelf there, rune > MaxASCII here).  asn1.go parseField, case interface{}; whether GeneralizedTime is in the
    switch depends on the Go release and no theorem relies on it. *)
Definition parseAny (t : tagLen) (b : bytes) : outcome anyVal :=
  if t_comp t || negb (t_class t =? ClassUniversal) then Ret VNone else
  let tg := t_tag t in
  if (tg =? 19) || (tg =? 18) || (tg =? 20) || (tg =? 12) || (tg =? 30) then do s <- parseASN1String tg b; Ret (VStr s)
  else if tg =? 22 then (if forallb (fun x => x <? 128) b then Ret (VStr b) else Err "asn1: syntax error: IA5String contains invalid character")
  else if tg =? TagInteger then do n <- int_parse b; Ret (VInt n)
  else if tg =? TagBitString then do x <- bits_parse b; Ret (VBits x)
  else if tg =? TagOID then do o <- oid_parse b; Ret (VOid o)
  else if tg =? 23 then do x <- asn1_UTCTime b; Ret (VTime x)
  else if tg =? 24 then do x <- asn1_GeneralizedTime b; Ret (VTime x)
  else if tg =? TagOctetString then Ret (VBytes b)
  else Ret VNone.
Definition cAny : codec anyVal :=
  Codec true (-1) false VNone (fun v => match v with VNone => true | _ => false end) (fun _ => None) (fun _ _ => false) (fun _ => false)
    (fun v => Some (marshalAny v)) (fun _ _ => Err "") (fun t _ b => parseAny t b).

(** ** crypto/x509/pkix *)
(** pkix.AttributeTypeAndValue, pkix.RelativeDistinguishedNameSET, pkix.RDNSequence; a nil slice is None *)
Record ATVa := mkATVa { aa_Type : oid; aa_Value : anyVal }.
Definition cATVa : codec ATVa :=
  cStruct (fcons noP cOID (fcons noP cAny fnil)) (fun '(a, (b, _)) => mkATVa a b) (fun a => (aa_Type a, (aa_Value a, tt))).
Definition RDNs := option (list (option (list ATVa))).
Definition cRDNs : codec RDNs := cSeqOf false (cSeqOf true cATVa).
(** a Subject.ToRDNSequence() with string values *)
Definition rdns_of (n : RDNSequence) : RDNs := Some (map (fun rdn => Some (map (fun a => mkATVa (atv_Type a) (VStr (atv_Value a))) rdn)) n).
(** pkix.RevokedCertificate *)
Record revoked := mkRev { rc_Serial : option Z; rc_Time : timeT; rc_Extensions : option (list Extension) }.
Definition cRevoked : codec revoked :=
  cStruct (fcons noP cBig (fconsTime noP (fcons optP (cSeqOf false cExt) fnil))) (fun '(a, (b, (c, _))) => mkRev a b c)
    (fun r => (rc_Serial r, (rc_Time r, (rc_Extensions r, tt)))).
(** pkix.TBSCertificateList *)
Record tbsCRL := mkTbsCRL {
  tl_Raw : option bytes; tl_Version : Z; tl_Signature : AI; tl_Issuer : RDNs; tl_ThisUpdate : timeT; tl_NextUpdate : timeT;
  tl_Revoked : option (list revoked); tl_Extensions : option (list Extension) }.
Definition cTbsCRL : codec tbsCRL :=
  cStructRaw
    (fcons (defaultP 0) cInt (fcons noP cAI (fcons noP cRDNs (fconsTime noP (fconsTime optP (fcons optP (cSeqOf false cRevoked)
      (fcons (optExplicitP 0) (cSeqOf false cExt) fnil)))))))
    (fun raw '(v, (a, (i, (t, (n, (r, (e, _))))))) => mkTbsCRL raw v a i t n r e) tl_Raw
    (fun t => (tl_Version t, (tl_Signature t, (tl_Issuer t, (tl_ThisUpdate t, (tl_NextUpdate t, (tl_Revoked t, (tl_Extensions t, tt)))))))).
(** pkix.CertificateList *)
Record certList := mkCRL { cl_TBS : tbsCRL; cl_Alg : AI; cl_Sig : bitString }.
Definition cCertList : codec certList :=
  cStruct (fcons noP cTbsCRL (fcons noP cAI (fcons noP cBits fnil))) (fun '(t, (a, (s, _))) => mkCRL t a s)
    (fun c => (cl_TBS c, (cl_Alg c, (cl_Sig c, tt)))).

(** ** Revocation lists *)
(** x509.go:1833-1841 *)
Definition ParseDERCRL (der : bytes) : outcome certList :=
  do (l, rest) <- Unmarshal cCertList der;
  match rest with [] => Ret l | _ => Err "x509: trailing data after CRL" end.
(** x509.go:1072-1075 *)
Definition CheckCRL (P : sigPrims) (c : Certificate) (l : certList) : outcome unit :=
  CheckCRLSignature P c (cl_Alg l) (sl (tl_Raw (cl_TBS l))) (cl_Sig l).
(** x509.go:1157 *)
Definition oidExtensionCRLNumber : oid := [2; 5; 29; 20].
Section Prims.
Variable P : sigPrims.
(** x509.go:1889-1906, 2395-2418: sign the encoded TBSCertificateList and encode the list; [input] is what is handed to the
    signer *)
Definition signCRL (rand : bytes) (key : Signer) (opts : Z * bool) (input : bytes -> outcome bytes) (sigAlg : AI) (t : tbsCRL) : outcome bytes :=
  do tbs <- Marshal cTbsCRL t;
  do signed <- input tbs;
  do signature <- sg_Sign key rand signed opts;
  Marshal cCertList (mkCRL t sigAlg (fullBits signature)).
(** the fields of an issuer certificate that are read: KeyUsage, SubjectKeyId, Subject.ToRDNSequence() *)
Record Issuer := mkIssuer { is_KeyUsage : Z; is_SubjectKeyId : bytes; is_Subject : RDNSequence }.
(** x509.go:1877-1885, 2356-2359 *)
Definition akiExt (ski : bytes) : outcome Extension := do v <- Marshal cAuthKeyId (Some ski); Ret (mkExt oidExtensionAuthorityKeyId false v).
(** x509.go:1846-1907: a method of the issuing certificate.  The times are given in UTC (lines 1858-1873). *)
Definition CreateCRL (c : Issuer) (rand : bytes) (priv : anyPriv) (revokedCerts : list revoked) (now expiry : timeT) : outcome bytes :=
  match asSigner priv with
  | None => Err errNotSigner
  | Some key =>
      do (hashFunc, sigAlg) <- signingParamsForPublicKey (sg_Public key) 0;
      do exts <- (if isnil (is_SubjectKeyId c) then Ret None else do a <- akiExt (is_SubjectKeyId c); Ret (Some [a]));
      signCRL rand key (hashFunc, false)
        (fun tbs => if negb (hashFunc =? 0) && negb (hashFunc =? H_SM3) then hashSum P hashFunc tbs else Ret tbs) sigAlg
        (mkTbsCRL None 1 sigAlg (rdns_of (is_Subject c)) now expiry (Some revokedCerts) exts)
  end.
(** x509.go:2285-2310 *)
Record RevocationList := mkRL {
  rl_SignatureAlgorithm : Z; rl_Revoked : list revoked; rl_Number : option Z; rl_ThisUpdate : timeT; rl_NextUpdate : timeT;
  rl_ExtraExtensions : list Extension }.
(** x509.go:2324-2419; the static type of priv is crypto.Signer *)
Definition CreateRevocationList (rand : bytes) (template : option RevocationList) (issuer : option Issuer) (priv : Signer) : outcome bytes :=
  match template with
  | None => Err "x509: template can not be nil"
  | Some t =>
  match issuer with
  | None => Err "x509: issuer can not be nil"
  | Some iss =>
  if Z.land (is_KeyUsage iss) KeyUsageCRLSign =? 0 then Err "x509: issuer must have the crlSign key usage bit set" else
  if isnil (is_SubjectKeyId iss) then Err "x509: issuer certificate doesn't contain a subject key identifier" else
  if time_Before (rl_NextUpdate t) (rl_ThisUpdate t) then Err "x509: template.ThisUpdate is after template.NextUpdate" else
  match rl_Number t with
  | None => Err "x509: template contains nil Number field"
  | Some number =>
  do (hashFunc, sigAlg) <- signingParamsForPublicKey (sg_Public priv) (rl_SignatureAlgorithm t);
  do aki <- akiExt (is_SubjectKeyId iss);
  do num <- Marshal cBig (Some number);
  signCRL rand priv (hashFunc, isRSAPSS (rl_SignatureAlgorithm t)) (toSign P hashFunc) sigAlg
    (mkTbsCRL None 1 sigAlg (rdns_of (is_Subject iss)) (rl_ThisUpdate t) (rl_NextUpdate t)
       (match rl_Revoked t with [] => None | l => Some l end)
       (Some ([aki; mkExt oidExtensionCRLNumber false num] ++ rl_ExtraExtensions t)))
  end end end.

(** ** Certificate requests *)
(** pkix.AttributeTypeAndValueSET: a type and a SET OF SEQUENCE OF AttributeTypeAndValue *)
Record ATVset := mkATVset { as_Type : oid; as_Value : option (list (option (list ATVa))) }.
Definition cATVset : codec ATVset :=
  cStruct (fcons noP cOID (fcons setP (cSeqOf false (cSeqOf false cATVa)) fnil)) (fun '(a, (b, _)) => mkATVset a b)
    (fun s => (as_Type s, (as_Value s, tt))).
(** x509.go:1956-1962 *)
Record tbsCSR := mkTbsCSR { tr_Raw : option bytes; tr_Version : Z; tr_Subject : rawValue; tr_PublicKey : publicKeyInfo; tr_Attributes : option (list rawValue) }.
Definition cTbsCSR : codec tbsCSR :=
  cStructRaw (fcons noP cInt (fcons noP cRaw (fcons noP cPKI (fcons (implicitP 0) (cSeqOf false cRaw) fnil))))
    (fun raw '(v, (s, (k, (a, _)))) => mkTbsCSR raw v s k a) tr_Raw (fun t => (tr_Version t, (tr_Subject t, (tr_PublicKey t, (tr_Attributes t, tt))))).
(** x509.go:1964-1969 *)
Record csrStruct := mkCsr { cr_Raw : option bytes; cr_TBS : tbsCSR; cr_Alg : AI; cr_Sig : bitString }.
Definition cCsr : codec csrStruct :=
  cStructRaw (fcons noP cTbsCSR (fcons noP cAI (fcons noP cBits fnil))) (fun raw '(t, (a, (s, _))) => mkCsr raw t a s) cr_Raw
    (fun c => (cr_TBS c, (cr_Alg c, (cr_Sig c, tt)))).
(** x509.go:1973 *)
Definition oidExtensionRequest : oid := [1; 2; 840; 113549; 1; 9; 14].
(** x509.go:1977-1991.  (Unmarshal of an empty attribute list gives an empty slice.) *)
Definition newRawAttributes (attributes : list ATVset) : outcome (list rawValue) :=
  do b <- Marshal (cSeqOf false cATVset) (Some attributes);
  do (l, rest) <- Unmarshal (cSeqOf false cRaw) b;
  match rest with [] => Ret (match l with Some l => l | None => [] end) | _ => Err "x509: failed to unmarshal raw CSR Attributes" end.
(** x509.go:1994-2006 *)
Fixpoint parseRawAttributes (raws : list rawValue) : outcome (list ATVset) :=
  match raws with
  | [] => Ret []
  | r :: l =>
      match Unmarshal cATVset (sl (rv_full r)) with
      | Ret (a, []) => do m <- parseRawAttributes l; Ret (a :: m)
      | Panic => Panic
      | _ => parseRawAttributes l
      end
  end.
(** x509.go:2012-2015 *)
Definition cP10Attr : codec (oid * option (list rawValue)) :=
  cStruct (fcons noP cOID (fcons setP (cSeqOf false cRaw) fnil)) (fun '(a, (b, _)) => (a, b)) (fun '(a, b) => (a, (b, tt))).
(** x509.go:2010-2037 *)
Fixpoint parseCSRExtensions (raws : list rawValue) : outcome (list Extension) :=
  match raws with
  | [] => Ret []
  | r :: l =>
      match Unmarshal cP10Attr (sl (rv_full r)) with
      | Ret ((id, Some (v :: _)), []) =>
          if negb (oid_eqb id oidExtensionRequest) then parseCSRExtensions l else
          do (e, _) <- Unmarshal (cSeqOf false cExt) (sl (rv_full v));
          do m <- parseCSRExtensions l; Ret (match e with Some e => e | None => [] end ++ m)
      | Panic => Panic
      | _ => parseCSRExtensions l
      end
  end.
(** x509.go:1910-1953: the fields of a CertificateRequest; those of a template that CreateCertificateRequest reads *)
Record CSRTemplate := mkCSRT {
  ct_SignatureAlgorithm : Z; ct_RawSubject : bytes; ct_Subject : RDNSequence; ct_SAN : SANs; ct_ExtraExtensions : list Extension;
  ct_Attributes : list ATVset }.
(** x509.go:1516-1533 *)
Definition buildCSRExtensions (t : CSRTemplate) : outcome (list Extension) :=
  do s <- block (negb (san_empty (ct_SAN t))) oidExtensionSubjectAltName (ct_ExtraExtensions t)
            (do v <- marshalSANs (san_DNS (ct_SAN t)) (san_Email (ct_SAN t)) (san_IP (ct_SAN t)) (san_URI (ct_SAN t));
             Ret (mkExt oidExtensionSubjectAltName false v));
  Ret (s ++ ct_ExtraExtensions t).
(** x509.go:2094-2134: the extensions go into the first extensionRequest attribute with a value, if there is one.  The map
    specifiedExtensions is keyed by the dotted text of the identifiers, which determines them. *)
Fixpoint appendExtensions (attributes : list ATVset) (exts : list Extension) : option (list ATVset) :=
  match attributes with
  | [] => None
  | a :: r =>
      match as_Value a with
      | Some (v0 :: vs) =>
          if negb (oid_eqb (as_Type a) oidExtensionRequest) then option_map (cons a) (appendExtensions r exts) else
          let atvs v := match v with Some l => l | None => [] end in
          let specified := List.concat (map atvs (v0 :: vs)) in
          let new := filter (fun e => negb (existsb (fun x => oid_eqb (aa_Type x) (x_Id e)) specified)) exts in
          Some (mkATVset (as_Type a) (Some (Some (atvs v0 ++ map (fun e => mkATVa (x_Id e) (VBytes (x_Value e))) new) :: vs)) :: r)
      | _ => option_map (cons a) (appendExtensions r exts)
      end
  end.
(** x509.go:2144-2150 *)
Definition cExtAttr : codec (oid * option (list (option (list Extension)))) :=
  cStruct (fcons noP cOID (fcons setP (cSeqOf false (cSeqOf false cExt)) fnil)) (fun '(a, (b, _)) => (a, b)) (fun '(a, b) => (a, (b, tt))).
(** x509.go:2083-2163 *)
Definition csrAttributes (attributes : list ATVset) (extensions : list Extension) : outcome (list rawValue) :=
  match extensions with
  | [] => newRawAttributes attributes
  | _ =>
      match appendExtensions attributes extensions with
      | Some attributes' => newRawAttributes attributes'
      | None =>
          do raws <- newRawAttributes attributes;
          match Marshal cExtAttr (oidExtensionRequest, Some [Some extensions]) with
          | Ret b => do (rv, _) <- Unmarshal cRaw b; Ret (raws ++ [rv])
          | Err e => Err (errcat "x509: failed to serialise extensions attribute: " e)
          | Panic => Panic
          end
      end
  end.
(** x509.go:2058-2213 *)
Definition CreateCertificateRequest (rand : bytes) (t : CSRTemplate) (priv : anyPriv) : outcome bytes :=
  match asSigner priv with
  | None => Err errNotSigner
  | Some key =>
      do (hashFunc, sigAlg) <- signingParamsForPublicKey (sg_Public key) (ct_SignatureAlgorithm t);
      do (pkBytes, pkAlg) <- marshalPublicKey (sg_Public key);
      do extensions <- buildCSRExtensions t;
      do raws <- csrAttributes (ct_Attributes t) extensions;
      do subject <- match ct_RawSubject t with [] => marshalName (ct_Subject t) | r => Ret r end;
      let c raw := mkTbsCSR raw 0 (mkRaw 0 0 false None (Some subject)) (mkPKI None pkAlg (fullBits pkBytes)) (Some raws) in
      do tbs <- Marshal cTbsCSR (c None);
      do signed <- toSign P hashFunc tbs;
      do signature <- sg_Sign key rand signed (hashFunc, false);
      Marshal cCsr (mkCsr None (c (Some tbs)) sigAlg (fullBits signature))
  end.
(** x509.go:1910-1953: a parsed request; Subject is the RDNSequence given to FillFromRDNSequence *)
Record CSR := mkCSR {
  q_Raw : bytes; q_RawTBS : bytes; q_RawSPKI : bytes; q_RawSubject : bytes; q_Version : Z; q_Signature : bytes; q_SignatureAlgorithm : Z;
  q_PublicKeyAlgorithm : pkAlgo; q_PublicKey : pubKey; q_Subject : RDNs; q_Attributes : list ATVset; q_Extensions : list Extension; q_SAN : SANs }.
(** x509.go:2265-2273: only subjectAltName is interpreted; the last one counts *)
Fixpoint csrSANs (net : netlib) (s : SANs) (l : list Extension) : outcome SANs :=
  match l with
  | [] => Ret s
  | e :: r => if oid_eqb (x_Id e) oidExtensionSubjectAltName then (do s' <- parseSANExtension net (x_Value e); csrSANs net s' r) else csrSANs net s r
  end.
(** x509.go:2230-2276 *)
Definition parseCertificateRequest (net : netlib) (c : csrStruct) : outcome CSR :=
  let t := cr_TBS c in
  let raws := match tr_Attributes t with Some l => l | None => [] end in
  do attrs <- parseRawAttributes raws;
  let algo := getPublicKeyAlgorithmFromOID (ai_alg (pki_Algo (tr_PublicKey t))) in
  do pk <- parsePublicKey algo (tr_PublicKey t);
  do (subject, rest) <- Unmarshal cRDNs (sl (rv_full (tr_Subject t)));
  match rest with
  | _ :: _ => Err "x509: trailing data after X.509 Subject"
  | [] =>
      do exts <- parseCSRExtensions raws;
      do san <- csrSANs net noSAN exts;
      Ret (mkCSR (sl (cr_Raw c)) (sl (tr_Raw t)) (sl (pki_Raw (tr_PublicKey t))) (sl (rv_full (tr_Subject t))) (tr_Version t)
             (RightAlign (cr_Sig c)) (getSignatureAlgorithmFromAI (cr_Alg c)) algo pk subject attrs exts san)
  end.
(** x509.go:2217-2228 *)
Definition ParseCertificateRequest (net : netlib) (der : bytes) : outcome CSR :=
  do (c, rest) <- Unmarshal cCsr der;
  match rest with [] => parseCertificateRequest net c | _ => Err "trailing data" end.
(** x509.go:2279-2281 *)
Definition CSR_CheckSignature (c : CSR) : outcome unit := checkSignature P (q_SignatureAlgorithm c) (q_RawTBS c) (q_Signature c) (q_PublicKey c).
End Prims.
