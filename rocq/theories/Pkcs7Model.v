(** * Model of x509/pkcs7.go *)
From Coq Require Import String.
From Verif Require Import Base Words ECModel SM3Model SM2Model CryptoByte Asn1 KeysModel X509Model X509Sig X509Build.
Open Scope Z_scope.

(** pkcs7.go:38-45, 109-114 and x509.go:490 *)
Definition oidGMData : oid := [1; 2; 156; 10197; 6; 1; 4; 2; 1].
Definition oidGMSignedData : oid := [1; 2; 156; 10197; 6; 1; 4; 2; 2].
Definition oidAttributeContentType : oid := [1; 2; 840; 113549; 1; 9; 3].
Definition oidAttributeMessageDigest : oid := [1; 2; 840; 113549; 1; 9; 4].
Definition oidAttributeSigningTime : oid := [1; 2; 840; 113549; 1; 9; 5].
Definition oidDigestAlgorithmSM3 : oid := [1; 2; 156; 10197; 1; 401].
Definition oidSignatureECDSASM2 : oid := [1; 2; 156; 10197; 1; 301; 1].

(** ** The ASN.1 structures *)
(** asn1:"default:1" without optional *)
Definition default1P : params := mkP false false None false (Some 1) false.
(** pkcs7.go:28-31 *)
Record contentInfo := mkCI { ci_Type : oid; ci_Content : rawValue }.
Definition cCI : codec contentInfo :=
  cStruct (fcons noP cOID (fcons (optExplicitP 0) cRaw fnil)) (fun '(a, (b, _)) => mkCI a b) (fun c => (ci_Type c, (ci_Content c, tt))).
(** pkcs7.go:56-58 *)
Definition cRawCerts : codec (option bytes) := cStructRaw fnil (fun raw _ => raw) (fun a => a) (fun _ => tt).
(** pkcs7.go:59-62 *)
Record attribute := mkAttr { at_Type : oid; at_Value : rawValue }.
Definition cAttr : codec attribute :=
  cStruct (fcons noP cOID (fcons setP cRaw fnil)) (fun '(a, (b, _)) => mkAttr a b) (fun c => (at_Type c, (at_Value c, tt))).
(** pkcs7.go:64-67 *)
Record issuerAndSerial := mkIAS { ias_Issuer : rawValue; ias_Serial : option Z }.
Definition cIAS : codec issuerAndSerial :=
  cStruct (fcons noP cRaw (fcons noP cBig fnil)) (fun '(a, (b, _)) => mkIAS a b) (fun c => (ias_Issuer c, (ias_Serial c, tt))).
(** pkcs7.go:69-77 *)
Record signerInfo := mkSI {
  si_Version : Z; si_IAS : issuerAndSerial; si_DigestAlgorithm : AI; si_Attrs : option (list attribute);
  si_DigestEncryptionAlgorithm : AI; si_EncryptedDigest : option bytes; si_Unauth : option (list attribute) }.
Definition cSI : codec signerInfo :=
  cStruct (fcons default1P cInt (fcons noP cIAS (fcons noP cAI (fcons (optImplicitP 0) (cSeqOf false cAttr) (fcons noP cAI (fcons noP cBytes
            (fcons (optImplicitP 1) (cSeqOf false cAttr) fnil)))))))
    (fun '(a, (b, (c, (d, (e, (f, (g, _))))))) => mkSI a b c d e f g)
    (fun s => (si_Version s, (si_IAS s, (si_DigestAlgorithm s, (si_Attrs s, (si_DigestEncryptionAlgorithm s, (si_EncryptedDigest s, (si_Unauth s, tt)))))))).
Definition lst {A} (l : option (list A)) : list A := match l with Some l => l | None => [] end.

(** ** Attributes *)
(** pkcs7.go:93-95 *)
Definition cAttrsStruct : codec (option (list attribute)) := cStruct (fcons setP (cSeqOf false cAttr) fnil) (fun '(a, _) => a) (fun a => (a, tt)).
(** pkcs7.go:92-107 *)
Definition marshalAttributes (attrs : option (list attribute)) : outcome bytes :=
  do encoded <- Marshal cAttrsStruct attrs;
  do (raw, _) <- Unmarshal cRaw encoded;
  Ret (sl (rv_bytes raw)).
(** pkcs7.go:139-147; the target's type is given by its codec *)
Definition unmarshalAttribute {A} (c : codec A) (attrs : list attribute) (attributeType : oid) : outcome A :=
  match find (fun a => oid_eqb (at_Type a) attributeType) attrs with
  | Some a => do (v, _) <- Unmarshal c (sl (rv_bytes (at_Value a))); Ret v
  | None => Err "pkcs7: attribute type not in attributes"
  end.
(** sort.Sort of pkcs7.go:381 (pkcs7.go:337-349): some permutation with ascending sort keys; the algorithm is not stable,
    which only matters for entries with the same key *)
Fixpoint insert_attr (x : bytes * attribute) (l : list (bytes * attribute)) : list (bytes * attribute) :=
  match l with [] => [x] | y :: r => if bytes_leb (fst x) (fst y) then x :: l else y :: insert_attr x r end.
Fixpoint sort_attrs (l : list (bytes * attribute)) : list (bytes * attribute) := match l with [] => [] | x :: r => insert_attr x (sort_attrs r) end.
(** pkcs7.go:362-379 *)
Definition sortable (t : oid) (asn1Value : outcome bytes) : outcome (bytes * attribute) :=
  do v <- asn1Value;
  let attr := mkAttr t (mkRaw 0 17 true (Some v) None) in
  do encoded <- Marshal cAttr attr;
  Ret (encoded, attr).
(** pkcs7.go:359-383; an added value is represented by what asn1.Marshal returns for it *)
Definition ForMarshaling (attrs : list (oid * outcome bytes)) : outcome (list attribute) :=
  do sortables <- mapM (fun '(t, v) => sortable t v) attrs;
  Ret (map snd (sort_attrs sortables)).

(** ** Signing *)
(** sm3.New, Write, Sum(nil) *)
Definition sm3Digest (data : bytes) : outcome bytes := do d <- dWrite sm3_New data; sm3_Sum_method d [].
(** pkcs7.go:251-258, 286-293: the attributes; [now] is asn1.Marshal(time.Now()) *)
Definition signedAttrs (now : outcome bytes) (messageDigest : bytes) (extra : list (oid * outcome bytes)) : list (oid * outcome bytes) :=
  [(oidAttributeContentType, Marshal cOID oidGMData); (oidAttributeMessageDigest, Marshal cBytes (Some messageDigest)); (oidAttributeSigningTime, now)] ++ extra.
(** pkcs7.go:408-418 *)
Definition signAttributesCallback (attrs : list attribute) (callback : bytes -> outcome bytes) : outcome bytes :=
  do attrBytes <- marshalAttributes (Some attrs); callback attrBytes.
(** pkcs7.go:396-406; the random stream is what rand.Reader delivers *)
Definition signAttributes (rand : bytes) (attrs : list attribute) (pkey : anyPriv) : outcome bytes :=
  do attrBytes <- marshalAttributes (Some attrs);
  match pkey with
  | ASM2 priv => do (sig, _) <- Sign rand priv attrBytes []; Ret sig
  | _ => Err "unsupport algop"
  end.
(** pkcs7.go:385-393 *)
Definition cert2issuerAndSerial (cert : Certificate) : issuerAndSerial := mkIAS (mkRaw 0 0 false None (Some (c_RawIssuer cert))) (Some (c_SerialNumber cert)).
(** pkcs7.go:251-284, 286-319, with the signing step as a parameter *)
Definition getSignerInfo (cert : Certificate) (sign : list attribute -> outcome bytes) (now : outcome bytes) (inp : bytes) (extra : list (oid * outcome bytes)) : outcome signerInfo :=
  do messageDigest <- sm3Digest inp;
  do finalAttrs <- ForMarshaling (signedAttrs now messageDigest extra);
  do signature <- sign finalAttrs;
  Ret (mkSI 1 (cert2issuerAndSerial cert) (mkAI oidDigestAlgorithmSM3 rawZero) (Some finalAttrs) (mkAI oidSignatureECDSASM2 rawZero) (Some signature) None).
(** the zero signerInfo *)
Definition siZero : signerInfo := mkSI 0 (mkIAS rawZero None) (mkAI [] rawZero) None (mkAI [] rawZero) None None.
(** pkcs7.go:421-440 *)
Definition marshalCertificates (certs : list Certificate) : option bytes :=
  match Marshal cRaw (mkRaw 2 0 true (Some (List.concat (map c_Raw certs))) None) with Ret b => Some b | _ => None end.

Section CRLs.
(** pkix.CertificateList, which the code only passes through, is left open *)
Variable CRL : Type.
Variable cCRL : codec CRL.
(** pkcs7.go:47-54 *)
Record signedData := mkSD {
  sd_Version : Z; sd_Digests : option (list AI); sd_Content : contentInfo; sd_Certificates : option bytes; sd_CRLs : option (list CRL);
  sd_SignerInfos : option (list signerInfo) }.
Definition cSD : codec signedData :=
  cStruct (fcons default1P cInt (fcons setP (cSeqOf false cAI) (fcons noP cCI (fcons (optImplicitP 0) cRawCerts (fcons (optImplicitP 1) (cSeqOf false cCRL)
            (fcons setP (cSeqOf false cSI) fnil))))))
    (fun '(a, (b, (c, (d, (e, (f, _)))))) => mkSD a b c d e f)
    (fun s => (sd_Version s, (sd_Digests s, (sd_Content s, (sd_Certificates s, (sd_CRLs s, (sd_SignerInfos s, tt))))))).
(** pkcs7.go:176-211, 214-249: [si] is the result of getSignerInfo...; its error is overwritten (line 240) and the zero
    signerInfo is used instead *)
Definition buildSignedData (cert : Certificate) (data : bytes) (si : outcome signerInfo) : outcome bytes :=
  do content <- Marshal cBytes (Some data);
  let ci := mkCI oidGMData (mkRaw 2 0 true (Some content) None) in
  do si <- match si with Ret s => Ret s | Err _ => Ret siZero | Panic => Panic end;
  do inner <- Marshal cSD (mkSD 1 (Some [mkAI oidDigestAlgorithmSM3 rawZero]) ci (marshalCertificates [cert]) (Some []) (Some [si]));
  Marshal cCI (mkCI oidGMSignedData (mkRaw 2 0 true (Some inner) None)).
(** pkcs7.go:176-211 *)
Definition NewSignedDataCallBack (now : outcome bytes) (cert : Certificate) (callback : bytes -> outcome bytes) (data : bytes) : outcome bytes :=
  buildSignedData cert data (getSignerInfo cert (fun attrs => signAttributesCallback attrs callback) now data []).
(** pkcs7.go:214-249 *)
Definition NewSignedData (rand : bytes) (now : outcome bytes) (cert : Certificate) (pkey : anyPriv) (data : bytes) : outcome bytes :=
  buildSignedData cert data (getSignerInfo cert (fun attrs => signAttributes rand attrs pkey) now data []).

(** ** Parsing *)
(** pkcs7.go:20-26 (raw only serves UnmarshalSignedAttribute, which reads its SignerInfos) *)
Record PKCS7 := mkP7 { p7_Content : bytes; p7_Certificates : list Certificate; p7_CRLs : option (list CRL); p7_Signers : list signerInfo }.
Definition sdZero : signedData := mkSD 0 None (mkCI [] rawZero) None None None.
(** pkcs7.go:469: the error of asn1.Unmarshal is dropped, and the fields decoded before the error keep their values.  A field
    that fails is left at zero here; in Go a failing ContentInfo may keep its ContentType and a failing Version or
    DigestAlgorithmIdentifiers parts of their values, none of which are read afterwards. *)
Definition keep {A S} (x : outcome (A * bytes)) (dflt : S) (f : A -> bytes -> outcome S) : outcome S :=
  match x with Ret (a, r) => f a r | Err _ => Ret dflt | Panic => Panic end.
Definition unmarshalSD (data : bytes) : outcome signedData :=
  keep (Unmarshal cRaw data) sdZero (fun raw _ =>
    if negb ((rv_class raw =? ClassUniversal) && (rv_tag raw =? TagSequence) && rv_comp raw) then Ret sdZero else
    keep (parseField cInt default1P (sl (rv_bytes raw))) sdZero (fun v s =>
    keep (parseField (cSeqOf false cAI) setP s) (mkSD v None (mkCI [] rawZero) None None None) (fun ds s =>
    keep (parseField cCI noP s) (mkSD v ds (mkCI [] rawZero) None None None) (fun ci s =>
    keep (parseField cRawCerts (optImplicitP 0) s) (mkSD v ds ci None None None) (fun certs s =>
    keep (parseField (cSeqOf false cCRL) (optImplicitP 1) s) (mkSD v ds ci certs None None) (fun crls s =>
    keep (parseField (cSeqOf false cSI) setP s) (mkSD v ds ci certs crls None) (fun sis s =>
    Ret (mkSD v ds ci certs crls sis)))))))).
Variable net : netlib.
(** pkcs7.go:79-90 *)
Definition rawCertificates_Parse (raw : option bytes) : outcome (list Certificate) :=
  if isnil (sl raw) then Ret [] else
  do (val, _) <- Unmarshal cRaw (sl raw);
  ParseCertificates net (sl (rv_bytes val)).
(** pkcs7.go:467-500 *)
Definition parseSignedData (data : bytes) : outcome PKCS7 :=
  do sd <- unmarshalSD data;
  do certs <- rawCertificates_Parse (sd_Certificates sd);
  do compound <- (match sl (rv_bytes (ci_Content (sd_Content sd))) with
                  | [] => Ret rawZero
                  | b => do (c, _) <- Unmarshal cRaw b; Ret c
                  end);
  do content <- (if rv_comp compound then do (c, _) <- Unmarshal cBytes (sl (rv_bytes compound)); Ret (sl c) else Ret (sl (rv_bytes compound)));
  Ret (mkP7 content certs (sd_CRLs sd) (lst (sd_SignerInfos sd))).
(** pkcs7.go:36 *)
Definition ErrUnsupportedContentType : string := "pkcs7: cannot parse data: unimplemented content type".
(** pkcs7.go:442-463; Unmarshal returns no rest with an error *)
Definition ParsePKCS7 (data : bytes) : outcome PKCS7 :=
  match data with
  | [] => Err "pkcs7: input data is empty"
  | _ =>
      do (info, rest) <- Unmarshal cCI data;
      if negb (isnil rest) then Err "trailing data" else
      if oid_eqb (ci_Type info) oidGMSignedData then parseSignedData (sl (rv_bytes (ci_Content info)))
      else Err ErrUnsupportedContentType
  end.
(** pkcs7.go:135-137; Cmp with a nil serial number panics *)
Definition isCertMatchForIssuerAndSerial (cert : Certificate) (ias : issuerAndSerial) : outcome bool :=
  match ias_Serial ias with
  | None => Panic
  | Some n => Ret ((c_SerialNumber cert =? n) && bytes_eqb (c_RawIssuer cert) (sl (rv_full (ias_Issuer ias))))
  end.
(** pkcs7.go:116-123 *)
Fixpoint getCertFromCertsByIssuerAndSerial (certs : list Certificate) (ias : issuerAndSerial) : outcome (option Certificate) :=
  match certs with
  | [] => Ret None
  | cert :: r => do m <- isCertMatchForIssuerAndSerial cert ias; if m then Ret (Some cert) else getCertFromCertsByIssuerAndSerial r ias
  end.
(** pkcs7.go:127-133 *)
Definition GetOnlySigner (p7 : PKCS7) : outcome (option Certificate) :=
  match p7_Signers p7 with
  | [signer] => getCertFromCertsByIssuerAndSerial (p7_Certificates p7) (si_IAS signer)
  | _ => Ret None
  end.
(** pkcs7.go:150-160, for a PKCS7 made by ParsePKCS7 *)
Definition UnmarshalSignedAttribute {A} (c : codec A) (p7 : PKCS7) (attributeType : oid) : outcome A :=
  match p7_Signers p7 with
  | [] => Err "pkcs7: payload has no signers"
  | s :: _ => unmarshalAttribute c (lst (si_Attrs s)) attributeType
  end.
Variable P : sigPrims.
(** pkcs7.go:528-566 *)
Definition verifySignature (p7 : PKCS7) (signer : signerInfo) : outcome unit :=
  do signedData <- (match lst (si_Attrs signer) with
    | [] => Ret (p7_Content p7)
    | attrs =>
        do digest <- unmarshalAttribute cBytes attrs oidAttributeMessageDigest;
        do computed <- sm3Digest (p7_Content p7);
        if negb (bytes_eqb (sl digest) computed) then Err "pkcs7: Message digest mismatch" else
        marshalAttributes (si_Attrs signer)
    end);
  do cert <- getCertFromCertsByIssuerAndSerial (p7_Certificates p7) (si_IAS signer);
  match cert with
  | None => Err "pkcs7: No certificate for signer"
  | Some cert => Certificate_CheckSignature P cert SM2WithSM3 signedData (sl (si_EncryptedDigest signer))
  end.
(** pkcs7.go:509-513 *)
Fixpoint verifyAll (p7 : PKCS7) (l : list signerInfo) : outcome unit :=
  match l with [] => Ret tt | s :: r => do _ <- verifySignature p7 s; verifyAll p7 r end.
(** pkcs7.go:505-515 *)
Definition P7_Verify (p7 : PKCS7) : outcome unit :=
  match p7_Signers p7 with [] => Err "pkcs7: Message has no signers" | l => verifyAll p7 l end.
End CRLs.
Arguments sd_Version {CRL}. Arguments sd_Digests {CRL}. Arguments sd_Content {CRL}. Arguments sd_Certificates {CRL}. Arguments sd_CRLs {CRL}. Arguments sd_SignerInfos {CRL}.
Arguments mkSD {CRL}. Arguments sdZero {CRL}. Arguments cSD {CRL}. Arguments unmarshalSD {CRL}. Arguments buildSignedData {CRL}. Arguments NewSignedDataCallBack {CRL}. Arguments NewSignedData {CRL}.
Arguments mkP7 {CRL}. Arguments p7_Content {CRL}. Arguments p7_Certificates {CRL}. Arguments p7_CRLs {CRL}. Arguments p7_Signers {CRL}.
Arguments parseSignedData {CRL}. Arguments ParsePKCS7 {CRL}. Arguments GetOnlySigner {CRL}. Arguments UnmarshalSignedAttribute {CRL A}.
Arguments verifySignature {CRL}. Arguments verifyAll {CRL}. Arguments P7_Verify {CRL}.
