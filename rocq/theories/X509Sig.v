(** * Model of the signature parts of x509/x509.go: checking signatures and choosing signing parameters *)
From Coq Require Import String.
From Verif Require Import Base Words ECModel SM3Model SM2Model CryptoByte Asn1 KeysModel X509Model.
Open Scope Z_scope.

(** the library primitives behind signature checking, as parameters: the hash functions other than SM3 (by x509.go's hash
    number), crypto/rsa (modulus, exponent, hash number, digest, signature; None is a nil error), crypto/ecdsa (curve
    identity, X, Y, digest, signature) and crypto/ed25519 *)
Record sigPrims := mkSigPrims {
  hash_fn : Z -> bytes -> bytes;
  rsa_VerifyPKCS1v15 : Z -> Z -> Z -> bytes -> bytes -> option string;
  rsa_VerifyPSS : Z -> Z -> Z -> bytes -> bytes -> option string;
  ecdsa_VerifyASN1 : Z -> Z -> Z -> bytes -> bytes -> bool;
  ed25519_Verify : bytes -> bytes -> bytes -> bool }.

Definition ErrUnsupportedAlgorithm : string := "x509: cannot verify signature: algorithm unimplemented".
(** x509.go:1001-1003 (without the names) *)
Definition errMismatch : string := "x509: signature algorithm specifies another public key".

Section Prims.
Variable P : sigPrims.
(** x509.go:331-341 followed by Write and Sum(nil) *)
Definition hashSum (h : Z) (data : bytes) : outcome bytes :=
  if negb (Hash_Available h) then Panic
  else if h =? H_SM3 then (do d <- dWrite sm3_New data; sm3_Sum_method d [])
  else Ret (hash_fn P h data).
Definition of_error (e : option string) : outcome unit := match e with None => Ret tt | Some s => Err s end.
Definition pkAlgo_eqb (a b : pkAlgo) : bool :=
  match a, b with
  | UnknownPublicKeyAlgorithm, UnknownPublicKeyAlgorithm | RSA, RSA | DSA, DSA | ECDSA, ECDSA | Ed25519, Ed25519 => true
  | _, _ => false
  end.
(** x509.go:1011-1016: the loop overwrites, so the last matching row counts; the defaults are the zero values *)
Definition lookupDetails (algo : Z) : Z * pkAlgo :=
  fold_left (fun acc d => if sd_algo d =? algo then (sd_hash d, sd_pub d) else acc) signatureAlgorithmDetails (0, UnknownPublicKeyAlgorithm).
(** x509.go:1007-1069; Ret tt is a nil error *)
Definition checkSignature (algo : Z) (plain signature : bytes) (publicKey : pubKey) : outcome unit :=
  let '(hashType, pubKeyAlgo) := lookupDetails algo in
  if negb (Hash_Available hashType) then Err ErrUnsupportedAlgorithm else
  if (hashType =? 0) && negb (pkAlgo_eqb pubKeyAlgo Ed25519) then Err ErrUnsupportedAlgorithm else
  do signed <- hashSum hashType plain;
  match publicKey with
  | PKrsa n e =>
      if negb (pkAlgo_eqb pubKeyAlgo RSA) then Err errMismatch else
      if isRSAPSS algo then of_error (rsa_VerifyPSS P n e hashType signed signature)
      else of_error (rsa_VerifyPKCS1v15 P n e hashType signed signature)
  | PKecdsa c x y =>
      if negb (pkAlgo_eqb pubKeyAlgo ECDSA) then Err errMismatch else
      if negb (ecdsa_VerifyASN1 P c x y signed signature) then Err "x509: ECDSA verification failure" else Ret tt
  | PKsm2 pub =>
      if negb (pkAlgo_eqb pubKeyAlgo ECDSA) then Err errMismatch else
      if negb (pk_Curve pub =? SM2P256V1_id) then Err errMismatch else
      do ok <- Verify pub plain [] signature;
      if negb ok then Err "x509: SM2 verification failure" else Ret tt
  | PKed25519 k =>
      if negb (pkAlgo_eqb pubKeyAlgo Ed25519) then Err errMismatch else
      if negb (zlen k =? 32) then Panic else
      if negb (ed25519_Verify P k signed signature) then Err "x509: Ed25519 verification failure" else Ret tt
  | PKdsa _ _ _ _ | PKother => Err ErrUnsupportedAlgorithm
  end.
(** x509.go:713-723 *)
Definition KeyUsageDigitalSignature : Z := 1.
Definition KeyUsageContentCommitment : Z := 2.
Definition KeyUsageKeyEncipherment : Z := 4.
Definition KeyUsageDataEncipherment : Z := 8.
Definition KeyUsageKeyAgreement : Z := 16.
Definition KeyUsageCertSign : Z := 32.
Definition KeyUsageCRLSign : Z := 64.
Definition KeyUsageEncipherOnly : Z := 128.
Definition KeyUsageDecipherOnly : Z := 256.
(** x509.go:984-986 *)
Definition Certificate_CheckSignature (c : Certificate) (algo : Z) (signed signature : bytes) : outcome unit :=
  checkSignature algo signed signature (c_PublicKey c).
Definition ConstraintViolationError : string := "x509: invalid signature: parent certificate cannot sign this kind of certificate".
(** x509.go:958-980 *)
Definition CheckSignatureFrom (c parent : Certificate) : outcome unit :=
  let pi := c_Info parent in
  if ((c_Version parent =? 3) && negb (i_BasicConstraintsValid pi)) || (i_BasicConstraintsValid pi && negb (i_IsCA pi))
  then Err ConstraintViolationError else
  if negb (i_KeyUsage pi =? 0) && (Z.land (i_KeyUsage pi) KeyUsageCertSign =? 0) then Err ConstraintViolationError else
  if pkAlgo_eqb (c_PublicKeyAlgorithm parent) UnknownPublicKeyAlgorithm then Err ErrUnsupportedAlgorithm else
  Certificate_CheckSignature parent (c_SignatureAlgorithm c) (c_RawTBSCertificate c) (c_Signature c).
(** x509.go:1072-1075: crl is given by its three fields *)
Definition CheckCRLSignature (c : Certificate) (alg : AI) (rawTBS : bytes) (sig : bitString) : outcome unit :=
  Certificate_CheckSignature c (getSignatureAlgorithmFromAI alg) rawTBS (RightAlign sig).
End Prims.

(** ** Signing parameters *)
(** x509.go:543-547 *)
Definition pss_bytes (arc len : Z) : bytes :=
  [48; 52; 160; 15; 48; 13; 6; 9; 96; 134; 72; 1; 101; 3; 4; 2; arc; 5; 0; 161; 28; 48; 26; 6; 9; 42; 134; 72; 134; 247; 13; 1; 1; 8;
   48; 13; 6; 9; 96; 134; 72; 1; 101; 3; 4; 2; arc; 5; 0; 162; 3; 2; 1; len].
(** the zero RawValue for a missing key of the map *)
Definition hashToPSSParameters (h : Z) : rawValue :=
  if h =? H_SHA256 then mkRaw 0 0 false None (Some (pss_bytes 1 32))
  else if h =? H_SHA384 then mkRaw 0 0 false None (Some (pss_bytes 2 48))
  else if h =? H_SHA512 then mkRaw 0 0 false None (Some (pss_bytes 3 64))
  else rawZero.
(** x509.go:1546-1592: the key type and the default parameters; the curve comparisons are comparisons of identities *)
Definition defaultSigning (pub : pubKey) : outcome (pkAlgo * Z * AI) :=
  match pub with
  | PKrsa _ _ => Ret (RSA, H_SHA256, mkAI oidSignatureSHA256WithRSA NullRawValue)
  | PKecdsa c _ _ =>
      if (c =? 224) || (c =? 256) then Ret (ECDSA, H_SHA256, mkAI oidSignatureECDSAWithSHA256 rawZero)
      else if c =? 384 then Ret (ECDSA, H_SHA384, mkAI oidSignatureECDSAWithSHA384 rawZero)
      else if c =? 521 then Ret (ECDSA, H_SHA512, mkAI oidSignatureECDSAWithSHA512 rawZero)
      else Err "x509: unknown elliptic curve"
  | PKsm2 k =>
      if pk_Curve k =? SM2P256V1_id then Ret (ECDSA, H_SM3, mkAI oidSignatureSM2WithSM3 rawZero)
      else Err "x509: unknown SM2 curve"
  | PKed25519 _ => Ret (Ed25519, 0, mkAI oidSignatureEd25519 rawZero)
  | PKdsa _ _ _ _ | PKother => Err "x509: only RSA, ECDSA, SM2 and Ed25519 keys supported"
  end.
(** x509.go:1546-1623: the hash number and the algorithm identifier *)
Definition signingParamsForPublicKey (pub : pubKey) (requestedSigAlgo : Z) : outcome (Z * AI) :=
  do (pubType, hashFunc, sigAlgo) <- defaultSigning pub;
  if requestedSigAlgo =? 0 then Ret (hashFunc, sigAlgo) else
  match find (fun d => sd_algo d =? requestedSigAlgo) signatureAlgorithmDetails with
  | None => Err "x509: unknown SignatureAlgorithm"
  | Some d =>
      if negb (pkAlgo_eqb (sd_pub d) pubType) then Err "x509: requested SignatureAlgorithm does not match private key type" else
      if (sd_hash d =? 0) && negb (pkAlgo_eqb pubType Ed25519) then Err "x509: cannot sign with hash function requested" else
      Ret (sd_hash d, mkAI (sd_oid d) (if isRSAPSS requestedSigAlgo then hashToPSSParameters (sd_hash d) else ai_params sigAlgo))
  end.
