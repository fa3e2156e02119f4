(** * Model of the hash registry of x509/x509.go and of checkSignature on top of it *)
From Coq Require Import String DecimalString DecimalZ.
From Verif Require Import Base Words ECModel SM3Model SM2Model CryptoByte Asn1 KeysModel X509Model X509Sig X509Crl.
Open Scope Z_scope.

(** ** The registry *)
(** a hash.Hash constructor, seen through the only use the package makes of it: f(), Write(data), Sum(nil) *)
Definition hashCtor := bytes -> outcome bytes.
(** x509.go:329: hashes; None is a nil function *)
Definition registry := list (option hashCtor).
(** x509.go:329 *)
Definition emptyRegistry : registry := repeat None (Z.to_nat maxHash).
(** x509.go:351-356; Hash is an unsigned integer *)
Definition RegisterHash (h : Z) (f : option hashCtor) (r : registry) : outcome registry :=
  if maxHash <=? h then Panic else Ret (upd r (Z.to_nat h) f).
(** x509.go:344-346 *)
Definition Available (r : registry) (h : Z) : bool :=
  (h <? maxHash) && match nth (Z.to_nat h) r None with Some _ => true | None => false end.
(** x509.go:333-341 *)
Definition New (r : registry) (h : Z) : outcome hashCtor :=
  if (0 <? h) && (h <? maxHash) then match nth (Z.to_nat h) r None with Some f => Ret f | None => Panic end else Panic.
(** a sequence of calls of RegisterHash, each recovered if it panics: the state afterwards *)
Definition call := (Z * option hashCtor)%type.
Definition runCalls (r : registry) (cs : list call) : registry :=
  fold_left (fun r c => match RegisterHash (fst c) (snd c) r with Ret r' => r' | _ => r end) cs r.
(** x509.go:272-294: the remaining hash numbers *)
Definition H_SHA224 : Z := 4.
Definition H_MD5SHA1 : Z := 8.
Definition H_RIPEMD160 : Z := 9.
Definition H_SHA3_224 : Z := 10.
Definition H_SHA3_256 : Z := 11.
Definition H_SHA3_384 : Z := 12.
Definition H_SHA3_512 : Z := 13.
Definition H_SHA512_224 : Z := 14.
Definition H_SHA512_256 : Z := 15.
Section Prims.
Variable P : sigPrims.
(** a hash function of a library *)
Definition lib (h : Z) : option hashCtor := Some (fun data => Ret (hash_fn P h data)).
(** sm3.New *)
Definition sm3Ctor : hashCtor := fun data => do d <- dWrite sm3_New data; sm3_Sum_method d [].
(** x509.go:200-216 *)
Definition initCalls : list call :=
  [(H_MD5, lib H_MD5); (H_SHA1, lib H_SHA1); (H_SHA224, lib H_SHA224); (H_SHA256, lib H_SHA256); (H_SHA384, lib H_SHA384);
   (H_SHA512, lib H_SHA512); (H_MD5SHA1, None); (H_RIPEMD160, lib H_RIPEMD160); (H_SHA3_224, lib H_SHA3_224);
   (H_SHA3_256, lib H_SHA3_256); (H_SHA3_384, lib H_SHA3_384); (H_SHA3_512, lib H_SHA3_512); (H_SHA512_224, lib H_SHA512_224);
   (H_SHA512_256, lib H_SHA512_256); (H_SM3, Some sm3Ctor)].
Definition initRegistry : registry := runCalls emptyRegistry initCalls.
(** x509.go:1007-1069 with the registry as state *)
Definition checkSignatureReg (r : registry) (algo : Z) (plain signature : bytes) (publicKey : pubKey) : outcome unit :=
  let '(hashType, pubKeyAlgo) := lookupDetails algo in
  if negb (Available r hashType) then Err ErrUnsupportedAlgorithm else
  if (hashType =? 0) && negb (pkAlgo_eqb pubKeyAlgo Ed25519) then Err ErrUnsupportedAlgorithm else
  do f <- New r hashType;
  do signed <- f plain;
  match publicKey with
  | PKrsa n e =>
      if negb (pkAlgo_eqb pubKeyAlgo RSA) then Err errMismatch else
      if isRSAPSS algo then of_error (rsa_VerifyPSS P n e hashType signed signature)
      else of_error (rsa_VerifyPKCS1v15 P n e hashType signed signature)
  | PKecdsa c x y =>
      if negb (pkAlgo_eqb pubKeyAlgo ECDSA) then Err errMismatch else
      if negb (ecdsa_VerifyASN1 P c x y signed signature) then Err "x509: ECDSA verification failure" else Ret tt
  | PKsm2 pub =>
      if negb (pkAlgo_eqb pubKeyAlgo ECDSA) then Err errMismatch else
      if negb (pk_Curve pub =? SM2P256V1_id) then Err errMismatch else
      do ok <- Verify pub plain [] signature;
      if negb ok then Err "x509: SM2 verification failure" else Ret tt
  | PKed25519 k =>
      if negb (pkAlgo_eqb pubKeyAlgo Ed25519) then Err errMismatch else
      if negb (zlen k =? 32) then Panic else
      if negb (ed25519_Verify P k signed signature) then Err "x509: Ed25519 verification failure" else Ret tt
  | PKdsa _ _ _ _ | PKother => Err ErrUnsupportedAlgorithm
  end.
End Prims.

(** ** Sizes and names *)
(** x509.go:296-317: by number; the slice is indexed 0 to 20 and has 0 where no entry is given *)
Definition digestSizes : list Z := [0; 16; 16; 20; 28; 32; 48; 64; 36; 20; 28; 32; 48; 64; 28; 32; 32; 32; 48; 64; 32].
(** x509.go:322-327 *)
Definition Size (h : Z) : outcome Z := if (0 <? h) && (h <? maxHash) then Ret (nth (Z.to_nat h) digestSizes 0) else Panic.
(** strconv.Itoa *)
Definition Itoa (z : Z) : string := NilZero.string_of_int (Z.to_int z).
(** the conversion of an unsigned 64-bit integer to a signed one *)
Definition int_of_uint (h : Z) : Z := if h <? 2 ^ 63 then h else h - 2 ^ 64.
(** x509.go:227-270 *)
Definition HashString (h : Z) : string :=
  if h =? H_MD5 then "MD5" else if h =? H_SHA1 then "SHA-1" else if h =? H_SHA224 then "SHA-224" else if h =? H_SHA256 then "SHA-256"
  else if h =? H_SHA384 then "SHA-384" else if h =? H_SHA512 then "SHA-512" else if h =? H_MD5SHA1 then "MD5+SHA1"
  else if h =? H_RIPEMD160 then "RIPEMD-160" else if h =? H_SHA3_224 then "SHA3-224" else if h =? H_SHA3_256 then "SHA3-256"
  else if h =? H_SHA3_384 then "SHA3-384" else if h =? H_SHA3_512 then "SHA3-512" else if h =? H_SHA512_224 then "SHA-512/224"
  else if h =? H_SHA512_256 then "SHA-512/256" else if h =? 16 then "BLAKE2s-256" else if h =? 17 then "BLAKE2b-256"
  else if h =? 18 then "BLAKE2b-384" else if h =? 19 then "BLAKE2b-512" else if h =? H_SM3 then "SM3"
  else "unknown hash value " ++ Itoa (int_of_uint h).
(** x509.go:511-534: the names of the signature algorithms, in the order of the table *)
Definition detailNames : list (Z * string) :=
  [(MD5WithRSA, "MD5-RSA"); (SHA1WithRSA, "SHA1-RSA"); (SHA256WithRSA, "SHA256-RSA"); (SHA384WithRSA, "SHA384-RSA");
   (SHA512WithRSA, "SHA512-RSA"); (SHA256WithRSAPSS, "SHA256-RSAPSS"); (SHA384WithRSAPSS, "SHA384-RSAPSS");
   (SHA512WithRSAPSS, "SHA512-RSAPSS"); (DSAWithSHA1, "DSA-SHA1"); (DSAWithSHA256, "DSA-SHA256"); (ECDSAWithSHA1, "ECDSA-SHA1");
   (ECDSAWithSHA256, "ECDSA-SHA256"); (ECDSAWithSHA384, "ECDSA-SHA384"); (ECDSAWithSHA512, "ECDSA-SHA512");
   (PureEd25519, "Ed25519"); (SM2WithSM3, "SM2WithSM3")]%string.
(** x509.go:389-396 *)
Definition SigAlgString (algo : Z) : string :=
  match find (fun d => fst d =? algo) detailNames with Some d => snd d | None => Itoa algo end.
(** x509.go:409-415 *)
Definition publicKeyAlgoName : list string := [""; "RSA"; "DSA"; "ECDSA"; "Ed25519"; "SM2"]%string.
(** x509.go:417-422 *)
Definition PubAlgString (algo : Z) : string :=
  if (0 <? algo) && (algo <? zlen publicKeyAlgoName) then nth (Z.to_nat algo) publicKeyAlgoName ""%string else Itoa algo.

(** ** Certificate.Equal: x509.go:945-950; None is a nil pointer.  Two nil pointers are equal; a nil and a non-nil one are not. *)
Definition Certificate_Equal (c other : option Certificate) : bool :=
  match c, other with
  | Some a, Some b => bytes_eqb (c_Raw a) (c_Raw b)
  | None, None => true
  | _, _ => false
  end.

(** ** ParseCRL *)
(** bytes.HasPrefix *)
Definition HasPrefix (s prefix : bytes) : bool := bytes_eqb (firstn (List.length prefix) s) prefix.
Definition str_bytes (s : string) : bytes := map (fun c => Z.of_N (Ascii.N_of_ascii c)) (list_ascii_of_string s).
(** x509.go:1809-1814 *)
Definition pemCRLPrefix : bytes := str_bytes "-----BEGIN X509 CRL".
Definition pemType : bytes := str_bytes "X509 CRL".
(** x509.go:1820-1828; encoding/pem's Decode is a parameter: the type and the contents of the first block, if there is one *)
Definition ParseCRL (pemDecode : bytes -> option (bytes * bytes)) (crlBytes : bytes) : outcome certList :=
  ParseDERCRL
    (if HasPrefix crlBytes pemCRLPrefix then
       match pemDecode crlBytes with
       | Some (ty, contents) => if bytes_eqb ty pemType then contents else crlBytes
       | None => crlBytes
       end
     else crlBytes).
