(** * Model of pkcs12/crypto.go, mac.go, safebags.go, pkcs12.go *)
From Coq Require Import String.
From Verif Require Import Base Words ECModel SM2Model CryptoByte Asn1 KeysModel BMPModel RC2Model PbkdfModel.
Open Scope Z_scope.

(** ** Primitives of the standard library that are not modelled: SHA-1, HMAC-SHA1 (key, message) and
    Triple-DES on one block (24-byte key, 8-byte block). *)
Record prims := mkPrims { sha1 : bytes -> bytes; hmac_sha1 : bytes -> bytes -> bytes; tdes_enc : bytes -> bytes -> bytes; tdes_dec : bytes -> bytes -> bytes }.
Definition prims_ok (p : prims) : Prop :=
  (forall x, zlen (sha1 p x) = 20 /\ bytes_ok (sha1 p x)) /\
  (forall k m, zlen (hmac_sha1 p k m) = 20 /\ bytes_ok (hmac_sha1 p k m)) /\
  (forall k b, zlen k = 24 -> zlen b = 8 -> bytes_ok k -> bytes_ok b ->
     zlen (tdes_enc p k b) = 8 /\ bytes_ok (tdes_enc p k b) /\ tdes_dec p k (tdes_enc p k b) = b /\
     zlen (tdes_dec p k b) = 8 /\ bytes_ok (tdes_dec p k b) /\ tdes_enc p k (tdes_dec p k b) = b).

(** errors.go:9-14; NotImplementedError(s).Error() = "go-pkcs12: " ++ s, here without the OIDs that some
    messages append *)
Definition ErrDecryption : string := "go-pkcs12: decryption error, incorrect padding".
Definition ErrIncorrectPassword : string := "go-pkcs12: decryption password incorrect".
(** pkcs12.go:94-103 *)
Definition unmarshal {A} (c : codec A) (s : bytes) : outcome A :=
  do (a, r) <- Unmarshal c s;
  match r with [] => Ret a | _ => Err "go-pkcs12: trailing data found" end.

(** ** crypto.go *)
(** crypto.go:16-19 *)
Definition oidPBEWithSHAAnd3KeyTripleDESCBC : oid := [1; 2; 840; 113549; 1; 12; 1; 3].
Definition oidPBEWithSHAAnd40BitRC2CBC : oid := [1; 2; 840; 113549; 1; 12; 1; 6].
(** cipher.Block *)
Record blockCipher := mkBC { bc_Encrypt : bytes -> outcome bytes; bc_Decrypt : bytes -> outcome bytes }.
(** crypto.go:59-62 *)
Record pbeParams := mkPbe { pbe_Salt : option bytes; pbe_Iterations : Z }.
Definition cPbe : codec pbeParams :=
  cStruct (fcons noP cBytes (fcons noP cInt fnil)) (fun '(s, (i, _)) => mkPbe s i) (fun p => (pbe_Salt p, (pbe_Iterations p, tt))).
(** crypto.go:33-35 and 47-49: create *)
Definition create3DES (P : prims) (key : bytes) : outcome blockCipher :=
  if negb (zlen key =? 24) then Err "crypto/des: invalid key size"
  else Ret (mkBC (fun b => Ret (tdes_enc P key b)) (fun b => Ret (tdes_dec P key b))).
Definition createRC2 (key : bytes) : outcome blockCipher :=
  do k <- rc2_New key (zlen key * 8);
  Ret (mkBC (rc2_Encrypt k) (rc2_Decrypt k)).
(** crypto.go:64-90, with deriveKey (37-39, 51-53) and deriveIV (41-43, 55-57) *)
Definition pbeCipherFor (P : prims) (algorithm : AI) (password : bytes) : outcome (blockCipher * bytes) :=
  do ct <- (if oid_eqb (ai_alg algorithm) oidPBEWithSHAAnd3KeyTripleDESCBC then Ret (24, create3DES P)
            else if oid_eqb (ai_alg algorithm) oidPBEWithSHAAnd40BitRC2CBC then Ret (5, createRC2)
            else Err "go-pkcs12: algorithm is not supported");
  let '(keyLen, create) := ct in
  do params <- unmarshal cPbe (sl (rv_full (ai_params algorithm)));
  do key <- pbkdf (sha1 P) 20 64 (sl (pbe_Salt params)) password (pbe_Iterations params) 1 keyLen;
  do iv <- pbkdf (sha1 P) 20 64 (sl (pbe_Salt params)) password (pbe_Iterations params) 2 8;
  do block <- create key;
  Ret (block, iv).
(** crypto/cipher CBC with 8-byte blocks; [n] blocks *)
Definition xor_bytes (a b : bytes) : bytes := map (fun p => Z.lxor (fst p) (snd p)) (combine a b).
Fixpoint cbc_encrypt (E : bytes -> outcome bytes) (n : nat) (iv src : bytes) : outcome bytes :=
  match n with
  | O => Ret []
  | S n' =>
      do c <- E (xor_bytes (firstn 8 src) iv);
      do r <- cbc_encrypt E n' c (skipn 8 src);
      Ret (c ++ r)
  end.
Fixpoint cbc_decrypt (D : bytes -> outcome bytes) (n : nat) (iv src : bytes) : outcome bytes :=
  match n with
  | O => Ret []
  | S n' =>
      do p <- D (firstn 8 src);
      do r <- cbc_decrypt D n' (firstn 8 src) (skipn 8 src);
      Ret (xor_bytes p iv ++ r)
  end.
(** NewCBCDecrypter panics unless len(iv) = BlockSize; CryptBlocks panics unless the input is whole blocks *)
Definition CryptBlocks (f : nat -> bytes -> bytes -> outcome bytes) (iv src : bytes) : outcome bytes :=
  if negb (zlen iv =? 8) then Panic else
  if negb (zlen src mod 8 =? 0) then Panic else f (List.length src / 8)%nat iv src.
(** crypto.go:101-132 (with pbDecrypterFor 92-99); the two arguments of [info] *)
Definition pbDecrypt (P : prims) (algorithm : AI) (encrypted : bytes) (password : bytes) : outcome bytes :=
  do (block, iv) <- pbeCipherFor P algorithm password;
  if zlen iv =? 8 then
    if zlen encrypted =? 0 then Err "go-pkcs12: empty encrypted data" else
    if negb (zlen encrypted mod 8 =? 0) then Err "go-pkcs12: input is not a multiple of the block size" else
    do decrypted <- CryptBlocks (cbc_decrypt (bc_Decrypt block)) iv encrypted;
    let psLen := last decrypted 0 in
    if (psLen =? 0) || (8 <? psLen) then Err ErrDecryption else
    if zlen decrypted <? psLen then Err ErrDecryption else
    let n := (List.length decrypted - Z.to_nat psLen)%nat in
    if negb (bytes_eqb (skipn n decrypted) (repeat psLen (Z.to_nat psLen))) then Err ErrDecryption
    else Ret (firstn n decrypted)
  else Panic.
(** crypto.go:149-164 (with pbEncrypterFor 140-147): the data passed to SetData *)
Definition pbEncrypt (P : prims) (algorithm : AI) (decrypted password : bytes) : outcome bytes :=
  do (block, iv) <- pbeCipherFor P algorithm password;
  let psLen := 8 - zlen decrypted mod 8 in
  CryptBlocks (cbc_encrypt (bc_Encrypt block)) iv (decrypted ++ repeat psLen (Z.to_nat psLen)).

(** ** mac.go *)
(** mac.go:21-24 *)
Record digestInfo := mkDI { di_Algorithm : AI; di_Digest : option bytes }.
Definition cDI : codec digestInfo :=
  cStruct (fcons noP cAI (fcons noP cBytes fnil)) (fun '(a, (d, _)) => mkDI a d) (fun x => (di_Algorithm x, (di_Digest x, tt))).
(** mac.go:14-18 *)
Record macData := mkMac { mac_Mac : digestInfo; mac_MacSalt : option bytes; mac_Iterations : Z }.
Definition cMac : codec macData :=
  cStruct (fcons noP cDI (fcons noP cBytes (fcons (defaultP 1) cInt fnil))) (fun '(m, (s, (i, _))) => mkMac m s i)
    (fun x => (mac_Mac x, (mac_MacSalt x, (mac_Iterations x, tt)))).
(** mac.go:26-28 *)
Definition oidSHA1 : oid := [1; 3; 14; 3; 2; 26].
(** mac.go:30-45 *)
Definition verifyMac (P : prims) (md : macData) (message password : bytes) : outcome unit :=
  if negb (oid_eqb (ai_alg (di_Algorithm (mac_Mac md))) oidSHA1) then Err "go-pkcs12: unknown digest algorithm" else
  do key <- pbkdf (sha1 P) 20 64 (sl (mac_MacSalt md)) password (mac_Iterations md) 3 20;
  let expectedMAC := hmac_sha1 P key message in
  if negb (bytes_eqb (sl (di_Digest (mac_Mac md))) expectedMAC) then Err ErrIncorrectPassword else Ret tt.
(** mac.go:47-59: the updated macData *)
Definition computeMac (P : prims) (md : macData) (message password : bytes) : outcome macData :=
  if negb (oid_eqb (ai_alg (di_Algorithm (mac_Mac md))) oidSHA1) then Err "go-pkcs12: unknown digest algorithm" else
  do key <- pbkdf (sha1 P) 20 64 (sl (mac_MacSalt md)) password (mac_Iterations md) 3 20;
  Ret (mkMac (mkDI (di_Algorithm (mac_Mac md)) (Some (hmac_sha1 P key message))) (mac_MacSalt md) (mac_Iterations md)).

(** ** pkcs12.go *)
(** pkcs12.go:19-26 *)
Definition oidDataContentType : oid := [1; 2; 840; 113549; 1; 7; 1].
Definition oidEncryptedDataContentType : oid := [1; 2; 840; 113549; 1; 7; 6].
Definition oidFriendlyName : oid := [1; 2; 840; 113549; 1; 9; 20].
Definition oidLocalKeyID : oid := [1; 2; 840; 113549; 1; 9; 21].
Definition oidMicrosoftCSPName : oid := [1; 3; 6; 1; 4; 1; 311; 17; 1].
(** safebags.go:14-19 *)
Definition oidCertTypeX509Certificate : oid := [1; 2; 840; 113549; 1; 9; 22; 1].
Definition oidPKCS8ShroundedKeyBag : oid := [1; 2; 840; 113549; 1; 12; 10; 1; 2].
Definition oidCertBag : oid := [1; 2; 840; 113549; 1; 12; 10; 1; 3].
(** pkcs12.go:34-37 *)
Record contentInfo := mkCI { ci_ContentType : oid; ci_Content : rawValue }.
Definition cCI : codec contentInfo :=
  cStruct (fcons noP cOID (fcons (optExplicitP 0) cRaw fnil)) (fun '(t, (c, _)) => mkCI t c) (fun x => (ci_ContentType x, (ci_Content x, tt))).
(** pkcs12.go:28-32 *)
Record pfxPdu := mkPfx { pfx_Version : Z; pfx_AuthSafe : contentInfo; pfx_MacData : macData }.
Definition cPfx : codec pfxPdu :=
  cStruct (fcons noP cInt (fcons noP cCI (fcons optP cMac fnil))) (fun '(v, (a, (m, _))) => mkPfx v a m)
    (fun x => (pfx_Version x, (pfx_AuthSafe x, (pfx_MacData x, tt)))).
(** pkcs12.go:44-48 *)
Record encryptedContentInfo := mkECI { eci_ContentType : oid; eci_Algorithm : AI; eci_Data : option bytes }.
Definition cECI : codec encryptedContentInfo :=
  cStruct (fcons noP cOID (fcons noP cAI (fcons (optImplicitP 0) cBytes fnil))) (fun '(t, (a, (d, _))) => mkECI t a d)
    (fun x => (eci_ContentType x, (eci_Algorithm x, (eci_Data x, tt)))).
(** pkcs12.go:39-42 *)
Record encryptedData := mkED { ed_Version : Z; ed_Info : encryptedContentInfo }.
Definition cED : codec encryptedData :=
  cStruct (fcons noP cInt (fcons noP cECI fnil)) (fun '(v, (i, _)) => mkED v i) (fun x => (ed_Version x, (ed_Info x, tt))).
(** pkcs12.go:64-67 *)
Record pkcs12Attribute := mkAttr { at_Id : oid; at_Value : rawValue }.
Definition cAttr : codec pkcs12Attribute :=
  cStruct (fcons noP cOID (fcons setP cRaw fnil)) (fun '(i, (v, _)) => mkAttr i v) (fun x => (at_Id x, (at_Value x, tt))).
(** pkcs12.go:58-62 *)
Record safeBag := mkBag { bag_Id : oid; bag_Value : rawValue; bag_Attributes : option (list pkcs12Attribute) }.
Definition cBag : codec safeBag :=
  cStruct (fcons noP cOID (fcons (explicitP 0) cRaw (fcons optSetP (cSeqOf false cAttr) fnil))) (fun '(i, (v, (a, _))) => mkBag i v a)
    (fun x => (bag_Id x, (bag_Value x, (bag_Attributes x, tt)))).
(** pkcs12.go:69-72 *)
Record encryptedPrivateKeyInfo := mkEPKI { epki_Algorithm : AI; epki_Data : option bytes }.
Definition cEPKI : codec encryptedPrivateKeyInfo :=
  cStruct (fcons noP cAI (fcons noP cBytes fnil)) (fun '(a, (d, _)) => mkEPKI a d) (fun x => (epki_Algorithm x, (epki_Data x, tt))).
(** safebags.go:21-24 *)
Record certBag := mkCB { cb_Id : oid; cb_Data : option bytes }.
Definition cCB : codec certBag :=
  cStruct (fcons noP cOID (fcons (explicitP 0) cBytes fnil)) (fun '(i, (d, _)) => mkCB i d) (fun x => (cb_Id x, (cb_Data x, tt))).

(** pkcs12.go:372-400: the loop over the authenticated safe *)
Fixpoint safes_loop (P : prims) (password : bytes) (l : list contentInfo) : outcome (list safeBag) :=
  match l with
  | [] => Ret []
  | ci :: r =>
      let content := sl (rv_bytes (ci_Content ci)) in
      do data <-
        (if oid_eqb (ci_ContentType ci) oidDataContentType then do d <- unmarshal cBytes content; Ret (sl d)
         else if oid_eqb (ci_ContentType ci) oidEncryptedDataContentType then
           do ed <- unmarshal cED content;
           if negb (ed_Version ed =? 0) then Err "go-pkcs12: only version 0 of EncryptedData is supported" else
           pbDecrypt P (eci_Algorithm (ed_Info ed)) (sl (eci_Data (ed_Info ed))) password
         else Err "go-pkcs12: only data and encryptedData content types are supported in authenticated safe");
      do bags <- unmarshal (cSeqOf false cBag) data;
      do rest <- safes_loop P password r;
      Ret (match bags with Some b => b | None => [] end ++ rest)
  end.
(** pkcs12.go:350-361: the MAC check with the fallback for the empty password; the password to use from here on *)
Definition checkMac (P : prims) (md : macData) (message password : bytes) : outcome bytes :=
  match verifyMac P md message password with
  | Ret _ => Ret password
  | Panic => Panic
  | Err e =>
      if (e =? ErrIncorrectPassword)%string && bytes_eqb password [0; 0] then
        do _ <- verifyMac P md message []; Ret []
      else Err e
  end.
(** pkcs12.go:327-403 *)
Definition getSafeContents (P : prims) (p12Data password : bytes) : outcome (list safeBag * bytes) :=
  match unmarshal cPfx p12Data with
  | Panic => Panic
  | Err e => Err (errcat "go-pkcs12: error reading P12 data: " e)
  | Ret pfx =>
      if negb (pfx_Version pfx =? 3) then Err "go-pkcs12: can only decode v3 PFX PDU's" else
      if negb (oid_eqb (ci_ContentType (pfx_AuthSafe pfx)) oidDataContentType) then Err "go-pkcs12: only password-protected PFX is implemented" else
      do content <- unmarshal cRaw (sl (rv_bytes (ci_Content (pfx_AuthSafe pfx))));
      let safeBytes := sl (rv_bytes content) in
      match ai_alg (di_Algorithm (mac_Mac (pfx_MacData pfx))) with
      | [] => Err "go-pkcs12: no MAC in data"
      | _ =>
          do password <- checkMac P (pfx_MacData pfx) safeBytes password;
          do authenticatedSafe <- unmarshal (cSeqOf false cCI) safeBytes;
          let l := match authenticatedSafe with Some l => l | None => [] end in
          if negb (List.length l =? 2)%nat then Err "go-pkcs12: expected exactly two items in the authenticated safe" else
          do bags <- safes_loop P password l;
          Ret (bags, password)
      end
  end.

(** ** safebags.go *)
(** safebags.go:79-88 *)
Definition decodeCertBag (asn1Data : bytes) : outcome bytes :=
  match unmarshal cCB asn1Data with
  | Panic => Panic
  | Err e => Err (errcat "go-pkcs12: error decoding cert bag: " e)
  | Ret bag => if negb (oid_eqb (cb_Id bag) oidCertTypeX509Certificate) then Err "go-pkcs12: only X509 certificates are supported"
               else Ret (sl (cb_Data bag))
  end.
(** safebags.go:90-98 *)
Definition encodeCertBag (x509Certificates : bytes) : outcome bytes :=
  match Marshal cCB (mkCB oidCertTypeX509Certificate (Some x509Certificates)) with
  | Err e => Err (errcat "go-pkcs12: error encoding cert bag: " e)
  | r => r
  end.
Section Keys.
Variable P : prims.
(** the public half of an Ed25519 key (see KeysModel) *)
Variable edPub : bytes -> bytes.
(** safebags.go:26-47 *)
Definition decodePkcs8ShroudedKeyBag (asn1Data password : bytes) : outcome privKey :=
  match unmarshal cEPKI asn1Data with
  | Panic => Panic
  | Err e => Err (errcat "go-pkcs12: error decoding PKCS#8 shrouded key bag: " e)
  | Ret pkinfo =>
      match pbDecrypt P (epki_Algorithm pkinfo) (sl (epki_Data pkinfo)) password with
      | Panic => Panic
      | Err e => Err (errcat "go-pkcs12: error decrypting PKCS#8 shrouded key bag: " e)
      | Ret pkData =>
          match unmarshal cRaw pkData with
          | Panic => Panic
          | Err e => Err (errcat "go-pkcs12: error unmarshaling decrypted private key: " e)
          | Ret _ =>
              match ParsePKCS8PrivateKey edPub pkData with
              | Err e => Err (errcat "go-pkcs12: error parsing PKCS#8 private key: " e)
              | r => r
              end
          end
      end
  end.
(** rand.Read(8 bytes) *)
Definition read8 (rnd : bytes) : outcome (bytes * bytes) :=
  if zlen rnd <? 8 then Err "rand: short read" else Ret (firstn 8 rnd, skipn 8 rnd).
(** safebags.go:49-77; [rnd] is the random source *)
Definition encodePkcs8ShroudedKeyBag (rnd : bytes) (key : privKey) (password : bytes) : outcome (bytes * bytes) :=
  match MarshalPKCS8PrivateKey key with
  | Panic => Panic
  | Err e => Err (errcat "go-pkcs12: error encoding PKCS#8 private key: " e)
  | Ret pkData =>
      do (randomSalt, rnd) <- read8 rnd;
      do paramBytes <- Marshal cPbe (mkPbe (Some randomSalt) 2048);
      let ai := mkAI oidPBEWithSHAAnd3KeyTripleDESCBC (mkRaw 0 0 false None (Some paramBytes)) in
      do enc <- pbEncrypt P ai pkData password;
      do asn1Data <- Marshal cEPKI (mkEPKI ai (Some enc));
      Ret (asn1Data, rnd)
  end.

(** ** Decode, DecodeAll *)
(** [C] is the type of parsed certificates and parseCerts is ParseCertificates: the one of mcrypto/x509 in
    DecodeAll, the standard library's in Decode *)
Variable C : Type.
Variable parseCerts : bytes -> outcome (list C).
(** the loop state: privateKey, certificate list, the function-level err *)
Record decodeState := mkDS { ds_key : option privKey; ds_certs : list C; ds_err : option string }.
(** pkcs12.go:224-254.  In a certificate bag err is shadowed after the first assignment; in a key bag the
    assignment to err overwrites an earlier error. *)
Fixpoint bags_loop (all : bool) (password : bytes) (st : decodeState) (bags : list safeBag) : outcome decodeState :=
  match bags with
  | [] => Ret st
  | bag :: r =>
      let value := sl (rv_bytes (bag_Value bag)) in
      if oid_eqb (bag_Id bag) oidCertBag then
        let err := match ds_certs st with [] => ds_err st | _ => Some "go-pkcs12: expected exactly one certificate bag"%string end in
        do certsData <- decodeCertBag value;
        do certs <- parseCerts certsData;
        match certs with
        | [c] => bags_loop all password (mkDS (ds_key st) (if all then ds_certs st ++ [c] else [c]) err) r
        | _ => Err "go-pkcs12: expected exactly one certificate in the certBag"
        end
      else if oid_eqb (bag_Id bag) oidPKCS8ShroundedKeyBag then
        do key <- decodePkcs8ShroudedKeyBag value password;
        bags_loop all password (mkDS (Some key) (ds_certs st) None) r
      else bags_loop all password st r
  end.
(** pkcs12.go:208-264 ([all] = true: DecodeAll) and 269-325 (Decode).  Err is an early return of nil, nil, err;
    Ret carries what the final bare return gives: key, certificates, and possibly a non-nil error too. *)
Definition decode_gen (all : bool) (pfxData password : bytes) : outcome (privKey * list C * option string) :=
  do encodedPassword <- bmpString password;
  do (bags, encodedPassword) <- getSafeContents P pfxData encodedPassword;
  do st <- bags_loop all encodedPassword (mkDS None [] None) bags;
  match ds_certs st with
  | [] => Err "go-pkcs12: certificate missing"
  | certs =>
      match ds_key st with
      | None => Err "go-pkcs12: private key missing"
      | Some key => Ret (key, certs, ds_err st)
      end
  end.
Definition DecodeAll := decode_gen true.
Definition Decode := decode_gen false.

(** ** ToPEM *)
(** pem.Block: the header map as a list of entries, the last assignment wins *)
Record pemBlock := mkPem { pem_Type : string; pem_Headers : list (string * bytes); pem_Bytes : bytes }.
Definition set_header (h : list (string * bytes)) (k : string) (v : bytes) : list (string * bytes) :=
  filter (fun e => negb (fst e =? k)%string) h ++ [(k, v)].
(** encoding/hex EncodeToString *)
Definition hexdigit (n : Z) : Z := if n <? 10 then n + 48 else n + 87.
Definition hex_EncodeToString (b : bytes) : bytes := flat_map (fun x => [hexdigit (x / 16); hexdigit (x mod 16)]) b.
(** pkcs12.go:172-205 *)
Definition convertAttribute (a : pkcs12Attribute) : outcome (string * bytes) :=
  do (key, isString) <-
    (if oid_eqb (at_Id a) oidFriendlyName then Ret ("friendlyName"%string, true)
     else if oid_eqb (at_Id a) oidLocalKeyID then Ret ("localKeyId"%string, false)
     else if oid_eqb (at_Id a) oidMicrosoftCSPName then Ret ("Microsoft CSP Name"%string, true)
     else Err "go-pkcs12: unknown attribute");
  let v := sl (rv_bytes (at_Value a)) in
  if (isString : bool) then
    do r <- unmarshal cRaw v;
    do s <- decodeBMPString (sl (rv_bytes r));
    Ret (key, s)
  else
    do id <- unmarshal cBytes v;
    Ret (key, hex_EncodeToString (sl id)).
Fixpoint convertAttributes (l : list pkcs12Attribute) (h : list (string * bytes)) : outcome (list (string * bytes)) :=
  match l with
  | [] => Ret h
  | a :: r => do (k, v) <- convertAttribute a; convertAttributes r (set_header h k v)
  end.
(** pkcs12.go:126-170; x509 here is the standard library, whose MarshalPKCS1PrivateKey and MarshalECPrivateKey
    agree with the models of KeysModel on RSA and NIST-curve keys (the only ECDSA keys that occur) *)
Definition convertBag (bag : safeBag) (password : bytes) : outcome pemBlock :=
  do headers <- convertAttributes (match bag_Attributes bag with Some l => l | None => [] end) [];
  let value := sl (rv_bytes (bag_Value bag)) in
  if oid_eqb (bag_Id bag) oidCertBag then
    do certsData <- decodeCertBag value;
    Ret (mkPem "CERTIFICATE" headers certsData)
  else if oid_eqb (bag_Id bag) oidPKCS8ShroundedKeyBag then
    do key <- decodePkcs8ShroudedKeyBag value password;
    match key with
    | SKrsa k => do b <- MarshalPKCS1PrivateKey k; Ret (mkPem "PRIVATE KEY" headers b)
    | SKecdsa c x y d => do b <- MarshalECPrivateKey c x y d; Ret (mkPem "PRIVATE KEY" headers b)
    | _ => Err "found unknown private key type in PKCS#8 wrapping"
    end
  else Err "don't know how to convert a safe bag of this type".
Fixpoint convertBags (bags : list safeBag) (password : bytes) : outcome (list pemBlock) :=
  match bags with
  | [] => Ret []
  | b :: r => do x <- convertBag b password; do xs <- convertBags r password; Ret (x :: xs)
  end.
(** pkcs12.go:106-124: the error of getSafeContents is dropped; bags is nil then *)
Definition ToPEM (pfxData password : bytes) : outcome (list pemBlock) :=
  match bmpString password with
  | Panic => Panic
  | Err _ => Err ErrIncorrectPassword
  | Ret encodedPassword =>
      match getSafeContents P pfxData encodedPassword with
      | Panic => Panic
      | Err _ => Ret []
      | Ret (bags, encodedPassword) => convertBags bags encodedPassword
      end
  end.

(** ** Encode *)
(** pkcs12.go:494-505 *)
Definition makeCertBag (certBytes : bytes) (attributes : option (list pkcs12Attribute)) : outcome safeBag :=
  do b <- encodeCertBag certBytes;
  Ret (mkBag oidCertBag (mkRaw 2 0 true (Some b) None) attributes).
(** pkcs12.go:507-550 *)
Definition makeSafeContents (rnd : bytes) (bags : list safeBag) (password : option bytes) : outcome (contentInfo * bytes) :=
  do data <- Marshal (cSeqOf false cBag) (Some bags);
  match password with
  | None =>
      do b <- Marshal cBytes (Some data);
      Ret (mkCI oidDataContentType (mkRaw 2 0 true (Some b) None), rnd)
  | Some password =>
      do (randomSalt, rnd) <- read8 rnd;
      do paramBytes <- Marshal cPbe (mkPbe (Some randomSalt) 2048);
      let algo := mkAI oidPBEWithSHAAnd40BitRC2CBC (mkRaw 0 0 false None (Some paramBytes)) in
      do enc <- pbEncrypt P algo data password;
      do b <- Marshal cED (mkED 0 (mkECI oidDataContentType algo (Some enc)));
      Ret (mkCI oidEncryptedDataContentType (mkRaw 2 0 true (Some b) None), rnd)
  end.
(** pkcs12.go:410-492; certificates are given by their Raw bytes *)
Definition Encode (rnd : bytes) (key : privKey) (certRaw : bytes) (caRaws : list bytes) (password : bytes) : outcome bytes :=
  do encodedPassword <- bmpString password;
  do fpBytes <- Marshal cBytes (Some (sha1 P certRaw));
  let localKeyIdAttr := mkAttr oidLocalKeyID (mkRaw 0 17 true (Some fpBytes) None) in
  do certBag0 <- makeCertBag certRaw (Some [localKeyIdAttr]);
  do caBags <- mapM (fun raw => makeCertBag raw (Some [])) caRaws;
  do (shrouded, rnd) <- encodePkcs8ShroudedKeyBag rnd key encodedPassword;
  let keyBag := mkBag oidPKCS8ShroundedKeyBag (mkRaw 2 0 true (Some shrouded) None) (Some [localKeyIdAttr]) in
  do (as0, rnd) <- makeSafeContents rnd (certBag0 :: caBags) (Some encodedPassword);
  do (as1, rnd) <- makeSafeContents rnd [keyBag] None;
  do authenticatedSafeBytes <- Marshal (cSeqOf false cCI) (Some [as0; as1]);
  do (macSalt, rnd) <- read8 rnd;
  do md <- computeMac P (mkMac (mkDI (mkAI oidSHA1 rawZero) None) (Some macSalt) 1) authenticatedSafeBytes encodedPassword;
  do contentBytes <- Marshal cBytes (Some authenticatedSafeBytes);
  match Marshal cPfx (mkPfx 3 (mkCI oidDataContentType (mkRaw 2 0 true (Some contentBytes) None)) md) with
  | Err e => Err (errcat "go-pkcs12: error writing P12 data: " e)
  | r => r
  end.
(** pkcs12.go:559-591; [file] is the file's contents, None when it cannot be read (the error is dropped).
    The final "return nil, nil, nil" is for an SM2 key on another curve. *)
Definition SM2P12Decrypt (file : option bytes) (pwd : bytes) : outcome (option (C * privKey)) :=
  do (pv, certs, err) <- DecodeAll (sl file) pwd;
  match err with
  | Some e => Err e
  | None =>
      match certs with
      | [] => Panic
      | cer0 :: _ =>
          match pv with
          | SKsm2 k =>
              if pk_Curve (sk_Pub k) =? SM2P256V1_id then
                if negb (sm2_IsOnCurve (pk_X (sk_Pub k)) (pk_Y (sk_Pub k))) then Err "error while validating SM2 private key: %v"
                else Ret (Some (cer0, SKsm2 k))
              else Ret None
          | SKrsa _ => Ret (Some (cer0, pv))
          | _ => Err "unexpected type for p12 private key"
          end
      end
  end.
End Keys.
