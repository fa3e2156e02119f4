(** * Model of x509/sec1.go, x509/pkcs8.go, x509/pkcs1.go and the public-key parts of x509/x509.go and
    x509/parser.go (private and public key encodings) *)
From Coq Require Import String.
From Verif Require Import Base Words ECModel SM2Model CryptoByte Asn1.
Open Scope Z_scope.

Definition errcat (p : string) (e : string) : string := String.append p e.

(** ** Curves.  The dynamic elliptic.Curve value is an identity number: 0 is sm2.SM2P256V1() (as in
    SM2Model), 224/256/384/521 the NIST curves of crypto/elliptic; anything else is a curve x509 does not
    know.  The optimised NIST implementations are represented by the generic CurveParams arithmetic. *)
Record curve := mkCurve { cv_P : Z; cv_N : Z; cv_B : Z; cv_Gx : Z; cv_Gy : Z; cv_BitSize : Z }.
Definition curve_sm2 : curve := mkCurve sm2_P sm2_N sm2_B sm2_Gx sm2_Gy sm2_BitSize.
Definition curve_p224 : curve := mkCurve
  0xffffffffffffffffffffffffffffffff000000000000000000000001 0xffffffffffffffffffffffffffff16a2e0b8f03e13dd29455c5c2a3d
  0xb4050a850c04b3abf54132565044b0b7d7bfd8ba270b39432355ffb4
  0xb70e0cbd6bb4bf7f321390b94a03c1d356c21122343280d6115c1d21 0xbd376388b5f723fb4c22dfe6cd4375a05a07476444d5819985007e34 224.
Definition curve_p256 : curve := mkCurve
  0xffffffff00000001000000000000000000000000ffffffffffffffffffffffff 0xffffffff00000000ffffffffffffffffbce6faada7179e84f3b9cac2fc632551
  0x5ac635d8aa3a93e7b3ebbd55769886bc651d06b0cc53b0f63bce3c3e27d2604b
  0x6b17d1f2e12c4247f8bce6e563a440f277037d812deb33a0f4a13945d898c296 0x4fe342e2fe1a7f9b8ee7eb4a7c0f9e162bce33576b315ececbb6406837bf51f5 256.
Definition curve_p384 : curve := mkCurve
  0xfffffffffffffffffffffffffffffffffffffffffffffffffffffffffffffffeffffffff0000000000000000ffffffff
  0xffffffffffffffffffffffffffffffffffffffffffffffffc7634d81f4372ddf581a0db248b0a77aecec196accc52973
  0xb3312fa7e23ee7e4988e056be3f82d19181d9c6efe8141120314088f5013875ac656398d8a2ed19d2a85c8edd3ec2aef
  0xaa87ca22be8b05378eb1c71ef320ad746e1d3b628ba79b9859f741e082542a385502f25dbf55296c3a545e3872760ab7
  0x3617de4a96262c6f5d9e98bf9292dc29f8f41dbd289a147ce9da3113b5f0b8c00a60b1ce1d7e819d7a431d7c90ea0e5f 384.
Definition curve_p521 : curve := mkCurve
  0x1ffffffffffffffffffffffffffffffffffffffffffffffffffffffffffffffffffffffffffffffffffffffffffffffffffffffffffffffffffffffffffffffffff
  0x1fffffffffffffffffffffffffffffffffffffffffffffffffffffffffffffffffa51868783bf2f966b7fcc0148f709a5d03bb5c9b8899c47aebb6fb71e91386409
  0x51953eb9618e1c9a1f929a21a0b68540eea2da725b99b315f3b8b489918ef109e156193951ec7e937b1652c0bd3bb1bf073573df883d2c34f1ef451fd46b503f00
  0xc6858e06b70404e9cd9e3ecb662395b4429c648139053fb521f828af606b4d3dbaa14b5e77efe75928fe1dc127a2ffa8de3348b3c1856a429bf97e7e31c2e5bd66
  0x11839296a789a3bc0045c8a5fb42c7d1bd998f54449579b446817afbd17273e662c97ee72995ef42640c550b9013fad0761353c7086a272c24088be94769fd16650 521.
Definition curve_of (id : Z) : option curve :=
  if id =? SM2P256V1_id then Some curve_sm2 else if id =? 224 then Some curve_p224 else if id =? 256 then Some curve_p256
  else if id =? 384 then Some curve_p384 else if id =? 521 then Some curve_p521 else None.

(** crypto/elliptic CurveParams.ScalarBaseMult *)
Definition cv_ScalarBaseMult (c : curve) (k : bytes) : outcome (Z * Z) := ScalarMult (cv_P c) (cv_Gx c) (cv_Gy c) k.
(** big.Int.BitLen *)
Definition BitLen (n : Z) : Z := if n =? 0 then 0 else Z.log2 (Z.abs n) + 1.
(** big.Int.FillBytes into a buffer of n bytes: panics when the value does not fit *)
Definition FillBytes (n : nat) (x : Z) : outcome bytes :=
  if Z.abs x <? 256 ^ Z.of_nat n then Ret (Z_to_be n (Z.abs x)) else Panic.
Definition byteLen (bits : Z) : nat := Z.to_nat ((bits + 7) / 8).
(** crypto/elliptic Marshal (Go 1.18: no curve check) *)
Definition elliptic_Marshal (c : curve) (x y : Z) : outcome bytes :=
  do xb <- FillBytes (byteLen (cv_BitSize c)) x;
  do yb <- FillBytes (byteLen (cv_BitSize c)) y;
  Ret (4 :: xb ++ yb).
(** crypto/elliptic Unmarshal *)
Definition elliptic_Unmarshal (c : curve) (data : bytes) : option (Z * Z) :=
  let n := byteLen (cv_BitSize c) in
  if negb (List.length data =? 1 + 2 * n)%nat then None else
  match data with
  | [] => None
  | b :: r =>
      if negb (b =? 4) then None else
      let x := be_to_Z (firstn n r) in
      let y := be_to_Z (skipn n r) in
      if (cv_P c <=? x) || (cv_P c <=? y) then None else
      if IsOnCurve (cv_P c) (cv_B c) x y then Some (x, y) else None
  end.

(** ** x509.go:661-706 *)
Definition oidNamedCurveP224 : oid := [1; 3; 132; 0; 33].
Definition oidNamedCurveP256 : oid := [1; 2; 840; 10045; 3; 1; 7].
Definition oidNamedCurveP384 : oid := [1; 3; 132; 0; 34].
Definition oidNamedCurveP521 : oid := [1; 3; 132; 0; 35].
Definition oidNamedCurveSM2P256 : oid := [1; 2; 156; 10197; 1; 301].
Definition oidPublicKeyRSA : oid := [1; 2; 840; 113549; 1; 1; 1].
Definition oidPublicKeyDSA : oid := [1; 2; 840; 10040; 4; 1].
Definition oidPublicKeyECDSA : oid := [1; 2; 840; 10045; 2; 1].
Definition oidPublicKeyEd25519 : oid := [1; 3; 101; 112].
(** x509.go:676-690: the curve's identity, None is nil *)
Definition namedCurveFromOID (o : oid) : option Z :=
  if oid_eqb o oidNamedCurveP224 then Some 224 else if oid_eqb o oidNamedCurveP256 then Some 256
  else if oid_eqb o oidNamedCurveP384 then Some 384 else if oid_eqb o oidNamedCurveP521 then Some 521
  else if oid_eqb o oidNamedCurveSM2P256 then Some SM2P256V1_id else None.
(** x509.go:692-707 *)
Definition oidFromNamedCurve (id : Z) : option oid :=
  if id =? 224 then Some oidNamedCurveP224 else if id =? 256 then Some oidNamedCurveP256
  else if id =? 384 then Some oidNamedCurveP384 else if id =? 521 then Some oidNamedCurveP521
  else if id =? SM2P256V1_id then Some oidNamedCurveSM2P256 else None.

(** ** Keys: the dynamic types behind [any] *)
Record rsaKey := mkRsa { rsa_N : Z; rsa_E : Z; rsa_D : Z; rsa_Primes : list Z }.
Inductive privKey :=
| SKrsa (k : rsaKey)                      (* *rsa.PrivateKey *)
| SKecdsa (c x y d : Z)                   (* *ecdsa.PrivateKey: curve identity, X, Y, D *)
| SKsm2 (k : PrivateKey)                  (* *sm2.PrivateKey *)
| SKed25519 (k : bytes)                   (* ed25519.PrivateKey (64 bytes) *)
| SKother.                                (* any other type *)
Inductive pubKey :=
| PKrsa (n e : Z)
| PKecdsa (c x y : Z)
| PKsm2 (k : PublicKey)
| PKed25519 (k : bytes)
| PKdsa (y p q g : Z)
| PKother.                                (* any other type; also the nil of parsePublicKey's default case *)

(** ** ASN.1 structures *)
(** crypto/x509/pkix AlgorithmIdentifier *)
Record AI := mkAI { ai_alg : oid; ai_params : rawValue }.
Definition cAI : codec AI :=
  cStruct (fcons noP cOID (fcons optP cRaw fnil)) (fun x => mkAI (fst x) (fst (snd x))) (fun a => (ai_alg a, (ai_params a, tt))).
(** asn1.NullBytes, asn1.NullRawValue *)
Definition NullBytes : bytes := [5; 0].
Definition NullRawValue : rawValue := mkRaw 0 5 false None None.
(** sec1.go:25-30 *)
Record ecPrivateKey := mkEC { ec_Version : Z; ec_PrivateKey : option bytes; ec_OID : oid; ec_PublicKey : bitString }.
Definition cEC : codec ecPrivateKey :=
  cStruct (fcons noP cInt (fcons noP cBytes (fcons (optExplicitP 0) cOID (fcons (optExplicitP 1) cBits fnil))))
    (fun '(v, (k, (o, (p, _)))) => mkEC v k o p) (fun e => (ec_Version e, (ec_PrivateKey e, (ec_OID e, (ec_PublicKey e, tt))))).
(** pkcs8.go:17-22 *)
Record pkcs8 := mkP8 { p8_Version : Z; p8_Algo : AI; p8_PrivateKey : option bytes }.
Definition cP8 : codec pkcs8 :=
  cStruct (fcons noP cInt (fcons noP cAI (fcons noP cBytes fnil)))
    (fun '(v, (a, (k, _))) => mkP8 v a k) (fun e => (p8_Version e, (p8_Algo e, (p8_PrivateKey e, tt)))).
(** pkcs1.go:30-36 *)
Record additionalPrime := mkAP { ap_Prime : option Z; ap_Exp : option Z; ap_Coeff : option Z }.
Definition cAP : codec additionalPrime :=
  cStruct (fcons noP cBig (fcons noP cBig (fcons noP cBig fnil)))
    (fun '(a, (b, (c, _))) => mkAP a b c) (fun e => (ap_Prime e, (ap_Exp e, (ap_Coeff e, tt)))).
(** pkcs1.go:15-28 *)
Record pkcs1PrivateKey := mkP1 { p1_Version : Z; p1_N : option Z; p1_E : Z; p1_D : option Z; p1_P : option Z; p1_Q : option Z;
  p1_Dp : option Z; p1_Dq : option Z; p1_Qinv : option Z; p1_Add : option (list additionalPrime) }.
Definition omitP : params := mkP true false None false None true.
Definition cP1 : codec pkcs1PrivateKey :=
  cStruct (fcons noP cInt (fcons noP cBig (fcons noP cInt (fcons noP cBig (fcons noP cBig (fcons noP cBig
            (fcons optP cBig (fcons optP cBig (fcons optP cBig (fcons omitP (cSeqOf false cAP) fnil))))))))))
    (fun '(v, (n, (e, (d, (p, (q, (dp, (dq, (qi, (l, _)))))))))) => mkP1 v n e d p q dp dq qi l)
    (fun k => (p1_Version k, (p1_N k, (p1_E k, (p1_D k, (p1_P k, (p1_Q k, (p1_Dp k, (p1_Dq k, (p1_Qinv k, (p1_Add k, tt))))))))))).
(** pkcs1.go:39-42 *)
Record pkcs1PublicKey := mkP1Pub { p1p_N : option Z; p1p_E : Z }.
Definition cP1Pub : codec pkcs1PublicKey :=
  cStruct (fcons noP cBig (fcons noP cInt fnil)) (fun '(n, (e, _)) => mkP1Pub n e) (fun k => (p1p_N k, (p1p_E k, tt))).
(** x509.go:49-52 *)
Record pkixPublicKey := mkPkix { pkx_Algo : AI; pkx_Bits : bitString }.
Definition cPkix : codec pkixPublicKey :=
  cStruct (fcons noP cAI (fcons noP cBits fnil)) (fun '(a, (b, _)) => mkPkix a b) (fun k => (pkx_Algo k, (pkx_Bits k, tt))).
(** x509.go:189-193 *)
Record publicKeyInfo := mkPKI { pki_Raw : option bytes; pki_Algo : AI; pki_PublicKey : bitString }.
Definition cPKI : codec publicKeyInfo :=
  cStructRaw (fcons noP cAI (fcons noP cBits fnil)) (fun r '(a, (b, _)) => mkPKI r a b) pki_Raw (fun k => (pki_Algo k, (pki_PublicKey k, tt))).

(** ** x509/pkcs1.go *)
(** crypto/rsa PrivateKey.Validate (Go 1.18), with checkPub *)
Definition rsa_Validate (k : rsaKey) : option string :=
  if rsa_E k <? 2 then Some "crypto/rsa: public exponent too small"%string else
  if 2 ^ 31 - 1 <? rsa_E k then Some "crypto/rsa: public exponent too large"%string else
  if existsb (fun p => p <=? 1) (rsa_Primes k) then Some "crypto/rsa: invalid prime value"%string else
  if negb (fold_left Z.mul (rsa_Primes k) 1 =? rsa_N k) then Some "crypto/rsa: invalid modulus"%string else
  if existsb (fun p => negb ((rsa_E k * rsa_D k) mod (p - 1) =? 1)) (rsa_Primes k) then Some "crypto/rsa: invalid exponents"%string
  else None.
Fixpoint additional_primes (l : list additionalPrime) : outcome (list Z) :=
  match l with
  | [] => Ret []
  | a :: r =>
      match ap_Prime a with
      | None => Panic
      | Some p => if p <=? 0 then Err "x509: private key contains zero or negative prime"
                  else do ps <- additional_primes r; Ret (p :: ps)
      end
  end.
Definition ok {A} (x : outcome A) : bool := match x with Ret _ => true | _ => false end.
(** pkcs1.go:47-97.  asn1.Unmarshal returns no rest on error.  Precompute only fills caches, which are not
    part of the model's key.  The integer fields are non-nil after a successful Unmarshal. *)
Definition ParsePKCS1PrivateKey (der : bytes) : outcome rsaKey :=
  match Unmarshal cP1 der with
  | Panic => Panic
  | Err e =>
      if ok (Unmarshal cEC der) then Err "x509: failed to parse private key (use ParseECPrivateKey instead for this key format)" else
      if ok (Unmarshal cP8 der) then Err "x509: failed to parse private key (use ParsePKCS8PrivateKey instead for this key format)" else Err e
  | Ret (_, _ :: _) => Err "asn1: syntax error: trailing data"
  | Ret (priv, []) =>
      if 1 <? p1_Version priv then Err "x509: unsupported private key version" else
      match p1_N priv, p1_D priv, p1_P priv, p1_Q priv with
      | Some n, Some d, Some p, Some q =>
          if (n <=? 0) || (d <=? 0) || (p <=? 0) || (q <=? 0) then Err "x509: private key contains zero or negative value" else
          do add <- additional_primes (match p1_Add priv with Some l => l | None => [] end);
          let key := mkRsa n (p1_E priv) d (p :: q :: add) in
          match rsa_Validate key with Some e => Err e | None => Ret key end
      | _, _, _, _ => Panic
      end
  end.
(** crypto/rsa Precompute: the CRT values of the primes after the second; r is the product so far *)
Fixpoint crt_values (D r : Z) (primes : list Z) : list additionalPrime :=
  match primes with
  | [] => []
  | p :: ps => mkAP (Some p) (Some (D mod (p - 1))) (ModInverse r p) :: crt_values D (r * p) ps
  end.
(** pkcs1.go:104-133: the error is dropped, nil is returned then.  Primes[0], Primes[1] panic when absent.
    The cached values are assumed to be those Precompute computes, and the primes to be above 1 (Precompute divides by p-1). *)
Definition MarshalPKCS1PrivateKey (key : rsaKey) : outcome bytes :=
  match rsa_Primes key with
  | p :: q :: add =>
      let priv := mkP1 (match add with [] => 0 | _ => 1 end) (Some (rsa_N key)) (rsa_E key) (Some (rsa_D key)) (Some p) (Some q)
                       (Some (rsa_D key mod (p - 1))) (Some (rsa_D key mod (q - 1))) (ModInverse q p)
                       (Some (crt_values (rsa_D key) (p * q) add)) in
      match Marshal cP1 priv with Ret b => Ret b | Err _ => Ret [] | Panic => Panic end
  | _ => Panic
  end.
(** pkcs1.go:138-162 *)
Definition ParsePKCS1PublicKey (der : bytes) : outcome (Z * Z) :=
  match Unmarshal cP1Pub der with
  | Panic => Panic
  | Err e =>
      if ok (Unmarshal cPKI der) then Err "x509: failed to parse public key (use ParsePKIXPublicKey instead for this key format)" else Err e
  | Ret (_, _ :: _) => Err "asn1: syntax error: trailing data"
  | Ret (pub, []) =>
      match p1p_N pub with
      | None => Panic
      | Some n =>
          if (n <=? 0) || (p1p_E pub <=? 0) then Err "x509: public key contains zero or negative value" else
          if 2 ^ 31 - 1 <? p1p_E pub then Err "x509: public key contains large public exponent" else
          Ret (n, p1p_E pub)
      end
  end.
(** pkcs1.go:167-173 *)
Definition MarshalPKCS1PublicKey (n e : Z) : bytes :=
  match Marshal cP1Pub (mkP1Pub (Some n) e) with Ret b => b | _ => [] end.

(** ** x509/sec1.go *)
(** sec1.go:65-73 (and 55-63 for ECDSA keys): the BIT STRING is marshalled with BitLength 0 *)
Definition marshalECPrivateKeyWithOID (c : curve) (x y d : Z) (o : oid) : outcome bytes :=
  do pk <- FillBytes (byteLen (BitLen (cv_N c))) d;
  do pub <- elliptic_Marshal c x y;
  Marshal cEC (mkEC 1 (Some pk) o (mkBits (Some pub) 0)).
(** sec1.go:44-51 *)
Definition MarshalECPrivateKey (cid x y d : Z) : outcome bytes :=
  match oidFromNamedCurve cid, curve_of cid with
  | Some o, Some c => marshalECPrivateKeyWithOID c x y d o
  | _, _ => Err "x509: unknown elliptic curve"
  end.
(** sec1.go:113-118 *)
Fixpoint strip_zeros (n : nat) (k : bytes) : outcome bytes :=
  if (List.length k <=? n)%nat then Ret k
  else match k with
       | [] => Ret []
       | b :: r => if negb (b =? 0) then Err "x509: invalid private key length" else strip_zeros n r
       end.
(** sec1.go:79-135 *)
Definition parseECPrivateKey (namedCurveOID : option oid) (der : bytes) : outcome privKey :=
  match Unmarshal cEC der with
  | Panic => Panic
  | Err e =>
      if ok (Unmarshal cP8 der) then Err "x509: failed to parse private key (use ParsePKCS8PrivateKey instead for this key format)" else
      if ok (Unmarshal cP1 der) then Err "x509: failed to parse private key (use ParsePKCS1PrivateKey instead for this key format)" else
      Err (errcat "x509: failed to parse EC private key: " e)
  | Ret (privKey, _) =>
      if negb (ec_Version privKey =? 1) then Err "x509: unknown EC private key version" else
      match namedCurveFromOID (match namedCurveOID with Some o => o | None => ec_OID privKey end) with
      | None => Err "x509: unknown elliptic curve"
      | Some id =>
          match curve_of id with
          | None => Panic
          | Some c =>
              let k := be_to_Z (sl (ec_PrivateKey privKey)) in
              if cv_N c <=? k then Err "x509: invalid elliptic curve private key value" else
              let n := byteLen (BitLen (cv_N c)) in
              do pk <- strip_zeros n (sl (ec_PrivateKey privKey));
              let privateKey := repeat 0 (n - List.length pk) ++ pk in
              do xy <- cv_ScalarBaseMult c privateKey;
              if id =? SM2P256V1_id then Ret (SKsm2 (mkPriv (mkPub id (fst xy) (snd xy)) k))
              else Ret (SKecdsa id (fst xy) (snd xy) k)
          end
      end
  end.
(** sec1.go:35-37 *)
Definition ParseECPrivateKey (der : bytes) : outcome privKey := parseECPrivateKey None der.

(** ** x509/pkcs8.go *)
Section PKCS8.
(** ed25519.NewKeyFromSeed(seed) = seed ++ edPub seed (crypto/ed25519, not modelled) *)
Variable edPub : bytes -> bytes.
(** pkcs8.go:30-77 *)
Definition ParsePKCS8PrivateKey (der : bytes) : outcome privKey :=
  match Unmarshal cP8 der with
  | Panic => Panic
  | Err e =>
      if ok (Unmarshal cEC der) then Err "x509: failed to parse private key (use ParseECPrivateKey instead for this key format)" else
      if ok (Unmarshal cP1 der) then Err "x509: failed to parse private key (use ParsePKCS1PrivateKey instead for this key format)" else Err e
  | Ret (privKey, _) =>
      let alg := ai_alg (p8_Algo privKey) in
      let full := sl (rv_full (ai_params (p8_Algo privKey))) in
      let inner := sl (p8_PrivateKey privKey) in
      if oid_eqb alg oidPublicKeyRSA then
        match ParsePKCS1PrivateKey inner with
        | Ret k => Ret (SKrsa k)
        | Err e => Err (errcat "x509: failed to parse RSA private key embedded in PKCS#8: " e)
        | Panic => Panic
        end
      else if oid_eqb alg oidPublicKeyECDSA then
        let namedCurveOID := match Unmarshal cOID full with Ret (o, _) => Some o | _ => None end in
        match parseECPrivateKey namedCurveOID inner with
        | Ret k => Ret k
        | Err e => Err (errcat "x509: failed to parse EC private key embedded in PKCS#8: " e)
        | Panic => Panic
        end
      else if oid_eqb alg oidPublicKeyEd25519 then
        match full with
        | _ :: _ => Err "x509: invalid Ed25519 private key parameters"
        | [] =>
            match Unmarshal cBytes inner with
            | Ret (seed, _) =>
                if negb (zlen (sl seed) =? 32) then Err "x509: invalid Ed25519 private key length"
                else Ret (SKed25519 (sl seed ++ edPub (sl seed)))
            | Err e => Err (errcat "x509: invalid Ed25519 private key: " e)
            | Panic => Panic
            end
        end
      else Err "x509: PKCS#8 wrapping contained private key with unknown algorithm"
  end.
End PKCS8.
(** pkcs8.go:96-137: both EC cases *)
Definition marshal_ec8 (cid x y d : Z) (inner : option oid) : outcome bytes :=
  match oidFromNamedCurve cid, curve_of cid with
  | Some o, Some c =>
      do oidBytes <- Marshal cOID o;
      do pk <- marshalECPrivateKeyWithOID c x y d (match inner with Some o => o | None => [] end);
      Marshal cP8 (mkP8 0 (mkAI oidPublicKeyECDSA (mkRaw 0 0 false None (Some oidBytes))) (Some pk))
  | _, _ => Err "x509: unknown curve while marshaling to PKCS#8"
  end.
(** pkcs8.go:85-154; ed25519.PrivateKey.Seed is the first 32 bytes (panics when shorter) *)
Definition MarshalPKCS8PrivateKey (key : privKey) : outcome bytes :=
  match key with
  | SKrsa k =>
      do b <- MarshalPKCS1PrivateKey k;
      Marshal cP8 (mkP8 0 (mkAI oidPublicKeyRSA NullRawValue) (Some b))
  | SKecdsa c x y d => marshal_ec8 c x y d None
  | SKsm2 k => marshal_ec8 (pk_Curve (sk_Pub k)) (pk_X (sk_Pub k)) (pk_Y (sk_Pub k)) (sk_D k) (Some oidNamedCurveSM2P256)
  | SKed25519 k =>
      if (List.length k <? 32)%nat then Panic else
      do b <- Marshal cBytes (Some (firstn 32 k));
      Marshal cP8 (mkP8 0 (mkAI oidPublicKeyEd25519 rawZero) (Some b))
  | SKother => Err "x509: unknown key type while marshaling PKCS#8"
  end.

(** ** Public keys *)
(** x509.go:627-631 *)
Inductive pkAlgo := UnknownPublicKeyAlgorithm | RSA | DSA | ECDSA | Ed25519.
(** x509.go:638-650 *)
Definition getPublicKeyAlgorithmFromOID (o : oid) : pkAlgo :=
  if oid_eqb o oidPublicKeyRSA then RSA else if oid_eqb o oidPublicKeyDSA then DSA
  else if oid_eqb o oidPublicKeyECDSA then ECDSA else if oid_eqb o oidPublicKeyEd25519 then Ed25519
  else UnknownPublicKeyAlgorithm.
(** x/crypto v0.18.0 cryptobyte String.readBase128Int; [i] octets read so far *)
Fixpoint cb_base128 (s : bytes) (i : nat) (ret : Z) : option (Z * bytes) :=
  match s with
  | [] => None
  | b :: r =>
      if (i =? 5)%nat then None else
      if 2 ^ 24 <=? ret then None else
      if (i =? 0)%nat && (b =? 0x80) then None else
      let ret := ret * 128 + b mod 128 in
      if b <? 128 then Some (ret, r) else cb_base128 r (S i) ret
  end.
Fixpoint cb_oid_rest (fuel : nat) (s : bytes) : option (list Z) :=
  match fuel with
  | O => Some []
  | S f =>
      match s with
      | [] => Some []
      | _ => match cb_base128 s 0 0 with
             | Some (v, r) => match cb_oid_rest f r with Some l => Some (v :: l) | None => None end
             | None => None
             end
      end
  end.
Definition cb_oid (c : bytes) : option oid :=
  match c with
  | [] => None
  | _ =>
      match cb_base128 c 0 0 with
      | None => None
      | Some (v, r) =>
          match cb_oid_rest (List.length r) r with
          | None => None
          | Some l => Some (if v <? 80 then v / 40 :: v mod 40 :: l else 2 :: (v - 80) :: l)
          end
      end
  end.
(** cryptobyte ReadASN1ObjectIdentifier *)
Definition readOID (s : bytes) : option (oid * bytes) :=
  match readASN1 T_OID s with
  | Some (c, r) => match cb_oid c with Some o => Some (o, r) | None => None end
  | None => None
  end.
(** encoding/asn1 BitString.RightAlign *)
Fixpoint shift_right (shift prev : Z) (b : bytes) : bytes :=
  match b with
  | [] => []
  | x :: r => Z.lor (Z.shiftl prev (8 - shift) mod 256) (Z.shiftr x shift) :: shift_right shift x r
  end.
Definition RightAlign (b : bitString) : bytes :=
  let shift := 8 - Z.rem (bs_len b) 8 in
  if (shift =? 8) || (List.length (sl (bs_bytes b)) =? 0)%nat then sl (bs_bytes b)
  else shift_right shift 0 (sl (bs_bytes b)).
(** parser.go:240-339 *)
Definition parsePublicKey (algo : pkAlgo) (keyData : publicKeyInfo) : outcome pubKey :=
  let der := RightAlign (pki_PublicKey keyData) in
  let params := sl (rv_full (ai_params (pki_Algo keyData))) in
  match algo with
  | RSA =>
      if negb (bytes_eqb params NullBytes) then Err "x509: RSA key missing NULL parameters" else
      match readASN1 T_SEQUENCE der with
      | None => Err "x509: invalid RSA public key"
      | Some (der, _) =>
          match readBigInt der with
          | None => Err "x509: invalid RSA modulus"
          | Some (n, der) =>
              match readInt64 der with
              | None => Err "x509: invalid RSA public exponent"
              | Some (e, _) =>
                  if n <=? 0 then Err "x509: RSA modulus is not a positive number" else
                  if e <=? 0 then Err "x509: RSA public exponent is not a positive number" else
                  Ret (PKrsa n e)
              end
          end
      end
  | ECDSA =>
      match readOID params with
      | None => Err "x509: invalid ECDSA parameters"
      | Some (o, _) =>
          match namedCurveFromOID o with
          | None => Err "x509: unsupported elliptic curve"
          | Some id =>
              match curve_of id with
              | None => Panic
              | Some c =>
                  match elliptic_Unmarshal c der with
                  | None => Err "x509: failed to unmarshal elliptic curve point"
                  | Some (x, y) => if id =? SM2P256V1_id then Ret (PKsm2 (mkPub id x y)) else Ret (PKecdsa id x y)
                  end
              end
          end
      end
  | Ed25519 =>
      match params with
      | _ :: _ => Err "x509: Ed25519 key encoded with illegal parameters"
      | [] => if negb (zlen der =? 32) then Err "x509: wrong Ed25519 public key size" else Ret (PKed25519 der)
      end
  | DSA =>
      match readBigInt der with
      | None => Err "x509: invalid DSA public key"
      | Some (y, _) =>
          match readASN1 T_SEQUENCE params with
          | None => Err "x509: invalid DSA parameters"
          | Some (pd, _) =>
              match readBigInt pd with
              | None => Err "x509: invalid DSA parameters"
              | Some (p, pd) =>
                  match readBigInt pd with
                  | None => Err "x509: invalid DSA parameters"
                  | Some (q, pd) =>
                      match readBigInt pd with
                      | None => Err "x509: invalid DSA parameters"
                      | Some (g, _) =>
                          if (y <=? 0) || (p <=? 0) || (q <=? 0) || (g <=? 0) then Err "x509: zero or negative DSA parameter"
                          else Ret (PKdsa y p q g)
                      end
                  end
              end
          end
      end
  | UnknownPublicKeyAlgorithm => Ret PKother
  end.
(** x509.go:62-77 *)
Definition ParsePKIXPublicKey (der : bytes) : outcome pubKey :=
  match Unmarshal cPKI der with
  | Panic => Panic
  | Err e =>
      if ok (Unmarshal cP1Pub der) then Err "x509: failed to parse public key (use ParsePKCS1PublicKey instead for this key format)" else Err e
  | Ret (_, _ :: _) => Err "x509: trailing data after ASN.1 of public-key"
  | Ret (pki, []) =>
      match getPublicKeyAlgorithmFromOID (ai_alg (pki_Algo pki)) with
      | UnknownPublicKeyAlgorithm => Err "x509: unknown public key algorithm"
      | algo => parsePublicKey algo pki
      end
  end.
(** x509.go:93-118: both EC cases.  (elliptic.Marshal runs before the curve is looked up; for a curve
    unknown to x509 it is assumed to return.) *)
Definition marshal_ec_pub (cid x y : Z) : outcome (bytes * AI) :=
  match oidFromNamedCurve cid, curve_of cid with
  | Some o, Some c =>
      do pk <- elliptic_Marshal c x y;
      do paramBytes <- Marshal cOID o;
      Ret (pk, mkAI oidPublicKeyECDSA (mkRaw 0 0 false None (Some paramBytes)))
  | _, _ => Err "x509: unsupported elliptic curve"
  end.
(** x509.go:79-127 *)
Definition marshalPublicKey (pub : pubKey) : outcome (bytes * AI) :=
  match pub with
  | PKrsa n e => do b <- Marshal cP1Pub (mkP1Pub (Some n) e); Ret (b, mkAI oidPublicKeyRSA NullRawValue)
  | PKecdsa c x y => marshal_ec_pub c x y
  | PKsm2 k => marshal_ec_pub (pk_Curve k) (pk_X k) (pk_Y k)
  | PKed25519 k => Ret (k, mkAI oidPublicKeyEd25519 rawZero)
  | PKdsa _ _ _ _ | PKother => Err "x509: unsupported public key type"
  end.
(** x509.go:137-156: the error of the final Marshal is dropped *)
Definition MarshalPKIXPublicKey (pub : pubKey) : outcome bytes :=
  do (b, ai) <- marshalPublicKey pub;
  match Marshal cPkix (mkPkix ai (mkBits (Some b) (8 * zlen b))) with Ret r => Ret r | Err _ => Ret [] | Panic => Panic end.
