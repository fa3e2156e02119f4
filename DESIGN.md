# Formal model of mmdet/mcrypto in Rocq (Coq 8.16.1)

`/repo` is a Go library: SM3 hash, SM2 signatures/encryption, PKCS#12, and a fork of
`crypto/x509` with SM2 support plus PKCS#7. This directory holds an executable Gallina model
of that code, specifications written independently of it, and theorems tying the two.

## Conventions

* A byte is a `Z`; a byte string is `list Z`; `bytes_ok l` says every element is in [0,256).
  Machine words are `Z` with the wrap (`mod 2^32`, `mod 2^64`, ...) written out.
* A Go call has three outcomes: `Ret v | Err e | Panic`. Where the code returns a value *and* an
  error both are kept.
* A random reader is a finite byte string; reading past its end is the reader's error. C129 (ReaderModel.v) removes this simplification: there the source is any state machine that keeps to the io.Reader contract, and the byte-string model is shown to describe it.
* In most models slices are lists, aliasing is not represented (each function returns new values) and
  slice-expression panics are checked against the length (`cap = len` is assumed and said so). `Mem.v`
  lifts this for the functions that mutate, append to or re-slice byte slices: arrays in a heap, slices as
  windows with a capacity, `append` in place or with an arbitrary growth policy. `MemSM.v` (sm3.go and
  Encryt/Decryt/kdf of sm2.go) and `MemP12.v` (pbkdf.go, the RC2 block functions, CBC, pbEncrypt/pbDecrypt) are second models of that code
  on this memory, shown to refine the list models.
* Loops are folds/structural recursion; a potentially unbounded loop uses explicit fuel with a
  distinct out-of-fuel value, and theorems are stated so that out-of-fuel proves nothing, or
  the fuel is the length of the consumed input and shown to be sufficient.
* Files `*Spec.v` are specifications (GB/T 32905, GB/T 32918, RFC 2268, RFC 7292, X.690), `*Model.v`
  models with file/line citations, other files proofs. `Properties*.v` hold only the property
  theorems, each closed by `exact lemma` and followed by `Print Assumptions`, and the examples
  showing that hypotheses are satisfiable.
* A property that is *false of the code* is stated in full as `..._full`-style `Definition` or
  directly negated in a theorem named `..._refuted`, together with the exact behaviour
  that does hold.

## Trusted base

1. Coq 8.16.1's kernel (including `vm_compute`) and `coqchk`.
2. `Print Assumptions` follows every theorem and prints "Closed under the global context" for each: no axiom of
   the standard library or of mathcomp is used. (`coqchk` lists names under `mathcomp.*` and `Coq.ssr.*` as "axioms": these are
   the fields of mathcomp's own sealed modules, an artefact of checking compiled functors; no theorem here rests on them.)
3. The faithfulness of my reading of the Go source (nothing here is executed), of Go's own standard
   library where the repo calls it, and of `golang.org/x/crypto/cryptobyte` (v0.18.0). These are written down from knowledge of their sources:
   * `math/big` is `Z`; `big.Int.Bytes/SetBytes` are big-endian conversion; `ModInverse`
     returns nil when not invertible (and a following use panics).
   * `crypto/elliptic` generic `CurveParams` of Go 1.18 (go.mod says `go 1.18`) is modelled line by line
     (Jacobian formulas, double-and-add, `Unmarshal`, `GenerateKey`). NIST curves use the same generic arithmetic.
   * `cryptobyte` String readers and Builders; `encoding/asn1` marshal/unmarshal for the field types and tags the repo uses
     (`Asn1.v`: integers, big integers, booleans, octet and bit strings, OIDs, RawValue, RawContent, structs, SEQUENCE OF, SET OF with sorting, strings,
     times, `interface{}` values, optional/explicit/implicit/default parameters). A boolean inside an `interface{}` is read as nil, as Go 1.18 does.
   * `rsa.PrivateKey.Validate`, `net.IP`/`net.IPNet`, `unicode/utf8`, `utf16`, `pkix.Name.ToRDNSequence` (templates carry its result), `time` in UTC without the monotonic clock.
4. Parameters that are universally quantified in the theorems (records passed as arguments, so they add no axiom):
   * `prims` (PKCS#12): SHA-1, HMAC, triple DES as a pair of inverse block functions;
   * `sigPrims` (x509): hash availability and digests, RSA PKCS#1 v1.5 / PSS, ECDSA, DSA and Ed25519 verification;
   * `netlib`: `net/url` parsing and the domain check used for URI names;
   * `Signer`: what a caller's `crypto.Signer` returns; `edPub`; for PKCS#7 the certificate parser and the codec of embedded revocation lists, which the code stores but never looks into.

   Where a theorem needs a law of such a parameter (e.g. "this signer's output verifies") the law is a visible hypothesis, and an example shows an instance.
5. Closed computations done by the kernel (`vm_compute`): Pocklington certificates of p and n (`FastMod`, `Primes`) and of the field primes of P-224, P-256, P-384, P-521 (`Pock`, `NistPrimes`), [n]G = O (`BaseOrder`), test vectors.

## What is modelled / not modelled

| package | modelled | not modelled |
|---|---|---|
| `sm3` | everything | |
| `sm2` | everything: keys, curve, `nextk`, sign/verify in all variants, signature DER, encrypt/decrypt, key derivation | |
| `pkcs12` | BMP strings, RC2, pbkdf, PBE, MAC, safe bags, `getSafeContents`, `Decode`, `DecodeAll`, `Encode`, `ToPEM`, `SM2P12Decrypt`, `SM2P12Encrypt` with the file it writes; PEM text of the blocks (`Pem.v`) | contents of `AOther` key values |
| `x509` keys | `pkcs1.go`, `pkcs8.go`, `sec1.go`, PKIX marshal/parse, `parsePublicKey` | |
| `x509` parser | all of `parser.go` | the line written to stdout at parser.go:1129 |
| `x509` signatures | `checkSignature`, `CheckSignatureFrom`, `CheckCRLSignature`, `signingParamsForPublicKey`, algorithm tables | `Verify`/chain building and roots (not in the repo) |
| `x509` creation | extension encoders, `buildCertExtensions`, `CreateCertificate`, `CreateCRL`, `CreateRevocationList`, `CreateCertificateRequest` and the parsers of the latter three | `pem.Decode` is a parameter of `ParseCRL` in C114 and modelled in `Pem.v` for C133; automatically generated subject key ids are those of the model's SHA-1 parameter |
| `x509` PKCS#7 | all of `pkcs7.go`: parsing, verifying, signing, attributes | |

Not modelled anywhere: timing and side channels, aliasing outside the functions modelled again in `MemSM.v`, `MemP12.v`, `MemCsr.v`, `MemSign.v`, `MemParse.v`, `BigMem.v` (elsewhere each function returns new values; `cap = len` for slices), memory exhaustion, concurrency outside `ConcModel.v` (there are no goroutines in the code
base; callers' goroutines sharing one hash object or one destination slice race, as in Go's own packages), exact wording of error messages beyond their fixed prefix, quality of randomness and cryptographic hardness (unforgeability, collision resistance).
Object identifiers `nil` and empty are identified.

## Plan per property

| id | model | proof |
|----|-------|-------|
| C01-C04 | `SM3Model.v`: digest record, Write/Sum/checkSum/block with word wrap. Spec `SM3Spec.v` from the standard | invariant "h = chain of full blocks, x[:nx] = remainder, len = total mod 2^64"; block = spec compression by unrolling rounds; induction over operation lists |
| C05-C07 | cryptobyte ASN.1 INTEGER / SEQUENCE builders and readers | encode/decode inverses by induction on two's complement bytes |
| C08-C10 | `z`, `SM3Digest`, `appendBigIntTo32Bytes` | big-endian lemmas; C10 gives the exact ENTL and a computed collision |
| C11 | `nextk` | arithmetic mod n-1 |
| C12-C19, C81 | `SignDigestRS`, `VerifyDigestRS`, wrappers over modelled curve arithmetic | group law (C23) + modular arithmetic; C19 shows the swap with a witness |
| C20-C22 | `GenerateKey`, `Equal` | fuel = reader length; C21 gives the one bad block |
| C23 | Go 1.18 generic Jacobian arithmetic over Z mod p | full group law for Weierstrass curves (ideal-theoretic associativity proof in mathcomp), Jacobian refinement, double-and-add induction |
| C24 | constants | Pocklington certificates checked by vm_compute; [n]G=O computed |
| C25-C33, C82 | `Encryt`, `kdf`, `Decryt` with slice panics | group law for the shared secret; case analysis on lengths; C32/C33 exact behaviour |
| C34 | `bmpString`, `decodeBMPString` (UTF-8/UTF-16 of code points) | induction |
| C35-C36 | `rc2.go` | each mix/mash step inverted; spec RFC 2268 |
| C37 | `pbkdf.go` | big-integer addition mod 2^512 vs byte strings; induction on blocks |
| C38-C39 | `crypto.go` CBC + padding | induction on blocks; block cipher permutation |
| C40 | `mac.go` | case analysis, uniqueness of the encoded digest |
| C41-C47 | `pkcs12.go`, `safebags.go` (`P12Model.v`); relational description of a PFX in `P12Spec.v` | decision code inverted over the DER model; round trip `Encode`/`DecodeAll` by composing codec round-trip lemmas (`P12Enc`, `P12Round`, `P12Cipher`, `P12Open`) |
| C48-C52, C83, C84 | `pkcs8.go`, `sec1.go`, `pkcs1.go`, PKIX (`KeysModel.v`) | `encoding/asn1` round-trip calculus (`Asn1Proofs.v`: one lemma per field kind, composed per struct) |
| C53-C57 | `x509.go` decision tables (`X509Sig.v`) | `accept_spec` written as a table; case analysis; finite tables by computation |
| C58 | the four creation functions given an `*sm2.PrivateKey` | first guard of each; the counter theorem shows that an SM2 `crypto.Signer` wrapper is accepted |
| C59-C64, C85, C86 | extension encoders (`X509Build.v`) and decoders (`X509Model.v`) | `el`/`tlv` bridge between encoding/asn1 output and cryptobyte input; induction over lists |
| C65-C69 | small helpers of `parser.go`/`x509.go` | specs with quantifiers over characters/labels/masks; induction |
| C70-C73, C89, C90 | `parser.go` | `layout`: a relation between the bytes and the record; parse ⇔ layout; no-panic calculus `np` in `X509Safe.v` |
| C74-C79, C91 | `pkcs7.go` (`Pkcs7Model.v`) | `Verify` ⇔ independent relational spec; attribute sorting = DER SET order; message round trip; C76 replay as a counterexample |
| C80, C92-C94 | `CreateRevocationList`, `CreateCRL`, `ParseDERCRL`, `CheckCRLSignature` (`X509Crl.v`) | guards by cases over instants (`X509Time.v`); codec round trip of CertificateList; verification from C57 and `sound_signer` |
| C87, C88 | `buildCertExtensions` followed by the parser's extension loop | per-extension round trips composed along the list; `well_formed` template |
| C95-C97 | `CreateCertificateRequest`, `ParseCertificateRequest`, `CheckSignature` | codec round trip with RawContent; attribute merge described by `merged`; counterexamples for PSS, SM2 and two-valued attributes |
| C98 | parsers of lists and requests | `np` calculus |
| C99-C102 | `CreateCertificate` end to end, then `ParseCertificate`/`CheckSignatureFrom` | the `layout` of X509CertProofs built from the inverted codec steps (`cert_parse`); the extension fields by C87; a table of expected extensions (`asked`) against the built list; guards by case analysis with the signing function abstracted |
| C103, C104 | `ToPEM` with its headers | bags written by `Encode` (`Encode_written`) converted one by one; headers as a relation `says` on attributes, induction on the attribute list |
| C105, C106 | `sm3.go`, `Encryt`/`Decryt`/`kdf` on memory (`MemSM.v`) | `keeps h h' A`: only the arrays A changed; each step simulates the list model (`sim`); histories with arbitrary foreign writes in between by induction |
| C107–C109 | `pbkdf.go`, `rc2.go` block functions, CBC and `crypto.go` on memory (`MemP12.v`) | pairwise distinct arrays as loop invariant of `pbkdf`; four adjacent writes are one (`poked_poked`); CBC by induction over the blocks, forwards for encryption, backwards for decryption; `sim` with the list model |
| C110 | `parseValidity` and the time formats (`X509Model.v`, `X509Crl.v`) | inductive grammar of dates, both directions; the two-digit year window by cases |
| C111, C112 | hash registry as state, `checkSignature` over it (`X509Reg.v`) | slot after a history = last call for it, by induction from the end; decision by the row of the algorithm table |
| C113 | `String`, `Size` (`X509Reg.v`) | tables with distinct names that are no numerals; decimal numerals are injective |
| C114 | `Equal`, `ParseCRL` (`X509Reg.v`), `pem.Decode` a parameter | Raw of a parsed certificate is the input (C70); DER begins with 0x30 |
| C115 | `getSignatureAlgorithmFromAI`, `getPublicKeyAlgorithmFromOID`, curve OIDs (`X509Model.v`, `KeysModel.v`) | relation `denotes` written from RFC 4055/5758; case analysis both ways |
| C116 | `KeysModel.v` over all five curves | field primes proved prime (multi-factor Pocklington, `Pock.v`, `NistPrimes.v`), then the curve theory of C23 for each curve |
| C117 | key parsers (`KeysModel.v`) | no sub-parser panics; fields dereferenced are present after a successful parse; scalar multiplication total |
| C118 | `P12Model.v` | no sub-parser panics, decrypted bytes are bytes, keys that were parsed can be marshalled |
| C119 | the parsers of the other properties | an element is read independently of what follows it (both directions), so a cut inside it is an error and a cut behind it changes nothing |
| C120 | `SM2P12Encrypt`, `WriteFile` with a fate (`P12File.v`) | C45/C46 for complete files, C119 for torn ones; induction over the history |
| C121 | the marshalers of C48-C52, C83 | case analysis over the curve table and `FillBytes`; ASN.1 encoding itself never panics |
| C122 | x509.go:2083-2163 over a memory of arrays of slice headers and of attribute values (`MemCsr.v`) | only arrays allocated by the call are written; refinement of the list model of C95-C98 |
| C123 | sm2.go:37-500 over a heap of mutable big.Int (`BigMem.v`) | every call only appends to the heap and refines the model on numbers; induction over the history |
| C124 | the PKCS#12 model with `ParseCertificates` of the certificate model in place of its parameter | C45, C71, C99, C102, C120 composed |
| C125 | the functions of `BigMem.v` as programs of single memory accesses, interleaved (`ConcModel.v`) | ownership: `safe F own m` (integers nobody changes, integers the call allocated) for each function, preserved by every step of every goroutine; termination by a well-founded order on the calls in progress |
| C126 | `nextk`, `GenerateKey` | a list without repetition of exactly the blocks that yield a value: residues modulo n-1; the flip of byte 1 is its own inverse |
| C127 | `SignDigestRS`, `Encryt` | the signature equation twice, modulo the prime n; the ciphertext layout of C28 |
| C128 | `ParsePKIXPublicKey`, `parsePublicKey`, `MarshalPKIXPublicKey` | both directions: an element parses exactly when it is there (`parse_el`), shifting right is division by a power of two, `elliptic.Unmarshal` inverts the uncompressed form |
| C129 | `nextk`, `SignDigestRS`, `Sign`, `Encryt`, `GenerateKey` over an arbitrary `io.Reader` (ReaderModel.v) | simulation of the byte-list model by every reader; the reader is a state machine, the delivered bytes are observed by wrapping it; termination measure for finite sources |
| C130 | `z`, `SM3Digest`, `Sign*`, `Verify*`, `MarshalSign` on arrays and slices (MemSign.v) | simulation of the byte-level model step by step (one lemma per kind of Write); history induction with arbitrary outside changes |
| C131 | `ParseECPrivateKey`, `ParsePKCS8PrivateKey` (KeysModel.v) | grammar of accepted encodings given by `tlv`/header bytes only; exact characterisation of each asn1 field reader, including OPTIONAL EXPLICIT, composed into an "if and only if" |
| C132 | the sm2 package with the curve as an argument (SM2Gen.v), equal to SM2Model.v at the SM2 curve | the signature proofs redone over any curve with a generator of prime order (SM2GenProofs.v); lengths for the encryption statement |
| C133 | `ParseCRL` with `encoding/base64` and `encoding/pem` of Go 1.18 (`Pem.v`) | the decoder accepts exactly base64 text (induction over groups of four); lines of an encoding contain no dash, blank or colon, so the end line is found where it was written; soundness of the decoder by inversion |
| C134 | `ToPEM` (C104) followed by pem.Encode and pem.Decode (`Pem.v`) | every header line is read back (TrimSpace of clean values), headers up to permutation; identity of the two texts for the counterexample |
| C135 | `Encryt`, `Decryt` over any `curve` (`SM2Gen.v`) | the group law of the generic curve, commutation of scalar multiples, exact length of the encoded coordinates; inversion of the whole decryption (`SM2GenEnc.v`) |
| C136 | asn1.Marshal of pkix.RDNSequence (`X509Build.v` marshalName) against a DER relation | character set by exhaustion over bytes, element-wise equivalence, uniqueness of the sorted set; injectivity from the round trip of C99 |
| C137 | `Encode` (`P12Model.v`) against an independent byte layout (`PropertiesWire.v`: DER, SEQ, OID ... with literal object identifiers) | inversion of Encode, element by element equality of the marshalled structures with the layout |
| C138 | `NewSignedDataCallBack`, `NewSignedData` (`Pkcs7Model.v`) against the same layout vocabulary (`PropertiesWireP7.v`) | inversion of the message construction, attribute order as a sorted permutation |
| C139 | `buildCertExtensions` (`X509Build.v`) against the byte layout vocabulary of `PropertiesWire.v` (`PropertiesWireCert.v`) | inversion of the extension list, element by element; minimal integers and named bit lists proved equal to the encoder's |
| C140 | `CreateCertificate` (`X509Build.v`) against the same vocabulary (`PropertiesWireTbs.v`) | inversion of CreateCertificate; case analysis of the algorithm table, years and key kinds; C136, C139 |
| C141 | `CreateRevocationList`, `CreateCRL` (`X509Crl.v`) against the byte layout vocabulary (`PropertiesWireCrl.v`) | inversion of the list construction, entry by entry; times and extensions as in C139, C140 |
| C142 | `CreateCertificateRequest` (`X509Crl.v`) against the same vocabulary (`PropertiesWireCsr.v`) | inversion of the request, attribute by attribute; sets as sorted permutations |
| C143 | the key marshalers (`KeysModel.v`) against the byte layout vocabulary and a literal curve table (`PropertiesWireKeys.v`) | computation of each container with the structure lemmas of `P12Enc.v` |
| C144 | parser.go on arrays and slices (`MemParse.v`) | step-by-step correspondence with the list model (same result, every window within the input), then any later memory read through the windows (`PropertiesMemCert.v`) |
| C145 | parser.go: the whole certificate parser | each reader shown equivalent to a relation between value and bytes, repeated readers by induction on the list of elements, composed with `parse_inv`/`parse_ok` (`PropertiesX509Read.v`) |
| C146 | parser.go: processExtensions and every extension parser | each extension parser shown equivalent to a relation between value and bytes, the fold over the extensions by induction, composed with C145 for whole certificates (`PropertiesX509ExtRead.v`) |
| C147 | pkcs1.go: ParsePKCS1PublicKey, ParsePKCS1PrivateKey | each asn1 field (also OPTIONAL ones and SEQUENCE OF, by induction on its elements) shown equivalent to a relation between value and bytes; Validate through `rsa_Validate_spec` (`PropertiesPkcs1.v`) |

No property is "not expressible"; any that remain unproved are listed in MANIFEST.json as partial.
