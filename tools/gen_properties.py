#!/usr/bin/env python3
"""Single source for properties.jsonl (run: python3 tools/gen_properties.py)."""
import json, os
P = []
def p(id, title, statement, quantifier, why, anchors):
    P.append(dict(id=id, title=title, statement=statement, quantifier=quantifier,
                  why_tests_cant=why, anchors=anchors))
S3="sm3/sm3.go"; S2="sm2/sm2.go"
# ---------------- SM3
p("C01","sm3.Sum computes the SM3 hash of GB/T 32905",
  "For every byte string shorter than 2^61 bytes, sm3.Sum(data) returns exactly the 32-byte SM3 hash value defined by GB/T 32905 (padding 1||0*||64-bit big-endian bit length, message expansion, 64-round compression, chaining over all blocks).",
  "every byte string (all lengths below 2^61 bytes, all contents)",
  "Test vectors cover a handful of lengths; padding/block-boundary behaviour must be right for every length and content.",
  [S3+":Sum",S3+":checkSum",S3+":block",S3+":Write"])
p("C02","Streaming SM3 is independent of how input is chunked",
  "For a hash obtained from sm3.New(), any sequence of Write calls followed by Sum(in) returns in followed by the SM3 hash of the concatenation of all written bytes; how the bytes were split into Write calls is irrelevant.",
  "every list of chunks (any number, any sizes, empty ones included) and every prefix passed to Sum",
  "The buffering code has different paths depending on the fill level of the 64-byte buffer; the number of chunkings is unbounded.",
  [S3+":Write",S3+":Sum",S3+":New"])
p("C03","SM3 object refines 'bytes written since the last Reset'",
  "For every history of Write, Sum and Reset calls on one hash object, each Sum returns its argument followed by the SM3 hash of the bytes written since the last Reset (or New); Sum does not disturb the state, so later Writes and Sums behave as if it had not been called.",
  "every finite history of Write/Sum/Reset operations",
  "Requires an induction over operation histories; tests exercise only a few interleavings.",
  [S3+":Sum",S3+":Reset",S3+":Write"])
p("C04","SM3 never panics and reports sizes honestly",
  "In every reachable state Write(p) reports len(p) bytes written, Sum/checkSum never reach the internal 'd.nx != 0' panic and the digest is always 32 bytes, each a byte value - for inputs of any length, including totals beyond 2^61 bytes where the 64-bit bit counter wraps.",
  "every reachable state of the hash object and every input",
  "The panic guard depends on a modular-arithmetic invariant between the byte counter and the buffer index that must hold in all states.",
  [S3+":checkSum",S3+":Write"])
# ---------------- SM2 signature encoding
p("C05","MarshalSign/UnmarshalSign round trip",
  "For all integers r and s (of encodable size), UnmarshalSign(MarshalSign(r,s)) returns exactly r and s with a nil error.",
  "every pair of integers, including 0, negative ones and values whose top bit is set",
  "DER integers have length- and sign-dependent encodings (long-form lengths, 0x00 prefix); only a proof covers all magnitudes.",
  [S2+":MarshalSign",S2+":UnmarshalSign"])
p("C06","UnmarshalSign accepts only the canonical encoding",
  "If UnmarshalSign(sig) succeeds with r and s then sig is byte-for-byte MarshalSign(r,s): there is no second accepted encoding of the same pair (no BER lengths, no redundant padding, no trailing bytes).",
  "every byte string",
  "Non-malleability quantifies over all byte strings an attacker may submit.",
  [S2+":UnmarshalSign"])
p("C07","Signature encodings are injective",
  "Two DER signatures produced by MarshalSign are equal only if both r and s are equal, and two accepted byte strings decoding to the same pair are equal.",
  "every pair of encodable integer pairs / accepted byte strings",
  "Injectivity is a statement about all pairs of inputs.",
  [S2+":MarshalSign",S2+":UnmarshalSign"])
# ---------------- SM2 digest
p("C08","SM3Digest is the SM2 message digest of GB/T 32918.2",
  "For every on-curve public key, every message and every user id of fewer than 8192 bytes, SM3Digest returns SM3(Z || M) with Z = SM3(ENTL || ID || a || b || xG || yG || xA || yA), ENTL being the 16-bit big-endian bit length of ID and every coordinate a 32-byte big-endian string.",
  "every public key with coordinates below 2^256, message and non-empty user id below 8192 bytes",
  "Coordinates with leading zero bytes and all id lengths must be handled; tests use one key.",
  [S2+":PublicKey.SM3Digest",S2+":z",S2+":appendBigIntTo32Bytes"])
p("C09","Empty user id means the default id",
  "Signing, verifying and digesting with an empty (or nil) uid gives the same result as with the 16-byte default id \"1234567812345678\".",
  "every key, message, signature and random stream",
  "Equality of two whole functions.",
  [S2+":PublicKey.SM3Digest",S2+":VerifyRS",S2+":SignRS"])
p("C10","ENTL field is the id length modulo 65536 bits",
  "For every non-empty user id the two-byte ENTL hashed into Z is the bit length of the id modulo 65536; it is the bit length (as GB/T 32918 requires) exactly for ids shorter than 8192 bytes, and is wrong for longer ones, which the API accepts silently. The string hashed into Z still determines both the id and the public key.",
  "every user id length",
  "Needs ids longer than any test uses.",
  [S2+":z"])
# ---------------- SM2 sign / verify
p("C11","Nonces lie in [1, n-1]",
  "Every nonce derived from the random reader is an integer k with 1 <= k <= n-1, consumes exactly 40 bytes from the reader, and every value in that range is produced by some 40-byte read; a reader that yields fewer than 40 bytes makes the operation fail with an error.",
  "every content of the random stream",
  "Range claims over all 2^320 reads.",
  [S2+":nextk"])
p("C12","A signature made over a digest verifies",
  "If SignDigestRS(rand, priv, digest) returns (r,s) for a key pair with 1 <= d <= n-2 and public point dG, then VerifyDigestRS(pub, digest, r, s) returns true, except exactly when the nonce point kG has x-coordinate 0 (the verifier rejects x=0 OR y=0 instead of the point at infinity).",
  "every private key d in [1,n-2], digest bytes and random stream",
  "Completeness over all keys, digests and nonces; rests on the elliptic-curve group law and primality of n.",
  [S2+":SignDigestRS",S2+":VerifyDigestRS"])
p("C13","Sign then Verify succeeds for every message and uid",
  "If Sign(rand, priv, in, uid) returns sig then Verify(pub, in, uid, sig) is true (same exception as C12), and likewise for SignRS/VerifyRS and SignDigest/VerifyDigest.",
  "every key, message, uid and random stream",
  "End-to-end completeness including DER encoding.",
  [S2+":Sign",S2+":Verify",S2+":SignRS",S2+":VerifyRS",S2+":SignDigest",S2+":VerifyDigest"])
p("C14","Produced signatures are in range",
  "Every (r,s) returned by SignDigestRS satisfies 1 <= r <= n-1, 1 <= s <= n-1 and r+s is not 0 mod n, hence passes all range checks of the verifier.",
  "every key, digest and random stream",
  "Range invariants over all inputs.",
  [S2+":SignDigestRS"])
p("C15","Signing fails only for lack of randomness or for d = -1 mod n",
  "SignDigestRS never panics for 0 <= d <= n-2; it returns an error only if the random reader runs out; with d = n-1 (1+d not invertible) every call that gets a usable nonce panics.",
  "every key, digest and random stream",
  "Absence of panics over all inputs.",
  [S2+":SignDigestRS"])
p("C16","Verification rejects out-of-range components",
  "VerifyDigestRS and VerifyRS return false whenever r or s is outside [1,n-1] or r+s = 0 mod n, for any public key and any input.",
  "every integer pair, key and message",
  "Universally quantified rejection.",
  [S2+":VerifyRS",S2+":VerifyDigestRS"])
p("C17","Verification accepts exactly the SM2 equation",
  "For an on-curve public key P, VerifyDigestRS accepts (r,s) over digest e iff r,s are in [1,n-1], t=(r+s) mod n is non-zero, the point R'=sG+tP is not the point at infinity, has non-zero coordinates, and (e + x(R')) mod n = r, where G, + and scalar multiplication are those of the elliptic-curve group.",
  "every on-curve public key, digest and integer pair",
  "Equivalence between code (Jacobian arithmetic) and group-theoretic specification.",
  [S2+":VerifyDigestRS","crypto/elliptic generic CurveParams"])
p("C18","Message verification is digest verification of SM3Digest",
  "VerifyRS(pub,in,uid,r,s) = VerifyDigestRS(pub,SM3Digest(in,uid),r,s) and Verify(pub,in,uid,sig) = VerifyDigest(pub,SM3Digest(in,uid),sig), for all inputs; likewise Sign = SignDigest o SM3Digest.",
  "every key, message, uid and signature",
  "Equality of duplicated code paths on all inputs.",
  [S2+":VerifyRS",S2+":VerifyDigestRS",S2+":SignRS"])
p("C19","Method PublicKey.VerifyRS swaps message and user id",
  "The method pub.VerifyRS(in, uid, r, s) does not agree with the function VerifyRS(pub, in, uid, r, s): it swaps message and uid. Exactly: the method verifies message=uid under user id=in, and accepts a signature the function accepts if and only if the two digests agree modulo n; a genuine signature rejected by the method exists.",
  "every key, message, uid and signature",
  "A wiring bug invisible unless the method is tested with uid different from the message.",
  [S2+":PublicKey.VerifyRS"])
p("C20","Generated keys are consistent",
  "If GenerateKey returns a key then 0 <= D < n, the public point equals D*G, and D*G is on the curve whenever D is non-zero; it reads 32 bytes per attempt and rejects candidates >= n.",
  "every random stream",
  "Quantifies over all random streams.",
  [S2+":GenerateKey","crypto/elliptic.GenerateKey"])
p("C21","GenerateKey returns the zero key for exactly one random block",
  "GenerateKey returns D = 0 (with public point (0,0)) if and only if the accepted 32-byte random block is 00 42 00 ... 00; 'GenerateKey never returns the zero key' is therefore false.",
  "every random stream",
  "The failing input has probability 2^-256.",
  [S2+":GenerateKey","crypto/elliptic.GenerateKey"])
p("C22","Key equality is an equivalence relation that distinguishes keys",
  "PublicKey.Equal / PrivateKey.Equal are reflexive, symmetric and transitive; private keys are Equal iff they have the same curve, point and D; a private key's Public() equals that of an Equal key.",
  "every pair/triple of keys",
  "Algebraic laws over all keys.",
  [S2+":PrivateKey.Equal",S2+":PublicKey.Equal",S2+":PrivateKey.Public"])
p("C23","Curve arithmetic implements the group",
  "On the SM2 curve the generic Jacobian Add/ScalarMult/ScalarBaseMult used by the package compute the elliptic-curve group law: results of scalar multiplication by k are the k-fold sum, the sum is associative/commutative, ScalarMult(P, a+b) = Add(ScalarMult(P,a),ScalarMult(P,b)), n*G is the point at infinity (returned as (0,0)), and k*G is a finite on-curve point for 1<=k<n.",
  "every on-curve point and every scalar byte string",
  "The group law and its projective implementation must hold for all points including exceptional cases (doubling, inverse points, infinity).",
  [S2+":initSm2P256V1","crypto/elliptic generic CurveParams"])
p("C24","Curve constants are valid domain parameters",
  "p and n are prime, G is on the curve, a = p-3, the discriminant is non-zero, n*G = O, so G generates a group of prime order n.",
  "the fixed curve parameters (primality quantifies over all divisors)",
  "Primality of 256-bit numbers cannot be established by unit tests.",
  [S2+":initSm2P256V1"])
# ---------------- SM2 encryption
p("C25","Decryt(Encryt(m)) = m",
  "For every key pair with d in [1,n-1] and every message m, whenever Encryt(rand,pub,m) returns a ciphertext c, Decryt(priv,c) returns m with a nil error.",
  "every key pair with d in [1,n-1], message and random stream",
  "Failure needs a nonce whose point has a short coordinate (probability 1/128).",
  [S2+":Encryt",S2+":Decryt",S2+":kdf"])
p("C26","Exactly when encryption succeeds",
  "With fewer than 40 random bytes Encryt fails; otherwise the first 40 give a nonce k, an all-zero key stream restarts with the rest, and Encryt returns a ciphertext if len(m) <= 32 or len(m) is a multiple of 32 and both coordinates of k*G are at least 2^248, and panics otherwise. Hence no message longer than 32 bytes whose length is not a multiple of 32 can be encrypted, under any key and randomness (the expected property that every non-empty message can be encrypted is refuted).",
  "every message length, key and random stream",
  "Depends on the message length modulo 32.",
  [S2+":Encryt",S2+":kdf"])
p("C27","Empty messages are never encrypted",
  "Encryt with an empty message never returns a ciphertext: it keeps drawing nonces until the random reader fails.",
  "every key and random stream",
  "Non-termination claim.",
  [S2+":Encryt",S2+":kdf"])
p("C28","Ciphertext layout and length",
  "Every ciphertext returned by Encryt is 0x04 || C1x || C1y || C3 || C2 with C3 the SM3 hash of (x2 || m || y2) (x2,y2)=k*Q the shared point with coordinates in minimal big-endian form, C1=k*G with 32-byte coordinates and C2 the message xor the key stream; its length is always 97+len(m), and k comes from the last 40-byte block of randomness consumed.",
  "every key, message and random stream",
  "All coordinate lengths.",
  [S2+":Encryt"])
p("C29","Key derivation: standard for one block, exact behaviour beyond",
  "For klen in 1..32 kdf(klen,x,y) returns the GB/T 32918.4 KDF output (false when it is all zero). For every klen its output is the concatenation over i of SM3 of all counter inputs 1..i, each cut to klen mod 32 bytes unless that is 0; so it is shorter than klen for every klen > 32 not divisible by 32, and differs from the standard for klen = 64 (refuted with a concrete point).",
  "every klen and point",
  "Interoperability failure only visible for messages longer than one block.",
  [S2+":kdf"])
p("C30","Successful decryption implies integrity",
  "If Decryt returns a message with nil error then C1 is a point on the curve with coordinates below p, and C3 equals SM3(x2 || m || y2) where (x2,y2)=d*C1; consequently changing any byte of C3 of an accepted ciphertext makes Decryt fail.",
  "every private key and ciphertext byte string",
  "Soundness over all attacker-chosen ciphertexts.",
  [S2+":Decryt"])
p("C31","Decryt panics exactly on characterised inputs",
  "Decryt panics iff the input is shorter than 65 bytes, or C1 is a curve point (the KDF output not being all zero) and the ciphertext part is longer than 32 bytes with a length not divisible by 32; all other inputs return normally. In particular 'Decryt never panics on malformed input' is false.",
  "every ciphertext byte string and private key",
  "Panic-freedom quantifies over all byte strings.",
  [S2+":Decryt",S2+":kdf"])
p("C32","The leading byte of a ciphertext is ignored",
  "Decryt's result does not depend on the first byte of the input (the 0x04 point-format marker is not checked).",
  "every ciphertext and private key",
  "A non-interference property.",
  [S2+":Decryt"])
p("C33","What Decryt returns next to an error",
  "Every error of Decryt comes with an empty plaintext except the C3 mismatch, where the whole candidate plaintext (C2 xor key stream) is returned next to the error: for every accepted ciphertext, replacing C3 returns the same message together with the error (so the expected 'no plaintext on error' is refuted).",
  "every ciphertext and private key",
  "Requires examining the value returned alongside an error.",
  [S2+":Decryt"])
# ---------------- PKCS12 primitives
p("C34","BMP string codec",
  "bmpString succeeds exactly on strings without code points above U+FFFF, returns two bytes per character plus a two-byte terminator; decodeBMPString inverts it for every such string free of surrogates, and rejects exactly odd-length input.",
  "every Unicode string / byte string",
  "All strings, including embedded NULs at the end.",
  ["pkcs12/bmp-string.go:bmpString","pkcs12/bmp-string.go:decodeBMPString"])
p("C35","RC2 decryption inverts encryption",
  "For every key and effective length accepted by New and every 8-byte block b, Decrypt(Encrypt(b)) = b and Encrypt(Decrypt(b)) = b, so the cipher is a permutation of blocks.",
  "every expanded key and every 64-bit block",
  "2^64 blocks times all keys.",
  ["pkcs12/rc2.go:Encrypt","pkcs12/rc2.go:Decrypt"])
p("C36","RC2 is RFC 2268",
  "The key expansion and encryption equal the RFC 2268 specification (5 mixing, 1 mashing, 6 mixing, 1 mashing, 5 mixing rounds; PITABLE key schedule with effective length mask) for every key of 1..128 bytes and effective length 1..1024 bits.",
  "every key, effective key length and block",
  "Equality with a specification for all inputs.",
  ["pkcs12/rc2.go:expandKey","pkcs12/rc2.go:Encrypt"])
p("C37","pbkdf is RFC 7292 appendix B.2",
  "pbkdf(hash,20,64,salt,password,r,ID,size) returns the first size bytes of A_1||A_2||... as defined in RFC 7292 B.2 (D of 64 ID bytes, I = padded salt || padded password, A_i = H^r(D||I), I_j := (I_j + B + 1) mod 2^512), for every salt, password, iteration count, ID and size; iteration counts below 1 behave like 1.",
  "every salt, password, iteration count, ID and output size, any 20-byte hash",
  "Carry propagation in the 512-bit addition and short big-integers occur for rare values only.",
  ["pkcs12/pbkdf.go:pbkdf","pkcs12/pbkdf.go:fillWithRepeats"])
p("C38","pbEncrypt/pbDecrypt round trip",
  "For each supported algorithm identifier, any parameters that decode, any password and plaintext, pbDecrypt(pbEncrypt(m)) = m and the ciphertext is a non-empty multiple of 8 bytes longer than m by 1..8.",
  "every plaintext, password, salt and iteration count",
  "All plaintext lengths and contents.",
  ["pkcs12/crypto.go:pbEncrypt","pkcs12/crypto.go:pbDecrypt","pkcs12/crypto.go:pbeCipherFor"])
p("C39","pbDecrypt is total and checks padding",
  "pbDecrypt never panics; it fails on empty input, on lengths not divisible by 8 and on any bad PKCS padding, and when it succeeds the CBC-decrypted data is exactly the result followed by n copies of n for some 1<=n<=8.",
  "every ciphertext, algorithm identifier and password",
  "Padding checks on attacker-controlled data of any length.",
  ["pkcs12/crypto.go:pbDecrypt"])
p("C40","MAC verification is exact",
  "verifyMac accepts iff the digest algorithm is SHA-1 and the stored digest equals HMAC-SHA1 under the derived key; computeMac's output always verifies with the same password and is rejected whenever the stored digest differs.",
  "every message, salt, iteration count, password and stored digest",
  "Exactness over all values.",
  ["pkcs12/mac.go:verifyMac","pkcs12/mac.go:computeMac"])
# ---------------- PKCS12 containers
p("C41","Nothing is read from a PFX before its MAC verifies",
  "If getSafeContents (hence Decode, DecodeAll) succeeds then the PFX has version 3, data content type, a SHA-1 MAC over the exact authenticated-safe bytes that verifies under the given password - or, only when the password is the empty string, under the zero-length password - and exactly two authenticated-safe items; the password returned is the one that verified.",
  "every PFX byte string and password",
  "Security ordering property over all inputs.",
  ["pkcs12/pkcs12.go:getSafeContents"])
p("C42","Wrong passwords are reported by Decode/DecodeAll",
  "If the MAC of a well-formed PFX does not verify under the given password (nor, for the empty password, under the zero-length one), Decode and DecodeAll return the incorrect-password error and no key or certificate.",
  "every PFX and password",
  "All PFX contents.",
  ["pkcs12/pkcs12.go:DecodeAll","pkcs12/pkcs12.go:Decode","pkcs12/pkcs12.go:getSafeContents"])
p("C43","ToPEM reports failures",
  "ToPEM returns an error whenever the PFX cannot be opened. False: the error of getSafeContents is dropped, so malformed data or a wrong password yield an empty block list and nil error.",
  "every PFX byte string and password",
  "A dropped error is only visible on failing inputs.",
  ["pkcs12/pkcs12.go:ToPEM"])
p("C44","DecodeAll/Decode accept exactly one key and one certificate",
  "Decode/DecodeAll return an error unless there is exactly one key bag (and for Decode one certificate bag). False: the 'exactly one key bag' error is overwritten, so the last key silently wins, and the 'exactly one certificate bag' error survives only if no key bag follows; the exact outcome as a function of the bag list is proved.",
  "every list of bags",
  "Order-dependent control flow over all bag sequences.",
  ["pkcs12/pkcs12.go:DecodeAll","pkcs12/pkcs12.go:Decode"])
p("C45","Encode then DecodeAll restores the SM2 key and certificate",
  "For every SM2 key pair (0<=d<n), every parseable certificate, every BMP password and every random salts, DecodeAll(Encode(key,cert,nil,pwd),pwd) returns the same key and the certificate with nil error.",
  "every key, certificate bytes, password and random salts",
  "Whole-container round trip through DER, RC2/3DES-CBC, MAC and PKCS#8 for all inputs.",
  ["pkcs12/pkcs12.go:Encode","pkcs12/pkcs12.go:DecodeAll","pkcs12/pkcs12.go:makeSafeContents","pkcs12/safebags.go"])
p("C46","SM2P12Decrypt outcomes",
  "SM2P12Decrypt succeeds only with an on-curve SM2 key or an RSA key and returns the first certificate; an unreadable file is treated as empty input and yields an error; ECDSA and Ed25519 keys are rejected.",
  "every file content (or read failure) and password",
  "All file contents.",
  ["pkcs12/pkcs12.go:SM2P12Decrypt"])
p("C47","SM2 keys cannot be exported with ToPEM",
  "For every PFX whose bags include a decodable SM2 key, ToPEM returns an error (unknown private key type), never a PEM block for it.",
  "every PFX with an SM2 key bag",
  "All containers.",
  ["pkcs12/pkcs12.go:ToPEM","pkcs12/pkcs12.go:convertBag"])
# ---------------- x509 keys
p("C48","PKCS#8 round trip for SM2 keys",
  "ParsePKCS8PrivateKey(MarshalPKCS8PrivateKey(key)) returns the same D and public point D*G for every SM2 private key with 0<=D<n whose public point is D*G.",
  "every SM2 private key",
  "All 2^256 keys, including those with leading zero bytes.",
  ["x509/pkcs8.go","x509/sec1.go"])
p("C49","Parsed EC private keys are valid",
  "Any SM2 key returned by ParsePKCS8PrivateKey or ParseECPrivateKey has 0 <= D < n and public point D*G (recomputed, never taken from the file); D >= n is always rejected. D = 0 is accepted.",
  "every byte string",
  "All inputs.",
  ["x509/sec1.go:parseECPrivateKey","x509/pkcs8.go:ParsePKCS8PrivateKey"])
p("C50","Trailing data after a private key is ignored",
  "ParsePKCS8PrivateKey and ParseECPrivateKey do not reject trailing bytes: any bytes appended to an accepted encoding leave it accepted, with the same key.",
  "every accepted encoding and suffix",
  "All suffixes.",
  ["x509/pkcs8.go:ParsePKCS8PrivateKey","x509/sec1.go:parseECPrivateKey"])
p("C51","PKIX public key round trip",
  "ParsePKIXPublicKey(MarshalPKIXPublicKey(pub)) = pub for every on-curve SM2 public key, and every SM2 key returned by ParsePKIXPublicKey is on the curve with coordinates below p; trailing data is rejected.",
  "every SM2 public key / byte string",
  "All points, including coordinates with leading zeros.",
  ["x509/x509.go:MarshalPKIXPublicKey","x509/x509.go:ParsePKIXPublicKey","x509/parser.go:parsePublicKey"])
p("C52","PKCS#1 public key round trip",
  "ParsePKCS1PublicKey(MarshalPKCS1PublicKey(N,E)) = (N,E) for every N>0 and 0<E<2^31, non-positive or large values are rejected.",
  "every modulus and exponent",
  "All sizes.",
  ["x509/pkcs1.go:MarshalPKCS1PublicKey","x509/pkcs1.go:ParsePKCS1PublicKey"])
# ---------------- x509 signatures
p("C53","Signature checking decision table",
  "CheckSignature succeeds only if the algorithm is a known one, its hash is available, the key type matches the algorithm's key type and the key's primitive verification accepts; for SM2 keys the check is exactly sm2.Verify over the raw bytes with the default uid.",
  "every algorithm number, key, message and signature (primitive verifiers as parameters)",
  "Full decision table.",
  ["x509/x509.go:checkSignature"])
p("C54","Ed25519 signatures are never accepted",
  "One would expect CheckSignature to accept valid Ed25519 signatures; it never does: the algorithm's hash number 0 is never 'available', so every Ed25519 check, valid or not, returns ErrUnsupportedAlgorithm, and no other algorithm number accepts an Ed25519 key.",
  "every Ed25519 key, message and signature",
  "Universal rejection.",
  ["x509/x509.go:checkSignature","x509/x509.go:Hash.Available"])
p("C55","The declared algorithm binds the verification primitive",
  "With an SM2 key, CheckSignature under any ECDSAWith* algorithm gives exactly the result it gives under SM2WithSM3 and every other algorithm is refused (so an accepted check does not imply that the declared algorithm was SM2WithSM3); an ECDSA key declared as SM2WithSM3 is accepted exactly when ECDSA accepts the SM3 digest.",
  "every algorithm, SM2 key, message and signature",
  "Algorithm confusion across the table.",
  ["x509/x509.go:checkSignature"])
p("C56","Only CAs can vouch for certificates",
  "CheckSignatureFrom succeeds only if the parent is not a v3 certificate without valid basic constraints, does not declare itself a non-CA, has either no key usage or the certSign bit, a known key algorithm, and its key accepts the child's signature over the child's raw TBS bytes.",
  "every child/parent pair",
  "Decision logic over all flag combinations.",
  ["x509/x509.go:CheckSignatureFrom"])
p("C57","Signing parameters agree with the verifier's table",
  "If signingParamsForPublicKey returns an algorithm identifier without error for a key and requested algorithm, then parsing that identifier back yields the requested algorithm (or the key's default), whose key type matches the key.",
  "every key type/curve and requested algorithm",
  "Consistency of two tables over all entries.",
  ["x509/x509.go:signingParamsForPublicKey","x509/x509.go:getSignatureAlgorithmFromAI"])
p("C58","SM2 private keys cannot create certificates, requests or revocation lists",
  "CreateCertificate, CreateCertificateRequest and CreateCRL return the error 'certificate private key does not implement crypto.Signer' for every *sm2.PrivateKey (its Sign method has another signature) and every other value that is no crypto.Signer, whatever the template; so the expectation that they work with SM2 keys is refuted.",
  "every template and SM2 key",
  "Universal failure.",
  ["x509/x509.go:CreateCertificate","sm2/sm2.go:PrivateKey.Sign"])
# ---------------- x509 extensions
p("C59","Key usage extension round trip",
  "parseKeyUsage(marshalKeyUsage(ku)) = ku for every combination of the nine key-usage bits; bits above the ninth do not survive.",
  "every KeyUsage value",
  "512 combinations plus out-of-range values; BIT STRING padding rules.",
  ["x509/x509.go:marshalKeyUsage","x509/parser.go:parseKeyUsageExtension"])
p("C60","Basic constraints round trip",
  "Parsing the extension produced by marshalBasicConstraints(isCA,maxPathLen,zero) yields isCA and maxPathLen, with (0,false) and negative -1 mapping to 'absent' (-1), for every path length representable.",
  "every isCA, path length and flag",
  "DER integers of every size, optional fields.",
  ["x509/x509.go:marshalBasicConstraints","x509/parser.go:parseBasicConstraintsExtension"])
p("C61","Object identifier codec",
  "Every valid OID (first arc 0..2, second arc below 40 for 0/1, components below 2^31) survives encoding and decoding, and encodings are self-delimiting.",
  "every OID",
  "Base-128 encodings of unbounded length.",
  ["x509/parser.go:parseExtKeyUsageExtension","golang.org/x/crypto/cryptobyte"])
p("C62","Extended key usage round trip",
  "Parsing the extension produced by marshalExtKeyUsage(known,unknown) returns the known usages in order and the unknown OIDs in order, provided no unknown OID is in the table; the OID table is a bijection on the 14 usages.",
  "every list of usages and OIDs",
  "All lists.",
  ["x509/x509.go:marshalExtKeyUsage","x509/parser.go:parseExtKeyUsageExtension","x509/x509.go:extKeyUsageOIDs"])
p("C63","Certificate policies round trip",
  "Parsing the extension produced by marshalCertificatePolicies(oids) returns oids.",
  "every list of OIDs",
  "All lists.",
  ["x509/x509.go:marshalCertificatePolicies","x509/parser.go:parseCertificatePoliciesExtension"])
p("C64","Subject alternative names round trip",
  "Parsing the SAN extension produced by marshalSANs returns the same DNS names, e-mail addresses and IP addresses (IPv4-mapped addresses normalised to 4 bytes); non-ASCII names are refused by the encoder and by the parser.",
  "every list of names and addresses",
  "All lists and lengths.",
  ["x509/x509.go:marshalSANs","x509/parser.go:parseSANExtension","x509/parser.go:forEachSAN"])
p("C65","IP masks are prefixes",
  "isValidIPMask(mask) is true iff the bits of mask are some number of ones followed by only zeros.",
  "every byte string",
  "All mask lengths and values.",
  ["x509/parser.go:isValidIPMask"])
p("C66","Domain label splitting",
  "domainToReverseLabels(d) succeeds iff d is empty or, after removing at most one leading dot, consists of one or more non-empty dot-separated labels of printable ASCII 33..126 characters; the result is the reversed list of labels. In particular one leading dot before a label is accepted and dropped, while a lone dot and every trailing dot are rejected.",
  "every string",
  "All strings.",
  ["x509/parser.go:domainToReverseLabels"])
p("C67","Mailbox parsing",
  "If parseRFC2821Mailbox accepts s, then s = local-part encoding ++ '@' ++ domain with the domain accepted by domainToReverseLabels; an unquoted local part neither starts nor ends with a dot nor contains two consecutive dots; every simple dot-atom@domain address is accepted with exactly that local part and domain.",
  "every string",
  "All strings including quoting and escapes.",
  ["x509/parser.go:parseRFC2821Mailbox"])
p("C68","PrintableString character set and ASN.1 string decoding",
  "isPrintable accepts exactly A-Z a-z 0-9 space and '()+,-./:=?*&; parseASN1String returns the bytes unchanged for T61/Printable/IA5/Numeric/UTF8 strings and errors on any byte outside the type's alphabet.",
  "every byte / byte string",
  "All byte strings.",
  ["x509/parser.go:isPrintable","x509/parser.go:parseASN1String"])
p("C69","Bit-string helpers",
  "reverseBitsInAByte maps bit i to bit 7-i and is an involution; asn1BitLength returns the position after the last set bit (0 for all-zero), for strings of any length.",
  "every byte / byte string",
  "All lengths.",
  ["x509/x509.go:reverseBitsInAByte","x509/x509.go:asn1BitLength"])
# ---------------- certificate parsing
p("C70","ParseCertificate consumes exactly its input",
  "If ParseCertificate(der) succeeds then Raw = der, RawTBSCertificate, RawIssuer, RawSubject and RawSubjectPublicKeyInfo are contiguous substrings of der, and appending any non-empty suffix to der makes it fail.",
  "every byte string",
  "All inputs.",
  ["x509/parser.go:ParseCertificate","x509/parser.go:parseCertificate"])
p("C71","ParseCertificates splits a concatenation",
  "ParseCertificates(d1||...||dk) returns the certificates of d1..dk in order when each di parses; conversely the Raw fields of the result concatenate to the input.",
  "every list of parseable certificates / every byte string",
  "Induction over the number of certificates.",
  ["x509/parser.go:ParseCertificates"])
p("C72","Signature algorithm cannot be swapped outside the signed part",
  "If a certificate parses, the AlgorithmIdentifier outside the TBS is byte-identical to the one inside, and the version is 1..3 or, because the encoded version is incremented without an overflow check, exactly -2^63 when the encoded version is 2^63-1 (such a certificate is accepted and its extensions are ignored).",
  "every byte string",
  "All inputs.",
  ["x509/parser.go:parseCertificate"])
p("C73","Unknown critical extensions are recorded",
  "After a successful parse, UnhandledCriticalExtensions lists exactly the OIDs, in order, of critical extensions the parser does not interpret; a known extension is never listed unless it is an empty SAN or name constraint with unhandled entries.",
  "every list of extensions",
  "All extension lists.",
  ["x509/parser.go:processExtensions"])
# ---------------- PKCS7
p("C74","PKCS7.Verify accepts exactly the messages whose signers all check out",
  "Verify returns nil if and only if there is at least one signer and, for every signer, the key (SM2, or ECDSA over the SM3 digest) of the first certificate in the message with its issuer and serial number verifies the signature over the content or, when signed attributes are present, over the DER SET of the attributes, whose first messageDigest attribute must hold SM3(content). Versions, declared algorithms, unauthenticated attributes and CRLs play no role. Neither ParsePKCS7 nor Verify panics.",
  "every parsed PKCS#7 structure",
  "Soundness over all inputs.",
  ["x509/pkcs7.go:Verify","x509/pkcs7.go:verifySignature"])
p("C75","NewSignedData then Verify succeeds",
  "For every SM2 key pair, every certificate with that public key and every content, the structure produced by NewSignedData parses back to the same content and certificate, GetOnlySigner returns that certificate, and Verify succeeds (unless the nonce used gives a point with x = 0, when no SM2 signature of this package verifies, C13). With NewSignedDataCallBack, Verify says what the certificate's key says of the callback's answer to the bytes it was given.",
  "every key, certificate, content, time and random stream",
  "End-to-end round trip.",
  ["x509/pkcs7.go:NewSignedData","x509/pkcs7.go:ParsePKCS7","x509/pkcs7.go:Verify"])
p("C76","A signature over attributes cannot be replayed as one over content",
  "A signature accepted for content with signed attributes is not accepted for other content. False: dropping the attributes and using their DER SET encoding as content verifies with the same signature.",
  "every accepted signed message",
  "Attribute-confusion needs a purpose-built message.",
  ["x509/pkcs7.go:verifySignature","x509/pkcs7.go:marshalAttributes"])
p("C77","Attribute marshalling is order independent",
  "ForMarshaling succeeds exactly when all values and types are encodable, and then returns a permutation of the added attributes sorted by DER encoding that depends only on the multiset of attributes added; so do the bytes to be signed.",
  "every list of attributes and insertion order",
  "All permutations.",
  ["x509/pkcs7.go:ForMarshaling","x509/pkcs7.go:marshalAttributes"])
p("C78","GetOnlySigner",
  "GetOnlySigner returns a certificate if and only if there is exactly one signer and some certificate in the message matches its issuer and serial number, and then the first such certificate; otherwise nil, never a panic.",
  "every parsed structure",
  "All lists.",
  ["x509/pkcs7.go:GetOnlySigner","x509/pkcs7.go:getCertFromCertsByIssuerAndSerial"])
p("C79","Malformed SignedData is rejected by ParsePKCS7",
  "ParsePKCS7 fails on syntactically invalid SignedData. False: the unmarshal error is discarded, so a SignedData content that is not even DER parses to an empty message without error (which Verify then rejects for having no signers). Conversely every message that Verify accepts had a SignedData that decoded completely.",
  "every byte string",
  "Only malformed inputs show it.",
  ["x509/pkcs7.go:parseSignedData"])
p("C80","CreateRevocationList guards",
  "CreateRevocationList returns an error unless template and issuer are non-nil, the issuer has the crlSign bit and a subject key id, NextUpdate is not before ThisUpdate and Number is set.",
  "every template and issuer",
  "All combinations of missing fields.",
  ["x509/x509.go:CreateRevocationList"])
p("C81","A signature verifies for one digest only",
  "Under a fixed on-curve public key, a pair (r,s) accepted for one digest is accepted for another digest if and only if the two digests, read as big-endian integers, are equal modulo n.",
  "every on-curve key, pair of digests and pair (r,s)",
  "Quantifies over all digests and signatures.",
  [S2+":VerifyDigestRS"])
p("C82","Accepted ciphertexts are unique given C1 and the message",
  "Two ciphertexts with the same C1 that Decryt accepts with the same message have the same C3 and C2: apart from the ignored first byte an accepted ciphertext cannot be modified without changing the message.",
  "every private key and pair of ciphertexts",
  "Quantifies over all pairs of ciphertexts.",
  [S2+":Decryt"])
p("C83","PKCS#1 private keys round trip and are consistent",
  "ParsePKCS1PrivateKey inverts MarshalPKCS1PrivateKey on every consistent RSA key (two or more primes, modulus their product, E*D = 1 modulo each p-1, D > 0); every key it returns is consistent in that sense with 2 <= E < 2^31; trailing data is rejected; two-prime keys always have an encoding; the octets written for distinct primes are RFC 8017's RSAPrivateKey, with the CRT exponents and coefficients of every prime.",
  "every RSA private key / byte string",
  "All key sizes, all numbers of primes.",
  ["x509/pkcs1.go:ParsePKCS1PrivateKey","x509/pkcs1.go:MarshalPKCS1PrivateKey"])
p("C84","ECDSA, RSA and Ed25519 keys round trip through PKCS#8 and PKIX",
  "Parsing the PKCS#8 (PKIX) encoding written for an ECDSA key on P-224/256/384/521, a consistent RSA key or an Ed25519 key gives back the same key.",
  "every key of the three types",
  "All key values.",
  ["x509/pkcs8.go","x509/x509.go:MarshalPKIXPublicKey","x509/x509.go:ParsePKIXPublicKey","x509/parser.go:parsePublicKey"])
p("C85","Name constraints round trip",
  "Parsing the extension written for a template's permitted and excluded DNS domains, IP ranges, e-mail addresses and URI domains gives back the same lists, for well-formed constraints; an IP range whose address has 4 bytes but whose mask has 16 is encoded as 20 bytes that the parser rejects.",
  "every combination of eight lists of well-formed constraints",
  "All lists, lengths and mask widths.",
  ["x509/x509.go:buildCertExtensions","x509/parser.go:parseNameConstraintsExtension"])
p("C86","Key identifiers, authority information and CRL distribution points round trip",
  "Parsing the extensions written for a subject key id, authority key id, OCSP and issuing-certificate URLs and CRL distribution points gives back the same values.",
  "every key id and list of URLs",
  "All lengths and lists.",
  ["x509/x509.go:buildCertExtensions","x509/parser.go:processExtensions"])
p("C87","All template extensions survive together",
  "The extensions built from a well-formed template, processed by the certificate parser, give back every extension-derived field of the template at once (key usage, basic constraints, EKUs, key ids, AIA, SANs, policies, name constraints, distribution points), and list as unhandled exactly the critical extra extensions.",
  "every well-formed template",
  "Interaction of ten optional extensions and arbitrary extra ones.",
  ["x509/x509.go:buildCertExtensions","x509/parser.go:processExtensions"])
p("C88","Extra extensions override generated ones",
  "The extensions built from a template end with ExtraExtensions verbatim, no generated extension has the OID of an extra one, and no OID occurs twice unless ExtraExtensions itself repeats it.",
  "every template and list of extra extensions",
  "All lists of extra extensions.",
  ["x509/x509.go:buildCertExtensions","x509/x509.go:oidInExtensions"])
p("C89","Bytes hidden inside the outer certificate SEQUENCE are ignored",
  "Every certificate that parses still parses, with the same fields, after arbitrary bytes are added at the end of the outer SEQUENCE (behind the signature): the signed part and signature do not determine the DER.",
  "every certificate that parses and every byte string",
  "All certificates and all extra bytes.",
  ["x509/parser.go:parseCertificate"])
p("C90","The certificate parser never panics",
  "ParseCertificate and ParseCertificates return a value or an error on every input.",
  "every byte string",
  "All inputs.",
  ["x509/parser.go"])
p("C91","A failed signing operation never yields a message",
  "NewSignedData and NewSignedDataCallBack discard the error of the signing step, yet never return a message unless the signing operation (SM2 with the given key, or the callback) succeeded; with another kind of key NewSignedData fails.",
  "every key, certificate, content and callback",
  "The error path is only safe because of a later encoding failure.",
  ["x509/pkcs7.go:NewSignedData","x509/pkcs7.go:NewSignedDataCallBack"])
p("C92","CreateRevocationList is read back by ParseDERCRL",
  "Whatever list CreateRevocationList returns, ParseDERCRL reads back: version 2, the issuer's subject name (each RDN as a set), both dates to the second, every revoked certificate (serial, date to the second, extensions), the issuer's key identifier and the CRL number as the first two extensions followed by ExtraExtensions, the requested (or the key's default) algorithm inside and outside the signed part, the exact signed bytes, and the signature the signer produced over their digest.",
  "every template, issuer, signer and random stream for which a list is returned",
  "All templates, including names, dates of both ASN.1 time types, empty lists and extensions.",
  ["x509/x509.go:CreateRevocationList","x509/x509.go:ParseDERCRL"])
p("C93","CreateCRL is read back by ParseDERCRL",
  "The same for CreateCRL: the revoked certificates are present even if there are none, there is no CRL number, the key identifier is there only if the issuer has one; RSA and ECDSA signers sign the digest, an SM2 signer is handed the encoded list itself.",
  "every issuer, signer, list of revoked certificates and dates for which a list is returned",
  "All lists and issuers.",
  ["x509/x509.go:CreateCRL","x509/x509.go:ParseDERCRL"])
p("C94","Revocation lists verify under the issuer's key, except SM2 ones of CreateRevocationList",
  "CheckCRLSignature on a parsed list decides exactly by the signature verification of the issuer's key over the signed bytes, and never panics. Lists by a sound RSA or ECDSA signer are accepted, whichever function made them; with a sound SM2 signer CreateCRL's lists are accepted, but a list by CreateRevocationList is accepted only if the SM2 digests of the list and of its SM3 hash agree modulo n - refuted by a concrete list - because the hash, not the list, was signed.",
  "every list, certificate, template and sound signer",
  "Depends on which bytes the signer and the verifier take as message, for all lists.",
  ["x509/x509.go:CheckCRLSignature","x509/x509.go:CreateCRL","x509/x509.go:CreateRevocationList"])
p("C95","A certificate request reads back as it was asked for",
 "If CreateCertificateRequest succeeds for a template (string names, attributes with string, integer, OID or byte values, SAN entries that can be parsed) and a crypto.Signer with a meaningful public key, then ParseCertificateRequest of the result succeeds and gives: version 0; the template's subject (RawSubject if set, else Subject), each RDN up to the order of its set; the signer's public key, its algorithm and its PKIX encoding; the alternative names (16-byte forms of IPv4 addresses reduced to 4 bytes); as Extensions, a subjectAltName extension when there are alternative names followed by ExtraExtensions in order, with their critical flags; the template's attributes, values up to order, followed, if there are extensions, by one extensionRequest attribute; the requested signature algorithm or the key's default; and as Signature what the signer returned for the digest of RawTBSCertificateRequest. The template brings no extensionRequest attribute of its own (see C96).",
 "all templates, signers, random streams; every encoding below 2 GiB","unbounded names, attributes, extensions; DER SET ordering and nested encodings",
 ["x509/x509.go: CreateCertificateRequest, ParseCertificateRequest, parseCertificateRequest, newRawAttributes, parseRawAttributes, parseCSRExtensions, buildCSRExtensions"])
p("C96","Extensions merged into a template's extensionRequest attribute",
 "If the template has exactly one extensionRequest attribute, with a single value, the created request carries the extensions given there first, then the requested extensions (subjectAltName, ExtraExtensions) whose types were not given there, and no others; none of them is marked critical any more, even if the ExtraExtension was. No second extensionRequest attribute appears. If the attribute has two values the promise fails: the requested extensions can be lost (a concrete template is exhibited).",
 "all templates with one such attribute, all signers","depends on the position of the attribute, duplicates and DER ordering of the values",
 ["x509/x509.go: CreateCertificateRequest, parseCSRExtensions"])
p("C97","Signatures on certificate requests",
 "For every parsed request, CheckSignature accepts exactly when the signature algorithm fits the key and the signature verifies over the raw TBS bytes, and never panics. A request created with a signer whose signatures verify is accepted if the key is RSA or ECDSA and no RSA-PSS algorithm was asked for. If RSA-PSS was asked for, the signer is nevertheless called with PKCS#1 v1.5 options, and the request is accepted exactly if that signature is also a PSS signature (a sound signer whose request is refused is exhibited). With an SM2 signer the pre-hashed TBS is signed while the TBS itself is verified: the request is accepted exactly when the two SM2 digests agree modulo the group order (a sound signer whose request is refused is exhibited).",
 "all parsed requests, all primitives, all templates and signers","quantifies over every signature primitive and message; the failing cases need a proof that no input makes them succeed by design",
 ["x509/x509.go: CertificateRequest.CheckSignature, CreateCertificateRequest, checkSignature"])
p("C98","Parsing revocation lists and certificate requests never panics",
 "For every byte string, ParseDERCRL and ParseCertificateRequest return a value or an error and never panic.",
 "all byte strings","all malformed encodings of arbitrary length and nesting",
 ["x509/x509.go: ParseDERCRL, ParseCertificateRequest, parseRawAttributes, parseCSRExtensions"])

p("C99","A created certificate parses back to its template",
 "If CreateCertificate succeeds for a template and a parent whose names, dates, public key and extension fields are encodable, then ParseCertificate reads the result, and the certificate read has version 3, the template's serial number, validity dates, subject and (from the parent) issuer, the given public key, every extension field of the template (key usage, basic constraints, alternative names, name constraints, key usages, policies, URLs) as C87 describes, the caller's extra extensions last and unchanged, the key identifiers (authority: the parent's subject key identifier unless the certificate is self-issued or the parent has none, in which case the template's; subject: the template's, or for a CA without one the SHA-1 of the encoded public key), the requested (or default) signature algorithm, and a signature which the signer made over the digest of exactly the bytes kept as RawTBSCertificate and which - except for MD5/SHA-1 algorithms - verifies with the signer's key.",
 "all templates, parents, subject keys, signers, random streams","unbounded names, extensions and keys, every combination of the optional fields",
 ["x509/x509.go: CreateCertificate, buildCertExtensions, subjectBytes, signingParamsForPublicKey","x509/parser.go: parseCertificate, ParseCertificate"])
p("C100","Which extensions a created certificate carries, their order and criticality",
 "The extensions of a certificate made by CreateCertificate are, in this order, those of key usage (critical), extended key usage, basic constraints (critical), subject key identifier, authority key identifier, authority information access, subject alternative name (critical exactly if the encoded subject is empty), certificate policies, name constraints (critical exactly if the template says so) and CRL distribution points - each present exactly if its template field is non-empty and the caller does not give the same identifier among the extra extensions - followed by the caller's extra extensions.",
 "all templates, parents, keys and signers","every subset of the ten optional extensions and every list of extra extensions",
 ["x509/x509.go: buildCertExtensions, oidInExtensions, CreateCertificate"])
p("C101","What CreateCertificate refuses before signing",
 "CreateCertificate succeeds only if the private key is a crypto.Signer with a supported public key, the requested algorithm is for that kind of key, a serial number is given, a path length is given only for a CA, and the parent's public key (if it has one) equals the signer's; otherwise nothing is returned and the signing function is never used. In particular an SM2 private key of this library (not a crypto.Signer) is always refused, and no certificate can be signed with an Ed25519 key.",
 "all templates, parents, subject keys, private keys, random streams","all combinations of invalid arguments",
 ["x509/x509.go: CreateCertificate, signingParamsForPublicKey, checkSignature","sm2/sm2.go: PrivateKey.Sign"])
p("C102","A created certificate verifies against its issuer's created certificate",
 "If a CA certificate is created for the public key of a signer (by whatever issuer), and a certificate is created with that signer, then both parse and CheckSignatureFrom accepts the second against the first, whatever its contents; a self-signed CA certificate verifies against itself. For MD5/SHA-1 algorithms, which CreateCertificate does not check, this holds if the signer's signatures verify.",
 "all pairs of templates, keys, signers, random streams","quantifies over two executions and all contents",
 ["x509/x509.go: CreateCertificate, CheckSignatureFrom, checkSignature"])

p("C103","ToPEM of an encoded PFX gives back the certificates and the key",
 "For every RSA (or ECDSA) private key, certificate, list of CA certificates, password and randomness for which Encode succeeds under the size bounds, ToPEM with the same password returns exactly: a CERTIFICATE block with the certificate's bytes and the header localKeyId = lower-case hex of the SHA-1 of the certificate, one CERTIFICATE block without headers per CA certificate in order, and one PRIVATE KEY block with the same localKeyId whose bytes are the PKCS#1 (for RSA) or SEC 1 (for ECDSA) encoding of the key.",
 "all keys, certificates, CA lists, passwords, random streams","the whole container with its encryption and MAC, for unbounded inputs",
 ["pkcs12/pkcs12.go: ToPEM, Encode, convertBag, convertAttribute"])
p("C104","ToPEM makes one block per bag, with headers from the bag's attributes",
 "Whenever ToPEM returns blocks for a file that opens, there is exactly one block per bag in the same order: CERTIFICATE with the certificate's bytes for a certificate bag, PRIVATE KEY with the re-encoded key for a shrouded key bag; its headers are exactly those its attributes state (friendlyName and Microsoft CSP Name decoded from the BMP string, localKeyId in hex), the last attribute winning; a bag or attribute of another kind, or a key that is neither RSA nor ECDSA, makes ToPEM fail. A friendly name encoded with bmpString comes back unchanged.",
 "all PFX files and passwords","all lists of bags and attributes",
 ["pkcs12/pkcs12.go: ToPEM, convertBag, convertAttribute","pkcs12/bmp-string.go: decodeBMPString"])

p("C105","Hash objects are isolated from the caller's memory",
  "Whatever slices are passed to Write and Sum (overlapping each other, earlier arguments or earlier results, with any spare capacity) and whatever happens to all other memory between the calls, every call on an SM3 object returns the value the specification gives for the bytes the arguments showed when they were passed; the object's buffer is never reachable from a result; Write and the function Sum change no memory of the caller; the method Sum(in) writes only the 32 bytes behind in, and those only when the capacity of in has room for them.",
  "every memory, every history of calls with arbitrary aliasing, every growth policy of append",
  "Aliasing and capacity are invisible in value-based tests.",
  ["sm3/sm3.go:Write","sm3/sm3.go:Sum","sm3/sm3.go:checkSum","sm3/sm3.go:New"])
p("C106","Encryt and Decryt leave the caller's memory alone and return memory of their own",
  "Encryt, and Decryt of at least 65 bytes, return exactly what the value-level functions return for the bytes their argument shows, in an array that did not exist before, and change no byte of the caller's memory, for every aliasing and capacity of the argument. Decryt of fewer than 65 bytes panics or returns an error (which of the two can depend on the capacity of the slice) and never returns a plaintext.",
  "every memory, argument slice (offset, length, capacity), key, message, random stream and growth policy of append",
  "In-place writes through append into spare capacity show only for particular capacities.",
  ["sm2/sm2.go:Encryt","sm2/sm2.go:Decryt","sm2/sm2.go:kdf","sm2/sm2.go:appendBigIntTo32Bytes"])
p("C107","The PKCS#12 key derivation leaves the caller's memory alone",
  "For every salt and password slice (any offset, length, capacity, any overlap), pbkdf returns the derived key of RFC 7292 for the bytes they show, in an array that did not exist before, and changes no byte of the caller's memory; none of its own buffers (D, I, A, B, the reused block buffer) disturbs another, although append(D, I...) may write behind D in each pass.",
  "every memory, slice, iteration count, size and growth policy of append",
  "Aliasing between internal buffers depends on the runtime's growth policy and on capacities.",
  ["pkcs12/pbkdf.go:pbkdf","pkcs12/pbkdf.go:fillWithRepeats"])
p("C108","RC2 blocks may be processed in place or with any overlap",
  "rc2 Encrypt(dst, src) and Decrypt(dst, src) with at least 8 bytes each write exactly the 8 bytes of RFC 2268 for the 8 bytes src showed before the call, whatever the overlap of dst and src, and change nothing else; decrypting what was encrypted gives the block back wherever both calls read and write. A source shorter than 8 bytes panics before anything is written; a shorter destination panics (after part of the block has been written).",
  "every key, memory and pair of slices",
  "There are unboundedly many overlaps and memories.",
  ["pkcs12/rc2.go:Encrypt","pkcs12/rc2.go:Decrypt"])
p("C109","Password-based encryption and decryption of PKCS#12 leave the caller's memory alone",
  "pbEncrypt and pbDecrypt end, for every slice of data and password, exactly as the value-level functions do for the bytes shown; the result is in an array that did not exist before and no byte of the caller's memory changes. CBC encryption and decryption of a slice in place give the bytes they would have put into a new slice, and change no other array.",
  "every memory, slice, algorithm identifier, password, data, block cipher satisfying the assumptions on DES, growth policy of append",
  "In-place CBC and slices of slices are checked in tests for a handful of sizes only.",
  ["pkcs12/crypto.go:pbEncrypt","pkcs12/crypto.go:pbDecrypt","pkcs12/crypto.go:pbeCipherFor"])
p("C110","Dates of certificates, revocation lists and signing times are read exactly",
  "The two dates of a certificate are accepted exactly when each is a UTCTime YYMMDDhhmm[ss] with a zone, for the years 1950 to 2049, or a GeneralizedTime YYYYMMDDhhmmss with a zone, with a day that exists in its month and year, and a zone that is Z or a nonzero signed offset; the fields returned are those written, with the offset's sign. Bytes after the two dates are ignored and their order is not checked. The dates that encoding/asn1 reads (revocation lists, signing times) obey the same grammar. A text has one meaning.",
  "every byte string and every date",
  "The texts are unboundedly many; tests use a few dates, usually in UTC.",
  ["x509/parser.go:parseValidity"])
p("C111","The hash registry holds what was registered last",
  "After every history of RegisterHash calls (including calls that panic), Available(h) holds exactly for h up to 20 whose last registration, counting those of the package itself, was not nil; New(h) gives exactly that function for 1 <= h <= 20 and panics otherwise; RegisterHash panics exactly for h >= 21 and then changes nothing. A program starts with MD5, SHA-1, the SHA-2 and SHA-3 functions, RIPEMD-160 and SM3, New(SM3) computes SM3 and its digest has Size() bytes. (A function registered for 0 makes Available(0) true although New(0) panics.)",
  "every history of registrations, hash number and message",
  "Histories of registrations are unbounded.",
  ["x509/x509.go:RegisterHash","x509/x509.go:New","x509/x509.go:Available","x509/x509.go:init"])
p("C112","What signature checking accepts after any history of registrations",
  "After every history of RegisterHash calls, CheckSignature accepts exactly when the function last registered for the algorithm's hash yields a digest the key's primitive accepts (for an SM2 key: when some function is registered and sm2.Verify accepts the message itself, whatever that function computes). It panics exactly when the registered function does, or when the algorithm is Ed25519 and a function has been registered for the number 0. Without further registrations it is the check of C53.",
  "every history of registrations, algorithm, message, signature and key",
  "Histories and registered functions are unboundedly many.",
  ["x509/x509.go:checkSignature","x509/x509.go:RegisterHash"])
p("C113","Names and sizes of algorithms",
  "No two Hash values (64-bit), no two SignatureAlgorithm values and no two PublicKeyAlgorithm values have the same String(). Size() is the output length of the named function, and panics exactly for 0 and values above 20.",
  "every value of the three types",
  "The types have 2^64 values.",
  ["x509/x509.go:String","x509/x509.go:Size","x509/x509.go:digestSizes"])
p("C114","Equal and ParseCRL",
  "Certificate.Equal is an equivalence relation, nil equals only nil, and two parsed certificates are Equal exactly when their DER inputs are the same. ParseCRL reads whatever ParseDERCRL reads, with the same result; it reads an input that begins with -----BEGIN X509 CRL and that encoding/pem decodes to a block of type X509 CRL as the list in that block; and it accepts nothing else.",
  "every certificate, input and behaviour of encoding/pem",
  "The inputs are unboundedly many.",
  ["x509/x509.go:Equal","x509/x509.go:ParseCRL","x509/x509.go:ParseDERCRL"])
p("C115","Algorithm identifiers are recognised exactly",
  "A signature algorithm is recognised exactly when its identifier is the standard object identifier of that algorithm, or the RSA-PSS identifier with parameters naming SHA-256, SHA-384 or SHA-512 twice (as hash and as the hash of MGF1), salt length equal to the digest length and trailer field 1; every other identifier is UnknownSignatureAlgorithm and no identifier denotes two algorithms. The key algorithms and the named curves correspond one to one to their standard identifiers. A parsed certificate's SignatureAlgorithm is what the identifier inside the signed part denotes, and the outer identifier has the same bytes.",
  "every algorithm identifier and certificate",
  "Identifiers and their parameters are unboundedly many; a parameter that is not looked at is invisible to tests of accepted inputs.",
  ["x509/x509.go:getSignatureAlgorithmFromAI","x509/x509.go:getPublicKeyAlgorithmFromOID","x509/x509.go:namedCurveFromOID","x509/x509.go:oidFromNamedCurve"])
p("C116","Elliptic-curve private keys on all five curves",
  "For SM2 P-256 and the four NIST curves: the public point computed from a scalar is that multiple of the base point, and lies on the curve. A key that ParseECPrivateKey or ParsePKCS8PrivateKey returns has its scalar below the group order and its public point equal to that multiple, whatever public key the input contained; and every such key survives both encodings.",
  "every scalar, every input, every curve",
  "The scalars and the encodings are unboundedly many.",
  ["x509/sec1.go:parseECPrivateKey","x509/sec1.go:MarshalECPrivateKey","x509/pkcs8.go:ParsePKCS8PrivateKey","x509/pkcs8.go:MarshalPKCS8PrivateKey"])
p("C117","Parsing keys never panics",
  "ParsePKCS1PrivateKey, ParsePKCS1PublicKey, ParseECPrivateKey, ParsePKCS8PrivateKey and ParsePKIXPublicKey return a key or an error on every input.",
  "every input",
  "A panic needs one particular malformed input.",
  ["x509/pkcs1.go:ParsePKCS1PrivateKey","x509/pkcs1.go:ParsePKCS1PublicKey","x509/sec1.go:ParseECPrivateKey","x509/pkcs8.go:ParsePKCS8PrivateKey","x509/x509.go:ParsePKIXPublicKey"])
p("C118","Opening a PKCS#12 file never panics",
  "Decode, DecodeAll, ToPEM and SM2P12Decrypt return a result or an error on every file and password: whatever the nesting, lengths, algorithms, iteration counts, attributes and keys in the file.",
  "every file and password",
  "A panic needs one particular malformed file, behind a valid MAC.",
  ["pkcs12/pkcs12.go:DecodeAll","pkcs12/pkcs12.go:Decode","pkcs12/pkcs12.go:ToPEM","pkcs12/pkcs12.go:SM2P12Decrypt","pkcs12/pkcs12.go:getSafeContents"])
p("C119","Truncated inputs are rejected",
  "When bytes are cut off the end of an input that ParseCertificate, ParsePKCS1PrivateKey, ParsePKCS1PublicKey, ParsePKIXPublicKey, ParseDERCRL, ParseCertificateRequest, UnmarshalSign, ParsePKCS7, Decode, DecodeAll or SM2P12Decrypt accepts, the rest is rejected with an error (for PKCS#12 under every password). ParsePKCS8PrivateKey and ParseECPrivateKey, which ignore what follows the key, accept an initial segment exactly when it contains the key's element, with the same result. ParseCertificates accepts an initial segment only when it ends between two certificates, and then returns those before the cut. ToPEM of a truncated file returns no block (and no error).",
  "every accepted input and every cut",
  "Inputs and cuts are unboundedly many.",
  ["x509/parser.go:ParseCertificate","x509/parser.go:ParseCertificates","x509/pkcs1.go:ParsePKCS1PrivateKey","x509/pkcs8.go:ParsePKCS8PrivateKey","x509/x509.go:ParseDERCRL","x509/x509.go:ParseCertificateRequest","x509/pkcs7.go:ParsePKCS7","pkcs12/pkcs12.go:DecodeAll","sm2/sm2.go:UnmarshalSign"])
p("C120","The PKCS#12 file after failures and crashes",
  "When SM2P12Encrypt returns nil, SM2P12Decrypt of that file with the same password returns the certificate and the SM2 key it was given. After every history of SM2P12Encrypt calls with the same file name, each of which may fail or crash at any point of the write: if none got to open the file it is unchanged; otherwise the file either gives back the certificate and key of the last call that opened it, or is rejected under every password; there is no third outcome. The call is not atomic: a failure after the file was opened destroys an earlier good file.",
  "every history of calls, every crash point, every key 1 <= D < N, certificate, password and random source",
  "Crash points and histories are unboundedly many and a crash cannot be provoked in a unit test.",
  ["pkcs12/pkcs12.go:SM2P12Encrypt","pkcs12/pkcs12.go:SM2P12Decrypt","pkcs12/pkcs12.go:Encode"])
p("C121","When encoding a key succeeds, fails or panics",
  "MarshalECPrivateKey, MarshalPKCS8PrivateKey and MarshalPKIXPublicKey of an elliptic-curve key on one of the five supported curves return an encoding exactly when the absolute values of X, Y (and D, for private keys) fit into the curve's byte width (28, 32, 48, 66, 32), and panic otherwise; on any other curve they return an error. The sign of these numbers is lost: a key with negative numbers encodes like the one with their absolute values. MarshalPKCS8PrivateKey panics on an RSA key exactly when it has fewer than two primes and on an Ed25519 key exactly when it is shorter than 32 bytes; other key types give an error. MarshalPKIXPublicKey never panics on RSA and Ed25519 keys and returns an error for DSA keys.",
  "every key value, in particular inconsistent ones",
  "The integers are unbounded and every curve has its own boundary.",
  ["x509/sec1.go:MarshalECPrivateKey","x509/sec1.go:marshalECPrivateKeyWithOID","x509/sec1.go:marshalSM2PrivateKeyWithOID","x509/pkcs8.go:MarshalPKCS8PrivateKey","x509/x509.go:MarshalPKIXPublicKey","x509/x509.go:marshalPublicKey"])
p("C122","Creating a certificate request leaves the template's attributes alone",
  "CreateCertificateRequest merges the requested extensions into an extensionRequest attribute of the template when there is one. However the slices of template.Attributes share memory with each other or with anything else of the caller, and whatever spare capacity they have: no memory that existed before the call is written, so the template and everything else of the caller is unchanged, and the attributes in the request are those determined by the contents of the template alone.",
  "every memory layout of the template's attributes, every extension list",
  "Aliasing patterns are unboundedly many and a test sees only those it builds.",
  ["x509/x509.go:CreateCertificateRequest","x509/x509.go:newRawAttributes"])
# one anchor per symbol
def _split(a):
    if ": " in a and a.split(":")[0].endswith(".go"):
        f,_,syms=a.partition(": ")
        return [f+":"+x.strip() for x in syms.split(",")]
    return [a]
for x in P: x["anchors"]=[b for a in x["anchors"] for b in _split(a)]
p("C123","No SM2 call changes a key, a curve parameter or another integer",
  "The SM2 functions take and return *big.Int values, which are mutable and shared by pointer: a key's X, Y and D, the integers of a signature and the package-wide curve parameters P, B, N, Gx, Gy. However these pointers are shared, over every history of GenerateKey, SignRS, SignDigestRS, VerifyRS, VerifyDigestRS, Encryt and Decryt calls, no integer that exists before a call changes its value, r and s of a signature are two distinct integers, and every call's result is the one determined by the values of its arguments; so results of earlier calls stay what they were and the same key can be used any number of times.",
  "every heap of integers, every sharing of pointers among keys, signatures and parameters, every history of calls, every random stream and input",
  "Aliasing patterns and call histories are unboundedly many; a test observes a few.",
  ["sm2/sm2.go:GenerateKey","sm2/sm2.go:nextk","sm2/sm2.go:SignRS","sm2/sm2.go:SignDigestRS","sm2/sm2.go:VerifyRS","sm2/sm2.go:VerifyDigestRS","sm2/sm2.go:Encryt","sm2/sm2.go:Decryt","sm2/sm2.go:z"])
p("C124","A certificate issued for a key survives storage with that key",
  "Whatever certificate ParseCertificate returned, storing it with an SM2 key (Encode, or SM2P12Encrypt into a file) and reading it back with the same password (DecodeAll, SM2P12Decrypt) gives the same key and the same certificate in all its fields, and the authorities' certificates in the order given. In particular, when an authority's certificate and a certificate for the key's public half are created with CreateCertificate and stored, the certificate read back carries the public half of the key read back, and CheckSignatureFrom accepts it against the authority's certificate read back. (Nothing checks that key and certificate belong together.)",
  "every key, certificate chain created or parsed, password, random stream",
  "The combination crosses four encoders and four parsers over unboundedly many certificates, keys and passwords.",
  ["pkcs12/pkcs12.go:Encode","pkcs12/pkcs12.go:DecodeAll","pkcs12/pkcs12.go:SM2P12Encrypt","pkcs12/pkcs12.go:SM2P12Decrypt","x509/x509.go:CreateCertificate","x509/parser.go:ParseCertificates"])
p("C125","Goroutines may use the same keys at the same time",
  "Any number of goroutines may call GenerateKey, SignRS, SignDigestRS, VerifyRS, VerifyDigestRS, Encryt and Decryt at the same time, sharing keys, the package's curve parameters and integers of each other's results, without locking. For every interleaving of their accesses to memory: no call overwrites an integer that anybody else has or is accessing (there is no data race), integers known to a goroutine never change, every call that returns has returned exactly what it returns when it runs alone with the values of its arguments, no call waits for another, and all calls return.",
  "every number of goroutines, every schedule, every sharing of integers, every random stream and input",
  "Schedules are unboundedly many and a race shows up in a test only by luck.",
  ["sm2/sm2.go:GenerateKey","sm2/sm2.go:nextk","sm2/sm2.go:SignRS","sm2/sm2.go:SignDigestRS","sm2/sm2.go:VerifyRS","sm2/sm2.go:VerifyDigestRS","sm2/sm2.go:Encryt","sm2/sm2.go:Decryt"])
p("C126","Nonces and keys are spread evenly",
  "If the random reader delivers uniformly distributed bytes, every nonce k in [1, n-1] is (almost) equally likely: of the 2^320 possible reads of 40 bytes, the number that yields k differs from 2^320/(n-1) by less than one, and that average is above 2^64. Every private key in [0, n-1] is yielded by exactly one read of 32 bytes.",
  "every nonce value and every private key value",
  "It is a statement about counts among 2^320 and 2^256 inputs.",
  ["sm2/sm2.go:nextk","sm2/sm2.go:GenerateKey"])
p("C127","What using the same randomness twice gives away",
  "Signing two digests that differ modulo n with the same key and the same random bytes gives away the private key: it is (s2-s1)/(r1+s1-r2-s2) mod n, and that division is always possible. A signature and the 40 bytes its nonce came from give it away as well: (k-s)/(r+s) mod n. Two messages of equal length encrypted for one key with the same random bytes have ciphertexts with the same first part, and the xor of their last parts is the xor of the messages.",
  "every key, digest, message and random stream",
  "The division might be impossible for some signatures; only a proof excludes that for all of them.",
  ["sm2/sm2.go:nextk","sm2/sm2.go:SignDigestRS","sm2/sm2.go:Encryt"])
p("C128","Which byte strings are a public key",
  "ParsePKIXPublicKey returns a key for exactly these byte strings: a SEQUENCE holding an algorithm identifier SEQUENCE and a BIT STRING, with nothing after the outer SEQUENCE. The algorithm identifier starts with the object identifier of the key type and its parameters (the curve for SM2 and ECDSA, NULL for RSA, nothing for Ed25519, three positive numbers for DSA); the BIT STRING holds the key (an uncompressed point on the curve with both coordinates below the field prime, an RSA modulus and exponent, 32 bytes, a positive number), shifted left by its number of unused bits. Compressed points are never accepted. The encoding of a key is not unique: more bytes may follow inside both SEQUENCEs, and for SM2 keys the BIT STRING may have up to five unused bits; MarshalPKIXPublicKey writes the form without additions.",
  "every byte string, every public key",
  "Tests try a few encodings; that no other byte string is accepted is a statement about all of them.",
  ["x509/x509.go:ParsePKIXPublicKey","x509/x509.go:MarshalPKIXPublicKey","x509/parser.go:parsePublicKey","x509/x509.go:namedCurveFromOID"])
p("C129","Any io.Reader may be the random source",
  "Signing, encryption and key generation take their random bytes from an io.Reader that may deliver them in any pieces, including empty ones. Whatever reader is used, a call's result is determined by the bytes the reader delivered during the call, no byte more is taken than the result needs, and dividing the same bytes differently among Read calls changes nothing. If the reader fails within a read, its error is returned, with io.EOF turned into io.ErrUnexpectedEOF when part of the bytes had been delivered; an error that comes together with the last byte needed is dropped. A reader that delivers nothing and no error blocks the call.",
  "every reader (any state machine that keeps to the io.Reader contract), every division into pieces, every key, message and digest",
  "There are unboundedly many readers and ways to divide the bytes; tests use crypto/rand.",
  ["sm2/sm2.go:nextk","sm2/sm2.go:SignDigestRS","sm2/sm2.go:Sign","sm2/sm2.go:Encryt","sm2/sm2.go:GenerateKey"])
p("C130","Signing and verifying leave the caller's memory alone",
  "SM3Digest, Sign, SignDigest, Verify and VerifyDigest give, for byte slices that may overlap each other and have any capacity, exactly what they give for the bytes these slices show. They change no byte of memory that existed before the call: not the message, identity, digest or signature, not what lies behind them in their arrays, and not the default identity that stands in for an empty one. Every returned digest or signature is in an array of its own, so no caller ever holds a slice of the default identity, and in every history of calls, with the caller changing any memory it has in between, each call's result is determined by the bytes its arguments showed when it was made.",
  "every memory, every overlap and capacity of the argument slices, every growth policy of append, every history of calls and outside changes",
  "Overlapping slices, spare capacities and append growth cannot be enumerated, and a write behind a slice's end goes unnoticed by comparing results.",
  ["sm2/sm2.go:SM3Digest","sm2/sm2.go:z","sm2/sm2.go:appendBigIntTo32Bytes","sm2/sm2.go:Sign","sm2/sm2.go:SignDigest","sm2/sm2.go:Verify","sm2/sm2.go:VerifyDigest","sm2/sm2.go:sm2SignDefaultUserId"])
p("C131","Exactly which byte strings are elliptic-curve private keys",
  "ParseECPrivateKey returns a key exactly for these byte strings: a DER SEQUENCE holding the INTEGER 1, an OCTET STRING, a [0] EXPLICIT header with any non-zero length, the identifier of one of the named curves and then anything that does not start an ill-formed [1] EXPLICIT BIT STRING, with any bytes behind the SEQUENCE; the octets, read as a big-endian number with any leading zeros, must be below the order of the curve, and the key returned is that number with its point computed from it. So the public key carried in the structure is never used, two structures with the same curve and number give the same key, and trailing bytes never matter. ParsePKCS8PrivateKey returns an elliptic-curve key exactly for such a structure (its curve optional) inside a PKCS#8 SEQUENCE with any version number: a curve named by the algorithm's parameters is used whatever the inner structure names.",
  "every byte string given to ParseECPrivateKey and ParsePKCS8PrivateKey, every named curve including SM2, every private key returned",
  "The set of accepted encodings is infinite and reaches through two nested parsers with optional fields; examples cannot show that nothing else is accepted.",
  ["x509/sec1.go:ParseECPrivateKey","x509/sec1.go:parseECPrivateKey","x509/sec1.go:ecPrivateKey","x509/pkcs8.go:ParsePKCS8PrivateKey","x509/pkcs8.go:pkcs8"])
p("C132","Keys on curves other than SM2's",
  "PublicKey.Curve is the caller's choice. On every curve y^2 = x^3 - 3x + b over a prime field whose generator has prime order N > 2, a signature that SignDigestRS or Sign returns satisfies the equations of GB/T 32918.2 for a nonce drawn from one read of BitSize/8+8 bytes, and VerifyDigestRS and Verify with the matching public key accept it, except exactly when the nonce's point has x = 0; VerifyDigestRS accepts exactly the pairs the standard accepts whose point has no zero coordinate. With N = 0 signing is an error, with N = 1 it panics. Encryt never returns a ciphertext on a curve over a field of at most 248 bits, such as P-224: it panics or runs out of random bytes. With the SM2 curve all these functions are the ones the other properties speak about.",
  "every curve with a generator of prime order, every key, digest, message, identity and random stream",
  "The curve is an interface value supplied by the caller; no finite set of curves or keys covers it.",
  ["sm2/sm2.go:PublicKey","sm2/sm2.go:nextk","sm2/sm2.go:SignDigestRS","sm2/sm2.go:Sign","sm2/sm2.go:VerifyRS","sm2/sm2.go:VerifyDigestRS","sm2/sm2.go:Encryt","sm2/sm2.go:Decryt"])
p("C133","Revocation lists in PEM",
  "For every DER list, every set of one-line headers and every trailing text, ParseCRL of the list in PEM (type X509 CRL) returns what ParseDERCRL of the list returns. A block of any other type is refused. An input that begins neither with a SEQUENCE nor with a dash is refused even if a good block follows. Whatever is accepted is a DER list, or begins like an X509 CRL block and contains a complete one whose base64 text decodes to an accepted DER list. That block need not be the first: a block whose base64 is broken is passed over and the next one is used.",
  "every DER list, header set, block type, trailing text and every input text",
  "Lists, headers and texts are unbounded; line breaking, padding and the search for the end line depend on every length.",
  ["x509/x509.go:ParseCRL","x509/x509.go:pemCRLPrefix","x509/x509.go:pemType","x509/x509.go:ParseDERCRL"])
p("C134","ToPEM blocks as PEM text",
  "The blocks that ToPEM returns, written one after the other with pem.Encode, are read back by pem.Decode with the same types, contents and headers, provided no friendly name or CSP name contains a newline or begins or ends with white space; local key ids never do. In particular everything that Encode writes comes back this way. Without the proviso it fails: a friendly name with a newline in it forges a localKeyId header, the text being identical to that of a block that has that key id.",
  "every PKCS#12 file that can be opened, every number of bags, every header value and contents",
  "Names and contents are unbounded; the failing names are chosen by whoever made the file.",
  ["pkcs12/pkcs12.go:ToPEM","pkcs12/pkcs12.go:convertBag","pkcs12/pkcs12.go:convertAttribute","pkcs12/pkcs12.go:Encode"])
p("C135","Encryption with keys on other curves",
  "For every curve of the package's form with a field of at most 256 bits and a generator of prime order, and every key pair on it: whenever encryption returns a ciphertext, decryption with the private key returns the message. Encryption returns exactly when the key stream is not all zero (then it draws again), the message has at most 32 bytes or a multiple of 32, and both coordinates of C1 fill 32 bytes; otherwise it panics, and with too little randomness it is an error. A ciphertext that decrypts consists of a point of the curve, the SM3 tag of the message and the masked message.",
  "every such curve, key pair, message, random stream and ciphertext",
  "The curve is chosen by the caller (PublicKey embeds any elliptic.Curve); curves, messages and streams are unbounded.",
  ["sm2/sm2.go:Encryt","sm2/sm2.go:Decryt","sm2/sm2.go:nextk","sm2/sm2.go:kdf"])
p("C136","How names are written",
  "In the subject and issuer names that CreateCertificate, CreateCertificateRequest, CreateCRL and CreateRevocationList encode, a string value is a PrintableString exactly when all its characters are letters, digits, space or one of '()+,-./:=? and a UTF8String otherwise; a value that is not UTF-8 is refused. A name is the SEQUENCE of its SETs, each set sorted as DER demands, so the order of attributes inside a set does not influence the encoding, and names with the same encoding differ only in that order.",
  "every name, with any number of sets, attributes and any strings",
  "Names and strings are unbounded and the sorting depends on every encoded byte.",
  ["x509/x509.go:subjectBytes","x509/x509.go:CreateCertificate","x509/x509.go:CreateCertificateRequest","x509/x509.go:CreateRevocationList"])
p("C137","The PKCS#12 file, byte for byte",
  "The file Encode writes is exactly the one RFC 7292 describes, with the standard's object identifiers: the certificates, each in a certificate bag and the first tied to the key by the SHA-1 of the certificate, padded and encrypted with 40-bit RC2 under the second eight random bytes; the PKCS#8 key padded and encrypted with three-key triple DES under the first eight; 2048 iterations for both; and the SHA-1 MAC of the authenticated safe under the third eight bytes with one iteration. Nothing else is written.",
  "every key, certificate, CA list, password and random stream",
  "Byte-level layout for all keys, certificates and lengths; round-trip tests cannot see an error the reader shares with the writer.",
  ["pkcs12/pkcs12.go:Encode","pkcs12/safebags.go","pkcs12/mac.go","pkcs12/crypto.go"])
p("C138","The signed message, byte for byte",
  "The PKCS#7 message NewSignedData and NewSignedDataCallBack write is exactly the standard's layout with the standard's (GM or PKCS) object identifiers: version, digest algorithm, the data, the certificate, and one signer naming the certificate's issuer and serial number, with exactly the content-type, digest and time attributes sorted as DER demands; the signature is over the SET of those attributes as encoded.",
  "every certificate that parses, key, data, time and signing callback",
  "Byte-level layout for all contents and lengths; tests that parse their own output share its mistakes.",
  ["x509/pkcs7.go:NewSignedData","x509/pkcs7.go:NewSignedDataCallBack"])
p("C139","Certificate extensions, byte for byte",
  "The extensions written for a certificate or request template are exactly those RFC 5280 describes, in a fixed order, with the standard's object identifiers and critical flags: key usage as a minimal named bit list, extended key usage, basic constraints with the path length only when there is one, key identifiers, OCSP and CA issuer locations, alternative names (critical exactly when the subject is empty), policies, name constraints and CRL locations, each left out when the template has nothing for it or brings its own, followed by the template's own extensions unchanged. (A key usage with none of its low sixteen bits set is written as the bit string 03 02 00 00.)",
  "every template, key identifier and subject",
  "Byte-level layout for all contents, bit patterns, addresses and list lengths; round trips share mistakes with the parser.",
  ["x509/x509.go:buildCertExtensions","x509/x509.go:KeyUsage"])
p("C140","The certificate, byte for byte",
  "The bytes CreateCertificate returns are exactly an X.509 version 3 certificate: the serial number in minimal two's complement, the identifier of the signature algorithm that was requested or is the key's default (with NULL parameters for RSA, the RFC 4055 parameters for PSS and none otherwise), the issuer's and subject's names, the two times as UTCTime between 1950 and 2049 and GeneralizedTime otherwise, the subject's public key, the extensions of C139 with the key identifiers chosen from template, parent and key, the same algorithm identifier again, and the signer's signature over the inner bytes.",
  "every template, parent, public key, signer and random stream",
  "Byte-level layout for all contents and lengths; tests that parse their own output share its mistakes.",
  ["x509/x509.go:CreateCertificate","x509/x509.go:signingParamsForPublicKey","x509/x509.go:subjectBytes"])
p("C141","Revocation lists, byte for byte",
  "The bytes CreateRevocationList and CreateCRL return are exactly an X.509 version 2 revocation list: the algorithm identifier, the issuer's name, this and next update (left out for Go's zero time) as UTCTime or GeneralizedTime, the revoked certificates in the given order (CreateRevocationList leaves an empty list out, CreateCRL writes an empty SEQUENCE), the authority key identifier, the list number and the template's extensions (CreateCRL: only the key identifier, and no extension field when the issuer has none), the same algorithm identifier again, and the signer's signature over the inner bytes.",
  "every template, issuer, list of revoked certificates, times, signer and random stream",
  "Byte-level layout for all contents and lengths; tests that parse their own output share its mistakes.",
  ["x509/x509.go:CreateRevocationList","x509/x509.go:CreateCRL"])
p("C142","Certificate requests, byte for byte",
  "The bytes CreateCertificateRequest returns are exactly a PKCS#10 request: version 0, the subject, the public key, the template's attributes with their values in DER order, then, if anything is requested, one extensionRequest attribute with the alternative names (never critical) and the template's extensions (or, if the template brings its own extensionRequest attribute, those of other types appended to its first value without their critical flags), the algorithm identifier, and the signature over the inner bytes; the signer is never asked for PSS, whatever the algorithm.",
  "every template with string and octet-string attribute values, every signer and random stream",
  "Byte-level layout for all contents and lengths; tests that parse their own output share its mistakes.",
  ["x509/x509.go:CreateCertificateRequest","x509/x509.go:buildCSRExtensions","x509/x509.go:newRawAttributes"])
p("C143","Keys, byte for byte",
  "The bytes MarshalPKIXPublicKey, MarshalPKCS1PublicKey, MarshalECPrivateKey and MarshalPKCS8PrivateKey return are exactly the standard containers: SubjectPublicKeyInfo with rsaEncryption and NULL, id-ecPublicKey and the curve, or Ed25519 and no parameters; RSAPublicKey as two shortest-form INTEGERs; ECPrivateKey of version 1 with the fixed-width scalar, the curve in [0] and the uncompressed fixed-width point in [1]; PKCS#8 of version 0 around them, where an ECDSA key leaves the inner curve out, an SM2 key always names the SM2 curve there, and an Ed25519 key is its 32-byte seed in a nested OCTET STRING.  Negative coordinates and scalars are written as their absolute values.",
  "every RSA, ECDSA, SM2 and Ed25519 key on the five curves whose values fit the curve's widths",
  "Byte-level layout for all key values and lengths; tests that parse their own output share its mistakes.",
  ["x509/x509.go:MarshalPKIXPublicKey","x509/x509.go:marshalPublicKey","x509/pkcs1.go:MarshalPKCS1PublicKey","x509/sec1.go:MarshalECPrivateKey","x509/pkcs8.go:MarshalPKCS8PrivateKey"])
p("C144","A parsed certificate shares the caller's bytes",
  "ParseCertificate and ParseCertificates copy nothing that is a byte slice: in the certificate they return, Raw, RawTBSCertificate, RawSubjectPublicKeyInfo, RawSubject, RawIssuer, every extension's Value, SubjectKeyId, AuthorityKeyId, the alternative IP addresses, the addresses and masks of the IP name constraints, the Signature and an Ed25519 public key (when their bit strings are whole bytes) are windows inside the slice that was passed, and nothing reaches outside it.  When the caller later writes to that slice, those fields show the new bytes at the same fixed positions (Raw shows the whole slice), while the serial number, names, dates, algorithms, version, key of every other kind, DNS names, e-mail addresses and URIs keep the values they had.  As long as the slice shows the bytes it showed, nothing changes, whatever else is written.  Two certificates parsed one after the other from the same slice are Equal ever after, whatever they were.",
  "every memory, slice of any offset, length and capacity, input bytes, and every later state of memory",
  "Aliasing is invisible to a test that does not overwrite its input, and it concerns all inputs and all later histories.",
  ["x509/parser.go:ParseCertificate","x509/parser.go:ParseCertificates","x509/parser.go:parseCertificate","x509/parser.go:parseExtension","x509/parser.go:processExtensions","x509/parser.go:parsePublicKey","x509/x509.go:Certificate.Equal"])
p("C145","Exactly which byte strings are certificates",
  "ParseCertificate accepts a byte string and returns a given certificate exactly when the bytes are one SEQUENCE made of: the RawTBSCertificate SEQUENCE; the AlgorithmIdentifier, the very same bytes as inside the TBS; a BIT STRING holding Signature; and anything, ignored.  The TBS SEQUENCE consists of the optional [0] version (absent, 0, 1, 2, or 2^63-1 which wraps around), the serial number as the shortest INTEGER, the AlgorithmIdentifier, RawIssuer, the validity SEQUENCE of two dates and ignored bytes, RawSubject, RawSubjectPublicKeyInfo, and the extensions.  The names are SEQUENCEs of SETs of attributes whose values are strings of the six known types; the key is of a known algorithm and in the form C128 describes, or of an unknown algorithm and not looked at; nothing after the key is looked at in versions up to 1, optional [1] and [2] elements are skipped in the others, and only version 3 has extensions, each an identifier, an optional BOOLEAN (false may be written) and an OCTET STRING with ignored bytes after it.  Every field of the certificate is given by that description, so a byte string has exactly one reading.  ParseCertificates accepts exactly the concatenations of such byte strings, and returns their certificates in order.",
  "every byte string shorter than 2^31 bytes and every Certificate value, in both directions",
  "An equivalence over all byte strings: that nothing else is accepted, and that everything described is, no test set can show.",
  ["x509/parser.go:ParseCertificate","x509/parser.go:parseCertificate","x509/parser.go:parseName","x509/parser.go:parseAI","x509/parser.go:parseValidity","x509/parser.go:parseExtension","x509/parser.go:parsePublicKey"])
p("C146","Exactly what the standard extensions of a certificate are read to say",
  "The fields of a certificate that come from its extensions are exactly those that the bytes of the extensions describe: taken in order, a later one replacing (or, for distribution points and authority information, extending) what an earlier one said.  Key usage is the first nine bits of a BIT STRING; basic constraints an optional BOOLEAN and an optional 64-bit path length; alternative names the e-mail, DNS, URI and IP entries, every other type skipped; name constraints an optional list of permitted and an optional list of excluded subtrees, not both empty, each a domain, an address with a contiguous mask of the same length, a mailbox or domain, or a URI domain that is not an IP address; distribution points the URIs at the front of the full names; the key identifiers, extended key usages, policies, and the OCSP and issuer URLs likewise.  Anything that does not have this form makes the parser refuse the certificate; except in name constraints, bytes after the described element are ignored.  A critical extension that is unknown, has no known alternative name, or constrains an unknown kind of name is listed as unhandled, and nothing else is.",
  "every list of extensions, every prior state of the fields, and every behaviour of URL and IP address parsing, in both directions",
  "An equivalence over all extension values and their sequences: the accepted set and what is read from it cannot be enumerated by tests.",
  ["x509/parser.go:processExtensions","x509/parser.go:parseKeyUsageExtension","x509/parser.go:parseBasicConstraintsExtension","x509/parser.go:forEachSAN","x509/parser.go:parseSANExtension","x509/parser.go:parseExtKeyUsageExtension","x509/parser.go:parseCertificatePoliciesExtension","x509/parser.go:parseNameConstraintsExtension"])
p("C147","Exactly which byte strings are PKCS#1 RSA keys",
  "ParsePKCS1PublicKey returns modulus n and exponent e exactly when the whole input is one SEQUENCE of the INTEGERs n and e in their shortest form, followed inside by anything, with n positive and e between 1 and 2^31-1.  ParsePKCS1PrivateKey returns a key exactly when the whole input is one SEQUENCE of a version of at most 1 (negative ones too), N, E, D, P and Q; then three numbers that are not looked at and need not be there; then a list of further primes, each a SEQUENCE of the prime, two numbers that are not looked at, and anything, the list likewise optional and followed by anything; and when N is the product of all the primes, each is greater than 1, E is between 2 and 2^31-1, D is positive and E*D is 1 modulo each prime less one.  Every other input is refused.",
  "every byte string and every key, in both directions, with any number of primes",
  "An equivalence over all byte strings and any number of primes: what else might be accepted cannot be enumerated by tests.",
  ["x509/pkcs1.go:ParsePKCS1PublicKey","x509/pkcs1.go:ParsePKCS1PrivateKey"])
here=os.path.dirname(os.path.abspath(__file__))
with open(os.path.join(here,"..","properties.jsonl"),"w") as f:
    for x in P: f.write(json.dumps(x,ensure_ascii=False)+"\n")
print(len(P))
