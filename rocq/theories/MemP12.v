(** * pkcs12: pbkdf, RC2 and the PBE functions on memory (Mem) *)
From Coq Require Import PeanoNat String.
From Verif Require Import Base Words RC2Model PbkdfModel Asn1 KeysModel P12Model Mem.
Local Open Scope nat_scope.

Section Grow.
Variable extra : nat -> nat -> nat.
(** ** pbkdf.go *)
(** pbkdf.go:79-82 *)
Fixpoint mrepD (n : nat) (ID : Z) (D : slc) : M slc :=
  match n with O => mret D | S n' => mdo D <- appendB extra D [ID]; mrepD n' ID D end.
(** pbkdf.go:25-31: bytes.Repeat makes a new array; the result is its front, the rest is spare capacity *)
Definition mfill (pattern : slc) (v : nat) : M slc :=
  if s_len pattern =? 0 then emptyS else
  let outputLen := v * ((s_len pattern + v - 1) / v) in
  mdo b <- load pattern;
  mdo r <- new (bytes_Repeat b ((outputLen + s_len pattern - 1) / s_len pattern));
  sub r 0 outputLen.
(** pbkdf.go:18-21: the hash function reads its argument and returns a new slice *)
Definition mhash (hash : bytes -> bytes) (s : slc) : M slc := mdo b <- load s; new (hash b).
(** pbkdf.go:111-113 *)
Fixpoint mhash_loop (hash : bytes -> bytes) (n : nat) (Ai : slc) : M slc :=
  match n with O => mret Ai | S n' => mdo Ai <- mhash hash Ai; mhash_loop hash n' Ai end.
(** pbkdf.go:119-122; v passes suffice *)
Fixpoint mrepB (fuel v : nat) (Ai B : slc) : M slc :=
  match fuel with O => mret B | S f => if s_len B <? v then mdo B <- appendS extra B Ai; mrepB f v Ai B else mret B end.
(** pbkdf.go:148-150 *)
Fixpoint mzero (n : nat) (s : slc) (i : nat) : M unit :=
  match n with O => mret tt | S n' => mdo _ <- setB s i 0%Z; mzero n' s (S i) end.
(** pbkdf.go:143-153: IjBuf is made once and used again in later passes *)
Definition mpad (v : nat) (Ijb : slc) (IjBuf : option slc) : M (slc * option slc) :=
  if s_len Ijb <? v then
    mdo buf <- match IjBuf with Some b => mret b | None => new (repeat 0%Z v) end;
    let bytesShort := v - s_len Ijb in
    mdo _ <- mzero bytesShort buf 0;
    mdo t <- from buf bytesShort;
    mdo _ <- copyS t Ijb;
    mret (buf, Some buf)
  else mret (Ijb, IjBuf).
(** pbkdf.go:133-154 *)
Definition mstep (v j : nat) (I : slc) (Bbi : Z) (IjBuf : option slc) : M (option slc) :=
  mdo w <- sub I (j * v) ((j + 1) * v);
  mdo b <- load w;
  mdo Ijb <- new (big_bytes (be_to_Z b + Bbi + 1));
  mdo Ijb <- (if v <? s_len Ijb then from Ijb (s_len Ijb - v) else mret Ijb);
  mdo (Ijb, IjBuf) <- mpad v Ijb IjBuf;
  mdo w <- sub I (j * v) ((j + 1) * v);
  mdo _ <- copyS w Ijb;
  mret IjBuf.
(** pbkdf.go:132-155 *)
Fixpoint mblocks (n j v : nat) (I : slc) (Bbi : Z) (IjBuf : option slc) : M (option slc) :=
  match n with O => mret IjBuf | S n' => mdo IjBuf <- mstep v j I Bbi IjBuf; mblocks n' (j + 1) v I Bbi IjBuf end.
(** pbkdf.go:116-157 *)
Definition mupdate (v i c : nat) (Ai I : slc) (IjBuf : option slc) : M (option slc) :=
  if i <? c - 1 then
    mdo B <- emptyS;
    mdo B <- mrepB v v Ai B;
    mdo B <- sub B 0 v;
    mdo b <- load B;
    mblocks (s_len I / v) 0 v I (be_to_Z b) IjBuf
  else mret IjBuf.
(** pbkdf.go:107-158; append(D, I...) may write behind D, in the array of D, in every pass *)
Fixpoint mpbkdf_loop (hash : bytes -> bytes) (n i c v : nat) (r : Z) (D I A : slc) (IjBuf : option slc) : M unit :=
  match n with
  | O => mret tt
  | S n' =>
      mdo DI <- appendS extra D I;
      mdo Ai <- mhash hash DI;
      mdo Ai <- mhash_loop hash (Z.to_nat (r - 1)) Ai;
      mdo t <- from A (i * 20);
      mdo _ <- copyS t Ai;
      mdo IjBuf <- mupdate v i c Ai I IjBuf;
      mpbkdf_loop hash n' (i + 1) c v r D I A IjBuf
  end.
(** pbkdf.go:33-163 *)
Definition mpbkdf (hash : bytes -> bytes) (u : Z) (v : nat) (salt password : slc) (r ID size : Z) : M slc :=
  mdo D <- emptyS;
  mdo D <- mrepD v ID D;
  mdo Sl <- mfill salt v;
  mdo Pl <- mfill password v;
  mdo Ib <- appendS extra Sl Pl;
  let c := Z.quot (size + u - 1) u in
  if (c <? 0)%Z then mpanic else
  mdo A <- new (repeat 0%Z (Z.to_nat c * 20));
  mdo _ <- mpbkdf_loop hash (Z.to_nat c) 0 (Z.to_nat c) v r D Ib A None;
  if (size <? 0)%Z then mpanic else sub A 0 (Z.to_nat size).

(** ** rc2.go *)
(** binary.LittleEndian.Uint16(s[i:]) and PutUint16(s[i:], w) *)
Definition mGet16 (s : slc) (i : nat) : M Z :=
  mdo t <- from s i; mdo b1 <- getB t 1; mdo b0 <- getB t 0; mret (Z.lor b0 (Z.shiftl b1 8)).
Definition mPut16 (s : slc) (i : nat) (w : Z) : M unit :=
  mdo t <- from s i; if 1 <? s_len t then poke t 0 (put16 w) else mpanic.
Definition mPutRegs (dst : slc) (s : regs4) : M unit :=
  mdo _ <- mPut16 dst 0 (q0 s); mdo _ <- mPut16 dst 2 (q1 s); mdo _ <- mPut16 dst 4 (q2 s); mPut16 dst 6 (q3 s).
(** rc2.go:87-180 *)
Definition mrc2_Encrypt (k : list Z) (dst src : slc) : M unit :=
  mdo r0 <- mGet16 src 0; mdo r1 <- mGet16 src 2; mdo r2 <- mGet16 src 4; mdo r3 <- mGet16 src 6;
  let '(j, s) := enc_while 16 16 k 0 (mk4 r0 r1 r2 r3) in
  let s := enc_mash k s in
  let '(j, s) := enc_while 16 40 k j s in
  let s := enc_mash k s in
  let '(j, s) := enc_while 16 60 k j s in
  mPutRegs dst s.
(** rc2.go:182-274 *)
Definition mrc2_Decrypt (k : list Z) (dst src : slc) : M unit :=
  mdo r0 <- mGet16 src 0; mdo r1 <- mGet16 src 2; mdo r2 <- mGet16 src 4; mdo r3 <- mGet16 src 6;
  let '(j, s) := dec_while 16 44 k 63%Z (mk4 r0 r1 r2 r3) in
  let s := dec_mash k s in
  let '(j, s) := dec_while 16 20 k j s in
  let s := dec_mash k s in
  let '(j, s) := dec_while 16 0 k j s in
  mPutRegs dst s.

(** ** crypto/cipher CBC (Go 1.18, cbc.go) over a block cipher with blocks of 8 bytes *)
Record mbc := mkMBC { mb_Encrypt : slc -> slc -> M unit; mb_Decrypt : slc -> slc -> M unit }.
(** xorBytes(dst, a, b) with min(len(a), len(b)) bytes *)
Definition mxorBytes (dst a b : slc) : M unit :=
  mdo x <- load a; mdo y <- load b; if List.length (xor_bytes x y) <=? s_len dst then poke dst 0 (xor_bytes x y) else mpanic.
(** cbcEncrypter.CryptBlocks: the xor is written to dst and encrypted in place; the block is the next iv.  [n] blocks *)
Fixpoint mcbc_enc (b : mbc) (n : nat) (iv dst src : slc) : M slc :=
  match n with
  | O => mret iv
  | S n' =>
      mdo d <- sub dst 0 8; mdo s <- sub src 0 8;
      mdo _ <- mxorBytes d s iv;
      mdo _ <- mb_Encrypt b d d;
      mdo src <- from src 8; mdo dst <- from dst 8;
      mcbc_enc b n' d dst src
  end.
(** cbcDecrypter.CryptBlocks: backwards over the blocks; [n] blocks before the one at [start]; prev = iv for the first *)
Fixpoint mcbc_dec (b : mbc) (n : nat) (iv dst src : slc) : M unit :=
  let start := 8 * n in
  mdo d <- sub dst start (start + 8); mdo s <- sub src start (start + 8);
  mdo _ <- mb_Decrypt b d s;
  match n with
  | O => mxorBytes d d iv
  | S n' => mdo p <- sub src (start - 8) start; mdo _ <- mxorBytes d d p; mcbc_dec b n' iv dst src
  end.
(** NewCBC... copies the iv and panics unless it has 8 bytes; CryptBlocks panics unless src is whole blocks and dst long
    enough (the panic for inexact overlap is left out: both callers pass the same slice or a new one) *)
Definition mCryptEnc (b : mbc) (iv : slc) (dst src : slc) : M unit :=
  if negb (s_len iv =? 8) then mpanic else
  mdo i <- load iv; mdo iv <- new i;
  if negb (s_len src mod 8 =? 0) then mpanic else
  if s_len dst <? s_len src then mpanic else
  mdo last <- mcbc_enc b (s_len src / 8) iv dst src;
  mdo _ <- copyS iv last; mret tt.
Definition mCryptDec (b : mbc) (iv : slc) (dst src : slc) : M unit :=
  if negb (s_len iv =? 8) then mpanic else
  mdo i <- load iv; mdo iv <- new i;
  if negb (s_len src mod 8 =? 0) then mpanic else
  if s_len dst <? s_len src then mpanic else
  if s_len src =? 0 then mret tt else
  mcbc_dec b (s_len src / 8 - 1) iv dst src.

(** ** crypto.go *)
(** crypto/des: the block is read completely before dst is written *)
Definition m3DES (f : bytes -> bytes) (dst src : slc) : M unit :=
  if (s_len src <? 8) || (s_len dst <? 8) then mpanic else
  mdo b <- load src; poke dst 0 (f (firstn 8 b)).
Definition mcreate3DES (P : prims) (key : slc) : M mbc :=
  mdo k <- load key;
  if negb (zlen k =? 24)%Z then merr "crypto/des: invalid key size"
  else mret (mkMBC (m3DES (tdes_enc P k)) (m3DES (tdes_dec P k))).
Definition mcreateRC2 (key : slc) : M mbc :=
  mdo k <- load key; mdo k <- mlift (rc2_New k (zlen k * 8));
  mret (mkMBC (mrc2_Encrypt k) (mrc2_Decrypt k)).
(** crypto.go:64-90; the salt is a new slice that asn1.Unmarshal made *)
Definition mpbeCipherFor (P : prims) (algorithm : AI) (password : slc) : M (mbc * slc) :=
  mdo ct <- (if oid_eqb (ai_alg algorithm) oidPBEWithSHAAnd3KeyTripleDESCBC then mret (24%Z, mcreate3DES P)
             else if oid_eqb (ai_alg algorithm) oidPBEWithSHAAnd40BitRC2CBC then mret (5%Z, mcreateRC2)
             else merr "go-pkcs12: algorithm is not supported");
  let '(keyLen, create) := ct in
  mdo params <- mlift (unmarshal cPbe (sl (rv_full (ai_params algorithm))));
  mdo salt <- new (sl (pbe_Salt params));
  mdo key <- mpbkdf (sha1 P) 20 64 salt password (pbe_Iterations params) 1 keyLen;
  mdo iv <- mpbkdf (sha1 P) 20 64 salt password (pbe_Iterations params) 2 8;
  mdo block <- create key;
  mret (block, iv).
(** crypto.go:101-132 *)
Definition mpbDecrypt (P : prims) (algorithm : AI) (encrypted password : slc) : M slc :=
  mdo (block, iv) <- mpbeCipherFor P algorithm password;
  if negb (s_len iv =? 8) then mpanic else
  if s_len encrypted =? 0 then merr "go-pkcs12: empty encrypted data" else
  if negb (s_len encrypted mod 8 =? 0) then merr "go-pkcs12: input is not a multiple of the block size" else
  mdo decrypted <- new (repeat 0%Z (s_len encrypted));
  mdo _ <- mCryptDec block iv decrypted encrypted;
  mdo psLen <- getB decrypted (s_len decrypted - 1);
  if ((psLen =? 0) || (8 <? psLen))%Z then merr ErrDecryption else
  if (Z.of_nat (s_len decrypted) <? psLen)%Z then merr ErrDecryption else
  let n := s_len decrypted - Z.to_nat psLen in
  mdo ps <- from decrypted n;
  mdo decrypted <- sub decrypted 0 n;
  mdo b <- load ps;
  if negb (bytes_eqb b (repeat psLen (Z.to_nat psLen))) then merr ErrDecryption else mret decrypted.
(** crypto.go:149-164: the slice passed to SetData *)
Definition mpbEncrypt (P : prims) (algorithm : AI) (decrypted password : slc) : M slc :=
  mdo (block, iv) <- mpbeCipherFor P algorithm password;
  let psLen := 8 - s_len decrypted mod 8 in
  mdo encrypted <- new (repeat 0%Z (s_len decrypted + psLen));
  mdo t <- sub encrypted 0 (s_len decrypted);
  mdo _ <- copyS t decrypted;
  mdo t <- from encrypted (s_len decrypted);
  mdo p <- new (repeat (Z.of_nat psLen) psLen);
  mdo _ <- copyS t p;
  mdo _ <- mCryptEnc block iv encrypted encrypted;
  mret encrypted.
End Grow.
