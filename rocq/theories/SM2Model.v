(** * Model of /repo/sm2/sm2.go (keys, signatures, encryption)
    Simplifications, all recorded in DESIGN.md:
    - *big.Int is Z; a key's curve is SM2P256V1 for every operation except Equal, where the
      dynamic curve value is kept as an identity number;
    - an io.Reader is the finite byte string it will still deliver (ReadFull fails when too few
      bytes remain); functions that read return the rest of the stream;
    - slices have capacity equal to their length. *)
From Verif Require Import Base SM3Spec SM3Model ECModel CryptoByte.

(** sm2.go:20-22 *)
Definition sm2SignDefaultUserId : bytes :=
  [0x31; 0x32; 0x33; 0x34; 0x35; 0x36; 0x37; 0x38; 0x31; 0x32; 0x33; 0x34; 0x35; 0x36; 0x37; 0x38].

(** sm2.go:59-68; pk_Curve is the identity of the dynamic elliptic.Curve value (0 = SM2P256V1) *)
Record PublicKey := mkPub { pk_Curve : Z; pk_X : Z; pk_Y : Z }.
Record PrivateKey := mkPriv { sk_Pub : PublicKey; sk_D : Z }.
Definition SM2P256V1_id : Z := 0.

(** sm2.go:84-91; the argument is an interface value: None is any other dynamic type *)
Definition PublicKey_Equal (pub : PublicKey) (x : option PublicKey) : bool :=
  match x with
  | None => false
  | Some xx => (pk_X pub =? pk_X xx) && (pk_Y pub =? pk_Y xx) && (pk_Curve pub =? pk_Curve xx)
  end.
(** sm2.go:70-72 *)
Definition Public (priv : PrivateKey) : PublicKey := sk_Pub priv.
(** sm2.go:75-81 *)
Definition PrivateKey_Equal (priv : PrivateKey) (x : option PrivateKey) : bool :=
  match x with
  | None => false
  | Some xx => PublicKey_Equal (sk_Pub priv) (Some (sk_Pub xx)) && (sk_D priv =? sk_D xx)
  end.

(** io.ReadFull of n bytes *)
Definition ReadFull (n : nat) (rand : bytes) : outcome (bytes * bytes) :=
  if (n <=? List.length rand)%nat then Ret (firstn n rand, skipn n rand)
  else match rand with [] => Err "EOF" | _ => Err "unexpected EOF" end.

(** crypto/elliptic GenerateKey (Go 1.18) on the SM2 curve: bitSize 256, mask[0] = 0xff;
    the loop consumes 32 bytes per iteration, so the stream length bounds it *)
Fixpoint elliptic_GenerateKey (fuel : nat) (rand : bytes) : outcome (bytes * (Z * Z) * bytes) :=
  match fuel with
  | O => Err "out of fuel"
  | S fuel' =>
      do (priv, rand) <- ReadFull 32 rand;
      let priv := upd priv 0 (Z.land (nth 0 priv 0) 0xff) in
      let priv := upd priv 1 (Z.lxor (nth 1 priv 0) 0x42) in
      if sm2_N <=? be_to_Z priv then elliptic_GenerateKey fuel' rand
      else do xy <- sm2_ScalarBaseMult priv; Ret (priv, xy, rand)
  end.
(** sm2.go:94-107 *)
Definition GenerateKey (rand : bytes) : outcome (PrivateKey * bytes) :=
  do (d, xy, rand) <- elliptic_GenerateKey (S (List.length rand)) rand;
  Ret (mkPriv (mkPub SM2P256V1_id (fst xy) (snd xy)) (be_to_Z d), rand).

(** sm2.go:182-188 (and zeroByteSlice 189-200) *)
Definition appendBigIntTo32Bytes (bn : Z) : bytes :=
  let buf := big_bytes bn in
  if (List.length buf <? 32)%nat then repeat 0 (32 - List.length buf) ++ buf else buf.

(** digest.Write(p), ignoring the count *)
Definition dWrite (d : digest) (p : bytes) : outcome digest := do (d, _) <- sm3_Write d p; Ret d.

(** sm2.go:167-180; returns the hash and the digest object, which the caller resets *)
Definition z (d : digest) (x y : Z) (uid : bytes) : outcome (bytes * digest) :=
  let d := sm3_Reset d in
  let userIdLen := (zlen uid * 8) mod 2 ^ 16 in
  do d <- dWrite d [Z.land (Z.shiftr userIdLen 8) 0xff];
  do d <- dWrite d [Z.land userIdLen 0xff];
  do d <- dWrite d uid;
  do d <- dWrite d (big_bytes sm2_A);
  do d <- dWrite d (big_bytes sm2_B);
  do d <- dWrite d (big_bytes sm2_Gx);
  do d <- dWrite d (big_bytes sm2_Gy);
  do d <- dWrite d (appendBigIntTo32Bytes x);
  do d <- dWrite d (appendBigIntTo32Bytes y);
  do h <- sm3_Sum_method d [];
  Ret (h, d).

(** sm2.go:130-140 *)
Definition SM3Digest (pub : PublicKey) (msg uid : bytes) : outcome bytes :=
  let uid := match uid with [] => sm2SignDefaultUserId | _ => uid end in
  do (zv, d) <- z sm3_New (pk_X pub) (pk_Y pub) uid;
  let d := sm3_Reset d in
  do d <- dWrite d zv;
  do d <- dWrite d msg;
  sm3_Sum_method d [].

(** sm2.go:202-209 *)
Definition MarshalSign (r s : Z) : outcome bytes :=
  do rb <- addBigInt r;
  do sb <- addBigInt s;
  addASN1 T_SEQUENCE (rb ++ sb).
(** sm2.go:211-225 *)
Definition UnmarshalSign (sig : bytes) : outcome (Z * Z) :=
  match readASN1 T_SEQUENCE sig with
  | Some (inner, []) =>
      match readBigInt inner with
      | Some (rx, inner) =>
          match readBigInt inner with
          | Some (sx, []) => Ret (rx, sx)
          | _ => Err "not sm2 sign"
          end
      | None => Err "not sm2 sign"
      end
  | _ => Err "not sm2 sign"
  end.

(** sm2.go:228-241; BitSize/8+8 = 40 *)
Definition nextk (rand : bytes) : outcome (Z * bytes) :=
  do (b, rand) <- ReadFull (Z.to_nat (sm2_BitSize / 8 + 8)) rand;
  let k := be_to_Z b in
  let n := sm2_N - 1 in
  let k := k mod n in
  let k := k + 1 in
  Ret (k, rand).

(** sm2.go:278-297, the inner loop: returns k and r *)
Fixpoint sign_inner (fuel : nat) (e : Z) (rand : bytes) : outcome (Z * Z * bytes) :=
  match fuel with
  | O => Err "out of fuel"
  | S fuel' =>
      do (k, rand) <- nextk rand;
      do xy <- sm2_ScalarBaseMult (big_bytes k);
      let r := fst xy in
      let r := e + r in
      let r := r mod sm2_N in
      if negb (r =? 0) && negb (r + k =? sm2_N) then Ret (k, r, rand)
      else sign_inner fuel' e rand
  end.
(** sm2.go:275-308, the outer loop *)
Fixpoint sign_outer (fuel : nat) (D e : Z) (rand : bytes) : outcome (Z * Z * bytes) :=
  match fuel with
  | O => Err "out of fuel"
  | S fuel' =>
      do (k, r, rand) <- sign_inner (S (List.length rand)) e rand;
      let rD := r * D in
      let s := k - rD in
      let d1 := D + 1 in
      match ModInverse d1 sm2_N with
      | None => Panic (* s.Mul(s, nil) *)
      | Some d1Inv =>
          let s := s * d1Inv in
          let s := s mod sm2_N in
          if negb (s =? 0) then Ret (r, s, rand) else sign_outer fuel' D e rand
      end
  end.
(** sm2.go:268-310; N.Sign() == 0 is false for the SM2 order *)
Definition SignDigestRS (rand : bytes) (priv : PrivateKey) (digest : bytes) : outcome (Z * Z * bytes) :=
  let e := be_to_Z digest in
  if sm2_N =? 0 then Err "zero parameter" else
  sign_outer (S (List.length rand)) (sk_D priv) e rand.
(** sm2.go:253-256 (the error of SM3Digest is always nil and is overwritten) *)
Definition SignRS (rand : bytes) (priv : PrivateKey) (inp uid : bytes) : outcome (Z * Z * bytes) :=
  do hash <- SM3Digest (sk_Pub priv) inp uid;
  SignDigestRS rand priv hash.
(** sm2.go:244-250 *)
Definition Sign (rand : bytes) (priv : PrivateKey) (inp uid : bytes) : outcome (bytes * bytes) :=
  do (r, s, rand) <- SignRS rand priv inp uid;
  do sig <- MarshalSign r s; Ret (sig, rand).
(** sm2.go:259-265 *)
Definition SignDigest (rand : bytes) (priv : PrivateKey) (digest : bytes) : outcome (bytes * bytes) :=
  do (r, s, rand) <- SignDigestRS rand priv digest;
  do sig <- MarshalSign r s; Ret (sig, rand).
(** sm2.go:110-127: the methods delegate *)
Definition PrivateKey_SignRS (priv : PrivateKey) (rand inp uid : bytes) := SignRS rand priv inp uid.
Definition PrivateKey_Sign (priv : PrivateKey) (rand inp uid : bytes) := Sign rand priv inp uid.
Definition PrivateKey_SignDigestRS (priv : PrivateKey) (rand digest : bytes) := SignDigestRS rand priv digest.
Definition PrivateKey_SignDigest (priv : PrivateKey) (rand digest : bytes) := SignDigest rand priv digest.

(** sm2.go:359-383 *)
Definition VerifyDigestRS (pub : PublicKey) (digest : bytes) (r s : Z) : outcome bool :=
  if (r <? 1) || (sm2_N <=? r) then Ret false else
  if (s <? 1) || (sm2_N <=? s) then Ret false else
  let e := be_to_Z digest in
  let t := r + s in
  let t := t mod sm2_N in
  if t =? 0 then Ret false else
  do xy1 <- sm2_ScalarBaseMult (big_bytes s);
  do xy2 <- sm2_ScalarMult (pk_X pub) (pk_Y pub) (big_bytes t);
  do xy <- sm2_Add (fst xy1) (snd xy1) (fst xy2) (snd xy2);
  let x := fst xy in let y := snd xy in
  if (x =? 0) || (y =? 0) then Ret false else
  let x := x + e in
  let x := x mod sm2_N in
  Ret (x =? r).
(** sm2.go:322-349 *)
Definition VerifyRS (pub : PublicKey) (inp uid : bytes) (r s : Z) : outcome bool :=
  if (r <? 1) || (sm2_N <=? r) then Ret false else
  if (s <? 1) || (sm2_N <=? s) then Ret false else
  match SM3Digest pub inp uid with
  | Panic => Panic
  | Err _ => Ret false
  | Ret hash =>
  let e := be_to_Z hash in
  let t := r + s in
  let t := t mod sm2_N in
  if t =? 0 then Ret false else
  do xy1 <- sm2_ScalarBaseMult (big_bytes s);
  do xy2 <- sm2_ScalarMult (pk_X pub) (pk_Y pub) (big_bytes t);
  do xy <- sm2_Add (fst xy1) (snd xy1) (fst xy2) (snd xy2);
  let x := fst xy in let y := snd xy in
  if (x =? 0) || (y =? 0) then Ret false else
  let x := x + e in
  let x := x mod sm2_N in
  Ret (x =? r)
  end.
(** sm2.go:313-320 *)
Definition Verify (pub : PublicKey) (inp uid signature : bytes) : outcome bool :=
  match UnmarshalSign signature with
  | Ret (r, s) => VerifyRS pub inp uid r s
  | Err _ => Ret false
  | Panic => Panic
  end.
(** sm2.go:351-357 *)
Definition VerifyDigest (pub : PublicKey) (inp signature : bytes) : outcome bool :=
  match UnmarshalSign signature with
  | Ret (r, s) => VerifyDigestRS pub inp r s
  | Err _ => Ret false
  | Panic => Panic
  end.
(** sm2.go:142-148 *)
Definition PublicKey_Verify (pub : PublicKey) (inp uid signature : bytes) : outcome bool :=
  match UnmarshalSign signature with
  | Ret (r, s) => VerifyRS pub inp uid r s
  | Err _ => Ret false
  | Panic => Panic
  end.
(** sm2.go:150-152: the arguments uid and in are passed in this order *)
Definition PublicKey_VerifyRS (pub : PublicKey) (inp uid : bytes) (r s : Z) : outcome bool :=
  VerifyRS pub uid inp r s.
(** sm2.go:154-160 *)
Definition PublicKey_VerifyDigest (pub : PublicKey) (inp signature : bytes) : outcome bool :=
  match UnmarshalSign signature with
  | Ret (r, s) => VerifyDigestRS pub inp r s
  | Err _ => Ret false
  | Panic => Panic
  end.
(** sm2.go:162-164 *)
Definition PublicKey_VerifyDigestRS (pub : PublicKey) (inp : bytes) (r s : Z) : outcome bool :=
  VerifyDigestRS pub inp r s.

(** sm2.go:447-451 *)
Definition intToBytes (x : Z) : bytes := PutUint32 (x mod 2 ^ 32).
(** sm2.go:427-438: the loop; one hash object for all iterations *)
Fixpoint kdf_loop (n : nat) (h : digest) (klen ct : Z) (xBytes yBytes out : bytes) : outcome bytes :=
  match n with
  | O => Ret out
  | S n' =>
      do h <- dWrite h xBytes;
      do h <- dWrite h yBytes;
      do h <- dWrite h (intToBytes ct);
      do hash <- sm3_Sum_method h [];
      let out := if negb (Z.rem klen 32 =? 0) then out ++ firstn (Z.to_nat (Z.rem klen 32)) hash
                 else out ++ hash in
      kdf_loop n' h klen (ct + 1) xBytes yBytes out
  end.
(** sm2.go:419-445; None is (nil, false) *)
Definition kdf (klen x y : Z) : outcome (option bytes) :=
  let xBytes := appendBigIntTo32Bytes x in
  let yBytes := appendBigIntTo32Bytes y in
  let n := Z.quot (klen + 31) 32 in
  do out <- kdf_loop (Z.to_nat n) sm3_New klen 1 xBytes yBytes [];
  Ret (if existsb (fun b => negb (b =? 0)) out then Some out else None).

(** c[i] ^= m[0]; c[i+1] ^= m[1]; ... with Go's index checks (sm2.go:412-414 and 480-482) *)
Fixpoint xor_loop (c : bytes) (i : nat) (m : bytes) : outcome bytes :=
  match m with
  | [] => Ret c
  | b :: m' => if (i <? List.length c)%nat then xor_loop (upd c i (Z.lxor (nth i c 0) b)) (S i) m' else Panic
  end.

(** sm2.go:385-417 *)
Fixpoint encrypt_loop (fuel : nat) (rand : bytes) (pub : PublicKey) (msg : bytes) : outcome (bytes * bytes) :=
  match fuel with
  | O => Err "out of fuel"
  | S fuel' =>
      do (k, rand) <- nextk rand;
      let kBytes := big_bytes k in
      do c1 <- sm2_ScalarBaseMult kBytes;
      let c := big_bytes (fst c1) ++ big_bytes (snd c1) in
      do kp <- sm2_ScalarMult (pk_X pub) (pk_Y pub) kBytes;
      do c3 <- sm3_Sum (big_bytes (fst kp) ++ msg ++ big_bytes (snd kp));
      let c := c ++ c3 in
      do t <- kdf (zlen msg) (fst kp) (snd kp);
      match t with
      | None => encrypt_loop fuel' rand pub msg
      | Some t => do c <- xor_loop (c ++ t) 96 msg; Ret (0x04 :: c, rand)
      end
  end.
Definition Encryt (rand : bytes) (pub : PublicKey) (msg : bytes) : outcome (bytes * bytes) :=
  encrypt_loop (S (List.length rand)) rand pub msg.

(** data[i:j] *)
Definition slice (l : bytes) (i j : nat) : outcome bytes :=
  if (i <=? j)%nat && (j <=? List.length l)%nat then Ret (firstn (j - i) (skipn i l)) else Panic.

(** sm2.go:453-493; the result is the returned slice and the error (None = nil) *)
Definition Decryt (priv : PrivateKey) (data : bytes) : outcome (bytes * option string) :=
  do data <- slice data 1 (List.length data);
  do c1xb <- slice data 0 32;
  let c1x := be_to_Z c1xb in
  do c1yb <- slice data 32 64;
  let c1y := be_to_Z c1yb in
  if (sm2_P <=? c1x) || (sm2_P <=? c1y) then Ret ([], Some "C1 is not on the curve"%string) else
  if negb (sm2_IsOnCurve c1x c1y) then Ret ([], Some "C1 is not on the curve"%string) else
  do sxy <- sm2_ScalarMult c1x c1y (big_bytes 1);
  if (fst sxy =? 0) && (snd sxy =? 0) then Ret ([], Some "[h]C1 at infinity"%string) else
  do xy2 <- sm2_ScalarMult c1x c1y (big_bytes (sk_D priv));
  let x2 := fst xy2 in let y2 := snd xy2 in
  let length := zlen data - 96 in
  do t <- kdf length x2 y2;
  match t with
  | None => Ret ([], Some "failed to decrypt:kdf error"%string)
  | Some c =>
      do c <- xor_loop c 0 (skipn 96 data);
      do hash <- sm3_Sum (big_bytes x2 ++ c ++ big_bytes y2);
      do c3 <- slice data 64 96;
      if negb (bytes_eqb hash c3) then Ret (c, Some "failed to decrypt:hash compared error"%string)
      else Ret (c, None)
  end.
