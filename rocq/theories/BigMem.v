(** * sm2.go over a memory of big integers

    The other models treat a *big.Int as the number it holds.  In Go it is a pointer: z.Add(x, y) overwrites *z, keys, the
    curve parameters and the package variable [one] are shared by all calls, and x, y, z may be the same pointer.  Here the
    functions of sm2.go that compute with big integers are modelled over a memory of integer cells, following each
    new(big.Int), each overwritten receiver and each read of a shared parameter.

    crypto/elliptic's generic methods (ScalarMult, ScalarBaseMult, Add) read their arguments and the parameters and return
    two newly allocated integers; their internal temporaries are not represented.  Byte slices are plain lists here
    (MemSM.v has them in memory). *)
From Coq Require Import String.
From Verif Require Import Base Words SM3Model ECModel SM2Model.
Open Scope Z_scope.

Definition bheap := list Z.
Definition ptr := nat.
Definition get (h : bheap) (p : ptr) : Z := nth p h 0.
Definition BM (A : Type) := bheap -> bheap * outcome A.
Definition bret {A} (a : A) : BM A := fun h => (h, Ret a).
Definition blift {A} (o : outcome A) : BM A := fun h => (h, o).
Definition bbind {A B} (m : BM A) (f : A -> BM B) : BM B :=
  fun h => match m h with (h', Ret a) => f a h' | (h', Err e) => (h', Err e) | (h', Panic) => (h', Panic) end.
Notation "'bdo' x <- m ; k" := (bbind m (fun x => k)) (at level 200, x pattern, m at level 100, k at level 200).

(** math/big: new(big.Int) holding z; reading; overwriting *)
Definition bNew (z : Z) : BM ptr := fun h => (h ++ [z], Ret (List.length h)).
Definition bGet (p : ptr) : BM Z := fun h => (h, Ret (get h p)).
Definition bPut (p : ptr) (z : Z) : BM unit := fun h => (upd h p z, Ret tt).
(** z.Add(x, y), z.Sub(x, y), z.Mul(x, y), z.Mod(x, y) (Euclidean; division by zero panics) *)
Definition bAdd (z x y : ptr) : BM unit := bdo a <- bGet x; bdo b <- bGet y; bPut z (a + b).
Definition bSub (z x y : ptr) : BM unit := bdo a <- bGet x; bdo b <- bGet y; bPut z (a - b).
Definition bMul (z x y : ptr) : BM unit := bdo a <- bGet x; bdo b <- bGet y; bPut z (a * b).
Definition bMod (z x y : ptr) : BM unit :=
  bdo a <- bGet x; bdo b <- bGet y; if b =? 0 then blift Panic else bPut z (a mod Z.abs b).
(** z.ModInverse(g, n) returns nil when there is no inverse *)
Definition bModInverse (z g n : ptr) : BM (option ptr) :=
  bdo a <- bGet g; bdo b <- bGet n;
  match ModInverse a b with Some i => bdo _ <- bPut z i; bret (Some z) | None => bret None end.

(** sm2.go:17-56: the shared integers *)
Record globals := mkG { gP : ptr; gA : ptr; gB : ptr; gN : ptr; gGx : ptr; gGy : ptr; gOne : ptr }.
(** sm2.go:59-68 *)
Record pPub := mkPP { pp_Curve : Z; pp_X : ptr; pp_Y : ptr }.
Record pPriv := mkPS { ps_Pub : pPub; ps_D : ptr }.

Section Sm2.
Variable g : globals.

Definition two (o : outcome (Z * Z)) : BM (ptr * ptr) := bdo xy <- blift o; bdo x <- bNew (fst xy); bdo y <- bNew (snd xy); bret (x, y).
(** crypto/elliptic ScalarMult, ScalarBaseMult, Add, IsOnCurve on the shared parameters *)
Definition bScalarMult (x y : ptr) (k : bytes) : BM (ptr * ptr) :=
  bdo p <- bGet (gP g); bdo bx <- bGet x; bdo b_y <- bGet y; two (ScalarMult p bx b_y k).
Definition bScalarBaseMult (k : bytes) : BM (ptr * ptr) := bScalarMult (gGx g) (gGy g) k.
Definition bPointAdd (x1 y1 x2 y2 : ptr) : BM (ptr * ptr) :=
  bdo p <- bGet (gP g); bdo a <- bGet x1; bdo b <- bGet y1; bdo c <- bGet x2; bdo d <- bGet y2; two (Add p a b c d).
Definition bIsOnCurve (x y : ptr) : BM bool :=
  bdo p <- bGet (gP g); bdo b <- bGet (gB g); bdo vx <- bGet x; bdo vy <- bGet y; bret (IsOnCurve p b vx vy).

(** sm2.go:94-107; elliptic.GenerateKey compares with N, reads no other shared integer itself and returns bytes and two new
    integers.  SetBytes makes a new integer of the bytes. *)
Fixpoint bGen (fuel : nat) (rand : bytes) : BM (bytes * (ptr * ptr) * bytes) :=
  match fuel with
  | O => blift (Err "out of fuel")
  | S fuel' =>
      bdo (priv, rand) <- blift (ReadFull 32 rand);
      let priv := upd priv 0 (Z.land (nth 0 priv 0) 0xff) in
      let priv := upd priv 1 (Z.lxor (nth 1 priv 0) 0x42) in
      bdo n <- bGet (gN g);
      if n <=? be_to_Z priv then bGen fuel' rand
      else bdo xy <- bScalarBaseMult priv; bret (priv, xy, rand)
  end.
Definition bGenerateKey (rand : bytes) : BM (pPriv * bytes) :=
  bdo (d, xy, rand) <- bGen (S (List.length rand)) rand;
  bdo dp <- bNew (be_to_Z d);
  bret (mkPS (mkPP SM2P256V1_id (fst xy) (snd xy)) dp, rand).

(** sm2.go:130-140, 167-180: reads a, b, Gx, Gy, X and Y *)
Definition zOf (a b gx gy x y : Z) (uid : bytes) : outcome (bytes * digest) :=
  let d := sm3_Reset sm3_New in
  let userIdLen := (zlen uid * 8) mod 2 ^ 16 in
  do d <- dWrite d [Z.land (Z.shiftr userIdLen 8) 0xff];
  do d <- dWrite d [Z.land userIdLen 0xff];
  do d <- dWrite d uid;
  do d <- dWrite d (big_bytes a);
  do d <- dWrite d (big_bytes b);
  do d <- dWrite d (big_bytes gx);
  do d <- dWrite d (big_bytes gy);
  do d <- dWrite d (appendBigIntTo32Bytes x);
  do d <- dWrite d (appendBigIntTo32Bytes y);
  do h <- sm3_Sum_method d [];
  Ret (h, d).
Definition digestOf (a b gx gy x y : Z) (msg uid : bytes) : outcome bytes :=
  let uid := match uid with [] => sm2SignDefaultUserId | _ => uid end in
  do (zv, d) <- zOf a b gx gy x y uid;
  let d := sm3_Reset d in
  do d <- dWrite d zv;
  do d <- dWrite d msg;
  sm3_Sum_method d [].
Definition bSM3Digest (pub : pPub) (msg uid : bytes) : BM bytes :=
  bdo a <- bGet (gA g); bdo b <- bGet (gB g); bdo gx <- bGet (gGx g); bdo gy <- bGet (gGy g);
  bdo x <- bGet (pp_X pub); bdo y <- bGet (pp_Y pub); blift (digestOf a b gx gy x y msg uid).

(** sm2.go:228-241 *)
Definition bnextk (rand : bytes) : BM (ptr * bytes) :=
  bdo (b, rand) <- blift (ReadFull (Z.to_nat (sm2_BitSize / 8 + 8)) rand);
  bdo k <- bNew (be_to_Z b);
  bdo n <- bNew 0; bdo _ <- bSub n (gN g) (gOne g);
  bdo _ <- bMod k k n;
  bdo _ <- bAdd k k (gOne g);
  bret (k, rand).
(** sm2.go:278-297: r is the x coordinate ScalarBaseMult returned, overwritten twice *)
Fixpoint bsign_inner (fuel : nat) (e : ptr) (rand : bytes) : BM (ptr * ptr * bytes) :=
  match fuel with
  | O => blift (Err "out of fuel")
  | S fuel' =>
      bdo (k, rand) <- bnextk rand;
      bdo kv <- bGet k;
      bdo (r, _) <- bScalarBaseMult (big_bytes kv);
      bdo _ <- bAdd r e r;
      bdo _ <- bMod r r (gN g);
      bdo rv <- bGet r;
      if negb (rv =? 0) then
        bdo t <- bNew 0; bdo _ <- bAdd t r k;
        bdo tv <- bGet t; bdo nv <- bGet (gN g);
        if negb (tv =? nv) then bret (k, r, rand) else bsign_inner fuel' e rand
      else bsign_inner fuel' e rand
  end.
(** sm2.go:275-309 *)
Fixpoint bsign_outer (fuel : nat) (D e : ptr) (rand : bytes) : BM (ptr * ptr * bytes) :=
  match fuel with
  | O => blift (Err "out of fuel")
  | S fuel' =>
      bdo (k, r, rand) <- bsign_inner (S (List.length rand)) e rand;
      bdo rD <- bNew 0; bdo _ <- bMul rD r D;
      bdo s <- bNew 0; bdo _ <- bSub s k rD;
      bdo d1 <- bNew 0; bdo _ <- bAdd d1 D (gOne g);
      bdo i <- bNew 0; bdo d1Inv <- bModInverse i d1 (gN g);
      match d1Inv with
      | None => blift Panic
      | Some d1Inv =>
          bdo _ <- bMul s s d1Inv;
          bdo _ <- bMod s s (gN g);
          bdo sv <- bGet s;
          if negb (sv =? 0) then bret (r, s, rand) else bsign_outer fuel' D e rand
      end
  end.
(** sm2.go:268-310 *)
Definition bSignDigestRS (rand : bytes) (priv : pPriv) (digest : bytes) : BM (ptr * ptr * bytes) :=
  bdo e <- bNew (be_to_Z digest);
  bdo n <- bGet (gN g);
  if n =? 0 then blift (Err "zero parameter") else bsign_outer (S (List.length rand)) (ps_D priv) e rand.
(** sm2.go:253-256 *)
Definition bSignRS (rand : bytes) (priv : pPriv) (inp uid : bytes) : BM (ptr * ptr * bytes) :=
  bdo hash <- bSM3Digest (ps_Pub priv) inp uid; bSignDigestRS rand priv hash.

(** sm2.go:333-348 and 366-382, the same statements: x is what Add returned, overwritten twice *)
Definition bcheck (pub : pPub) (digest : bytes) (r s : ptr) : BM bool :=
  bdo e <- bNew (be_to_Z digest);
  bdo t <- bNew 0; bdo _ <- bAdd t r s;
  bdo _ <- bMod t t (gN g);
  bdo tv <- bGet t;
  if tv =? 0 then bret false else
  bdo sv <- bGet s;
  bdo (x1, y1) <- bScalarBaseMult (big_bytes sv);
  bdo (x2, y2) <- bScalarMult (pp_X pub) (pp_Y pub) (big_bytes tv);
  bdo (x, y) <- bPointAdd x1 y1 x2 y2;
  bdo xv <- bGet x; bdo yv <- bGet y;
  if (xv =? 0) || (yv =? 0) then bret false else
  bdo _ <- bAdd x x e;
  bdo _ <- bMod x x (gN g);
  bdo xv <- bGet x; bdo rv <- bGet r;
  bret (xv =? rv).
(** sm2.go:323-328 and 360-365 *)
Definition brange (r : ptr) : BM bool := bdo v <- bGet r; bdo o <- bGet (gOne g); bdo n <- bGet (gN g); bret ((v <? o) || (n <=? v)).
(** sm2.go:359-383 *)
Definition bVerifyDigestRS (pub : pPub) (digest : bytes) (r s : ptr) : BM bool :=
  bdo b <- brange r; if (b : bool) then bret false else
  bdo b <- brange s; if (b : bool) then bret false else bcheck pub digest r s.
(** sm2.go:322-349 *)
Definition bVerifyRS (pub : pPub) (inp uid : bytes) (r s : ptr) : BM bool :=
  bdo b <- brange r; if (b : bool) then bret false else
  bdo b <- brange s; if (b : bool) then bret false else
  fun h => match bSM3Digest pub inp uid h with
           | (h, Ret hash) => bcheck pub hash r s h
           | (h, Err _) => (h, Ret false)
           | (h, Panic) => (h, Panic)
           end.

(** sm2.go:385-417 *)
Fixpoint bencrypt_loop (fuel : nat) (rand : bytes) (pub : pPub) (msg : bytes) : BM (bytes * bytes) :=
  match fuel with
  | O => blift (Err "out of fuel")
  | S fuel' =>
      bdo (k, rand) <- bnextk rand;
      bdo kv <- bGet k;
      let kBytes := big_bytes kv in
      bdo (c1x, c1y) <- bScalarBaseMult kBytes;
      bdo c1xv <- bGet c1x; bdo c1yv <- bGet c1y;
      let c := big_bytes c1xv ++ big_bytes c1yv in
      bdo (kpx, kpy) <- bScalarMult (pp_X pub) (pp_Y pub) kBytes;
      bdo kx <- bGet kpx; bdo ky <- bGet kpy;
      bdo c3 <- blift (sm3_Sum (big_bytes kx ++ msg ++ big_bytes ky));
      let c := c ++ c3 in
      bdo t <- blift (kdf (zlen msg) kx ky);
      match t with
      | None => bencrypt_loop fuel' rand pub msg
      | Some t => bdo c <- blift (xor_loop (c ++ t) 96 msg); bret (0x04 :: c, rand)
      end
  end.
Definition bEncryt (rand : bytes) (pub : pPub) (msg : bytes) : BM (bytes * bytes) := bencrypt_loop (S (List.length rand)) rand pub msg.

(** sm2.go:453-493 *)
Definition bDecryt (priv : pPriv) (data : bytes) : BM (bytes * option string) :=
  bdo data <- blift (slice data 1 (List.length data));
  bdo c1xb <- blift (slice data 0 32);
  bdo c1x <- bNew (be_to_Z c1xb);
  bdo c1yb <- blift (slice data 32 64);
  bdo c1y <- bNew (be_to_Z c1yb);
  bdo p <- bGet (gP g); bdo xv <- bGet c1x; bdo yv <- bGet c1y;
  if (p <=? xv) || (p <=? yv) then bret ([], Some "C1 is not on the curve"%string) else
  bdo on <- bIsOnCurve c1x c1y;
  if negb on then bret ([], Some "C1 is not on the curve"%string) else
  bdo o <- bGet (gOne g);
  bdo (sx, sy) <- bScalarMult c1x c1y (big_bytes o);
  bdo sxv <- bGet sx; bdo syv <- bGet sy;
  if (sxv =? 0) && (syv =? 0) then bret ([], Some "[h]C1 at infinity"%string) else
  bdo d <- bGet (ps_D priv);
  bdo (x2, y2) <- bScalarMult c1x c1y (big_bytes d);
  bdo x2 <- bGet x2; bdo y2 <- bGet y2;
  let length := zlen data - 96 in
  bdo t <- blift (kdf length x2 y2);
  match t with
  | None => bret ([], Some "failed to decrypt:kdf error"%string)
  | Some c =>
      bdo c <- blift (xor_loop c 0 (skipn 96 data));
      bdo hash <- blift (sm3_Sum (big_bytes x2 ++ c ++ big_bytes y2));
      bdo c3 <- blift (slice data 64 96);
      if negb (bytes_eqb hash c3) then bret (c, Some "failed to decrypt:hash compared error"%string)
      else bret (c, None)
  end.
End Sm2.
