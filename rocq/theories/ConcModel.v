(** * The functions of BigMem.v step by step, and goroutines

    The same functions as in BigMem.v, cut into their accesses to memory: allocating an integer, reading one, overwriting
    one.  A goroutine executes such a program; between any two of its accesses other goroutines may run.  Goroutines call
    GenerateKey, SignRS, SignDigestRS, VerifyRS, VerifyDigestRS, Encryt and Decryt on integers they have been given or got
    as results.  [run] executes a program without interruption and is proved to give the functions of BigMem.v.

    Accesses are taken to be atomic and sequentially consistent; C125_no_race (PropertiesConc.v) shows that no two
    goroutines access the same integer with one of them writing, so that by Go's memory model nothing else can be seen.
    Each call has a random stream of its own (crypto/rand.Reader may be shared between goroutines; then each call gets
    some stream). *)
From Coq Require Import String.
From Verif Require Import Base Words SM3Model ECModel SM2Model BigMem.
Open Scope Z_scope.

Inductive prog (A : Type) : Type :=
| PRet (o : outcome A)                       (* finished *)
| PNew (z : Z) (k : ptr -> prog A)           (* new(big.Int) holding z *)
| PGet (p : ptr) (k : Z -> prog A)           (* read *)
| PPut (p : ptr) (z : Z) (k : prog A).       (* overwrite *)
Arguments PRet {A}. Arguments PNew {A}. Arguments PGet {A}. Arguments PPut {A}.
Fixpoint pbindO {A B} (m : prog A) (f : outcome A -> prog B) : prog B :=
  match m with
  | PRet o => f o
  | PNew z k => PNew z (fun p => pbindO (k p) f)
  | PGet p k => PGet p (fun z => pbindO (k z) f)
  | PPut p z k => PPut p z (pbindO k f)
  end.
Definition pbind {A B} (m : prog A) (f : A -> prog B) : prog B :=
  pbindO m (fun o => match o with Ret a => f a | Err e => PRet (Err e) | Panic => PRet Panic end).
Definition pret {A} (a : A) : prog A := PRet (Ret a).
Definition plift {A} (o : outcome A) : prog A := PRet o.
Notation "'pdo' x <- m ; k" := (pbind m (fun x => k)) (at level 200, x pattern, m at level 100, k at level 200).
Definition pNew (z : Z) : prog ptr := PNew z pret.
Definition pGet (p : ptr) : prog Z := PGet p pret.
Definition pPut (p : ptr) (z : Z) : prog unit := PPut p z (pret tt).
(** z.Add(x, y), z.Sub(x, y), z.Mul(x, y), z.Mod(x, y) (Euclidean; division by zero panics) *)
Definition pAdd (z x y : ptr) : prog unit := pdo a <- pGet x; pdo b <- pGet y; pPut z (a + b).
Definition pSub (z x y : ptr) : prog unit := pdo a <- pGet x; pdo b <- pGet y; pPut z (a - b).
Definition pMul (z x y : ptr) : prog unit := pdo a <- pGet x; pdo b <- pGet y; pPut z (a * b).
Definition pMod (z x y : ptr) : prog unit :=
  pdo a <- pGet x; pdo b <- pGet y; if b =? 0 then plift Panic else pPut z (a mod Z.abs b).
(** z.ModInverse(g, n) returns nil when there is no inverse *)
Definition pModInverse (z g n : ptr) : prog (option ptr) :=
  pdo a <- pGet g; pdo b <- pGet n;
  match ModInverse a b with Some i => pdo _ <- pPut z i; pret (Some z) | None => pret None end.

Section Sm2.
Variable g : globals.

Definition ptwo (o : outcome (Z * Z)) : prog (ptr * ptr) := pdo xy <- plift o; pdo x <- pNew (fst xy); pdo y <- pNew (snd xy); pret (x, y).
(** crypto/elliptic ScalarMult, ScalarBaseMult, Add, IsOnCurve on the shared parameters *)
Definition pScalarMult (x y : ptr) (k : bytes) : prog (ptr * ptr) :=
  pdo p <- pGet (gP g); pdo bx <- pGet x; pdo b_y <- pGet y; ptwo (ScalarMult p bx b_y k).
Definition pScalarBaseMult (k : bytes) : prog (ptr * ptr) := pScalarMult (gGx g) (gGy g) k.
Definition pPointAdd (x1 y1 x2 y2 : ptr) : prog (ptr * ptr) :=
  pdo p <- pGet (gP g); pdo a <- pGet x1; pdo b <- pGet y1; pdo c <- pGet x2; pdo d <- pGet y2; ptwo (Add p a b c d).
Definition pIsOnCurve (x y : ptr) : prog bool :=
  pdo p <- pGet (gP g); pdo b <- pGet (gB g); pdo vx <- pGet x; pdo vy <- pGet y; pret (IsOnCurve p b vx vy).

(** sm2.go:94-107; elliptic.GenerateKey compares with N, reads no other shared integer itself and returns bytes and two new
    integers.  SetBytes makes a new integer of the bytes. *)
Fixpoint pGen (fuel : nat) (rand : bytes) : prog (bytes * (ptr * ptr) * bytes) :=
  match fuel with
  | O => plift (Err "out of fuel")
  | S fuel' =>
      pdo (priv, rand) <- plift (ReadFull 32 rand);
      let priv := upd priv 0 (Z.land (nth 0 priv 0) 0xff) in
      let priv := upd priv 1 (Z.lxor (nth 1 priv 0) 0x42) in
      pdo n <- pGet (gN g);
      if n <=? be_to_Z priv then pGen fuel' rand
      else pdo xy <- pScalarBaseMult priv; pret (priv, xy, rand)
  end.
Definition pGenerateKey (rand : bytes) : prog (pPriv * bytes) :=
  pdo (d, xy, rand) <- pGen (S (List.length rand)) rand;
  pdo dp <- pNew (be_to_Z d);
  pret (mkPS (mkPP SM2P256V1_id (fst xy) (snd xy)) dp, rand).

(** sm2.go:130-140, 167-180: reads a, b, Gx, Gy, X and Y *)
Definition pSM3Digest (pub : pPub) (msg uid : bytes) : prog bytes :=
  pdo a <- pGet (gA g); pdo b <- pGet (gB g); pdo gx <- pGet (gGx g); pdo gy <- pGet (gGy g);
  pdo x <- pGet (pp_X pub); pdo y <- pGet (pp_Y pub); plift (digestOf a b gx gy x y msg uid).

(** sm2.go:228-241 *)
Definition pnextk (rand : bytes) : prog (ptr * bytes) :=
  pdo (b, rand) <- plift (ReadFull (Z.to_nat (sm2_BitSize / 8 + 8)) rand);
  pdo k <- pNew (be_to_Z b);
  pdo n <- pNew 0; pdo _ <- pSub n (gN g) (gOne g);
  pdo _ <- pMod k k n;
  pdo _ <- pAdd k k (gOne g);
  pret (k, rand).
(** sm2.go:278-297: r is the x coordinate ScalarBaseMult returned, overwritten twice *)
Fixpoint psign_inner (fuel : nat) (e : ptr) (rand : bytes) : prog (ptr * ptr * bytes) :=
  match fuel with
  | O => plift (Err "out of fuel")
  | S fuel' =>
      pdo (k, rand) <- pnextk rand;
      pdo kv <- pGet k;
      pdo (r, _) <- pScalarBaseMult (big_bytes kv);
      pdo _ <- pAdd r e r;
      pdo _ <- pMod r r (gN g);
      pdo rv <- pGet r;
      if negb (rv =? 0) then
        pdo t <- pNew 0; pdo _ <- pAdd t r k;
        pdo tv <- pGet t; pdo nv <- pGet (gN g);
        if negb (tv =? nv) then pret (k, r, rand) else psign_inner fuel' e rand
      else psign_inner fuel' e rand
  end.
(** sm2.go:275-309 *)
Fixpoint psign_outer (fuel : nat) (D e : ptr) (rand : bytes) : prog (ptr * ptr * bytes) :=
  match fuel with
  | O => plift (Err "out of fuel")
  | S fuel' =>
      pdo (k, r, rand) <- psign_inner (S (List.length rand)) e rand;
      pdo rD <- pNew 0; pdo _ <- pMul rD r D;
      pdo s <- pNew 0; pdo _ <- pSub s k rD;
      pdo d1 <- pNew 0; pdo _ <- pAdd d1 D (gOne g);
      pdo i <- pNew 0; pdo d1Inv <- pModInverse i d1 (gN g);
      match d1Inv with
      | None => plift Panic
      | Some d1Inv =>
          pdo _ <- pMul s s d1Inv;
          pdo _ <- pMod s s (gN g);
          pdo sv <- pGet s;
          if negb (sv =? 0) then pret (r, s, rand) else psign_outer fuel' D e rand
      end
  end.
(** sm2.go:268-310 *)
Definition pSignDigestRS (rand : bytes) (priv : pPriv) (digest : bytes) : prog (ptr * ptr * bytes) :=
  pdo e <- pNew (be_to_Z digest);
  pdo n <- pGet (gN g);
  if n =? 0 then plift (Err "zero parameter") else psign_outer (S (List.length rand)) (ps_D priv) e rand.
(** sm2.go:253-256 *)
Definition pSignRS (rand : bytes) (priv : pPriv) (inp uid : bytes) : prog (ptr * ptr * bytes) :=
  pdo hash <- pSM3Digest (ps_Pub priv) inp uid; pSignDigestRS rand priv hash.

(** sm2.go:333-348 and 366-382, the same statements: x is what Add returned, overwritten twice *)
Definition pcheck (pub : pPub) (digest : bytes) (r s : ptr) : prog bool :=
  pdo e <- pNew (be_to_Z digest);
  pdo t <- pNew 0; pdo _ <- pAdd t r s;
  pdo _ <- pMod t t (gN g);
  pdo tv <- pGet t;
  if tv =? 0 then pret false else
  pdo sv <- pGet s;
  pdo (x1, y1) <- pScalarBaseMult (big_bytes sv);
  pdo (x2, y2) <- pScalarMult (pp_X pub) (pp_Y pub) (big_bytes tv);
  pdo (x, y) <- pPointAdd x1 y1 x2 y2;
  pdo xv <- pGet x; pdo yv <- pGet y;
  if (xv =? 0) || (yv =? 0) then pret false else
  pdo _ <- pAdd x x e;
  pdo _ <- pMod x x (gN g);
  pdo xv <- pGet x; pdo rv <- pGet r;
  pret (xv =? rv).
(** sm2.go:323-328 and 360-365 *)
Definition prange (r : ptr) : prog bool := pdo v <- pGet r; pdo o <- pGet (gOne g); pdo n <- pGet (gN g); pret ((v <? o) || (n <=? v)).
(** sm2.go:359-383 *)
Definition pVerifyDigestRS (pub : pPub) (digest : bytes) (r s : ptr) : prog bool :=
  pdo b <- prange r; if (b : bool) then pret false else
  pdo b <- prange s; if (b : bool) then pret false else pcheck pub digest r s.
(** sm2.go:322-349 *)
Definition pVerifyRS (pub : pPub) (inp uid : bytes) (r s : ptr) : prog bool :=
  pdo b <- prange r; if (b : bool) then pret false else
  pdo b <- prange s; if (b : bool) then pret false else
  pbindO (pSM3Digest pub inp uid) (fun o => match o with
    | Ret hash => pcheck pub hash r s
    | Err _ => pret false
    | Panic => plift Panic
    end).

(** sm2.go:385-417 *)
Fixpoint pencrypt_loop (fuel : nat) (rand : bytes) (pub : pPub) (msg : bytes) : prog (bytes * bytes) :=
  match fuel with
  | O => plift (Err "out of fuel")
  | S fuel' =>
      pdo (k, rand) <- pnextk rand;
      pdo kv <- pGet k;
      let kBytes := big_bytes kv in
      pdo (c1x, c1y) <- pScalarBaseMult kBytes;
      pdo c1xv <- pGet c1x; pdo c1yv <- pGet c1y;
      let c := big_bytes c1xv ++ big_bytes c1yv in
      pdo (kpx, kpy) <- pScalarMult (pp_X pub) (pp_Y pub) kBytes;
      pdo kx <- pGet kpx; pdo ky <- pGet kpy;
      pdo c3 <- plift (sm3_Sum (big_bytes kx ++ msg ++ big_bytes ky));
      let c := c ++ c3 in
      pdo t <- plift (kdf (zlen msg) kx ky);
      match t with
      | None => pencrypt_loop fuel' rand pub msg
      | Some t => pdo c <- plift (xor_loop (c ++ t) 96 msg); pret (0x04 :: c, rand)
      end
  end.
Definition pEncryt (rand : bytes) (pub : pPub) (msg : bytes) : prog (bytes * bytes) := pencrypt_loop (S (List.length rand)) rand pub msg.

(** sm2.go:453-493 *)
Definition pDecryt (priv : pPriv) (data : bytes) : prog (bytes * option string) :=
  pdo data <- plift (slice data 1 (List.length data));
  pdo c1xb <- plift (slice data 0 32);
  pdo c1x <- pNew (be_to_Z c1xb);
  pdo c1yb <- plift (slice data 32 64);
  pdo c1y <- pNew (be_to_Z c1yb);
  pdo p <- pGet (gP g); pdo xv <- pGet c1x; pdo yv <- pGet c1y;
  if (p <=? xv) || (p <=? yv) then pret ([], Some "C1 is not on the curve"%string) else
  pdo on <- pIsOnCurve c1x c1y;
  if negb on then pret ([], Some "C1 is not on the curve"%string) else
  pdo o <- pGet (gOne g);
  pdo (sx, sy) <- pScalarMult c1x c1y (big_bytes o);
  pdo sxv <- pGet sx; pdo syv <- pGet sy;
  if (sxv =? 0) && (syv =? 0) then pret ([], Some "[h]C1 at infinity"%string) else
  pdo d <- pGet (ps_D priv);
  pdo (x2, y2) <- pScalarMult c1x c1y (big_bytes d);
  pdo x2 <- pGet x2; pdo y2 <- pGet y2;
  let length := zlen data - 96 in
  pdo t <- plift (kdf length x2 y2);
  match t with
  | None => pret ([], Some "failed to decrypt:kdf error"%string)
  | Some c =>
      pdo c <- plift (xor_loop c 0 (skipn 96 data));
      pdo hash <- plift (sm3_Sum (big_bytes x2 ++ c ++ big_bytes y2));
      pdo c3 <- plift (slice data 64 96);
      if negb (bytes_eqb hash c3) then pret (c, Some "failed to decrypt:hash compared error"%string)
      else pret (c, None)
  end.
End Sm2.

(** without interruption *)
Fixpoint run {A} (m : prog A) (h : bheap) : bheap * outcome A :=
  match m with
  | PRet o => (h, o)
  | PNew z k => run (k (List.length h)) (h ++ [z])
  | PGet p k => run (k (get h p)) h
  | PPut p z k => run k (upd h p z)
  end.
