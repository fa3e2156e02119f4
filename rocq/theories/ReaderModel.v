(** * The random source as an arbitrary io.Reader: short reads, zero-length reads, data together with an error, endless streams.
    (SM2Model.v represents it by the bytes it would deliver.) *)
From Coq Require Import String.
From Verif Require Import Base Words CryptoByte ECModel SM3Model SM2Model.
Open Scope Z_scope.

(** io.Reader: Read(p) with len(p) = n leaves some bytes in p, may report an error, and changes the reader's state. *)
Record reader := mkReader { r_st : Type; r_read : r_st -> nat -> bytes * option string * r_st }.
(** the contract of io.Reader: at most len(p) bytes *)
Definition obeys (R : reader) : Prop := forall st n, (List.length (fst (fst (r_read R st n))) <= n)%nat.

(** A call that reads: None when it has not returned within the given number of loop iterations, else what it returned and
    the reader's state after it. *)
Definition RM (R : reader) (A : Type) : Type := r_st R -> option (outcome A * r_st R).
Definition rlift {R A} (o : outcome A) : RM R A := fun st => Some (o, st).
Definition rbind {R A B} (m : RM R A) (f : A -> RM R B) : RM R B :=
  fun st => match m st with
            | Some (Ret a, st') => f a st'
            | Some (Err e, st') => Some (Err e, st')
            | Some (Panic, st') => Some (Panic, st')
            | None => None
            end.
Notation "'rdo' x <- m ; k" := (rbind m (fun x => k)) (at level 200, x pattern, m at level 100, k at level 200, right associativity).

Section FUN.
Context (R : reader).

(** io.go ReadAtLeast: io.EOF after some bytes becomes io.ErrUnexpectedEOF *)
Definition read_error (got : bytes) (er : string) : string :=
  match got with [] => er | _ => if String.eqb er "EOF" then "unexpected EOF"%string else er end.
(** io.ReadAtLeast with min = len(buf) (io.go), which is io.ReadFull *)
Fixpoint readLoop (fuel n : nat) (got : bytes) : RM R bytes := fun st =>
  if (n <=? List.length got)%nat then Some (Ret got, st)
  else match fuel with
       | O => None
       | S fuel' =>
           match r_read R st (n - List.length got) with
           | (c, None, st') => readLoop fuel' n (got ++ c) st'
           | (c, Some er, st') =>
               let got := got ++ c in
               if (n <=? List.length got)%nat then Some (Ret got, st')
               else Some (Err (read_error got er), st')
           end
       end.
Definition rReadFull (fuel n : nat) : RM R bytes := readLoop fuel n [].

(** crypto/elliptic GenerateKey (Go 1.18), sm2.go:94-107 *)
Fixpoint rGen (fuel : nat) : RM R (bytes * (Z * Z)) := fun st =>
  match fuel with
  | O => None
  | S fuel' =>
      (rdo priv <- rReadFull fuel 32;
       let priv := upd priv 0 (Z.land (nth 0 priv 0) 0xff) in
       let priv := upd priv 1 (Z.lxor (nth 1 priv 0) 0x42) in
       if sm2_N <=? be_to_Z priv then rGen fuel'
       else rdo xy <- rlift (sm2_ScalarBaseMult priv); rlift (Ret (priv, xy))) st
  end.
Definition rGenerateKey (fuel : nat) : RM R PrivateKey :=
  rdo (d, xy) <- rGen fuel; rlift (Ret (mkPriv (mkPub SM2P256V1_id (fst xy) (snd xy)) (be_to_Z d))).

(** sm2.go:228-241 *)
Definition rnextk (fuel : nat) : RM R Z :=
  rdo b <- rReadFull fuel (Z.to_nat (sm2_BitSize / 8 + 8));
  rlift (Ret (be_to_Z b mod (sm2_N - 1) + 1)).
(** sm2.go:278-297 *)
Fixpoint rsign_inner (fuel : nat) (e : Z) : RM R (Z * Z) := fun st =>
  match fuel with
  | O => None
  | S fuel' =>
      (rdo k <- rnextk fuel;
       rdo xy <- rlift (sm2_ScalarBaseMult (big_bytes k));
       let r := (e + fst xy) mod sm2_N in
       if negb (r =? 0) && negb (r + k =? sm2_N) then rlift (Ret (k, r)) else rsign_inner fuel' e) st
  end.
(** sm2.go:275-308 *)
Fixpoint rsign_outer (fuel : nat) (D e : Z) : RM R (Z * Z) := fun st =>
  match fuel with
  | O => None
  | S fuel' =>
      (rdo (k, r) <- rsign_inner fuel e;
       match ModInverse (D + 1) sm2_N with
       | None => rlift Panic
       | Some d1Inv =>
           let s := ((k - r * D) * d1Inv) mod sm2_N in
           if negb (s =? 0) then rlift (Ret (r, s)) else rsign_outer fuel' D e
       end) st
  end.
(** sm2.go:268-310 *)
Definition rSignDigestRS (fuel : nat) (priv : PrivateKey) (digest : bytes) : RM R (Z * Z) :=
  if sm2_N =? 0 then rlift (Err "zero parameter") else rsign_outer fuel (sk_D priv) (be_to_Z digest).
(** sm2.go:253-256 *)
Definition rSignRS (fuel : nat) (priv : PrivateKey) (inp uid : bytes) : RM R (Z * Z) :=
  rdo hash <- rlift (SM3Digest (sk_Pub priv) inp uid); rSignDigestRS fuel priv hash.
(** sm2.go:244-250 *)
Definition rSign (fuel : nat) (priv : PrivateKey) (inp uid : bytes) : RM R bytes :=
  rdo (r, s) <- rSignRS fuel priv inp uid; rlift (MarshalSign r s).
(** sm2.go:259-265 *)
Definition rSignDigest (fuel : nat) (priv : PrivateKey) (digest : bytes) : RM R bytes :=
  rdo (r, s) <- rSignDigestRS fuel priv digest; rlift (MarshalSign r s).

(** sm2.go:385-417 *)
Fixpoint rEncryt (fuel : nat) (pub : PublicKey) (msg : bytes) : RM R bytes := fun st =>
  match fuel with
  | O => None
  | S fuel' =>
      (rdo k <- rnextk fuel;
       let kBytes := big_bytes k in
       rdo c1 <- rlift (sm2_ScalarBaseMult kBytes);
       let c := big_bytes (fst c1) ++ big_bytes (snd c1) in
       rdo kp <- rlift (sm2_ScalarMult (pk_X pub) (pk_Y pub) kBytes);
       rdo c3 <- rlift (sm3_Sum (big_bytes (fst kp) ++ msg ++ big_bytes (snd kp)));
       let c := c ++ c3 in
       rdo t <- rlift (kdf (zlen msg) (fst kp) (snd kp));
       match t with
       | None => rEncryt fuel' pub msg
       | Some t => rdo c <- rlift (xor_loop (c ++ t) 96 msg); rlift (Ret (0x04 :: c))
       end) st
  end.
End FUN.

(** A reader that also keeps the bytes it has delivered. *)
Definition logged (R : reader) : reader :=
  mkReader (r_st R * bytes) (fun sl n => let '(c, e, st') := r_read R (fst sl) n in (c, e, (st', snd sl ++ c))).
(** A reader that delivers the given pieces, as far as the buffer goes, and then reports io.EOF. *)
Definition pieces : reader :=
  mkReader (list bytes) (fun cs n => match cs with
                                     | [] => ([], Some "EOF"%string, [])
                                     | c :: r => if (List.length c <=? n)%nat then (c, None, r) else (firstn n c, None, skipn n c :: r)
                                     end).
