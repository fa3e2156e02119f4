(** * Model: the sm2 package with a key on any curve.  PublicKey.Curve is an exported field (sm2.go:59-62), so a caller
    can sign, verify and encrypt with any *elliptic.CurveParams; SM2Model.v fixes the SM2 curve.  Here the curve is an
    argument.  Simplification: the curve's parameters are non-negative and its methods are those of the generic
    CurveParams of Go 1.18 (ECModel.v), as in KeysModel.v. *)
From Coq Require Import String Znumtheory.
From Verif Require Import Base Words SM3Spec SM3Model SM3Proofs ECSpec ECModel ECBridge ECProofs CryptoByte SM2Model KeysModel.
Open Scope Z_scope.

(** sm2.go:228-241.  make panics on a negative length, Mod by zero panics *)
Definition gnextk (cv : curve) (rand : bytes) : outcome (Z * bytes) :=
  let n := Z.quot (cv_BitSize cv) 8 + 8 in
  if n <? 0 then Panic else
  do (b, rand) <- ReadFull (Z.to_nat n) rand;
  let k := be_to_Z b in
  let n := cv_N cv - 1 in
  if n =? 0 then Panic else
  let k := k mod n in
  let k := k + 1 in
  Ret (k, rand).

(** sm2.go:278-297 *)
Fixpoint gsign_inner (cv : curve) (fuel : nat) (e : Z) (rand : bytes) : outcome (Z * Z * bytes) :=
  match fuel with
  | O => Err "out of fuel"
  | S fuel' =>
      do (k, rand) <- gnextk cv rand;
      do xy <- cv_ScalarBaseMult cv (big_bytes k);
      let r := fst xy in
      let r := e + r in
      let r := r mod cv_N cv in
      if negb (r =? 0) && negb (r + k =? cv_N cv) then Ret (k, r, rand)
      else gsign_inner cv fuel' e rand
  end.
(** sm2.go:275-308 *)
Fixpoint gsign_outer (cv : curve) (fuel : nat) (D e : Z) (rand : bytes) : outcome (Z * Z * bytes) :=
  match fuel with
  | O => Err "out of fuel"
  | S fuel' =>
      do (k, r, rand) <- gsign_inner cv (S (List.length rand)) e rand;
      let rD := r * D in
      let s := k - rD in
      let d1 := D + 1 in
      match ModInverse d1 (cv_N cv) with
      | None => Panic
      | Some d1Inv =>
          let s := s * d1Inv in
          let s := s mod cv_N cv in
          if negb (s =? 0) then Ret (r, s, rand) else gsign_outer cv fuel' D e rand
      end
  end.
(** sm2.go:268-310 *)
Definition gSignDigestRS (cv : curve) (rand : bytes) (priv : PrivateKey) (digest : bytes) : outcome (Z * Z * bytes) :=
  let e := be_to_Z digest in
  if cv_N cv =? 0 then Err "zero parameter" else
  gsign_outer cv (S (List.length rand)) (sk_D priv) e rand.
(** sm2.go:253-256 *)
Definition gSignRS (cv : curve) (rand : bytes) (priv : PrivateKey) (inp uid : bytes) : outcome (Z * Z * bytes) :=
  do hash <- SM3Digest (sk_Pub priv) inp uid;
  gSignDigestRS cv rand priv hash.
(** sm2.go:244-250 *)
Definition gSign (cv : curve) (rand : bytes) (priv : PrivateKey) (inp uid : bytes) : outcome (bytes * bytes) :=
  do (r, s, rand) <- gSignRS cv rand priv inp uid;
  do sig <- MarshalSign r s; Ret (sig, rand).

(** sm2.go:359-383 *)
Definition gVerifyDigestRS (cv : curve) (pub : PublicKey) (digest : bytes) (r s : Z) : outcome bool :=
  if (r <? 1) || (cv_N cv <=? r) then Ret false else
  if (s <? 1) || (cv_N cv <=? s) then Ret false else
  let e := be_to_Z digest in
  let t := r + s in
  let t := t mod cv_N cv in
  if t =? 0 then Ret false else
  do xy1 <- cv_ScalarBaseMult cv (big_bytes s);
  do xy2 <- ScalarMult (cv_P cv) (pk_X pub) (pk_Y pub) (big_bytes t);
  do xy <- Add (cv_P cv) (fst xy1) (snd xy1) (fst xy2) (snd xy2);
  let x := fst xy in let y := snd xy in
  if (x =? 0) || (y =? 0) then Ret false else
  let x := x + e in
  let x := x mod cv_N cv in
  Ret (x =? r).
(** sm2.go:322-349 *)
Definition gVerifyRS (cv : curve) (pub : PublicKey) (inp uid : bytes) (r s : Z) : outcome bool :=
  if (r <? 1) || (cv_N cv <=? r) then Ret false else
  if (s <? 1) || (cv_N cv <=? s) then Ret false else
  match SM3Digest pub inp uid with
  | Panic => Panic
  | Err _ => Ret false
  | Ret hash =>
  let e := be_to_Z hash in
  let t := r + s in
  let t := t mod cv_N cv in
  if t =? 0 then Ret false else
  do xy1 <- cv_ScalarBaseMult cv (big_bytes s);
  do xy2 <- ScalarMult (cv_P cv) (pk_X pub) (pk_Y pub) (big_bytes t);
  do xy <- Add (cv_P cv) (fst xy1) (snd xy1) (fst xy2) (snd xy2);
  let x := fst xy in let y := snd xy in
  if (x =? 0) || (y =? 0) then Ret false else
  let x := x + e in
  let x := x mod cv_N cv in
  Ret (x =? r)
  end.
(** sm2.go:313-320 *)
Definition gVerify (cv : curve) (pub : PublicKey) (inp uid signature : bytes) : outcome bool :=
  match UnmarshalSign signature with
  | Ret (r, s) => gVerifyRS cv pub inp uid r s
  | Err _ => Ret false
  | Panic => Panic
  end.

(** sm2.go:385-417 *)
Fixpoint gencrypt_loop (cv : curve) (fuel : nat) (rand : bytes) (pub : PublicKey) (msg : bytes) : outcome (bytes * bytes) :=
  match fuel with
  | O => Err "out of fuel"
  | S fuel' =>
      do (k, rand) <- gnextk cv rand;
      let kBytes := big_bytes k in
      do c1 <- cv_ScalarBaseMult cv kBytes;
      let c := big_bytes (fst c1) ++ big_bytes (snd c1) in
      do kp <- ScalarMult (cv_P cv) (pk_X pub) (pk_Y pub) kBytes;
      do c3 <- sm3_Sum (big_bytes (fst kp) ++ msg ++ big_bytes (snd kp));
      let c := c ++ c3 in
      do t <- kdf (zlen msg) (fst kp) (snd kp);
      match t with
      | None => gencrypt_loop cv fuel' rand pub msg
      | Some t => do c <- xor_loop (c ++ t) 96 msg; Ret (0x04 :: c, rand)
      end
  end.
Definition gEncryt (cv : curve) (rand : bytes) (pub : PublicKey) (msg : bytes) : outcome (bytes * bytes) :=
  gencrypt_loop cv (S (List.length rand)) rand pub msg.

(** sm2.go:453-493 *)
Definition gDecryt (cv : curve) (priv : PrivateKey) (data : bytes) : outcome (bytes * option string) :=
  do data <- slice data 1 (List.length data);
  do c1xb <- slice data 0 32;
  let c1x := be_to_Z c1xb in
  do c1yb <- slice data 32 64;
  let c1y := be_to_Z c1yb in
  if (cv_P cv <=? c1x) || (cv_P cv <=? c1y) then Ret ([], Some "C1 is not on the curve"%string) else
  if negb (IsOnCurve (cv_P cv) (cv_B cv) c1x c1y) then Ret ([], Some "C1 is not on the curve"%string) else
  do sxy <- ScalarMult (cv_P cv) c1x c1y (big_bytes 1);
  if (fst sxy =? 0) && (snd sxy =? 0) then Ret ([], Some "[h]C1 at infinity"%string) else
  do xy2 <- ScalarMult (cv_P cv) c1x c1y (big_bytes (sk_D priv));
  let x2 := fst xy2 in let y2 := snd xy2 in
  let length := zlen data - 96 in
  do t <- kdf length x2 y2;
  match t with
  | None => Ret ([], Some "failed to decrypt:kdf error"%string)
  | Some c =>
      do c <- xor_loop c 0 (skipn 96 data);
      do hash <- sm3_Sum (big_bytes x2 ++ c ++ big_bytes y2);
      do c3 <- slice data 64 96;
      if negb (bytes_eqb hash c3) then Ret (c, Some "failed to decrypt:hash compared error"%string)
      else Ret (c, None)
  end.

(** ** With the SM2 curve this is the model of SM2Model.v *)
Lemma gnextk_sm2 rand : gnextk curve_sm2 rand = nextk rand.
Proof. reflexivity. Qed.
Lemma gbase_sm2 k : cv_ScalarBaseMult curve_sm2 k = sm2_ScalarBaseMult k.
Proof. reflexivity. Qed.
Lemma ginner_sm2 fuel e rand : gsign_inner curve_sm2 fuel e rand = sign_inner fuel e rand.
Proof.
  revert rand. induction fuel as [|f IH]; intros rand; [reflexivity|]. cbn [gsign_inner sign_inner]. rewrite gnextk_sm2.
  destruct (nextk rand) as [[k r]| |]; cbn [bind]; [|reflexivity|reflexivity]. rewrite gbase_sm2. destruct (sm2_ScalarBaseMult _) as [xy| |]; cbn [bind]; [|reflexivity|reflexivity].
  cbv zeta. change (cv_N curve_sm2) with sm2_N. destruct (_ && _); [reflexivity|apply IH].
Qed.
Lemma gouter_sm2 fuel D e rand : gsign_outer curve_sm2 fuel D e rand = sign_outer fuel D e rand.
Proof.
  revert rand. induction fuel as [|f IH]; intros rand; [reflexivity|]. cbn [gsign_outer sign_outer]. rewrite ginner_sm2.
  destruct (sign_inner _ e rand) as [[[k r] rest]| |]; cbn [bind]; [|reflexivity|reflexivity].
  cbv zeta. change (cv_N curve_sm2) with sm2_N. destruct (ModInverse (D + 1) sm2_N) as [i|]; [|reflexivity]. destruct (negb _); [reflexivity|apply IH].
Qed.
Lemma gSignDigestRS_sm2 rand priv dg : gSignDigestRS curve_sm2 rand priv dg = SignDigestRS rand priv dg.
Proof. unfold gSignDigestRS, SignDigestRS. cbv zeta. change (cv_N curve_sm2) with sm2_N. destruct (sm2_N =? 0); [reflexivity|apply gouter_sm2]. Qed.
Lemma gSign_sm2 rand priv inp uid : gSign curve_sm2 rand priv inp uid = Sign rand priv inp uid.
Proof. unfold gSign, Sign, gSignRS, SignRS. destruct (SM3Digest _ inp uid); cbn [bind]; try reflexivity. rewrite gSignDigestRS_sm2. reflexivity. Qed.
Lemma gVerifyDigestRS_sm2 pub dg r s : gVerifyDigestRS curve_sm2 pub dg r s = VerifyDigestRS pub dg r s.
Proof. reflexivity. Qed.
Lemma gVerify_sm2 pub inp uid sig : gVerify curve_sm2 pub inp uid sig = Verify pub inp uid sig.
Proof. reflexivity. Qed.
Lemma gencrypt_loop_sm2 fuel rand pub msg : gencrypt_loop curve_sm2 fuel rand pub msg = encrypt_loop fuel rand pub msg.
Proof.
  revert rand. induction fuel as [|f IH]; intros rand; [reflexivity|]. cbn [gencrypt_loop encrypt_loop]. rewrite gnextk_sm2.
  destruct (nextk rand) as [[k r]| |]; cbn [bind]; [|reflexivity|reflexivity]. cbv zeta. rewrite gbase_sm2. destruct (sm2_ScalarBaseMult _) as [xy| |]; cbn [bind]; [|reflexivity|reflexivity].
  change (ScalarMult (cv_P curve_sm2)) with sm2_ScalarMult.
  destruct (sm2_ScalarMult _ _ _) as [kp| |]; cbn [bind]; [|reflexivity|reflexivity]. destruct (sm3_Sum _) as [c3| |]; cbn [bind]; [|reflexivity|reflexivity].
  destruct (kdf _ _ _) as [[t|]| |]; cbn [bind]; try reflexivity. apply IH.
Qed.
Lemma gEncryt_sm2 rand pub msg : gEncryt curve_sm2 rand pub msg = Encryt rand pub msg.
Proof. apply gencrypt_loop_sm2. Qed.
Lemma gDecryt_sm2 priv data : gDecryt curve_sm2 priv data = Decryt priv data.
Proof. reflexivity. Qed.
