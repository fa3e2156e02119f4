(** * sm3.go and the slice-manipulating functions of sm2.go on memory (Mem) *)
From Coq Require Import PeanoNat.
From Verif Require Import Base Words SM3Spec SM3Model ECModel SM2Model Mem.
Local Open Scope nat_scope.

Section Grow.
Variable extra : nat -> nat -> nat.

(** ** sm3.go *)
(** sm3.go:27-32: the digest object; its buffer x is the array number [m_x] *)
Record mdig := mkM { m_h : regs; m_x : nat; m_nx : nat; m_len : Z }.
Definition bufS (x : nat) : slc := mkS x 0 64 64.
(** sm3.go:34-51 *)
Definition mReset (d : mdig) : mdig := mkM init_regs (m_x d) 0 0%Z.
Definition mNew : M mdig := mdo x <- new (repeat 0%Z 64); mret (mReset (mkM (mkRegs 0 0 0 0 0 0 0 0) (s_arr x) 0 0%Z)).
(** sm3.go:122-191: block reads p and changes dig.h only *)
Definition mblock (d : mdig) (p : slc) : M mdig :=
  mdo b <- load p; mret (mkM (d_h (block (mkDigest (m_h d) [] 0 0%Z) b)) (m_x d) (m_nx d) (m_len d)).
(** sm3.go:60-68 *)
Definition mhead (d : mdig) (p : slc) : M (mdig * slc) :=
  if 0 <? m_nx d then
    mdo room <- from (bufS (m_x d)) (m_nx d);
    mdo n <- copyS room p;
    let d := mkM (m_h d) (m_x d) (m_nx d + n) (m_len d) in
    mdo d <- (if m_nx d =? chunk then mdo d <- mblock d (bufS (m_x d)); mret (mkM (m_h d) (m_x d) 0 (m_len d)) else mret d);
    mdo p <- from p n;
    mret (d, p)
  else mret (d, p).
(** sm3.go:69-77 *)
Definition mtail (d : mdig) (p : slc) (nn : Z) : M (mdig * Z) :=
  mdo (d, p) <-
    (if chunk <=? s_len p then
       let n := s_len p / chunk * chunk in
       mdo q <- sub p 0 n;
       mdo d <- mblock d q;
       mdo p <- from p n;
       mret (d, p)
     else mret (d, p));
  if 0 <? s_len p then mdo n <- copyS (bufS (m_x d)) p; mret (mkM (m_h d) (m_x d) n (m_len d), nn)
  else mret (d, nn).
(** sm3.go:57-78 *)
Definition mWrite (d : mdig) (p : slc) : M (mdig * Z) :=
  let nn := Z.of_nat (s_len p) in
  mdo (d, p) <- mhead (mkM (m_h d) (m_x d) (m_nx d) ((m_len d + nn) mod 2 ^ 64)%Z) p;
  mtail d p nn.
(** sm3.go:87-118; binary.BigEndian.PutUint64(tmp[:], len) overwrites the first eight bytes of tmp *)
Definition mcheckSum (d : mdig) : M slc :=
  let len := m_len d in
  mdo tmp <- new (0x80%Z :: repeat 0%Z 63);
  let k := (if (len mod 64 <? 56)%Z then 56 - len mod 64 else 64 + 56 - len mod 64)%Z in
  if negb ((0 <=? k) && (k <=? 64))%Z then mpanic else
  mdo t <- sub tmp 0 (Z.to_nat k);
  mdo (d, _) <- mWrite d t;
  let len := (Z.shiftl len 3 mod 2 ^ 64)%Z in
  mdo _ <- poke tmp 0 (PutUint64 len);
  mdo t <- sub tmp 0 8;
  mdo (d, _) <- mWrite d t;
  if negb (m_nx d =? 0) then mpanic else
  let h := m_h d in
  new (PutUint32 (rA h) ++ PutUint32 (rB h) ++ PutUint32 (rC h) ++ PutUint32 (rD h) ++
       PutUint32 (rE h) ++ PutUint32 (rF h) ++ PutUint32 (rG h) ++ PutUint32 (rH h)).
(** sm3.go:80-85: d0 := *d copies the buffer, too *)
Definition mSum (d : mdig) (inp : slc) : M slc :=
  mdo b <- load (bufS (m_x d));
  mdo x <- new b;
  mdo hash <- mcheckSum (mkM (m_h d) (s_arr x) (m_nx d) (m_len d));
  appendS extra inp hash.
(** sm3.go:193-198 *)
Definition mSum3 (data : slc) : M slc := mdo d <- mNew; mdo (d, _) <- mWrite d data; mcheckSum d.

(** ** sm2.go *)
(** sm2.go:182-200: zeroByteSlice builds a new array in every call *)
Definition mAppendBig (bn : Z) : M slc :=
  mdo buf <- new (big_bytes bn);
  if s_len buf <? 32 then mdo z <- new (repeat 0%Z 32); mdo z <- sub z 0 (32 - s_len buf); appendS extra z buf
  else mret buf.
(** sm2.go:447-451 *)
Definition mIntToBytes (x : Z) : M slc := new (intToBytes x).
(** sm2.go:427-438 *)
Fixpoint mkdf_loop (n : nat) (h : mdig) (klen ct : Z) (xBytes yBytes out : slc) : M slc :=
  match n with
  | O => mret out
  | S n' =>
      mdo (h, _) <- mWrite h xBytes;
      mdo (h, _) <- mWrite h yBytes;
      mdo i <- mIntToBytes ct;
      mdo (h, _) <- mWrite h i;
      mdo e <- emptyS;
      mdo hash <- mSum h e;
      mdo out <- (if negb (Z.rem klen 32 =? 0)%Z then mdo p <- sub hash 0 (Z.to_nat (Z.rem klen 32)); appendS extra out p
                  else appendS extra out hash);
      mkdf_loop n' h klen (ct + 1) xBytes yBytes out
  end.
(** sm2.go:419-445; None is (nil, false) *)
Definition mkdf (klen x y : Z) : M (option slc) :=
  mdo out <- emptyS;
  mdo h <- mNew;
  mdo xBytes <- mAppendBig x;
  mdo yBytes <- mAppendBig y;
  mdo out <- mkdf_loop (Z.to_nat (Z.quot (klen + 31) 32)) h klen 1 xBytes yBytes out;
  mdo b <- load out;
  mret (if existsb (fun b => negb (b =? 0)%Z) b then Some out else None).
(** sm2.go:412-414 and 480-482: c[k] ^= m[j]; the loop variable runs over n values *)
Fixpoint mxor_loop (n : nat) (c m : slc) (k j : nat) : M unit :=
  match n with
  | O => mret tt
  | S n' =>
      mdo a <- getB c k;
      mdo b <- getB m j;
      mdo _ <- setB c k (Z.lxor a b);
      mxor_loop n' c m (S k) (S j)
  end.
(** append(c, n.Bytes()...) *)
Definition appendNum (c : slc) (n : Z) : M slc := mdo b <- new (big_bytes n); appendS extra c b.
(** sm2.go:385-417 *)
Fixpoint mencrypt_loop (fuel : nat) (rand : bytes) (pub : PublicKey) (msg : slc) : M (slc * bytes) :=
  match fuel with
  | O => merr "out of fuel"
  | S fuel' =>
      mdo c <- emptyS;
      mdo (k, rand) <- mlift (nextk rand);
      let kBytes := big_bytes k in
      mdo c1 <- mlift (sm2_ScalarBaseMult kBytes);
      mdo c <- appendNum c (fst c1);
      mdo c <- appendNum c (snd c1);
      mdo kp <- mlift (sm2_ScalarMult (pk_X pub) (pk_Y pub) kBytes);
      mdo c3 <- emptyS;
      mdo c3 <- appendNum c3 (fst kp);
      mdo c3 <- appendS extra c3 msg;
      mdo c3 <- appendNum c3 (snd kp);
      mdo hash <- mSum3 c3;
      mdo c <- appendS extra c hash;
      mdo t <- mkdf (Z.of_nat (s_len msg)) (fst kp) (snd kp);
      match t with
      | None => mencrypt_loop fuel' rand pub msg
      | Some t =>
          mdo c <- appendS extra c t;
          mdo _ <- mxor_loop (s_len msg) c msg 96 0;
          mdo four <- new [0x04%Z];
          mdo r <- appendS extra four c;
          mret (r, rand)
      end
  end.
Definition mEncryt (rand : bytes) (pub : PublicKey) (msg : slc) : M (slc * bytes) :=
  mencrypt_loop (S (List.length rand)) rand pub msg.
(** sm2.go:453-493; None is a nil slice.  data[:32] and data[32:64] are only checked against the capacity. *)
Definition mDecryt (priv : PrivateKey) (data : slc) : M (option slc * option string) :=
  mdo data <- from data 1;
  mdo a <- sub data 0 32;
  mdo c1xb <- load a;
  let c1x := be_to_Z c1xb in
  mdo a <- sub data 32 64;
  mdo c1yb <- load a;
  let c1y := be_to_Z c1yb in
  if ((sm2_P <=? c1x) || (sm2_P <=? c1y))%Z then mret (None, Some "C1 is not on the curve"%string) else
  if negb (sm2_IsOnCurve c1x c1y) then mret (None, Some "C1 is not on the curve"%string) else
  mdo sxy <- mlift (sm2_ScalarMult c1x c1y (big_bytes 1));
  if ((fst sxy =? 0) && (snd sxy =? 0))%Z then mret (None, Some "[h]C1 at infinity"%string) else
  mdo xy2 <- mlift (sm2_ScalarMult c1x c1y (big_bytes (sk_D priv)));
  let x2 := fst xy2 in let y2 := snd xy2 in
  let length := (Z.of_nat (s_len data) - 96)%Z in
  mdo t <- mkdf length x2 y2;
  match t with
  | None => mret (None, Some "failed to decrypt:kdf error"%string)
  | Some c =>
      mdo _ <- mxor_loop (Z.to_nat length) c data 0 96;
      mdo tm <- emptyS;
      mdo tm <- appendNum tm x2;
      mdo tm <- appendS extra tm c;
      mdo tm <- appendNum tm y2;
      mdo hash <- mSum3 tm;
      mdo c3 <- sub data 64 96;
      mdo hb <- load hash;
      mdo cb <- load c3;
      if negb (bytes_eqb hb cb) then mret (Some c, Some "failed to decrypt:hash compared error"%string)
      else mret (Some c, None)
  end.
End Grow.

(** ** The digest object computes what the list model computes *)
Definition view (h : heap) (d : mdig) : digest := mkDigest (m_h d) (arr h (m_x d)) (m_nx d) (m_len d).
(** the object's private buffer *)
Definition obj (h : heap) (d : mdig) : Prop := m_x d < List.length h /\ List.length (arr h (m_x d)) = 64.

Lemma obj_wf h d : obj h d -> wf h (bufS (m_x d)).
Proof. intros [A B]. split; [|split]; cbn; auto; lia. Qed.
Lemma buf_rd h x : List.length (arr h x) = 64 -> rd h (bufS x) = arr h x.
Proof. intros H. unfold rd. cbn [bufS s_len s_off s_arr skipn]. rewrite firstn_all2; auto. lia. Qed.
Lemma go_copy_put dst off src : off <= List.length dst ->
  go_copy dst off src = (Nat.min (List.length dst - off) (List.length src), put dst off (firstn (Nat.min (List.length dst - off) (List.length src)) src)).
Proof.
  intros H. unfold go_copy, put. do 2 f_equal. f_equal. f_equal. rewrite firstn_length. lia.
Qed.

(** a step of Write that fills the buffer from position [i] on *)
Definition fill (h : heap) (x : nat) (i : nat) (b : bytes) : heap := poked h (bufS x) i b.
Lemma fill_arr h x i b : x < List.length h -> arr (fill h x i b) x = put (arr h x) i b.
Proof. intros H. unfold fill, poked. cbn. now rewrite arr_set_same. Qed.
Lemma copy_room h x i p : x < List.length h -> List.length (arr h x) = 64 -> i <= 64 -> wf h p ->
  copyS (subS (bufS x) i 64) p h
  = (fill h x i (firstn (Nat.min (64 - i) (s_len p)) (rd h p)), Ret (Nat.min (64 - i) (s_len p))).
Proof.
  intros A B C W. unfold copyS, poke, fill, poked. cbn [s_len subS bufS s_arr s_off].
  replace (0 + i + 0) with (0 + i) by lia. reflexivity.
Qed.
Lemma copy_buf h x p : x < List.length h -> List.length (arr h x) = 64 -> wf h p ->
  copyS (bufS x) p h = (fill h x 0 (firstn (Nat.min 64 (s_len p)) (rd h p)), Ret (Nat.min 64 (s_len p))).
Proof. reflexivity. Qed.
Lemma fill_obj h d i b : obj h d -> i + List.length b <= 64 ->
  obj (fill h (m_x d) i b) d /\ keeps h (fill h (m_x d) i b) [m_x d] /\ List.length (fill h (m_x d) i b) = List.length h.
Proof.
  intros O L. pose proof (obj_wf _ _ O) as W. destruct O as [A B]. split; [|split].
  - split; [unfold fill; now rewrite poked_length|]. unfold fill. rewrite poked_arr_len; auto.
  - now apply (keeps_poked h (bufS (m_x d)) i b).
  - apply poked_length.
Qed.

(** what a call did: new object, its list view, only the private buffer written *)
Definition wrote (h : heap) (d : mdig) (x : heap * outcome (mdig * Z)) (dg : digest) (n : Z) : Prop :=
  exists h' d', x = (h', Ret (d', n)) /\ view h' d' = dg /\ m_x d' = m_x d /\ obj h' d' /\ keeps h h' [m_x d] /\
    List.length h' = List.length h.

Lemma mtail_last h d p nn : obj h d -> wf h p -> s_len p <= 64 ->
  wrote h d ((if 0 <? s_len p then mdo n <- copyS (bufS (m_x d)) p; mret (mkM (m_h d) (m_x d) n (m_len d), nn) else mret (d, nn)) h)
    (if 0 <? List.length (rd h p) then let '(n, x) := go_copy (arr h (m_x d)) 0 (rd h p) in mkDigest (m_h d) x n (m_len d) else view h d) nn.
Proof.
  intros O W L. pose proof O as [A B]. rewrite rd_length by auto. destruct (Nat.ltb_spec 0 (s_len p)).
  - unfold mbind. rewrite copy_buf by auto. rewrite go_copy_put by lia. rewrite B, rd_length by auto.
    rewrite Nat.sub_0_r. rewrite Nat.min_r by lia. rewrite (firstn_all2 (rd h p)) by (rewrite rd_length by auto; lia).
    destruct (fill_obj h d 0 (rd h p) O) as (O' & K & Ln); [rewrite rd_length by auto; lia|].
    eexists _, _. split; [reflexivity|]. split; [unfold view; cbn; rewrite fill_arr by auto; reflexivity|].
    split; [reflexivity|]. split; [exact O'|]. auto.
  - eexists _, _. split; [reflexivity|]. split; [reflexivity|]. split; [reflexivity|]. split; [exact O|].
    split; [apply keeps_refl|]. reflexivity.
Qed.
Lemma mtail_spec h d p nn : obj h d -> wf h p -> s_arr p <> m_x d -> wrote h d (mtail d p nn h) (write_tail (view h d) (rd h p)) nn.
Proof.
  intros O W N. unfold mtail, write_tail. rewrite rd_length by auto. destruct (Nat.leb_spec chunk (s_len p)) as [L|L].
  - set (n := s_len p / chunk * chunk). assert (Hn : n <= s_len p) by (unfold n; rewrite Nat.mul_comm; apply Nat.mul_div_le; discriminate).
    assert (Hr : s_len p - n < chunk).
    { unfold n. rewrite Nat.mul_comm. pose proof (Nat.div_mod (s_len p) chunk ltac:(discriminate)).
      pose proof (Nat.mod_upper_bound (s_len p) chunk ltac:(discriminate)). lia. }
    pose proof W as (_ & Wc & _).
    set (d1 := mkM (d_h (block (mkDigest (m_h d) [] 0 0%Z) (firstn n (rd h p)))) (m_x d) (m_nx d) (m_len d)).
    assert (E : (mdo q <- sub p 0 n; mdo d <- mblock d q; mdo p <- from p n; mret (d, p)) h = (h, Ret (d1, subS p n (s_len p)))).
    { unfold mbind. rewrite sub_ok by lia. unfold mblock, mbind, load. rewrite sub_rd by lia. rewrite Nat.sub_0_r. cbn [skipn].
      unfold from. unfold mret at 1. rewrite sub_ok by lia. reflexivity. }
    unfold mbind at 1. rewrite E.
    assert (W' : wf h (subS p n (s_len p))) by (apply sub_wf; auto; lia).
    assert (R' : rd h (subS p n (s_len p)) = skipn n (rd h p)).
    { rewrite sub_rd by lia. apply firstn_all2. rewrite skipn_length, rd_length by auto. lia. }
    pose proof (mtail_last h d1 (subS p n (s_len p)) nn) as T. rewrite R' in T.
    destruct T as (h' & d' & T1 & T2 & T3 & T4 & T5 & T6); [exact O|exact W'|unfold chunk in Hr; cbn [subS s_len]; lia|].
    eexists _, _. split; [exact T1|]. split; [|auto]. rewrite T2. unfold view, d1. cbn [m_h m_x m_nx m_len d_x d_h].
    reflexivity.
  - unfold mbind at 1. unfold mret at 1. destruct (mtail_last h d p nn) as (h' & d' & T1 & T2 & T3 & T4 & T5 & T6); auto; [unfold chunk in *; lia|].
    eexists _, _. split; [exact T1|]. split; [rewrite T2; rewrite ?rd_length by auto; reflexivity|]. auto.
Qed.
Lemma mWrite_spec h d p : obj h d -> wf h p -> s_arr p <> m_x d ->
  match sm3_Write (view h d) (rd h p) with
  | Ret (dg, n) => wrote h d (mWrite d p h) dg n
  | Panic => mWrite d p h = (h, Panic)
  | Err _ => False
  end.
Proof.
  intros O W N. pose proof O as [A B]. pose proof W as (_ & Wc & _).
  unfold sm3_Write, mWrite. cbn [view d_h d_x d_nx d_len m_h m_x m_nx m_len]. unfold zlen. rewrite rd_length by auto.
  set (nn := Z.of_nat (s_len p)). set (L := ((m_len d + nn) mod 2 ^ 64)%Z).
  destruct (Nat.ltb_spec 0 (m_nx d)) as [Hx|Hx].
  - destruct (Nat.leb_spec (m_nx d) chunk) as [C|C]; [|].
    2: { cbn [bind]. unfold mhead. cbn [m_nx m_x]. rewrite (proj2 (Nat.ltb_lt _ _) Hx). unfold mbind, from, sub. cbn [bufS s_len s_cap]. destruct (Nat.leb_spec (m_nx d) 64) as [D|D]; [unfold chunk in C; lia|reflexivity]. }
    unfold chunk in C. set (n := Nat.min (64 - m_nx d) (s_len p)). set (b := firstn n (rd h p)).
    assert (Lb : List.length b = n) by (unfold b; rewrite firstn_length, rd_length by auto; unfold n; lia).
    rewrite go_copy_put by lia. rewrite B, rd_length by auto. fold n b.
    destruct (fill_obj h d (m_nx d) b O) as (O' & K & Ln); [rewrite Lb; unfold n; lia|].
    set (h1 := fill h (m_x d) (m_nx d) b) in *.
    assert (Earr : arr h1 (m_x d) = put (arr h (m_x d)) (m_nx d) b) by (apply fill_arr; auto).
    set (dm := mkM (m_h d) (m_x d) (m_nx d + n) L).
    set (dm' := if m_nx d + n =? chunk then mkM (d_h (block (mkDigest (m_h d) [] 0 0%Z) (arr h1 (m_x d)))) (m_x d) 0 L else dm).
    assert (W1 : wf h1 (subS p n (s_len p))).
    { apply sub_wf; [eapply keeps_wf; eauto| unfold n; lia | lia]. }
    assert (R1 : rd h1 (subS p n (s_len p)) = skipn n (rd h p)).
    { rewrite sub_rd by lia. rewrite (keeps_rd _ _ _ p K W) by (intros [I|[]]; auto).
      apply firstn_all2. rewrite skipn_length, rd_length by auto. lia. }
    unfold mbind at 1. cbn [m_nx m_x m_h m_len].
    assert (E : mhead (mkM (m_h d) (m_x d) (m_nx d) L) p h = (h1, Ret (dm', subS p n (s_len p)))).
    { unfold mhead. cbn [m_nx m_x m_h m_len]. rewrite (proj2 (Nat.ltb_lt _ _) Hx). unfold from at 1. unfold mbind at 1. change (s_len (bufS (m_x d))) with 64. rewrite sub_ok by (cbn; lia).
      unfold mbind at 1. rewrite copy_room by auto. fold n b h1. cbn [m_nx m_x m_h m_len]. unfold dm'.
      destruct (m_nx d + n =? chunk).
      - unfold mblock, mbind, load, mret. rewrite buf_rd by apply O'. unfold from. rewrite sub_ok by (unfold n; lia). reflexivity.
      - unfold mbind, mret, from. rewrite sub_ok by (unfold n; lia). reflexivity. }
    rewrite E. clear E.
    assert (Ox : obj h1 dm') by (unfold dm', obj; destruct (m_nx d + n =? chunk); cbn; apply O').
    assert (Mx : m_x dm' = m_x d) by (unfold dm'; destruct (m_nx d + n =? chunk); reflexivity).
    pose proof (mtail_spec h1 dm' (subS p n (s_len p)) nn Ox W1) as T. rewrite Mx in T. specialize (T N). rewrite R1 in T.
    destruct T as (h' & d' & T1 & T2 & T3 & T4 & T5 & T6).
    cbn [bind]. exists h', d'. split; [exact T1|]. split.
    + rewrite T2. f_equal. unfold dm'. cbn [d_nx d_x d_h d_len]. destruct (m_nx d + n =? chunk); unfold view, dm; cbn [m_h m_x m_nx m_len block d_h d_x d_nx d_len]; rewrite ?Earr; reflexivity.
    + split; [congruence|]. rewrite Mx in *. split; [exact T4|]. split; [|congruence]. eapply keeps_trans; eauto.
  - cbn [bind]. unfold mbind at 1. unfold mhead. cbn [m_nx]. rewrite (proj2 (Nat.ltb_ge _ _) Hx). unfold mret at 1.
    set (dm := mkM (m_h d) (m_x d) (m_nx d) L).
    destruct (mtail_spec h dm p nn O W N) as (h' & d' & T1 & T2 & T3 & T4 & T5 & T6).
    exists h', d'. split; [exact T1|]. split; [rewrite T2; reflexivity|]. auto.
Qed.
