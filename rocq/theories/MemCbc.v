(** * RC2, CBC and the PBE functions on memory compute what the list model computes *)
From Coq Require Import PeanoNat ZifyNat ZifyBool.
From Verif Require Import Base Words RC2Model PbkdfModel Asn1 KeysModel P12Model P12Proofs Mem MemSM MemSMProofs MemP12 MemPbkdf.
Local Open Scope nat_scope.

Lemma set_arr_twice h i a b : set_arr (set_arr h i a) i b = set_arr h i b.
Proof. revert i; induction h; intros [|i]; cbn; auto. now rewrite IHh. Qed.
Lemma put_over l i a b : List.length a = List.length b -> i + List.length a <= List.length l -> put (put l i a) i b = put l i b.
Proof.
  intros E H. transitivity (firstn i (put l i a) ++ b ++ skipn (i + List.length b) (put l i a)); [reflexivity|].
  rewrite put_firstn, put_skipn by lia. reflexivity.
Qed.
Lemma put_put' l i a b : i + List.length a + List.length b <= List.length l -> put (put l (i + List.length a) b) i a = put l i (a ++ b).
Proof.
  intros H. assert (L : List.length (firstn i l) = i) by (rewrite firstn_length; lia).
  transitivity (firstn i (put l (i + List.length a) b) ++ a ++ skipn (i + List.length a) (put l (i + List.length a) b)); [reflexivity|].
  rewrite put_firstn by lia. unfold put at 2. rewrite <- app_assoc. repeat f_equal.
  unfold put. rewrite skipn_app, firstn_length, Nat.min_l by lia. rewrite skipn_all2 by (rewrite firstn_length; lia). rewrite Nat.sub_diag. cbn [app skipn].
  rewrite app_length, Nat.add_assoc. reflexivity.
Qed.
Lemma poked_poked h s i a b : wf h s -> i + List.length a + List.length b <= s_cap s ->
  poked (poked h s i a) s (i + List.length a) b = poked h s i (a ++ b).
Proof.
  intros (A & B & C) H. unfold poked. rewrite arr_set_same by auto. rewrite set_arr_twice. f_equal. rewrite Nat.add_assoc. apply put_put. lia.
Qed.
Lemma poked_poked' h s i a b : wf h s -> i + List.length a + List.length b <= s_cap s ->
  poked (poked h s (i + List.length a) b) s i a = poked h s i (a ++ b).
Proof.
  intros (A & B & C) H. unfold poked. rewrite arr_set_same by auto. rewrite set_arr_twice. f_equal. rewrite Nat.add_assoc. apply put_put'. lia.
Qed.
Lemma poked_over h s i a b : wf h s -> List.length a = List.length b -> i + List.length a <= s_cap s -> poked (poked h s i a) s i b = poked h s i b.
Proof. intros (A & B & C) E H. unfold poked. rewrite arr_set_same by auto. rewrite set_arr_twice. f_equal. apply put_over; lia. Qed.

(** ** RC2 *)
Lemma mGet16_ok h s i : wf h s -> i + 2 <= s_len s -> mGet16 s i h = (h, Ret (get16 (rd h s) i)).
Proof.
  intros W H. pose proof W as (_ & Wc & _). unfold mGet16, from. unfold mbind at 1. rewrite sub_ok by lia. unfold mbind, getB. cbn [subS s_len].
  rewrite (proj2 (Nat.ltb_lt 1 _)) by lia. rewrite (proj2 (Nat.ltb_lt 0 _)) by lia.
  change (mkS (s_arr s) (s_off s + i) (s_len s - i) (s_cap s - i)) with (subS s i (s_len s)). unfold mret, get16.
  rewrite sub_rd by lia. pose proof (rd_length h s W). rewrite firstn_all2 by (rewrite skipn_length; lia).
  assert (N : forall n, nth n (skipn i (rd h s)) 0%Z = nth (i + n) (rd h s) 0%Z).
  { intros n. rewrite <- (firstn_skipn i (rd h s)) at 2. rewrite app_nth2; rewrite firstn_length, Nat.min_l by lia; [f_equal; lia|lia]. }
  rewrite !N, Nat.add_0_r. reflexivity.
Qed.
Lemma mGet16_short h s i : s_len s < i + 2 -> mGet16 s i h = (h, Panic).
Proof.
  intros H. unfold mGet16, from, mbind, sub. destruct ((i <=? s_len s) && (s_len s <=? s_cap s)) eqn:E; [|reflexivity].
  unfold mret, getB. cbn [s_len]. destruct (Nat.ltb_spec 1 (s_len s - i)); [lia|reflexivity].
Qed.
Lemma mPut16_ok h s i w : wf h s -> i + 2 <= s_len s -> mPut16 s i w h = (poked h s i (put16 w), Ret tt).
Proof.
  intros W H. pose proof W as (_ & Wc & _). unfold mPut16, from, mbind. rewrite sub_ok by lia. cbn [subS s_len].
  rewrite (proj2 (Nat.ltb_lt 1 _)) by lia. change (mkS (s_arr s) (s_off s + i) (s_len s - i) (s_cap s - i)) with (subS s i (s_len s)).
  unfold poke. fold (poked h (subS s i (s_len s)) 0 (put16 w)). rewrite poked_sub, Nat.add_0_r. reflexivity.
Qed.
Lemma mPut16_short h s i w : s_len s < i + 2 -> mPut16 s i w h = (h, Panic).
Proof.
  intros H. unfold mPut16, from, mbind, sub. destruct ((i <=? s_len s) && (s_len s <=? s_cap s)) eqn:E; [|reflexivity].
  unfold mret. cbn [s_len]. destruct (Nat.ltb_spec 1 (s_len s - i)); [lia|reflexivity].
Qed.
Lemma mPutRegs_ok h s r : wf h s -> 8 <= s_len s ->
  mPutRegs s r h = (poked h s 0 (put16 (q0 r) ++ put16 (q1 r) ++ put16 (q2 r) ++ put16 (q3 r)), Ret tt).
Proof.
  intros W H. pose proof W as (_ & Wc & _). unfold mPutRegs.
  set (a := put16 (q0 r)). set (b := put16 (q1 r)). set (c := put16 (q2 r)). set (d := put16 (q3 r)).
  unfold mbind at 1. rewrite mPut16_ok by (auto; lia). fold a. assert (W1 : wf (poked h s 0 a) s) by (apply poked_wf; auto; cbn; lia).
  unfold mbind at 1. rewrite mPut16_ok by (auto; lia). fold b.
  assert (E2 : poked (poked h s 0 a) s 2 b = poked h s 0 (a ++ b)) by (apply (poked_poked h s 0 a b W); cbn; lia). rewrite E2.
  assert (W2 : wf (poked h s 0 (a ++ b)) s) by (apply poked_wf; auto; cbn; lia).
  unfold mbind at 1. rewrite mPut16_ok by (auto; lia). fold c.
  assert (E3 : poked (poked h s 0 (a ++ b)) s 4 c = poked h s 0 ((a ++ b) ++ c)) by (apply (poked_poked h s 0 (a ++ b) c W); cbn; lia). rewrite E3.
  assert (W3 : wf (poked h s 0 ((a ++ b) ++ c)) s) by (apply poked_wf; auto; cbn; lia).
  rewrite mPut16_ok by (auto; lia). fold d.
  assert (E4 : poked (poked h s 0 ((a ++ b) ++ c)) s 6 d = poked h s 0 (((a ++ b) ++ c) ++ d)) by (apply (poked_poked h s 0 ((a ++ b) ++ c) d W); cbn; lia).
  rewrite E4, <- !app_assoc. reflexivity.
Qed.
Lemma mPut16_noerr h s i w h' e : mPut16 s i w h = (h', Err e) -> False.
Proof.
  unfold mPut16, from, sub, mbind. destruct (_ && _); [|discriminate]. unfold mret. destruct (1 <? _); discriminate.
Qed.
Lemma mPutRegs_short h s r : s_len s < 8 -> snd (mPutRegs s r h) = Panic.
Proof.
  intros H. unfold mPutRegs, mbind. destruct (mPut16 s 0 (q0 r) h) as [h1 [[]|e|]] eqn:E1; [| |reflexivity].
  2:{ exfalso. exact (mPut16_noerr _ _ _ _ _ _ E1). }
  destruct (mPut16 s 2 (q1 r) h1) as [h2 [[]|e|]] eqn:E2; [| |reflexivity].
  2:{ exfalso. exact (mPut16_noerr _ _ _ _ _ _ E2). }
  destruct (mPut16 s 4 (q2 r) h2) as [h3 [[]|e|]] eqn:E3; [| |reflexivity].
  2:{ exfalso. exact (mPut16_noerr _ _ _ _ _ _ E3). }
  rewrite mPut16_short by lia. reflexivity.
Qed.

(** rc2.go:87-180: any position of dst and src, also overlapping ones *)
Lemma mrc2_Encrypt_spec k h dst src : wf h dst -> wf h src -> 8 <= s_len dst -> 8 <= s_len src ->
  exists c, rc2_Encrypt k (rd h src) = Ret c /\ List.length c = 8 /\ mrc2_Encrypt k dst src h = (poked h dst 0 c, Ret tt).
Proof.
  intros W V H G. unfold rc2_Encrypt, mrc2_Encrypt. unfold zlen. rewrite (rd_length h src V). destruct (Z.ltb_spec (Z.of_nat (s_len src)) 8); [lia|].
  unfold mbind. rewrite !mGet16_ok by (auto; lia).
  destruct (enc_while 16 16 k 0 _) as [j1 s1]. destruct (enc_while 16 40 k j1 _) as [j2 s2]. destruct (enc_while 16 60 k j2 _) as [j3 s3].
  eexists. split; [reflexivity|]. split; [reflexivity|]. apply mPutRegs_ok; auto.
Qed.
Lemma mrc2_Decrypt_spec k h dst src : wf h dst -> wf h src -> 8 <= s_len dst -> 8 <= s_len src ->
  exists c, rc2_Decrypt k (rd h src) = Ret c /\ List.length c = 8 /\ mrc2_Decrypt k dst src h = (poked h dst 0 c, Ret tt).
Proof.
  intros W V H G. unfold rc2_Decrypt, mrc2_Decrypt. unfold zlen. rewrite (rd_length h src V). destruct (Z.ltb_spec (Z.of_nat (s_len src)) 8); [lia|].
  unfold mbind. rewrite !mGet16_ok by (auto; lia).
  destruct (dec_while 16 44 k 63 _) as [j1 s1]. destruct (dec_while 16 20 k j1 _) as [j2 s2]. destruct (dec_while 16 0 k j2 _) as [j3 s3].
  eexists. split; [reflexivity|]. split; [reflexivity|]. apply mPutRegs_ok; auto.
Qed.
Lemma mrc2_src_short k h dst src : wf h src -> s_len src < 8 -> mrc2_Encrypt k dst src h = (h, Panic) /\ mrc2_Decrypt k dst src h = (h, Panic).
Proof.
  intros W H.
  assert (G : forall f : Z -> Z -> Z -> Z -> M unit,
    (mdo r0 <- mGet16 src 0; mdo r1 <- mGet16 src 2; mdo r2 <- mGet16 src 4; mdo r3 <- mGet16 src 6; f r0 r1 r2 r3) h = (h, Panic)).
  { intros f. unfold mbind.
    destruct (Nat.le_gt_cases 2 (s_len src)); [rewrite (mGet16_ok h src 0) by (auto; lia)|rewrite mGet16_short by lia; reflexivity].
    destruct (Nat.le_gt_cases 4 (s_len src)); [rewrite (mGet16_ok h src 2) by (auto; lia)|rewrite mGet16_short by lia; reflexivity].
    destruct (Nat.le_gt_cases 6 (s_len src)); [rewrite (mGet16_ok h src 4) by (auto; lia)|rewrite mGet16_short by lia; reflexivity].
    rewrite mGet16_short by lia. reflexivity. }
  split; [unfold mrc2_Encrypt|unfold mrc2_Decrypt]; apply G.
Qed.
Lemma mrc2_dst_short k h dst src : wf h src -> 8 <= s_len src -> s_len dst < 8 -> snd (mrc2_Encrypt k dst src h) = Panic /\ snd (mrc2_Decrypt k dst src h) = Panic.
Proof.
  intros W G H. unfold mrc2_Encrypt, mrc2_Decrypt. unfold mbind. rewrite !mGet16_ok by (auto; lia).
  destruct (enc_while 16 16 k 0 _) as [j1 s1]. destruct (enc_while 16 40 k j1 _) as [j2 s2]. destruct (enc_while 16 60 k j2 _) as [j3 s3].
  destruct (dec_while 16 44 k 63 _) as [j4 s4]. destruct (dec_while 16 20 k j4 _) as [j5 s5]. destruct (dec_while 16 0 k j5 _) as [j6 s6].
  split; apply mPutRegs_short; auto.
Qed.

(** ** CBC *)
(** a block cipher on memory and one on lists: dst is written with the block after src was read *)
Definition blk_rel (m : slc -> slc -> M unit) (f : bytes -> outcome bytes) : Prop :=
  forall h dst src x, wf h dst -> wf h src -> s_len dst = 8 -> s_len src = 8 -> f (rd h src) = Ret x -> List.length x = 8 -> m dst src h = (poked h dst 0 x, Ret tt).
Definition mbc_rel (b : mbc) (bc : blockCipher) : Prop := blk_rel (mb_Encrypt b) (bc_Encrypt bc) /\ blk_rel (mb_Decrypt b) (bc_Decrypt bc).

Lemma m3DES_rel f : blk_rel (m3DES f) (fun b => Ret (f b)).
Proof.
  intros h dst src x W V H G E L. injection E as <-. unfold m3DES. rewrite H, G. cbn [Nat.ltb Nat.leb orb]. unfold mbind, load.
  rewrite firstn_all2 by (rewrite (rd_length _ _ V); lia). reflexivity.
Qed.
Lemma mrc2_rel k : blk_rel (mrc2_Encrypt k) (rc2_Encrypt k) /\ blk_rel (mrc2_Decrypt k) (rc2_Decrypt k).
Proof.
  split; intros h dst src x W V H G E L.
  - destruct (mrc2_Encrypt_spec k h dst src W V ltac:(lia) ltac:(lia)) as (c & E1 & _ & E2). rewrite E in E1. injection E1 as <-. exact E2.
  - destruct (mrc2_Decrypt_spec k h dst src W V ltac:(lia) ltac:(lia)) as (c & E1 & _ & E2). rewrite E in E1. injection E1 as <-. exact E2.
Qed.

Lemma mxorBytes_ok h dst a b : s_len dst = 8 -> List.length (xor_bytes (rd h a) (rd h b)) = 8 ->
  mxorBytes dst a b h = (poked h dst 0 (xor_bytes (rd h a) (rd h b)), Ret tt).
Proof. intros H L. unfold mxorBytes, mbind, load. rewrite L, H. reflexivity. Qed.

(** dst and src are windows at the same place, or lie in different arrays *)
Definition exact_or_apart (dst src : slc) : Prop := s_arr dst <> s_arr src \/ s_off dst = s_off src.

Section CBC.
Variables (b : mbc) (bc : blockCipher).
Hypothesis (R : mbc_rel b bc) (G : bc_good bc).

Lemma mcbc_enc_spec : forall n h iv dst src, wf h iv -> wf h dst -> wf h src -> s_len iv = 8 -> 8 * n <= s_len dst -> 8 * n <= s_len src ->
  bytes_ok (rd h iv) -> bytes_ok (rd h src) -> exact_or_apart dst src ->
  exists r l, cbc_encrypt (bc_Encrypt bc) n (rd h iv) (rd h src) = Ret r /\ List.length r = 8 * n /\ bytes_ok r /\
    mcbc_enc b n iv dst src h = (poked h dst 0 r, Ret l) /\ wf h l /\ (s_arr l = s_arr iv \/ s_arr l = s_arr dst).
Proof.
  induction n as [|n IH]; intros h iv dst src Wi Wd Ws Li Ld Ls Oi Os X.
  - exists [], iv. split; [reflexivity|]. split; [reflexivity|]. split; [constructor|]. split; [|split; auto]. cbn [mcbc_enc]. unfold mret. f_equal.
    unfold poked. rewrite put_nil. destruct Wd as (Wa & _). clear - Wa. revert Wa. generalize (s_arr dst). intros i. revert i. induction h as [|y h IHh]; intros [|i] Hi; cbn in *; try lia; auto.
    f_equal. unfold arr in *. cbn. apply IHh. lia.
  - pose proof Wd as (Wda & Wdc & _). pose proof Ws as (Wsa & Wsc & _). pose proof (rd_length _ _ Ws) as Rs. pose proof (rd_length _ _ Wi) as Ri.
    remember (mcbc_enc b (S n) iv dst src h) as Y eqn:EY. cbn [mcbc_enc] in EY. unfold mbind at 1 in EY. rewrite sub_ok in EY by lia. unfold mbind at 1 in EY. rewrite sub_ok in EY by lia.
    set (d := subS dst 0 8) in *. set (s := subS src 0 8) in *.
    assert (Wdd : wf h d) by (apply sub_wf; auto; lia). assert (Wss : wf h s) by (apply sub_wf; auto; lia).
    assert (Es : rd h s = firstn 8 (rd h src)) by (unfold s; rewrite sub_rd by lia; reflexivity).
    set (x := xor_bytes (firstn 8 (rd h src)) (rd h iv)).
    assert (Lx : List.length x = 8) by (unfold x; rewrite xor_len, firstn_length; lia).
    assert (Ox : bytes_ok x) by (apply xor_ok; [now apply bytes_ok_firstn|auto]).
    unfold mbind at 1 in EY. rewrite mxorBytes_ok in EY by (rewrite ?Es; auto). rewrite Es in EY. fold x in EY.
    assert (Wd1 : wf (poked h d 0 x) d) by (apply poked_wf; auto; unfold d; cbn [subS s_cap]; lia).
    assert (Ed1 : rd (poked h d 0 x) d = x).
    { rewrite poked_rd by (auto; unfold d; cbn [subS s_len]; lia). apply put_all. rewrite (rd_length _ _ Wdd). unfold d; cbn [subS s_len]; lia. }
    destruct (proj1 G x Ox Lx) as (c & Ec & Oc & Lc & _).
    assert (EE : mb_Encrypt b d d (poked h d 0 x) = (poked (poked h d 0 x) d 0 c, Ret tt)).
    { apply (proj1 R); auto. now rewrite Ed1. }
    unfold mbind at 1 in EY. rewrite EE in EY. clear EE. rewrite poked_over in EY by (auto; unfold d; cbn [subS s_cap]; lia).
    assert (Epd : poked h d 0 c = poked h dst 0 c) by (unfold d; rewrite poked_sub; reflexivity). rewrite Epd in EY. unfold from in EY. unfold mbind at 1 in EY. rewrite sub_ok in EY by lia. unfold mbind at 1 in EY. rewrite sub_ok in EY by lia.
    set (h1 := poked h dst 0 c) in *. set (src' := subS src 8 (s_len src)) in *. set (dst' := subS dst 8 (s_len dst)) in *.
    assert (Kw : forall t, wf h t -> wf h1 t) by (intros t Wt; apply poked_wf; auto; lia).
    assert (Wsrc' : wf h src') by (apply sub_wf; auto; lia). assert (Wdst' : wf h dst') by (apply sub_wf; auto; lia).
    assert (Rd1 : rd h1 d = c).
    { unfold h1, d. rewrite sub_rd by lia. rewrite poked_rd by (auto; lia). unfold put. cbn [firstn app skipn]. rewrite firstn_app.
      replace (8 - 0 - List.length c) with 0 by lia. rewrite firstn_O, app_nil_r. apply firstn_all2. lia. }
    assert (Rs1 : rd h1 src' = skipn 8 (rd h src)).
    { transitivity (rd h src').
      - destruct X as [X|X]; [apply poked_other; cbn; auto|]. apply poked_behind; auto; [lia|]. unfold src'. cbn [subS s_off]. lia.
      - unfold src'. rewrite sub_rd by lia. apply firstn_all2. rewrite skipn_length. lia. }
    destruct (IH h1 d dst' src') as (r & l & Er & Lr & Or & Em & Wl & Al); auto.
    { unfold dst'. cbn [subS s_len]. lia. } { unfold src'. cbn [subS s_len]. lia. } { now rewrite Rd1. } { rewrite Rs1. now apply bytes_ok_skipn. }
    { unfold exact_or_apart, dst', src'. cbn [subS s_arr s_off]. destruct X; [now left|right; lia]. }
    rewrite Rd1, Rs1 in Er. exists (c ++ r), l. split; [cbn [cbc_encrypt]; fold x; rewrite Ec; cbn [bind]; rewrite Er; reflexivity|].
    split; [rewrite app_length; lia|]. split; [now apply bytes_ok_app|]. split; [|split].
    + rewrite EY, Em. f_equal. unfold h1, dst'. rewrite poked_sub, Nat.add_0_r. replace 8 with (0 + List.length c) by lia. apply poked_poked; auto. lia.
    + destruct Wl as (Q1 & Q2 & Q3). unfold h1 in *. rewrite poked_length in Q1. rewrite poked_arr_len in Q3 by (auto; lia). split; auto.
    + right. destruct Al as [->| ->]; reflexivity.
Qed.

(** the chaining value of block n *)
Definition prev (n : nat) (iv src : bytes) : bytes := match n with O => iv | S m => firstn 8 (skipn (8 * m) src) end.
Lemma cbc_decrypt_snoc D : forall n iv src r p, cbc_decrypt D n iv src = Ret r -> D (firstn 8 (skipn (8 * n) src)) = Ret p ->
  cbc_decrypt D (S n) iv src = Ret (r ++ xor_bytes p (prev n iv src)).
Proof.
  induction n as [|n IH]; intros iv src r p E1 E2.
  - cbn [cbc_decrypt] in *. injection E1 as <-. change (skipn (8 * 0) src) with src in E2. rewrite E2. cbn [bind app prev]. now rewrite app_nil_r.
  - remember (S n) as m. cbn [cbc_decrypt]. subst m. cbn [cbc_decrypt] in E1. destruct (D (firstn 8 src)) as [p0| |] eqn:E0; cbn [bind] in *; try discriminate.
    destruct (cbc_decrypt D n (firstn 8 src) (skipn 8 src)) as [r0| |] eqn:E3; cbn [bind] in *; try discriminate. injection E1 as <-.
    rewrite (IH _ _ _ p E3). 2:{ rewrite skipn_skipn. replace (8 + 8 * n) with (8 * S n) by lia. exact E2. }
    cbn [bind]. rewrite <- app_assoc. assert (Ep : prev n (firstn 8 src) (skipn 8 src) = prev (S n) iv src).
    { unfold prev. destruct n as [|n]; [reflexivity|]. rewrite skipn_skipn. replace (8 + 8 * n) with (8 * S n) by lia. reflexivity. }
    rewrite Ep. reflexivity.
Qed.

Lemma mcbc_dec_spec : forall n h iv dst src, wf h iv -> wf h dst -> wf h src -> s_len iv = 8 -> 8 * S n <= s_len dst -> 8 * S n <= s_len src ->
  bytes_ok (rd h src) -> s_arr iv <> s_arr dst -> exact_or_apart dst src ->
  exists r, cbc_decrypt (bc_Decrypt bc) (S n) (rd h iv) (rd h src) = Ret r /\ List.length r = 8 * S n /\
    mcbc_dec b n iv dst src h = (poked h dst 0 r, Ret tt).
Proof.
  assert (Step : forall n h pv pb dst src, wf h pv -> wf h dst -> wf h src -> s_len pv = 8 -> 8 * S n <= s_len dst -> 8 * S n <= s_len src ->
    bytes_ok (rd h src) -> rd h pv = pb -> (s_arr pv <> s_arr dst \/ s_off pv + 8 <= s_off dst + 8 * n) ->
    exists p, bc_Decrypt bc (firstn 8 (skipn (8 * n) (rd h src))) = Ret p /\ List.length p = 8 /\
      mb_Decrypt b (subS dst (8 * n) (8 * n + 8)) (subS src (8 * n) (8 * n + 8)) h = (poked h dst (8 * n) p, Ret tt) /\
      mxorBytes (subS dst (8 * n) (8 * n + 8)) (subS dst (8 * n) (8 * n + 8)) pv (poked h dst (8 * n) p) = (poked h dst (8 * n) (xor_bytes p pb), Ret tt)).
  { intros n h pv pb dst src Wp Wd Ws Lp Ld Ls Os Rp X. pose proof Wd as (Wda & Wdc & _). pose proof Ws as (Wsa & Wsc & _). pose proof (rd_length _ _ Ws) as Rs. pose proof (rd_length _ _ Wp) as Rpl.
    assert (Wdd : wf h (subS dst (8 * n) (8 * n + 8))) by (apply sub_wf; auto; lia). assert (Wss : wf h (subS src (8 * n) (8 * n + 8))) by (apply sub_wf; auto; lia).
    assert (Es : rd h (subS src (8 * n) (8 * n + 8)) = firstn 8 (skipn (8 * n) (rd h src))) by (rewrite sub_rd by lia; f_equal; lia).
    destruct (proj2 G (firstn 8 (skipn (8 * n) (rd h src)))) as (p & Ep & Op & Lpp); [apply bytes_ok_firstn; now apply bytes_ok_skipn|rewrite firstn_length, skipn_length; lia|].
    exists p. split; [exact Ep|]. split; [exact Lpp|]. assert (Lpb : List.length pb = 8) by (rewrite <- Rp; lia).
    assert (E1 : mb_Decrypt b (subS dst (8 * n) (8 * n + 8)) (subS src (8 * n) (8 * n + 8)) h = (poked h dst (8 * n) p, Ret tt)).
    { rewrite (proj2 R h _ _ p Wdd Wss); auto; try (cbn [subS s_len]; lia); [|now rewrite Es]. rewrite poked_sub, Nat.add_0_r. reflexivity. }
    split; [exact E1|]. assert (Wp1 : wf (poked h dst (8 * n) p) dst) by (apply poked_wf; auto; lia).
    assert (Ed : rd (poked h dst (8 * n) p) (subS dst (8 * n) (8 * n + 8)) = p).
    { rewrite sub_rd by lia. rewrite poked_rd by (auto; lia). replace (8 * n + 8 - 8 * n) with (List.length p) by lia. apply put_read. rewrite (rd_length _ _ Wd). lia. }
    assert (Epv : rd (poked h dst (8 * n) p) pv = pb).
    { rewrite <- Rp. destruct X as [X|X]; [apply poked_other; auto|]. apply poked_before; auto; lia. }
    rewrite mxorBytes_ok; [|cbn [subS s_len]; lia|rewrite Ed, Epv, xor_len; lia]. rewrite Ed, Epv, poked_sub, Nat.add_0_r.
    rewrite poked_over; auto; [rewrite xor_len; lia|lia]. }
  induction n as [|n IH]; intros h iv dst src Wi Wd Ws Li Ld Ls Os Ni X; pose proof Wd as (Wda & Wdc & _); pose proof Ws as (Wsa & Wsc & _).
  - destruct (Step 0 h iv (rd h iv) dst src) as (p & Ep & Lp & E1 & E2); auto.
    exists (xor_bytes p (rd h iv)). split; [apply (cbc_decrypt_snoc _ 0 _ _ [] p); auto|]. split; [rewrite xor_len, Lp, (rd_length _ _ Wi); lia|].
    unfold mcbc_dec. change (8 * 0) with 0 in *. unfold mbind at 1. rewrite sub_ok by lia. unfold mbind at 1. rewrite sub_ok by lia.
    unfold mbind. rewrite E1. exact E2.
  - pose proof (rd_length _ _ Ws) as Rs. set (pv := subS src (8 * S n - 8) (8 * S n)).
    assert (Wp : wf h pv) by (apply sub_wf; auto; lia).
    assert (Rp : rd h pv = prev (S n) (rd h iv) (rd h src)). { unfold pv, prev. rewrite sub_rd by lia. f_equal; [lia|f_equal; lia]. }
    destruct (Step (S n) h pv (prev (S n) (rd h iv) (rd h src)) dst src) as (p & Ep & Lp & E1 & E2); auto; try lia.
    { unfold pv. cbn [subS s_len]. lia. } { destruct X as [X|X]; [left; cbn; auto|right]. unfold pv. cbn [subS s_off]. lia. }
    set (q := xor_bytes p (prev (S n) (rd h iv) (rd h src))) in *.
    assert (Lq : List.length q = 8). { unfold q. rewrite xor_len, Lp, <- Rp, (rd_length _ _ Wp). unfold pv. cbn [subS s_len]. lia. }
    set (h1 := poked h dst (8 * S n) q) in *.
    assert (Kw : forall t, wf h t -> wf h1 t) by (intros t Wt; apply poked_wf; auto; lia).
    (* the blocks before are still there: cut both windows *)
    set (src' := subS src 0 (8 * S n)). assert (Ws' : wf h src') by (apply sub_wf; auto; lia).
    assert (Rs' : rd h1 src' = rd h src'). { destruct X as [X|X]; [apply poked_other; cbn; auto|]. apply poked_before; auto; [lia|]. unfold src'. cbn [subS s_off s_len]. lia. }
    assert (Ri' : rd h1 iv = rd h iv) by (apply poked_other; auto).
    assert (Ls' : 8 * S n <= s_len src') by (unfold src', subS; cbn [s_len]; lia).
    destruct (IH h1 iv dst src') as (r & Er & Lr & Em); auto; try lia.
    { rewrite Rs'. unfold src'. rewrite sub_rd by lia. apply bytes_ok_firstn. now apply bytes_ok_skipn. }
    { unfold exact_or_apart, src'. cbn [subS s_arr s_off]. destruct X; [now left|right; lia]. }
    assert (Eq' : mcbc_dec b n iv dst src h1 = mcbc_dec b n iv dst src' h1).
    { assert (Sub : forall i j, i <= j -> j <= 8 * S n -> subS src' i j = mkS (s_arr src) (s_off src + i) (j - i) (s_cap src - i)).
      { intros i j Hij Hj. unfold src', subS. cbn [s_arr s_off s_cap]. f_equal; lia. }
      assert (SubE : forall i j h', i <= j -> j <= 8 * S n -> sub src i j h' = sub src' i j h').
      { intros i j h' Hij Hj. rewrite !sub_ok; try lia; [rewrite Sub by lia; reflexivity|unfold src'; cbn [subS s_cap]; lia]. }
      clear - SubE. assert (Gn : forall m h', m <= n -> mcbc_dec b m iv dst src h' = mcbc_dec b m iv dst src' h').
      { induction m as [|m IHm]; intros h' Hm; unfold mcbc_dec; fold mcbc_dec; unfold mbind; destruct (sub dst _ _ h') as [h2 [d|e|]]; auto; rewrite SubE by lia;
          destruct (sub src' _ _ h2) as [h3 [s|e|]]; auto; destruct (mb_Decrypt b d s h3) as [h4 [u|e|]]; auto.
        rewrite SubE by lia. destruct (sub src' _ _ h4) as [h5 [p9|e|]]; auto. destruct (mxorBytes d d p9 h5) as [h6 [u'|e|]]; auto. apply IHm. lia. }
      apply Gn. auto. }
    exists (r ++ q). split; [|split; [rewrite app_length; lia|]].
    + apply (cbc_decrypt_snoc _ (S n)); [|exact Ep]. rewrite <- Er, Rs', Ri'. unfold src'. rewrite sub_rd by lia. cbn [skipn]. rewrite Nat.sub_0_r.
      symmetry. clear. generalize (rd h iv) as v. generalize (rd h src) as l. intros l. generalize (S n) as m. clear. intros m. revert l. induction m as [|m IHm]; intros l v; [reflexivity|].
      cbn [cbc_decrypt]. assert (E8 : firstn 8 (firstn (8 * S m) l) = firstn 8 l) by (rewrite firstn_firstn; f_equal; lia). rewrite E8.
      destruct (bc_Decrypt bc (firstn 8 l)); cbn [bind]; auto. rewrite skipn_firstn_comm. replace (8 * S m - 8) with (8 * m) by lia. rewrite IHm. reflexivity.
    + remember (mcbc_dec b (S n) iv dst src h) as Y eqn:EY. unfold mcbc_dec in EY. fold mcbc_dec in EY. cbv zeta in EY.
      unfold mbind at 1 in EY. rewrite sub_ok in EY by lia. unfold mbind at 1 in EY. rewrite sub_ok in EY by lia.
      unfold mbind at 1 in EY. rewrite E1 in EY. unfold mbind at 1 in EY. rewrite sub_ok in EY by lia. fold pv in EY.
      unfold mbind at 1 in EY. rewrite E2 in EY. rewrite EY. fold h1. rewrite Eq', Em. f_equal. unfold h1. replace (8 * S n) with (0 + List.length r) by lia.
      apply (poked_poked' h dst 0 r q); auto. lia.
Qed.
End CBC.
