(** * crypto.go: pbEncrypt and pbDecrypt on memory *)
From Coq Require Import PeanoNat ZifyNat ZifyBool.
From Verif Require Import Base Words RC2Model PbkdfModel Asn1 KeysModel P12Model P12Proofs Mem MemSM MemSMProofs MemP12 MemPbkdf MemCbc.
Local Open Scope nat_scope.

Lemma poked_app h l s i b : s_arr s < List.length h -> poked (h ++ l) s i b = poked h s i b ++ l.
Proof.
  intros H. unfold poked. rewrite arr_app_l by auto. generalize (put (arr h (s_arr s)) (s_off s + i) b) as z. revert H. generalize (s_arr s).
  induction h as [|x h IH]; intros n H z; [cbn in H; lia|]. destruct n; [reflexivity|]. cbn. f_equal. apply IH. cbn in H. lia.
Qed.

Section CBC.
Variables (b : mbc) (bc : blockCipher).
Hypothesis (R : mbc_rel b bc) (G : bc_good bc).
Lemma mCryptEnc_spec h iv dst src : wf h iv -> wf h dst -> wf h src -> s_len iv = 8 -> s_len src mod 8 = 0 -> s_len src <= s_len dst ->
  bytes_ok (rd h iv) -> bytes_ok (rd h src) -> exact_or_apart dst src ->
  exists r h', CryptBlocks (cbc_encrypt (bc_Encrypt bc)) (rd h iv) (rd h src) = Ret r /\ List.length r = s_len src /\
    mCryptEnc b iv dst src h = (h', Ret tt) /\ ext (poked h dst 0 r) h'.
Proof.
  intros Wi Wd Ws Li Lm Ld Oi Os X. remember (mCryptEnc b iv dst src h) as Y eqn:EY. unfold mCryptEnc in EY. rewrite Li in EY. cbn [Nat.eqb negb] in EY.
  unfold mbind at 1, load in EY. unfold mbind at 1 in EY. unfold new, alloc in EY. rewrite Lm in EY. cbn [Nat.eqb negb] in EY.
  destruct (Nat.ltb_spec (s_len dst) (s_len src)); [lia|]. pose proof (rd_length _ _ Wi) as Ri. set (ivc := mkS _ _ _ _) in EY. set (h1 := h ++ [rd h iv]) in *.
  assert (Wc : wf h1 ivc) by (apply new_wf; auto). assert (Rc : rd h1 ivc = rd h iv) by (unfold h1, ivc; rewrite new_rd; apply firstn_all).
  assert (Lc : s_len ivc = 8) by (unfold ivc; cbn [s_len]; lia).
  pose proof Wd as (Wda & _). pose proof Ws as (Wsa & _). assert (Rs : rd h1 src = rd h src) by (apply alloc_rd; auto).
  assert (En : 8 * (s_len src / 8) = s_len src) by (pose proof (Nat.div_mod (s_len src) 8 ltac:(lia)); lia).
  destruct (mcbc_enc_spec b bc R G (s_len src / 8) h1 ivc dst src) as (r & l & Er & Lr & Or & Em & Wl & Al); try (apply alloc_wf; assumption); auto; try lia.
  { now rewrite Rc. } { now rewrite Rs. }
  unfold mbind at 1 in EY. rewrite Em in EY. unfold mbind, copyS, poke in EY. rewrite Rc, Rs in Er.
  eexists r, _. split; [|split; [lia|split; [exact EY|]]].
  - unfold CryptBlocks. unfold zlen. rewrite Ri, Li. change (negb (Z.of_nat 8 =? 8)%Z) with false. cbn iota. rewrite (rd_length _ _ Ws).
    destruct (Z.eqb_spec (Z.of_nat (s_len src) mod 8) 0); [|lia]. cbn [negb]. exact Er.
  - fold (poked (poked h1 dst 0 r) ivc 0 (firstn (Nat.min (s_len ivc) (s_len l)) (rd (poked h1 dst 0 r) l))).
    apply ext_poked; [|rewrite poked_length; unfold ivc; cbn [s_arr]; lia]. unfold h1. rewrite poked_app by auto. eexists; reflexivity.
Qed.
Lemma mCryptDec_spec h iv dst src : wf h iv -> wf h dst -> wf h src -> s_len iv = 8 -> s_len src mod 8 = 0 -> s_len src <= s_len dst ->
  bytes_ok (rd h src) -> exact_or_apart dst src ->
  exists r h', CryptBlocks (cbc_decrypt (bc_Decrypt bc)) (rd h iv) (rd h src) = Ret r /\ List.length r = s_len src /\
    mCryptDec b iv dst src h = (h', Ret tt) /\ ext (poked h dst 0 r) h'.
Proof.
  intros Wi Wd Ws Li Lm Ld Os X. remember (mCryptDec b iv dst src h) as Y eqn:EY. unfold mCryptDec in EY. rewrite Li in EY. cbn [Nat.eqb negb] in EY.
  unfold mbind at 1, load in EY. unfold mbind at 1 in EY. unfold new, alloc in EY. rewrite Lm in EY. cbn [Nat.eqb negb] in EY.
  destruct (Nat.ltb_spec (s_len dst) (s_len src)); [lia|]. pose proof (rd_length _ _ Wi) as Ri. set (ivc := mkS _ _ _ _) in EY. set (h1 := h ++ [rd h iv]) in *.
  assert (Wc : wf h1 ivc) by (apply new_wf; auto). assert (Rc : rd h1 ivc = rd h iv) by (unfold h1, ivc; rewrite new_rd; apply firstn_all).
  assert (Lc : s_len ivc = 8) by (unfold ivc; cbn [s_len]; lia).
  pose proof Wd as (Wda & _). pose proof Ws as (Wsa & _). assert (Rs : rd h1 src = rd h src) by (apply alloc_rd; auto).
  assert (En : 8 * (s_len src / 8) = s_len src) by (pose proof (Nat.div_mod (s_len src) 8 ltac:(lia)); lia).
  assert (CB : forall r, cbc_decrypt (bc_Decrypt bc) (s_len src / 8) (rd h iv) (rd h src) = Ret r -> CryptBlocks (cbc_decrypt (bc_Decrypt bc)) (rd h iv) (rd h src) = Ret r).
  { intros r Er. unfold CryptBlocks. unfold zlen. rewrite Ri, Li. change (negb (Z.of_nat 8 =? 8)%Z) with false. cbn iota. rewrite (rd_length _ _ Ws).
    destruct (Z.eqb_spec (Z.of_nat (s_len src) mod 8) 0); [|lia]. cbn [negb]. exact Er. }
  destruct (Nat.eqb_spec (s_len src) 0) as [Z0|Z0].
  - exists [], h1. split; [apply CB; rewrite Z0; reflexivity|]. split; [auto|]. split; [exact EY|].
    assert (E0 : poked h dst 0 [] = h).
    { unfold poked. rewrite put_nil. clear - Wda. revert Wda. generalize (s_arr dst). induction h as [|x l IH]; intros n H; [cbn in H; lia|]. destruct n; [reflexivity|]. cbn. f_equal. unfold arr in *. cbn. apply IH. cbn in H. lia. }
    rewrite E0. eexists; reflexivity.
  - destruct (mcbc_dec_spec b bc R G (s_len src / 8 - 1) h1 ivc dst src) as (r & Er & Lr & Em); try (apply alloc_wf; assumption); auto; try lia.
    { now rewrite Rs. } { unfold ivc. cbn [s_arr]. lia. }
    replace (S (s_len src / 8 - 1)) with (s_len src / 8) in * by lia. rewrite Rc, Rs in Er. rewrite Em in EY.
    eexists r, _. split; [now apply CB|]. split; [lia|]. split; [exact EY|]. unfold h1. rewrite poked_app by auto. eexists; reflexivity.
Qed.
End CBC.

Lemma mcreate3DES_sim P h0 h key : ext h0 h -> sim h0 (mcreate3DES P key h) (create3DES P (rd h key)) (fun h' m bc => h' = h /\ mbc_rel m bc).
Proof.
  intros E. unfold mcreate3DES, create3DES. eapply sim_step; [reflexivity|]. destruct (negb _); [split; [exact E|reflexivity]|].
  apply sim_ret; [exact E|]. split; [auto|]. split; apply m3DES_rel.
Qed.
Lemma mcreateRC2_sim h0 h key : ext h0 h -> sim h0 (mcreateRC2 key h) (createRC2 (rd h key)) (fun h' m bc => h' = h /\ mbc_rel m bc).
Proof.
  intros E. unfold mcreateRC2, createRC2. eapply sim_step; [reflexivity|]. eapply sim_bind; [apply (sim_lift h0 h _ (fun h' a c => h' = h /\ a = c)); auto|].
  intros h' a c E' [-> ->]. apply sim_ret; [exact E'|]. split; [auto|]. destruct (mrc2_rel c). split; auto.
Qed.

(** crypto.go:64-90 *)
Lemma mpbeCipherFor_sim extra P h0 algo pw : prims_ok P -> wf h0 pw ->
  sim h0 (mpbeCipherFor extra P algo pw h0) (pbeCipherFor P algo (rd h0 pw)) (fun h' x y => mbc_rel (fst x) (fst y) /\ own h0 h' (snd x) (snd y)).
Proof.
  intros HP Wp. assert (Hs : forall x, sha1 P x <> []). { intros x Hx. destruct (proj1 HP x) as [L _]. rewrite Hx in L. discriminate L. }
  unfold mpbeCipherFor, pbeCipherFor.
  assert (Main : forall keyLen mcreate create, (forall h key, ext h0 h -> sim h0 (mcreate key h) (create (rd h key)) (fun h' m bc => h' = h /\ mbc_rel m bc)) ->
    sim h0 ((mdo params <- mlift (unmarshal cPbe (sl (rv_full (ai_params algo))));
             mdo salt <- new (sl (pbe_Salt params));
             mdo key <- mpbkdf extra (sha1 P) 20 64 salt pw (pbe_Iterations params) 1 keyLen;
             mdo iv <- mpbkdf extra (sha1 P) 20 64 salt pw (pbe_Iterations params) 2 8;
             mdo block <- mcreate key;
             mret (block, iv)) h0)
           (do params <- unmarshal cPbe (sl (rv_full (ai_params algo)));
             do key <- pbkdf (sha1 P) 20 64 (sl (pbe_Salt params)) (rd h0 pw) (pbe_Iterations params) 1 keyLen;
             do iv <- pbkdf (sha1 P) 20 64 (sl (pbe_Salt params)) (rd h0 pw) (pbe_Iterations params) 2 8;
             do block <- create key;
             Ret (block, iv)) (fun h' x y => mbc_rel (fst x) (fst y) /\ own h0 h' (snd x) (snd y))).
  { intros keyLen mcreate create HC. eapply sim_bind; [apply (sim_lift h0 h0 _ (fun h' a c => h' = h0 /\ a = c)); auto; apply ext_refl|].
    intros h' params p' _ [-> ->]. destruct (new_fresh h0 (sl (pbe_Salt p'))) as (h1 & salt & E1 & W1 & R1 & A1 & K1). eapply sim_step; [exact E1|].
    pose proof (keeps_wf _ _ _ _ K1 Wp) as Wp1. pose proof (keeps_rd _ _ _ _ K1 Wp ltac:(auto)) as Rp1. pose proof (keeps_ext _ _ K1) as X1.
    assert (Kd0 : forall h, ext h1 h -> forall ID n, sim h0 (mpbkdf extra (sha1 P) 20 64 salt pw (pbe_Iterations p') ID n h)
       (pbkdf (sha1 P) 20 64 (sl (pbe_Salt p')) (rd h0 pw) (pbe_Iterations p') ID n) (fun h' s l => ext h h' /\ own h h' s l)).
    { intros h X ID n. pose proof (mpbkdf_sim extra (sha1 P) h 20 64 salt pw (pbe_Iterations p') ID n Hs ltac:(lia) ltac:(lia) (ext_wf _ _ _ X W1) (ext_wf _ _ _ X Wp1)) as Z.
      rewrite (ext_rd _ _ _ X W1), (ext_rd _ _ _ X Wp1), R1, Rp1 in Z. destruct Z as [Z1 Z2]. split; [eapply ext_trans; [exact X1|eapply ext_trans; eauto]|].
      destruct (snd _), (pbkdf _ _ _ _ _ _ _ _); auto. }
    eapply sim_bind; [apply (Kd0 h1 (ext_refl _))|]. intros h2 key kb X02 (X2 & Ak & Wk & Rk).
    eapply sim_bind; [apply (Kd0 h2 X2)|]. intros h3 iv ivb X03 (X3 & Ai & Wi & Ri).
    assert (Rk3 : rd h3 key = kb) by (rewrite (ext_rd _ _ _ X3 Wk); exact Rk). rewrite <- Rk3.
    eapply sim_bind; [apply HC; exact X03|]. intros h4 m c X04 [-> Hm]. apply sim_ret; [exact X03|]. cbn [fst snd]. split; [exact Hm|].
    split; [|split; [exact Wi|exact Ri]]. pose proof (ext_length _ _ X02). lia. }
  destruct (oid_eqb _ oidPBEWithSHAAnd3KeyTripleDESCBC).
  - apply Main. intros. now apply mcreate3DES_sim.
  - destruct (oid_eqb _ oidPBEWithSHAAnd40BitRC2CBC).
    + apply Main. intros. now apply mcreateRC2_sim.
    + split; [apply ext_refl|reflexivity].
Qed.

Lemma last_nth (l : bytes) d : l <> [] -> last l d = nth (List.length l - 1) l d.
Proof.
  induction l as [|x l IH]; [congruence|]. intros _. destruct l as [|y l]; [reflexivity|].
  change (last (x :: y :: l) d) with (last (y :: l) d). rewrite IH by discriminate. cbn [List.length]. replace (S (S (List.length l)) - 1) with (S (S (List.length l) - 1)) by lia. reflexivity.
Qed.

(** crypto.go:101-132 *)
Lemma mpbDecrypt_sim extra P h0 algo enc pw : prims_ok P -> ai_ok algo -> wf h0 enc -> wf h0 pw -> bytes_ok (rd h0 enc) -> bytes_ok (rd h0 pw) ->
  sim h0 (mpbDecrypt extra P algo enc pw h0) (pbDecrypt P algo (rd h0 enc) (rd h0 pw)) (own h0).
Proof.
  intros HP Ha We Wp Oe Op. unfold mpbDecrypt, pbDecrypt. pose proof (pbe_good P algo (rd h0 pw) HP Ha Op) as PG.
  eapply (sim_bind _ _ _ _ _ _ (fun h' x y => (mbc_rel (fst x) (fst y) /\ own h0 h' (snd x) (snd y)) /\ pbeCipherFor P algo (rd h0 pw) = Ret y)).
  { pose proof (mpbeCipherFor_sim extra P h0 algo pw HP Wp) as [S1 S2]. split; [exact S1|]. destruct (snd _), (pbeCipherFor _ _ _); auto. }
  intros h1 [m iv] [bc ivb] X1 [(Rm & Ai & Wi & Ri) E]. rewrite E in PG. cbn [fst snd] in *. destruct PG as (G & Oiv & Liv).
  pose proof (rd_length _ _ Wi) as Li. rewrite Ri, Liv in Li. rewrite <- Li. cbn [Nat.eqb negb]. unfold zlen at 1. rewrite Liv. change (Z.of_nat 8 =? 8)%Z with true. cbn iota.
  pose proof (rd_length _ _ We) as Le. unfold zlen at 1. rewrite Le. destruct (Nat.eqb_spec (s_len enc) 0) as [Z0|Z0].
  { destruct (Z.eqb_spec (Z.of_nat (s_len enc)) 0); [|lia]. split; [exact X1|reflexivity]. }
  destruct (Z.eqb_spec (Z.of_nat (s_len enc)) 0); [lia|]. unfold zlen at 1. rewrite Le. destruct (Nat.eqb_spec (s_len enc mod 8) 0) as [M0|M0]; cbn [negb].
  2:{ destruct (Z.eqb_spec (Z.of_nat (s_len enc) mod 8) 0); [lia|]. split; [exact X1|reflexivity]. }
  destruct (Z.eqb_spec (Z.of_nat (s_len enc) mod 8) 0); [|lia]. cbn [negb].
  destruct (new_fresh h1 (repeat 0%Z (s_len enc))) as (h2 & d & E2 & W2 & R2 & A2 & K2). eapply sim_step; [exact E2|]. clear E2.
  pose proof (rd_length _ _ W2) as Ld. rewrite R2, repeat_length in Ld.
  pose proof (ext_wf _ _ _ X1 We) as We1. pose proof (keeps_wf _ _ _ _ K2 We1) as We2. assert (Re2 : rd h2 enc = rd h0 enc). { rewrite (keeps_rd _ _ _ _ K2 We1) by auto. now apply ext_rd. }
  pose proof (keeps_wf _ _ _ _ K2 Wi) as Wi2. assert (Ri2 : rd h2 iv = ivb). { rewrite (keeps_rd _ _ _ _ K2 Wi) by auto. auto. }
  pose proof (ext_length _ _ X1) as L01. assert (X2 : ext h0 h2) by (apply (ext_keeps _ _ _ _ X1 K2); intros a []).
  destruct (mCryptDec_spec m bc Rm G h2 iv d enc Wi2 W2 We2) as (r & h3 & Er & Lr & E3 & X3); auto; try lia.
  { now rewrite Re2. } { left. destruct We as (Q & _). lia. }
  rewrite Ri2, Re2 in Er. rewrite Er. cbn [bind]. eapply sim_step; [exact E3|]. clear E3.
  assert (Wp2 : wf (poked h2 d 0 r) d) by (apply poked_wf; auto; destruct W2 as (_ & Q & _); lia).
  assert (W3 : wf h3 d) by (eapply ext_wf; eauto).
  assert (R3 : rd h3 d = r). { rewrite (ext_rd _ _ _ X3 Wp2). rewrite poked_rd by (auto; lia). apply put_all. rewrite (rd_length _ _ W2). lia. }
  assert (X03 : ext h0 h3). { eapply ext_trans; [|exact X3]. apply ext_poked; [exact X2|lia]. }
  assert (rn : r <> []) by (intros ->; cbn in Lr; lia).
  unfold getB. rewrite (proj2 (Nat.ltb_lt _ _)) by lia. unfold mbind at 1. rewrite R3. replace (s_len d - 1) with (List.length r - 1) by lia. rewrite <- last_nth by auto.
  set (ps := last r 0%Z). destruct ((ps =? 0) || (8 <? ps))%Z eqn:C1; [split; [exact X03|reflexivity]|]. unfold zlen. replace (s_len d) with (List.length r) by lia.
  destruct (Z.ltb_spec (Z.of_nat (List.length r)) ps); [split; [exact X03|reflexivity]|].
  pose proof W3 as (_ & Wc & _). unfold from. unfold mbind at 1. rewrite sub_ok by lia. unfold mbind at 1. rewrite sub_ok by lia. unfold mbind at 1, load.
  set (nn := List.length r - Z.to_nat ps) in *. rewrite sub_rd by lia. rewrite R3. rewrite firstn_all2 by (rewrite skipn_length; lia).
  destruct (negb (bytes_eqb _ _)); [split; [exact X03|reflexivity]|]. split; [exact X03|]. cbn [mret snd fst].
  split; [cbn [subS s_arr]; lia|]. split; [apply sub_wf; auto; lia|]. rewrite sub_rd by lia. rewrite R3, Nat.sub_0_r. reflexivity.
Qed.

(** crypto.go:149-164 *)
Lemma mpbEncrypt_sim extra P h0 algo dec pw : prims_ok P -> ai_ok algo -> wf h0 dec -> wf h0 pw -> bytes_ok (rd h0 dec) -> bytes_ok (rd h0 pw) ->
  sim h0 (mpbEncrypt extra P algo dec pw h0) (pbEncrypt P algo (rd h0 dec) (rd h0 pw)) (own h0).
Proof.
  intros HP Ha Wd Wp Od Op. unfold mpbEncrypt, pbEncrypt. pose proof (pbe_good P algo (rd h0 pw) HP Ha Op) as PG.
  eapply (sim_bind _ _ _ _ _ _ (fun h' x y => (mbc_rel (fst x) (fst y) /\ own h0 h' (snd x) (snd y)) /\ pbeCipherFor P algo (rd h0 pw) = Ret y)).
  { pose proof (mpbeCipherFor_sim extra P h0 algo pw HP Wp) as [S1 S2]. split; [exact S1|]. destruct (snd _), (pbeCipherFor _ _ _); auto. }
  intros h1 [m iv] [bc ivb] X1 [(Rm & Ai & Wi & Ri) E]. rewrite E in PG. cbn [fst snd] in *. destruct PG as (G & Oiv & Liv).
  pose proof (rd_length _ _ Wi) as Li. rewrite Ri, Liv in Li. pose proof (rd_length _ _ Wd) as Ldc.
  set (ps := 8 - s_len dec mod 8). assert (Hps : 1 <= ps <= 8) by (unfold ps; pose proof (Nat.mod_upper_bound (s_len dec) 8 ltac:(lia)); lia).
  assert (Eps : (8 - zlen (rd h0 dec) mod 8 = Z.of_nat ps)%Z) by (unfold zlen; rewrite Ldc; unfold ps; lia). rewrite Eps, Nat2Z.id.
  destruct (new_fresh h1 (repeat 0%Z (s_len dec + ps))) as (h2 & d & E2 & W2 & R2 & A2 & K2). eapply sim_step; [exact E2|]. clear E2.
  pose proof (rd_length _ _ W2) as Ld. rewrite R2, repeat_length in Ld. pose proof W2 as (_ & Wdc & _).
  pose proof (ext_wf _ _ _ X1 Wd) as Wd1. pose proof (keeps_wf _ _ _ _ K2 Wd1) as Wd2. assert (Rd2 : rd h2 dec = rd h0 dec). { rewrite (keeps_rd _ _ _ _ K2 Wd1) by auto. now apply ext_rd. }
  pose proof (keeps_wf _ _ _ _ K2 Wi) as Wi2. assert (Ri2 : rd h2 iv = ivb). { rewrite (keeps_rd _ _ _ _ K2 Wi) by auto. auto. }
  pose proof (ext_length _ _ X1) as L01. assert (X2 : ext h0 h2) by (apply (ext_keeps _ _ _ _ X1 K2); intros a []).
  remember (mbind (sub d 0 (s_len dec)) _ h2) as Y eqn:EY.
  unfold mbind at 1 in EY. rewrite sub_ok in EY by lia.
  destruct (copyS_spec h2 (subS d 0 (s_len dec)) dec ltac:(apply sub_wf; auto; lia) Wd2) as (E3 & _ & _). unfold mbind at 1 in EY. rewrite E3 in EY. clear E3.
  cbn [subS s_len] in EY. replace (Nat.min (s_len dec - 0) (s_len dec)) with (s_len dec) in EY by lia. change (mkS (s_arr d) (s_off d + 0) (s_len dec - 0) (s_cap d - 0)) with (subS d 0 (s_len dec)) in EY.
  rewrite poked_sub, Nat.add_0_r, Rd2 in EY. rewrite firstn_all2 in EY by lia. set (h3 := poked h2 d 0 (rd h0 dec)) in *.
  assert (K3 : keeps h2 h3 [s_arr d]) by (apply keeps_poked; auto; lia). pose proof (keeps_wf _ _ _ _ K3 W2) as W3.
  unfold from in EY. unfold mbind at 1 in EY. rewrite sub_ok in EY by lia.
  destruct (new_fresh h3 (repeat (Z.of_nat ps) ps)) as (h4 & p & E4 & W4 & R4 & A4 & K4). unfold mbind at 1 in EY. rewrite E4 in EY. clear E4.
  pose proof (rd_length _ _ W4) as Lp. rewrite R4, repeat_length in Lp. pose proof (keeps_wf _ _ _ _ K4 W3) as Wd4.
  destruct (copyS_spec h4 (subS d (s_len dec) (s_len d)) p ltac:(apply sub_wf; auto; lia) W4) as (E5 & _ & K5). unfold mbind at 1 in EY. rewrite E5 in EY. clear E5.
  cbn [subS s_len s_arr] in EY, K5. replace (Nat.min (s_len d - s_len dec) (s_len p)) with ps in EY, K5 by lia. change (mkS (s_arr d) (s_off d + s_len dec) (s_len d - s_len dec) (s_cap d - s_len dec)) with (subS d (s_len dec) (s_len d)) in EY, K5.
  rewrite poked_sub, Nat.add_0_r, R4 in EY, K5. rewrite firstn_all2 in EY, K5 by (rewrite repeat_length; lia). set (h5 := poked h4 d (s_len dec) (repeat (Z.of_nat ps) ps)) in *.
  set (msg := rd h0 dec ++ repeat (Z.of_nat ps) ps) in *.
  pose proof (keeps_wf _ _ _ _ K5 Wd4) as Wd5. assert (Rd4 : rd h4 d = put (repeat 0%Z (s_len dec + ps)) 0 (rd h0 dec)).
  { rewrite (keeps_rd _ _ _ _ K4 W3) by auto. unfold h3. rewrite poked_rd by (auto; lia). now rewrite R2. }
  assert (Rd5 : rd h5 d = msg).
  { unfold h5. rewrite poked_rd by (auto; rewrite repeat_length; lia). rewrite Rd4. replace (s_len dec) with (0 + List.length (rd h0 dec)) at 2 by lia.
    rewrite put_put by (rewrite !repeat_length; lia). apply put_all. unfold msg. rewrite app_length, !repeat_length. lia. }
  assert (X3 : ext h0 h3) by (apply ext_poked; [exact X2|lia]). assert (X4 : ext h0 h4) by (apply (ext_keeps _ _ _ _ X3 K4); intros a []). assert (X5 : ext h0 h5) by (apply ext_poked; [exact X4|lia]).
  assert (Nid : s_arr iv <> s_arr d). { pose proof Wi as (Q & _). lia. }
  pose proof (keeps_wf _ _ _ _ K3 Wi2) as Wi3. pose proof (keeps_wf _ _ _ _ K4 Wi3) as Wi4. pose proof (keeps_wf _ _ _ _ K5 Wi4) as Wi5.
  assert (Ri5 : rd h5 iv = ivb).
  { rewrite (keeps_rd _ _ _ _ K5 Wi4) by (cbn; intuition congruence). rewrite (keeps_rd _ _ _ _ K4 Wi3) by auto. rewrite (keeps_rd _ _ _ _ K3 Wi2) by (cbn; intuition congruence). exact Ri2. }
  assert (Om : bytes_ok msg). { apply bytes_ok_app; split; [auto|]. apply Forall_forall. intros x Hx. apply repeat_spec in Hx. subst x. unfold byte_ok. lia. }
  assert (Mod : s_len d mod 8 = 0). { rewrite <- Ld. unfold ps. pose proof (Nat.div_mod (s_len dec) 8 ltac:(lia)) as DM. pose proof (Nat.mod_upper_bound (s_len dec) 8 ltac:(lia)).
    replace (s_len dec + (8 - s_len dec mod 8)) with ((s_len dec / 8 + 1) * 8) by lia. apply Nat.mod_mul. lia. }
  destruct (mCryptEnc_spec m bc Rm G h5 iv d d) as (r & h6 & Er & Lr & E6 & X6); auto; try lia.
  { now rewrite Ri5. } { now rewrite Rd5. } { now right. }
  rewrite Ri5, Rd5 in Er. rewrite Er. unfold mbind in EY. rewrite E6 in EY. unfold mret in EY. rewrite EY.
  assert (X06 : ext h0 h6). { eapply ext_trans; [|exact X6]. apply ext_poked; [exact X5|lia]. }
  assert (Wp6 : wf (poked h5 d 0 r) d) by (apply poked_wf; auto; lia).
  split; [exact X06|]. cbn [snd fst]. split; [lia|]. split; [exact (ext_wf _ _ _ X6 Wp6)|].
  transitivity (rd (poked h5 d 0 r) d); [exact (ext_rd _ _ _ X6 Wp6)|]. rewrite poked_rd by (auto; lia). apply put_all. rewrite (rd_length _ _ Wd5). lia.
Qed.
