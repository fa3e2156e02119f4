(** * sm2.Encryt and sm2.Decryt on memory (MemSM) against the list models *)
From Coq Require Import PeanoNat.
From Verif Require Import Base Words SM3Spec SM3Model SM3Proofs ECSpec ECModel ECProofs BaseOrder SM2Model SM2EncProofs Mem MemSM MemSMProofs.
Local Open Scope nat_scope.

Lemma put_upd l i v : i < List.length l -> put l i [v] = upd l i v.
Proof.
  intros H. unfold put. cbn [List.length app]. revert l H. induction i; intros [|x l] H; cbn in *; try lia; auto.
  f_equal. rewrite <- IHi by lia. reflexivity.
Qed.
Lemma mxor_spec : forall n h c m k j, wf h c -> wf h m -> s_arr c <> s_arr m -> j + n <= s_len m ->
  match xor_loop (rd h c) k (firstn n (skipn j (rd h m))) with
  | Ret b => exists h', mxor_loop n c m k j h = (h', Ret tt) /\ rd h' c = b /\ keeps h h' [s_arr c]
  | Panic => exists h', mxor_loop n c m k j h = (h', Panic) /\ keeps h h' [s_arr c]
  | Err _ => False
  end.
Proof.
  induction n as [|n IH]; intros h c m k j Wc Wm N L.
  { cbn [firstn xor_loop mxor_loop]. exists h. split; [reflexivity|]. split; [reflexivity|apply keeps_refl]. }
  assert (Lm : List.length (rd h m) = s_len m) by (apply rd_length; auto). assert (Lc : List.length (rd h c) = s_len c) by (apply rd_length; auto).
  assert (Es : skipn j (rd h m) = nth j (rd h m) 0%Z :: skipn (S j) (rd h m)).
  { clear - L Lm. revert Lm. generalize (rd h m) as l. generalize (s_len m) as q, L. clear. intros q L l Hl. subst q. revert l L.
    induction j; intros [|x l] L; cbn in *; try lia; auto. apply IHj. lia. }
  rewrite Es. cbn [firstn xor_loop]. rewrite Lc.
  remember (mxor_loop (S n) c m k j h) as X eqn:EX. cbn [mxor_loop] in EX. unfold mbind at 1, getB at 1 in EX.
  destruct (Nat.ltb_spec k (s_len c)) as [Hk|Hk].
  2:{ exists h. split; [exact EX|apply keeps_refl]. }
  unfold mbind at 1, getB in EX. rewrite (proj2 (Nat.ltb_lt j (s_len m)) ltac:(lia)) in EX. unfold mbind at 1, setB in EX. rewrite (proj2 (Nat.ltb_lt k (s_len c)) Hk) in EX.
  unfold poke in EX. set (v := Z.lxor _ _) in *. fold (poked h c k [v]) in EX. set (h1 := poked h c k [v]) in *.
  pose proof Wc as (_ & Wcc & _).
  assert (K1 : keeps h h1 [s_arr c]) by (apply keeps_poked; auto; cbn; lia).
  assert (R1 : rd h1 c = upd (rd h c) k v). { unfold h1. rewrite poked_rd by (auto; cbn; lia). apply put_upd. lia. }
  assert (Wc1 : wf h1 c) by (eapply keeps_wf; eauto). assert (Wm1 : wf h1 m) by (eapply keeps_wf; eauto).
  pose proof (IH h1 c m (S k) (S j) Wc1 Wm1 N ltac:(lia)) as G. rewrite R1, (keeps_rd _ _ _ m K1 Wm) in G by notin.
  destruct (xor_loop _ _ _) as [b| |]; [|contradiction|].
  - destruct G as (h2 & G1 & G2 & G3). exists h2. split; [congruence|]. split; [exact G2|]. eapply keeps_trans; eauto.
  - destruct G as (h2 & G1 & G3). exists h2. split; [congruence|]. eapply keeps_trans; eauto.
Qed.
Lemma appendNum_spec extra h c n : wf h c -> exists h' c', appendNum extra c n h = (h', Ret c') /\ wf h' c' /\ rd h' c' = rd h c ++ big_bytes n /\
  keeps h h' [s_arr c] /\ (s_arr c' = s_arr c \/ List.length h <= s_arr c').
Proof.
  intros W. unfold appendNum. destruct (new_fresh h (big_bytes n)) as (h1 & s & E1 & W1 & R1 & A1 & K1). unfold mbind. rewrite E1.
  assert (Wc : wf h1 c) by (eapply keeps_wf; eauto). destruct (appendS_spec extra h1 c s Wc) as (h2 & c' & E2 & W2 & R2 & _ & K2 & A2).
  exists h2, c'. split; [exact E2|]. split; [exact W2|]. split; [rewrite R2, R1; f_equal; apply (keeps_rd _ _ _ c K1 W); intros []|].
  split; [apply (keeps_trans h h1 h2 [] [s_arr c]); auto; intros a []|]. pose proof (proj1 K1). destruct A2; [now left|right; lia].
Qed.

(** sm2.go:385-417 *)
Definition enc_rel (h0 h : heap) (x : slc * bytes) (y : bytes * bytes) : Prop := own h0 h (fst x) (fst y) /\ snd x = snd y.
Lemma mencrypt_loop_sim extra h0 pub msg : wf h0 msg -> forall fuel rand h, ext h0 h ->
  sim h0 (mencrypt_loop extra fuel rand pub msg h) (encrypt_loop fuel rand pub (rd h0 msg)) (enc_rel h0).
Proof.
  intros Wm0. induction fuel as [|fuel IH]; intros rand h E; cbn [mencrypt_loop encrypt_loop]; [split; [exact E|reflexivity]|].
  (* c := []byte{} *)
  destruct (new_fresh h []) as (h1 & c0 & S1 & W1 & R1 & A1 & K1). eapply sim_step; [exact S1|]. cbv beta.
  assert (E1 : ext h0 h1) by (apply (ext_keeps h0 h h1 [] E K1); intros a []).
  eapply sim_bind; [apply (sim_lift h0 h1 (nextk rand) (fun h' a b => h' = h1 /\ a = b)); auto|]. cbv beta.
  intros h' [k rnd] [k' rnd'] _ [-> [= <- <-]]. cbv beta iota zeta.
  eapply sim_bind; [apply (sim_lift h0 h1 (sm2_ScalarBaseMult (big_bytes k)) (fun h' a b => h' = h1 /\ a = b)); auto|]. cbv beta.
  intros h' c1 b1 _ [-> <-].
  (* c = append(c, c1x...); c = append(c, c1y...) *)
  destruct (appendNum_spec extra h1 c0 (fst c1) W1) as (h2 & c2 & S2 & W2 & R2 & K2 & A2). eapply sim_step; [exact S2|]. cbv beta.
  destruct (appendNum_spec extra h2 c2 (snd c1) W2) as (h3 & c3 & S3 & W3 & R3 & K3 & A3). eapply sim_step; [exact S3|]. cbv beta.
  assert (Lh0 : List.length h0 <= List.length h) by (apply ext_length; auto).
  pose proof (proj1 K1) as L1. pose proof (proj1 K2) as L2. pose proof (proj1 K3) as L3.
  assert (Ac2 : List.length h <= s_arr c2) by (destruct A2; lia). assert (Ac3 : List.length h <= s_arr c3) by (destruct A3; lia).
  assert (K02 : keeps h h2 []) by (apply (keeps_trans h h1 h2 [] [s_arr c0]); auto; intros a [<-|[]]; right; lia).
  assert (K03 : keeps h h3 []) by (apply (keeps_trans h h2 h3 [] [s_arr c2]); auto; intros a [<-|[]]; right; lia).
  assert (E3 : ext h0 h3) by (apply (ext_keeps h0 h h3 [] E K03); intros a []).
  eapply sim_bind; [apply (sim_lift h0 h3 (sm2_ScalarMult (pk_X pub) (pk_Y pub) (big_bytes k)) (fun h' a b => h' = h3 /\ a = b)); auto|]. cbv beta.
  intros h' kp bp _ [-> <-].
  (* the hashed string *)
  destruct (new_fresh h3 []) as (h4 & t0 & S4 & W4 & R4 & A4 & K4). eapply sim_step; [exact S4|]. cbv beta.
  destruct (appendNum_spec extra h4 t0 (fst kp) W4) as (h5 & t5 & S5 & W5 & R5 & K5 & A5). eapply sim_step; [exact S5|]. cbv beta.
  pose proof (proj1 K4) as L4. pose proof (proj1 K5) as L5. pose proof (proj1 W3) as B3.
  assert (At5 : List.length h3 <= s_arr t5) by (destruct A5; lia).
  assert (K35 : keeps h3 h5 []) by (apply (keeps_trans h3 h4 h5 [] [s_arr t0]); auto; intros a [<-|[]]; right; lia).
  assert (E5 : ext h0 h5) by (apply (ext_keeps h0 h3 h5 [] E3 K35); intros a []).
  destruct (appendS_spec extra h5 t5 msg W5) as (h6 & t6 & S6 & W6 & R6 & _ & K6 & A6). eapply sim_step; [exact S6|]. cbv beta.
  destruct (appendNum_spec extra h6 t6 (snd kp) W6) as (h7 & t7 & S7 & W7 & R7 & K7 & A7). eapply sim_step; [exact S7|]. cbv beta.
  pose proof (proj1 K6) as L6. pose proof (proj1 K7) as L7.
  assert (At6 : List.length h3 <= s_arr t6) by (destruct A6; lia).
  assert (K36 : keeps h3 h6 []) by (apply (keeps_trans h3 h5 h6 [] [s_arr t5]); auto; intros a [<-|[]]; right; lia).
  assert (K37 : keeps h3 h7 []) by (apply (keeps_trans h3 h6 h7 [] [s_arr t6]); auto; intros a [<-|[]]; right; lia).
  assert (Rt : rd h7 t7 = big_bytes (fst kp) ++ rd h0 msg ++ big_bytes (snd kp)).
  { rewrite R7, R6, R5, R4, (ext_rd h0 h5 msg E5 Wm0). rewrite <- app_assoc. reflexivity. }
  pose proof (mSum3_spec h7 t7 W7) as S8. rewrite Rt in S8.
  destruct (sm3_Sum (big_bytes (fst kp) ++ rd h0 msg ++ big_bytes (snd kp))) as [hb| |]; [|contradiction|].
  2:{ cbn [bind]. destruct S8 as (h8 & S8 & K8). unfold mbind at 1. rewrite S8. split; [|exact I]. cbn [fst].
      apply (ext_keeps h0 h7 h8 []); [apply (ext_keeps h0 h3 h7 [] E3 K37); intros a []|exact K8|intros a []]. }
  destruct S8 as (h8 & hs & S8 & W8 & R8 & A8 & K8). cbn [bind]. eapply sim_step; [exact S8|]. cbv beta.
  assert (K38 : keeps h3 h8 []) by (apply (keeps_trans h3 h7 h8 [] []); auto).
  assert (Wc8 : wf h8 c3) by exact (keeps_wf _ _ _ _ K38 W3).
  assert (Rc8 : rd h8 c3 = big_bytes (fst c1) ++ big_bytes (snd c1)).
  { rewrite (keeps_rd _ _ _ c3 K38 W3) by (intros []). rewrite R3, R2, R1. reflexivity. }
  destruct (appendS_spec extra h8 c3 hs Wc8) as (h9 & c9 & S9 & W9 & R9 & _ & K9 & A9). eapply sim_step; [exact S9|]. cbv beta.
  rewrite R8, Rc8 in R9. pose proof (proj1 K38) as L8. pose proof (proj1 K9) as L9.
  assert (Ac9 : List.length h <= s_arr c9) by (destruct A9; lia).
  assert (K09 : keeps h h9 []).
  { apply (keeps_trans h h3 h9 [] [s_arr c3]); auto; [|intros a [<-|[]]; right; lia].
    apply (keeps_trans h3 h8 h9 [] [s_arr c3]); auto. intros a []. }
  assert (E9 : ext h0 h9) by (apply (ext_keeps h0 h h9 [] E K09); intros a []).
  assert (Lm : Z.of_nat (s_len msg) = zlen (rd h0 msg)) by (unfold zlen; now rewrite rd_length).
  rewrite Lm.
  (* t := kdf(len(msg), x2, y2) *)
  pose proof (mkdf_sim extra h9 (zlen (rd h0 msg)) (fst kp) (snd kp)) as [X10 S10].
  destruct (mkdf extra (zlen (rd h0 msg)) (fst kp) (snd kp) h9) as [h10 o10] eqn:Ek. cbn [fst snd] in X10, S10.
  unfold mbind at 1. rewrite Ek.
  assert (E10 : ext h0 h10) by (eapply ext_trans; eauto).
  destruct (kdf (zlen (rd h0 msg)) (fst kp) (snd kp)) as [t'|e'|]; cbn [bind].
  2:{ destruct o10 as [| |]; try contradiction. split; [exact E10|]. exact S10. }
  2:{ destruct o10 as [| |]; try contradiction. split; [exact E10|]. exact I. }
  destruct o10 as [t| |]; try contradiction. unfold oown in S10.
  destruct t as [t|], t' as [tb|]; try contradiction; [|apply IH; exact E10].
  destruct S10 as (At & Wt & Rtb).
  (* c = append(c, t...) *)
  assert (K910 : keeps h9 h10 []) by (now apply ext_is_keeps).
  assert (Wc10 : wf h10 c9) by exact (keeps_wf _ _ _ _ K910 W9).
  assert (Rc10 : rd h10 c9 = (big_bytes (fst c1) ++ big_bytes (snd c1)) ++ hb) by (rewrite (keeps_rd _ _ _ c9 K910 W9); [exact R9|intros []]).
  destruct (appendS_spec extra h10 c9 t Wc10) as (h11 & c11 & S11 & W11 & R11 & _ & K11 & A11). eapply sim_step; [exact S11|]. cbv beta.
  rewrite Rc10, Rtb in R11. pose proof (proj1 K910) as L10.
  assert (Ac11 : List.length h <= s_arr c11) by (destruct A11; lia).
  assert (E11 : ext h0 h11) by (apply (ext_keeps h0 h10 h11 _ E10 K11); intros a [<-|[]]; lia).
  assert (Wm11 : wf h11 msg) by exact (ext_wf _ _ _ E11 Wm0). pose proof (proj1 Wm0) as Bm.
  (* the loop *)
  pose proof (mxor_spec (s_len msg) h11 c11 msg 96 0 W11 Wm11 ltac:(lia) ltac:(lia)) as S12.
  rewrite (ext_rd h0 h11 msg E11 Wm0), R11 in S12. cbn [skipn] in S12. rewrite (firstn_all2 (rd h0 msg)) in S12 by (rewrite rd_length; auto).
  destruct (xor_loop _ 96 (rd h0 msg)) as [cb| |]; [|contradiction|]; cbn [bind].
  2:{ destruct S12 as (h12 & S12 & K12). unfold mbind at 1. rewrite S12. split; [|exact I]. apply (ext_keeps h0 h11 h12 _ E11 K12). intros a [<-|[]]; lia. }
  destruct S12 as (h12 & S12 & R12 & K12). eapply sim_step; [exact S12|]. cbv beta.
  assert (E12 : ext h0 h12) by (apply (ext_keeps h0 h11 h12 _ E11 K12); intros a [<-|[]]; lia).
  destruct (new_fresh h12 [4%Z]) as (h13 & f & S13 & W13 & R13 & A13 & K13). eapply sim_step; [exact S13|]. cbv beta.
  assert (E13 : ext h0 h13) by (apply (ext_keeps h0 h12 h13 _ E12 K13); intros a []).
  assert (Wc12 : wf h12 c11) by exact (keeps_wf _ _ _ _ K12 W11).
  destruct (appendS_spec extra h13 f c11 W13) as (h14 & r & S14 & W14 & R14 & _ & K14 & A14). eapply sim_step; [exact S14|].
  pose proof (ext_length _ _ E12) as L12. pose proof (ext_length _ _ E13) as L13.
  apply sim_ret; [apply (ext_keeps h0 h13 h14 _ E13 K14); intros a [<-|[]]; lia|].
  split; [|reflexivity]. split; [cbn [fst]; destruct A14; lia|]. split; [exact W14|]. cbn [fst]. rewrite R14, R13.
  rewrite (keeps_rd _ _ _ c11 K13 Wc12), R12 by (intros []). reflexivity.
Qed.
Lemma mEncryt_sim extra h rand pub msg : wf h msg -> sim h (mEncryt extra rand pub msg h) (Encryt rand pub (rd h msg)) (enc_rel h).
Proof. intros W. apply mencrypt_loop_sim; auto. apply ext_refl. Qed.

(** sm2.go:453-493.  With 65 bytes or more every slice expression stays inside the length. *)
Definition dec_rel (h0 h : heap) (x : option slc * option string) (y : bytes * option string) : Prop :=
  snd x = snd y /\ match fst x with Some s => own h0 h s (fst y) | None => fst y = [] /\ snd y <> None end.
Lemma mDecryt_sim extra h0 priv data : wf h0 data -> 65 <= s_len data ->
  sim h0 (mDecryt extra priv data h0) (Decryt priv (rd h0 data)) (dec_rel h0).
Proof.
  intros Wd Ld. unfold mDecryt, Decryt, from. pose proof Wd as (Bd & Wcap & _).
  assert (Lr : List.length (rd h0 data) = s_len data) by (apply rd_length; auto).
  eapply sim_step; [apply sub_ok; lia|]. unfold slice at 1. rewrite Lr. rewrite (proj2 (Nat.leb_le 1 (s_len data))) by lia. rewrite Nat.leb_refl. cbn [andb bind]. cbv beta.
  set (d := subS data 1 (s_len data)). assert (W : wf h0 d) by (apply sub_wf; auto; lia).
  assert (R : rd h0 d = firstn (s_len data - 1) (skipn 1 (rd h0 data))) by (unfold d; rewrite sub_rd by lia; reflexivity).
  rewrite <- R. assert (L : s_len d = s_len data - 1) by reflexivity. assert (Ln : List.length (rd h0 d) = s_len d) by (apply rd_length; auto).
  assert (Ad : s_arr d = s_arr data) by reflexivity.
  pose proof W as (_ & Wc & _). clearbody d.
  eapply sim_step; [apply sub_ok; lia|]. unfold slice at 1. rewrite (proj2 (Nat.leb_le 32 (List.length (rd h0 d)))) by lia. cbn [Nat.leb andb bind]. cbv beta.
  eapply sim_step; [reflexivity|]. cbv beta zeta. rewrite sub_rd by lia.
  set (x := be_to_Z (firstn (32 - 0) (skipn 0 (rd h0 d)))).
  eapply sim_step; [apply sub_ok; lia|]. unfold slice at 1. rewrite (proj2 (Nat.leb_le 64 (List.length (rd h0 d)))) by lia. rewrite (proj2 (Nat.leb_le 32 64)) by lia. cbn [andb bind]. cbv beta.
  eapply sim_step; [reflexivity|]. cbv beta zeta. rewrite sub_rd by lia.
  set (y := be_to_Z (firstn (64 - 32) (skipn 32 (rd h0 d)))). clearbody x y.
  assert (Nil : forall e, sim h0 (mret (@None slc, Some e) h0) (Ret (@nil Z, Some e)) (dec_rel h0)).
  { intros e. apply sim_ret; [apply ext_refl|]. split; [reflexivity|]. split; [reflexivity|discriminate]. }
  destruct ((sm2_P <=? x) || (sm2_P <=? y))%Z; [apply Nil|]. destruct (negb (sm2_IsOnCurve x y)); [apply Nil|].
  eapply sim_bind; [apply (sim_lift h0 h0 (sm2_ScalarMult x y (big_bytes 1)) (fun h' a b => h' = h0 /\ a = b)); auto; apply ext_refl|]. cbv beta.
  intros h' sxy b _ [-> <-]. destruct ((fst sxy =? 0) && (snd sxy =? 0))%Z; [apply Nil|].
  eapply sim_bind; [apply (sim_lift h0 h0 (sm2_ScalarMult x y (big_bytes (sk_D priv))) (fun h' a b => h' = h0 /\ a = b)); auto; apply ext_refl|]. cbv beta zeta.
  intros h' xy2 b _ [-> <-].
  assert (Lz : zlen (rd h0 d) = Z.of_nat (s_len d)) by (unfold zlen; now rewrite Ln). rewrite Lz.
  destruct (Z.le_gt_cases (Z.of_nat (s_len d) - 96) 0) as [Hneg|Hpos].
  { pose proof (mkdf_sim extra h0 (Z.of_nat (s_len d) - 96) (fst xy2) (snd xy2)) as Sk. rewrite kdf_nonpos in * by lia.
    change (do t <- Ret None; match t with Some c => do c0 <- xor_loop c 0 (skipn 96 (rd h0 d)); do hash <- sm3_Sum (big_bytes (fst xy2) ++ c0 ++ big_bytes (snd xy2)); do c3 <- slice (rd h0 d) 64 96;
        (if negb (bytes_eqb hash c3) then Ret (c0, Some "failed to decrypt:hash compared error"%string) else Ret (c0, None)) | None => Ret ([], Some "failed to decrypt:kdf error"%string) end)
      with (@Ret (bytes * option string) ([], Some "failed to decrypt:kdf error"%string)).
    destruct Sk as [E Sk]. unfold mbind at 1. destruct (mkdf extra _ _ _ h0) as [h1 [o| |]]; cbn [fst snd] in *; try contradiction.
    destruct o as [|]; [contradiction|]. apply sim_ret; [exact E|]. split; [reflexivity|]. split; [reflexivity|discriminate]. }
  eapply sim_bind; [apply mkdf_sim|]. intros h1 t t' E1 Ht.
  destruct t as [c|], t' as [cb|]; try contradiction.
  2:{ apply sim_ret; [exact E1|]. split; [reflexivity|]. split; [reflexivity|discriminate]. }
  destruct Ht as (Ac & Wc1 & Rc1).
  assert (Wd1 : wf h1 d) by exact (ext_wf _ _ _ E1 W).
  replace (Z.to_nat (Z.of_nat (s_len d) - 96)) with (s_len d - 96) by lia.
  pose proof (mxor_spec (s_len d - 96) h1 c d 0 96 Wc1 Wd1 ltac:(lia) ltac:(lia)) as S2.
  rewrite Rc1, (ext_rd _ _ _ E1 W) in S2. rewrite (firstn_all2 (skipn 96 (rd h0 d))) in S2 by (rewrite skipn_length; lia).
  destruct (xor_loop cb 0 (skipn 96 (rd h0 d))) as [pb| |]; [|contradiction|].
  2:{ destruct S2 as (h2 & S2 & K2). cbn [bind]. unfold mbind at 1. rewrite S2. split; [|exact I]. apply (ext_keeps h0 h1 h2 _ E1 K2). intros a [<-|[]]; auto. }
  destruct S2 as (h2 & S2 & R2 & K2). cbn [bind]. eapply sim_step; [exact S2|]. cbv beta.
  assert (E2 : ext h0 h2) by (apply (ext_keeps h0 h1 h2 _ E1 K2); intros a [<-|[]]; auto).
  assert (Wc2 : wf h2 c) by exact (keeps_wf _ _ _ _ K2 Wc1).
  destruct (new_fresh h2 []) as (h3 & t3 & S3 & W3 & R3 & A3 & K3). eapply sim_step; [exact S3|]. cbv beta.
  destruct (appendNum_spec extra h3 t3 (fst xy2) W3) as (h4 & t4 & S4 & W4 & R4 & K4 & A4). eapply sim_step; [exact S4|]. cbv beta.
  pose proof (proj1 K3) as L3. pose proof (proj1 K4) as L4. pose proof (proj1 Wc2) as Bc.
  assert (At4 : List.length h2 <= s_arr t4) by (destruct A4; lia).
  assert (K24 : keeps h2 h4 []) by (apply (keeps_trans h2 h3 h4 [] [s_arr t3]); auto; intros a [<-|[]]; right; lia).
  destruct (appendS_spec extra h4 t4 c W4) as (h5 & t5 & S5 & W5 & R5 & _ & K5 & A5). eapply sim_step; [exact S5|]. cbv beta.
  assert (At5 : List.length h2 <= s_arr t5) by (destruct A5; lia).
  assert (K25 : keeps h2 h5 []) by (apply (keeps_trans h2 h4 h5 [] [s_arr t4]); auto; intros a [<-|[]]; right; lia).
  destruct (appendNum_spec extra h5 t5 (snd xy2) W5) as (h6 & t6 & S6 & W6 & R6 & K6 & A6). eapply sim_step; [exact S6|]. cbv beta.
  assert (K26 : keeps h2 h6 []) by (apply (keeps_trans h2 h5 h6 [] [s_arr t5]); auto; intros a [<-|[]]; right; lia).
  assert (Rt : rd h6 t6 = big_bytes (fst xy2) ++ pb ++ big_bytes (snd xy2)).
  { rewrite R6, R5, R4, R3, (keeps_rd _ _ _ c K24 Wc2), R2 by (intros []). rewrite <- app_assoc. reflexivity. }
  pose proof (mSum3_spec h6 t6 W6) as S7. rewrite Rt in S7.
  destruct (sm3_Sum (big_bytes (fst xy2) ++ pb ++ big_bytes (snd xy2))) as [hb| |]; [|contradiction|].
  2:{ cbn [bind]. destruct S7 as (h7 & S7 & K7). unfold mbind at 1. rewrite S7. split; [|exact I]. apply (ext_keeps h0 h2 h7 [] E2); [|intros a []].
      apply (keeps_trans h2 h6 h7 [] []); auto. }
  destruct S7 as (h7 & hs & S7 & W7 & R7 & A7 & K7). cbn [bind]. eapply sim_step; [exact S7|]. cbv beta.
  assert (K27 : keeps h2 h7 []) by (apply (keeps_trans h2 h6 h7 [] []); auto).
  assert (E7 : ext h0 h7) by (apply (ext_keeps h0 h2 h7 [] E2 K27); intros a []).
  eapply sim_step; [apply sub_ok; lia|]. unfold slice. rewrite (proj2 (Nat.leb_le 96 (List.length (rd h0 d)))) by lia. rewrite (proj2 (Nat.leb_le 64 96)) by lia. cbn [andb bind]. cbv beta.
  eapply sim_step; [reflexivity|]. eapply sim_step; [reflexivity|]. cbv beta. rewrite R7, sub_rd, (ext_rd _ _ _ E7 W) by lia.
  assert (Oc : own h0 h7 c pb).
  { split; [exact Ac|]. split; [exact (keeps_wf _ _ _ _ K27 Wc2)|]. rewrite (keeps_rd _ _ _ c K27 Wc2); [exact R2|intros []]. }
  destruct (negb (bytes_eqb hb _)); (apply sim_ret; [exact E7|split; [reflexivity|exact Oc]]).
Qed.
(** shorter input: bytes behind the length may be looked at when the capacity allows it, but nothing is ever decrypted *)
Lemma mDecryt_short extra h0 priv data : wf h0 data -> s_len data < 65 ->
  exists h', ext h0 h' /\ (mDecryt extra priv data h0 = (h', Panic) \/ exists e, mDecryt extra priv data h0 = (h', Ret (None, Some e))).
Proof.
  intros Wd Ld. remember (mDecryt extra priv data h0) as X eqn:EX. unfold mDecryt, from in EX.
  assert (P : X = (h0, Panic) -> exists h', ext h0 h' /\ (X = (h', Panic) \/ exists e, X = (h', Ret (None, Some e)))).
  { intros H. exists h0. split; [apply ext_refl|now left]. }
  assert (Q : forall e, X = (h0, Ret (None, Some e)) -> exists h', ext h0 h' /\ (X = (h', Panic) \/ exists e, X = (h', Ret (None, Some e)))).
  { intros e H. exists h0. split; [apply ext_refl|]. right. now exists e. }
  unfold mbind at 1 in EX. unfold sub at 1 in EX. destruct ((1 <=? s_len data) && (s_len data <=? s_cap data)) eqn:Eb; [|apply P; exact EX].
  unfold mret at 1 in EX. set (d := mkS _ _ _ _) in *. assert (L : s_len d < 64) by (cbn; apply andb_prop in Eb as [Eb _]; apply Nat.leb_le in Eb; lia). clearbody d.
  unfold mbind at 1 in EX. unfold sub at 1 in EX. destruct (_ && _) in EX; [|apply P; exact EX].
  unfold mret at 1, mbind at 1, load at 1 in EX. unfold mbind at 1 in EX. unfold sub at 1 in EX. destruct (_ && _) in EX; [|apply P; exact EX].
  unfold mret at 1, mbind at 1, load at 1 in EX.
  set (x := be_to_Z _) in EX. set (y := be_to_Z _) in EX. clearbody x y.
  destruct (_ || _) in EX; [eapply Q; exact EX|]. destruct (negb _) in EX; [eapply Q; exact EX|].
  destruct (sm2_ScalarMult_returns x y (big_bytes 1)) as (A1 & M1 & _). rewrite M1 in EX. unfold mbind at 1, mlift at 1 in EX.
  destruct (_ && _) in EX; [eapply Q; exact EX|].
  destruct (sm2_ScalarMult_returns x y (big_bytes (sk_D priv))) as (A2 & M2 & _). rewrite M2 in EX. unfold mbind at 1, mlift at 1 in EX.
  pose proof (mkdf_sim extra h0 (Z.of_nat (s_len d) - 96) (fst (enc A2)) (snd (enc A2))) as [E3 S3].
  rewrite kdf_nonpos in S3 by lia. unfold mbind at 1 in EX. destruct (mkdf extra _ _ _ h0) as [h3 o3]; cbn [fst snd] in *.
  destruct o3 as [o3| |]; try contradiction. destruct o3 as [|]; [contradiction|].
  exists h3. split; [exact E3|]. right. eexists. exact EX.
Qed.
