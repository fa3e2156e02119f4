(** * Properties C107-C109: memory (package pkcs12).  Slices are windows on arrays that may overlap and have spare capacity;
    [extra], the growth policy of append, is arbitrary. *)
From Coq Require Import PeanoNat String ZifyNat.
From Verif Require Import Base Words RC2Spec RC2Model RC2Proofs PbkdfSpec PbkdfModel PbkdfProofs PropertiesP12Prim Asn1 KeysModel P12Spec P12Model P12Proofs PropertiesP12 Mem MemSM MemSMProofs MemP12 MemPbkdf MemCbc MemPbe.
Local Open Scope nat_scope.

(** the call [x] in the memory h ends as o says; a result is in an array that was not there before; no byte that was there
    before has changed *)
Definition returns_in_memory (h : heap) (x : heap * outcome slc) (o : outcome bytes) : Prop :=
  ext h (fst x) /\
  match o with
  | Ret b => exists s, snd x = Ret s /\ rd (fst x) s = b /\ wf (fst x) s /\ List.length h <= s_arr s
  | Err e => snd x = Err e
  | Panic => snd x = Panic
  end.
Lemma sim_returns h x o : sim h x o (own h) -> returns_in_memory h x o.
Proof.
  intros [E S]. split; [exact E|]. destruct o as [b|e|], (snd x) as [s|e'|]; try contradiction; try congruence.
  destruct S as (A & W & R). exists s. auto.
Qed.

(** ** C107.  pbkdf: D, I, A, B and the temporary buffer of the last block are kept apart, although append(D, I...) may write
    behind D in every pass *)
Theorem C107_pbkdf : forall extra hash h u v salt password r ID size,
  (forall b, hash b <> []) -> (0 < u)%Z -> 0 < v -> wf h salt -> wf h password ->
  returns_in_memory h (mpbkdf extra hash u v salt password r ID size h)
    (pbkdf hash u (Z.of_nat v) (rd h salt) (rd h password) r ID size).
Proof. intros. apply sim_returns. now apply mpbkdf_sim. Qed.
Print Assumptions C107_pbkdf.
(** with SHA-1's sizes: the key derivation of RFC 7292 *)
Theorem C107_kdf : forall extra H h salt password r ID size, (forall x, zlen (H x) = 20%Z) -> (forall x, bytes_ok (H x)) ->
  wf h salt -> wf h password -> bytes_ok (rd h salt) -> bytes_ok (rd h password) -> (1 <= r)%Z -> (0 <= size)%Z ->
  returns_in_memory h (mpbkdf extra H 20 64 salt password r ID size h) (Ret (kdf H 20 64 (rd h salt) (rd h password) (Z.to_nat r) ID (Z.to_nat size))).
Proof.
  intros extra H h salt password r ID size HL HO Ws Wp Os Op Hr Hz.
  rewrite <- (C37_pbkdf H HL HO) by auto. apply (C107_pbkdf extra H h 20 64); auto; [|lia|lia].
  intros b Hb. specialize (HL b). rewrite Hb in HL. discriminate HL.
Qed.
Print Assumptions C107_kdf.
(** salt and password overlap, in one array with spare capacity *)
Definition h107 : heap := [[1; 2; 3; 4; 5; 6; 7; 8; 9; 10]%Z].
Example C107_instance : wf h107 (mkS 0 1 4 9) /\ wf h107 (mkS 0 3 6 7) /\
  let '(h, o) := mpbkdf (fun _ _ => 3) (sha1 toy) 20 64 (mkS 0 1 4 9) (mkS 0 3 6 7) 2 1 24 h107 in
  match o with Ret s => rd h s = kdf (sha1 toy) 20 64 [2; 3; 4; 5]%Z [4; 5; 6; 7; 8; 9]%Z 2 1 24 /\ firstn 1 h = h107 | _ => False end.
Proof. split; [|split]; [split; [|split]; cbn; lia..|]. vm_compute. split; reflexivity. Qed.

(** ** C108.  The RC2 block functions read the whole block before they write: dst and src may overlap in any way *)
Definition front8 (s : slc) : slc := mkS (s_arr s) (s_off s) 8 (s_cap s).
(** t shares no byte with the first 8 bytes of s *)
Definition apart8 (s t : slc) : Prop := s_arr t <> s_arr s \/ s_off t + s_len t <= s_off s \/ s_off s + 8 <= s_off t.
Lemma front8_sub s : front8 s = subS s 0 8.
Proof. unfold front8, subS. f_equal; lia. Qed.
Lemma get16_front (l : bytes) i : i + 1 < 8 -> get16 (firstn 8 l) i = get16 l i.
Proof.
  intros H. unfold get16. assert (N : forall j, j < 8 -> nth j (firstn 8 l) 0%Z = nth j l 0%Z).
  { clear. intros j. generalize 8 as n. intros n. revert j l. induction n; intros j l Hj; [lia|]. destruct l; [now rewrite firstn_nil|]. destruct j; [reflexivity|]. cbn. apply IHn. lia. }
  rewrite !N by lia. reflexivity.
Qed.
Lemma poked_front h dst c : wf h dst -> 8 <= s_len dst -> List.length c = 8 ->
  rd (poked h dst 0 c) (front8 dst) = c /\ (forall t, wf h t -> apart8 dst t -> rd (poked h dst 0 c) t = rd h t).
Proof.
  intros W L Lc. pose proof W as (_ & Wc & _). split.
  - rewrite front8_sub, sub_rd by lia. rewrite poked_rd by (auto; lia). unfold put. cbn [firstn app skipn]. rewrite firstn_app, firstn_all2 by lia.
    replace (8 - 0 - List.length c) with 0 by lia. cbn. apply app_nil_r.
  - intros t Wt [A|[A|A]]; [apply poked_other; congruence|apply poked_before; auto; lia|apply poked_behind; auto; lia].
Qed.
Theorem C108_rc2_encrypt : forall key t1 K c h dst src, bytes_ok key -> (1 <= zlen key <= 128)%Z -> (1 <= t1 <= 1024)%Z ->
  key_schedule key t1 K -> rc2_New key t1 = Ret c -> wf h dst -> wf h src -> 8 <= s_len dst -> 8 <= s_len src -> bytes_ok (rd h (front8 src)) ->
  exists h', mrc2_Encrypt c dst src h = (h', Ret tt) /\ rd h' (front8 dst) = rc2_block K (rd h (front8 src)) /\
    (forall t, wf h t -> apart8 dst t -> rd h' t = rd h t).
Proof.
  intros key t1 K c h dst src Hk Lk Ht S E W V L M O. destruct (mrc2_Encrypt_spec c h dst src W V L M) as (x & Ex & Lx & Em).
  exists (poked h dst 0 x). split; [exact Em|]. destruct (poked_front h dst x W L Lx) as [A B]. split; [|exact B]. rewrite A.
  assert (F : rd h (front8 src) = firstn 8 (rd h src)) by (rewrite front8_sub, sub_rd by lia; reflexivity). pose proof V as (_ & Vc & _). pose proof (rd_length h src V) as Lr.
  destruct (C36_encrypt key t1 K (rd h (front8 src)) Hk Lk Ht O) as (c' & E' & X).
  { unfold zlen. rewrite F, firstn_length. lia. } { exact S. }
  assert (c' = c) by congruence. subst c'. rewrite F in X. rewrite F. unfold rc2_Encrypt in X, Ex. unfold zlen in X, Ex. rewrite firstn_length in X.
  destruct (Z.ltb_spec (Z.of_nat (Nat.min 8 (List.length (rd h src)))) 8) as [Bad|_]; [lia|]. destruct (Z.ltb_spec (Z.of_nat (List.length (rd h src))) 8) as [Bad|_]; [lia|].
  rewrite !get16_front in X by lia. rewrite Ex in X. now injection X.
Qed.
Print Assumptions C108_rc2_encrypt.
(** Decrypt undoes Encrypt, wherever the two calls read and write *)
Theorem C108_rc2_roundtrip : forall key t1 c h dst src dst2 h1 h2, rc2_New key t1 = Ret c -> wf h dst -> wf h src -> wf h dst2 ->
  8 <= s_len dst -> 8 <= s_len src -> 8 <= s_len dst2 -> bytes_ok (rd h (front8 src)) ->
  mrc2_Encrypt c dst src h = (h1, Ret tt) -> mrc2_Decrypt c dst2 dst h1 = (h2, Ret tt) ->
  rd h2 (front8 dst2) = rd h (front8 src).
Proof.
  intros key t1 c h dst src dst2 h1 h2 E W V U L M N O E1 E2. pose proof V as (_ & Vc & _). pose proof (rd_length h src V) as Lr.
  destruct (mrc2_Encrypt_spec c h dst src W V L M) as (x & Ex & Lx & Em). rewrite E1 in Em. injection Em as ->.
  pose proof W as (_ & Wc & _). assert (Kw : forall t, wf h t -> wf (poked h dst 0 x) t) by (intros t Wt; apply poked_wf; auto; lia).
  destruct (mrc2_Decrypt_spec c (poked h dst 0 x) dst2 dst) as (y & Ey & Ly & Ed); auto. rewrite E2 in Ed. injection Ed as ->.
  destruct (poked_front (poked h dst 0 x) dst2 y (Kw _ U) N Ly) as [A _]. rewrite A.
  assert (F : rd h (front8 src) = firstn 8 (rd h src)) by (rewrite front8_sub, sub_rd by lia; reflexivity).
  assert (L8 : List.length (firstn 8 (rd h src)) = 8) by (rewrite firstn_length; lia).
  destruct (rc2_dec_enc c (firstn 8 (rd h src)) ltac:(rewrite <- F; exact O) L8) as (x' & X1 & _ & X3 & X4).
  assert (x' = x).
  { unfold rc2_Encrypt in X1, Ex. unfold zlen in X1, Ex. rewrite L8 in X1. destruct (Z.ltb_spec (Z.of_nat (List.length (rd h src))) 8) as [Bad|_]; [lia|].
    change (Z.of_nat 8 <? 8)%Z with false in X1. cbn iota in X1. rewrite !get16_front in X1 by lia. rewrite Ex in X1. now injection X1. }
  subst x'. assert (Rd : rd (poked h dst 0 x) dst = put (rd h dst) 0 x) by (apply poked_rd; auto; lia).
  assert (F8 : firstn 8 (rd (poked h dst 0 x) dst) = x).
  { rewrite Rd. unfold put. rewrite firstn_O, app_nil_l, firstn_app, firstn_all2 by lia. replace (8 - List.length x) with 0 by lia. rewrite firstn_O. apply app_nil_r. }
  rewrite F. rewrite <- F8 in X4. unfold rc2_Decrypt in X4, Ey. unfold zlen in X4, Ey. rewrite firstn_length, Rd, put_length, (rd_length _ _ W) in X4 by (rewrite (rd_length _ _ W); lia).
  rewrite Rd, put_length, (rd_length _ _ W) in Ey by (rewrite (rd_length _ _ W); lia). rewrite Nat.min_l in X4 by lia.
  change (Z.of_nat 8 <? 8)%Z with false in X4. cbn iota in X4. destruct (Z.ltb_spec (Z.of_nat (s_len dst)) 8) as [Bad|_]; [lia|].
  rewrite !get16_front in X4 by lia. rewrite Ey in X4. now injection X4.
Qed.
Print Assumptions C108_rc2_roundtrip.
(** a short source panics before anything is written, a short destination panics, too *)
Theorem C108_rc2_short : forall c h dst src, wf h src ->
  (s_len src < 8 -> mrc2_Encrypt c dst src h = (h, Panic) /\ mrc2_Decrypt c dst src h = (h, Panic)) /\
  (8 <= s_len src -> s_len dst < 8 -> snd (mrc2_Encrypt c dst src h) = Panic /\ snd (mrc2_Decrypt c dst src h) = Panic).
Proof. intros c h dst src W. split; intros; [now apply mrc2_src_short|now apply mrc2_dst_short]. Qed.
Print Assumptions C108_rc2_short.
(** dst lies 3 bytes behind src in the same array; and a short destination has been written to when the call panics *)
Example C108_instance : let h := [[0; 0; 0; 0; 0; 0; 0; 0; 9; 9; 9; 9]%Z] in
  wf h (mkS 0 3 9 9) /\ wf h (mkS 0 0 8 12) /\
  (exists c, rc2_New (repeat 0%Z 8) 63 = Ret c /\
     mrc2_Encrypt c (mkS 0 3 9 9) (mkS 0 0 8 12) h = ([[0; 0; 0; 0xeb; 0xb7; 0x73; 0xf9; 0x93; 0x27; 0x8e; 0xff; 9]%Z], Ret tt) /\
     mrc2_Encrypt c (mkS 0 8 4 4) (mkS 0 0 8 12) h = ([[0; 0; 0; 0; 0; 0; 0; 0; 0xeb; 0xb7; 0x73; 0xf9]%Z], Panic)).
Proof. cbv zeta. split; [|split]; [split; [|split]; cbn; lia..|]. eexists. split; [vm_compute; reflexivity|]. split; vm_compute; reflexivity. Qed.

(** ** C109.  pbEncrypt and pbDecrypt: the result is new memory, and neither the data nor the password is touched, although
    pbEncrypt encrypts in place (in its own copy) and CryptBlocks works backwards through the blocks *)
Theorem C109_encrypt : forall extra P h algo data password, prims_ok P -> ai_ok algo -> wf h data -> wf h password ->
  bytes_ok (rd h data) -> bytes_ok (rd h password) ->
  returns_in_memory h (mpbEncrypt extra P algo data password h) (pbEncrypt P algo (rd h data) (rd h password)).
Proof. intros. apply sim_returns. now apply mpbEncrypt_sim. Qed.
Print Assumptions C109_encrypt.
Theorem C109_decrypt : forall extra P h algo data password, prims_ok P -> ai_ok algo -> wf h data -> wf h password ->
  bytes_ok (rd h data) -> bytes_ok (rd h password) ->
  returns_in_memory h (mpbDecrypt extra P algo data password h) (pbDecrypt P algo (rd h data) (rd h password)).
Proof. intros. apply sim_returns. now apply mpbDecrypt_sim. Qed.
Print Assumptions C109_decrypt.
(** CBC in place: for a 3DES or RC2 key, CryptBlocks(s, s) replaces the bytes of s by what CryptBlocks(new, s) would have put
    into a new slice *)
Theorem C109_cbc_in_place : forall P key h b iv s, prims_ok P -> bytes_ok (rd h key) ->
  (s_len key = 24 /\ mcreate3DES P key h = (h, Ret b) \/ s_len key = 5 /\ mcreateRC2 key h = (h, Ret b)) ->
  wf h key -> wf h iv -> wf h s -> s_len iv = 8 -> s_len s mod 8 = 0 -> bytes_ok (rd h iv) -> bytes_ok (rd h s) ->
  (exists r h1 h2 d, mCryptEnc b iv s s h = (h1, Ret tt) /\ rd h1 s = r /\ (forall t, wf h t -> s_arr t <> s_arr s -> rd h1 t = rd h t) /\
     (mdo d <- new (repeat 0%Z (s_len s)); mdo _ <- mCryptEnc b iv d s; mret d) h = (h2, Ret d) /\ rd h2 d = r) /\
  (exists r h1 h2 d, mCryptDec b iv s s h = (h1, Ret tt) /\ rd h1 s = r /\ (forall t, wf h t -> s_arr t <> s_arr s -> rd h1 t = rd h t) /\
     (mdo d <- new (repeat 0%Z (s_len s)); mdo _ <- mCryptDec b iv d s; mret d) h = (h2, Ret d) /\ rd h2 d = r).
Proof.
  intros P key h b iv s HP Ok HK Wk Wi Ws Li Lm Oi Os. pose proof (rd_length _ _ Wk) as Lk. pose proof Ws as (Wsa & Wsc & _).
  assert (exists bc, mbc_rel b bc /\ bc_good bc) as (bc & R & G).
  { destruct HK as [[L E]|[L E]].
    - destruct (create3DES_good P (rd h key) HP Ok ltac:(unfold zlen; lia)) as (bc & Ec & G). exists bc. split; [|exact G].
      destruct (mcreate3DES_sim P h h key (ext_refl h)) as [_ S]. rewrite E, Ec in S. apply S.
    - destruct (createRC2_good (rd h key) Ok ltac:(unfold zlen; lia)) as (bc & Ec & G). exists bc. split; [|exact G].
      destruct (mcreateRC2_sim h h key (ext_refl h)) as [_ S]. rewrite E, Ec in S. apply S. }
  assert (Both : forall (m : slc -> M unit) f, 
     (forall h' dst, ext h h' -> wf h' dst -> s_len s <= s_len dst -> exact_or_apart dst s ->
        exists r h'', f = Ret r /\ List.length r = s_len s /\ m dst h' = (h'', Ret tt) /\ ext (poked h' dst 0 r) h'') ->
     exists r h1 h2 d, m s h = (h1, Ret tt) /\ rd h1 s = r /\ (forall t, wf h t -> s_arr t <> s_arr s -> rd h1 t = rd h t) /\
     (mdo d <- new (repeat 0%Z (s_len s)); mdo _ <- m d; mret d) h = (h2, Ret d) /\ rd h2 d = r).
  { intros m f H. destruct (H h s (ext_refl h) Ws (le_n _) ltac:(now right)) as (r & h1 & Ef & Lr & E1 & X1).
    destruct (new_fresh h (repeat 0%Z (s_len s))) as (h2 & d & E2 & W2 & R2 & A2 & K2). pose proof (rd_length _ _ W2) as Ld. rewrite R2, repeat_length in Ld.
    destruct (H h2 d (keeps_ext _ _ K2) W2 ltac:(lia) ltac:(left; lia)) as (r' & h3 & Ef' & _ & E3 & X3). assert (r' = r) by congruence. subst r'.
    pose proof W2 as (_ & W2c & _).
    exists r, h1, h3, d. split; [exact E1|]. split; [|split; [|split]].
    - rewrite (ext_rd _ _ _ X1) by (apply poked_wf; auto; lia). rewrite poked_rd by (auto; lia). apply put_all. rewrite (rd_length _ _ Ws). lia.
    - intros t Wt Nt. rewrite (ext_rd _ _ _ X1) by (apply poked_wf; auto; lia). apply poked_other. congruence.
    - unfold mbind. rewrite E2, E3. reflexivity.
    - rewrite (ext_rd _ _ _ X3) by (apply poked_wf; auto; lia). rewrite poked_rd by (auto; lia). apply put_all. rewrite (rd_length _ _ W2). lia. }
  split; [eapply (Both (fun d => mCryptEnc b iv d s))|eapply (Both (fun d => mCryptDec b iv d s))].
  - intros h' dst X Wd Ld Ex. pose proof (ext_rd _ _ _ X Wi) as Ri. pose proof (ext_rd _ _ _ X Ws) as Rs.
    destruct (mCryptEnc_spec b bc R G h' iv dst s (ext_wf _ _ _ X Wi) Wd (ext_wf _ _ _ X Ws) Li Lm Ld ltac:(rewrite Ri; auto) ltac:(rewrite Rs; auto) Ex) as (r & h'' & E1 & E2 & E3 & E4).
    rewrite Ri, Rs in E1. exists r, h''. split; [exact E1|auto].
  - intros h' dst X Wd Ld Ex. pose proof (ext_rd _ _ _ X Wi) as Ri. pose proof (ext_rd _ _ _ X Ws) as Rs.
    destruct (mCryptDec_spec b bc R G h' iv dst s (ext_wf _ _ _ X Wi) Wd (ext_wf _ _ _ X Ws) Li Lm Ld ltac:(rewrite Rs; auto) Ex) as (r & h'' & E1 & E2 & E3 & E4).
    rewrite Ri, Rs in E1. exists r, h''. split; [exact E1|auto].
Qed.
Print Assumptions C109_cbc_in_place.
Example C109_instance : prims_ok toy /\ ai_ok (algo1 oidPBEWithSHAAnd40BitRC2CBC) /\ wf h107 (mkS 0 1 4 9) /\ wf h107 (mkS 0 3 6 7) /\
  let '(h1, o1) := mpbEncrypt (fun _ _ => 2) toy (algo1 oidPBEWithSHAAnd40BitRC2CBC) (mkS 0 1 4 9) (mkS 0 3 6 7) h107 in
  match o1 with
  | Ret c => s_len c = 8 /\ let '(h2, o2) := mpbDecrypt (fun _ _ => 2) toy (algo1 oidPBEWithSHAAnd40BitRC2CBC) c (mkS 0 3 6 7) h1 in
      match o2 with Ret d => rd h2 d = [2; 3; 4; 5]%Z /\ firstn 1 h2 = h107 | _ => False end
  | _ => False end.
Proof.
  split; [exact toy_ok|]. split; [apply bytes_okb_spec; reflexivity|]. split; [|split]; [split; [|split]; cbn; lia..|]. vm_compute. repeat split; reflexivity.
Qed.
