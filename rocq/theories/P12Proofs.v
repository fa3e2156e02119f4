(** * Proofs about the PKCS12 model *)
From Verif Require Import Base Words ECModel SM2Model CryptoByte Asn1 Asn1Proofs Asn1Safe KeysModel KeysProofs BMPModel RC2Model RC2Proofs PbkdfSpec PbkdfModel PbkdfProofs P12Model.
Open Scope Z_scope.

(** ** block ciphers and CBC *)
Definition bc_good (bc : blockCipher) : Prop :=
  (forall b, bytes_ok b -> List.length b = 8%nat -> exists c, bc_Encrypt bc b = Ret c /\ bytes_ok c /\ List.length c = 8%nat /\ bc_Decrypt bc c = Ret b) /\
  (forall b, bytes_ok b -> List.length b = 8%nat -> exists c, bc_Decrypt bc b = Ret c /\ bytes_ok c /\ List.length c = 8%nat).
Lemma zlen8 {A} (l : list A) n : zlen l = Z.of_nat n <-> List.length l = n.
Proof. unfold zlen. lia. Qed.
Lemma create3DES_good P key : prims_ok P -> bytes_ok key -> zlen key = 24 -> exists bc, create3DES P key = Ret bc /\ bc_good bc.
Proof.
  intros (_ & _ & T) Hk Hl. unfold create3DES. rewrite Hl. change (24 =? 24) with true. cbn [negb]. eexists. split; [reflexivity|].
  split; intros b Hb Hlb; cbn [bc_Encrypt bc_Decrypt]; destruct (T key b Hl ltac:(unfold zlen; lia) Hk Hb) as (A & B & C & D & E & _).
  - eexists. split; [reflexivity|]. split; [exact B|]. split; [unfold zlen in A; lia|]. now rewrite C.
  - eexists. split; [reflexivity|]. split; [exact E|unfold zlen in D; lia].
Qed.
Lemma createRC2_good key : bytes_ok key -> zlen key = 5 -> exists bc, createRC2 key = Ret bc /\ bc_good bc.
Proof.
  intros Hk Hl. unfold createRC2, rc2_New. destruct (expandKey_schedule key (zlen key * 8) Hk ltac:(lia) ltac:(lia)) as (k & E & _).
  rewrite E. cbn [bind]. eexists. split; [reflexivity|]. split; intros b Hb Hlb; cbn [bc_Encrypt bc_Decrypt].
  - exact (rc2_dec_enc k b Hb Hlb).
  - destruct (rc2_enc_dec k b Hb Hlb) as (c & A & B & C & _). eauto.
Qed.
Lemma lxor_byte a b : byte_ok a -> byte_ok b -> byte_ok (Z.lxor a b).
Proof.
  unfold byte_ok. intros Ha Hb. assert (0 <= Z.lxor a b) by (apply Z.lxor_nonneg; lia). split; auto.
  destruct (Z.eq_dec (Z.lxor a b) 0) as [->|]; [lia|]. apply Z.log2_lt_pow2 with (b := 8); [lia|].
  eapply Z.le_lt_trans; [apply Z.log2_lxor; lia|]. apply Z.max_lub_lt.
  - destruct (Z.eq_dec a 0) as [->|]; [reflexivity|]. apply Z.log2_lt_pow2; lia.
  - destruct (Z.eq_dec b 0) as [->|]; [reflexivity|]. apply Z.log2_lt_pow2; lia.
Qed.
Lemma xor_len a b : List.length (xor_bytes a b) = Nat.min (List.length a) (List.length b).
Proof. unfold xor_bytes. now rewrite map_length, combine_length. Qed.
Lemma xor_ok a b : bytes_ok a -> bytes_ok b -> bytes_ok (xor_bytes a b).
Proof.
  intros Ha. revert b. induction Ha as [|x a Hx Ha IH]; intros b Hb; [constructor|]. inversion Hb; subst; [constructor|].
  unfold xor_bytes. cbn. constructor; [apply lxor_byte; auto|]. now apply IH.
Qed.
Lemma xor_xor a b : (List.length a <= List.length b)%nat -> xor_bytes (xor_bytes a b) b = a.
Proof.
  revert b. induction a as [|x a IH]; intros b; [reflexivity|]. destruct b as [|y b]; cbn [List.length]; [lia|]. intros H.
  unfold xor_bytes. cbn. f_equal; [rewrite Z.lxor_assoc, Z.lxor_nilpotent; apply Z.lxor_0_r|]. apply IH. lia.
Qed.
Section CBC.
Variable bc : blockCipher.
Hypothesis G : bc_good bc.
Lemma cbc_enc_dec n : forall iv src, bytes_ok iv -> List.length iv = 8%nat -> bytes_ok src -> List.length src = (8 * n)%nat ->
  exists c, cbc_encrypt (bc_Encrypt bc) n iv src = Ret c /\ bytes_ok c /\ List.length c = (8 * n)%nat /\ cbc_decrypt (bc_Decrypt bc) n iv c = Ret src.
Proof.
  induction n as [|n IH]; intros iv src Hiv Liv Hs Ls; cbn [cbc_encrypt cbc_decrypt].
  - exists []. repeat split; auto. destruct src; [reflexivity|cbn [List.length] in Ls; lia].
  - assert (L8 : List.length (firstn 8 src) = 8%nat) by (rewrite firstn_length; lia).
    destruct (proj1 G (xor_bytes (firstn 8 src) iv)) as (c & E & Oc & Lc & Dc); [apply xor_ok; auto|rewrite xor_len; lia|].
    rewrite E. cbn [bind]. destruct (IH c (skipn 8 src) Oc Lc) as (r & Er & Or & Lr & Dr); [auto|rewrite skipn_length; lia|].
    rewrite Er. cbn [bind]. exists (c ++ r). split; [reflexivity|]. split; [apply bytes_ok_app; auto|]. split; [rewrite app_length; lia|].
    rewrite (firstn_app_exact c r 8%nat), (skipn_app_exact c r 8%nat) by lia. rewrite Dc. cbn [bind]. rewrite Dr. cbn [bind].
    rewrite xor_xor by lia. now rewrite firstn_skipn.
Qed.
Lemma cbc_dec_total n : forall iv src, bytes_ok iv -> List.length iv = 8%nat -> bytes_ok src -> List.length src = (8 * n)%nat ->
  exists d, cbc_decrypt (bc_Decrypt bc) n iv src = Ret d /\ bytes_ok d /\ List.length d = (8 * n)%nat.
Proof.
  induction n as [|n IH]; intros iv src Hiv Liv Hs Ls; cbn [cbc_decrypt].
  - exists []. auto.
  - assert (L8 : List.length (firstn 8 src) = 8%nat) by (rewrite firstn_length; lia).
    destruct (proj2 G (firstn 8 src)) as (c & E & Oc & Lc); [auto|auto|]. rewrite E. cbn [bind].
    destruct (IH (firstn 8 src) (skipn 8 src)) as (r & Er & Or & Lr); [auto|auto|auto|rewrite skipn_length; lia|].
    rewrite Er. cbn [bind]. eexists. split; [reflexivity|]. split; [apply bytes_ok_app; split; auto; apply xor_ok; auto|].
    rewrite app_length, xor_len. lia.
Qed.
End CBC.

(** ** pbeCipherFor *)
Lemma np_pbe : np cPbe. Proof. apply np_struct, fnp_cons, fnp_cons, fnp_nil; [apply np_bytes|apply np_int]. Qed.
Lemma np_unm {A} (c : codec A) s : np c -> unmarshal c s <> Panic.
Proof. intros N. unfold unmarshal. apply bind_np; [now apply np_unmarshal|]. intros [a [|]] _; discriminate. Qed.
Lemma unm_inv {A} (c : codec A) s a : unmarshal c s = Ret a -> Unmarshal c s = Ret (a, []).
Proof. unfold unmarshal. destruct (Unmarshal c s) as [[x [|? ?]]| |]; cbn [bind]; try discriminate. intros [= ->]. reflexivity. Qed.
Lemma unm_ret {A} (c : codec A) s a : Unmarshal c s = Ret (a, []) -> unmarshal c s = Ret a.
Proof. intros E. unfold unmarshal. rewrite E. reflexivity. Qed.
Lemma pbkdf20 (P : prims) salt pwd r ID size : prims_ok P -> bytes_ok salt -> bytes_ok pwd -> 0 <= size ->
  exists k, pbkdf (sha1 P) 20 64 salt pwd r ID size = Ret k /\ zlen k = size /\ bytes_ok k.
Proof.
  intros (HS & _) Hs Hp Hz. assert (HL : forall x, List.length (sha1 P x) = 20%nat) by (intros x; destruct (HS x) as [HL _]; unfold zlen in HL; lia).
  assert (HO : forall x, bytes_ok (sha1 P x)) by (intros x; apply HS).
  eexists. split; [exact (pbkdf_kdf (sha1 P) HL HO 64 ltac:(lia) salt pwd r ID Hs Hp size Hz)|].
  split; [unfold zlen; rewrite kdf_length; auto; lia|]. unfold kdf. apply bytes_ok_firstn. apply Forall_forall. intros x Hx. apply in_flat_map in Hx as (i & _ & Hx).
  replace (Z.to_nat (Z.max r 1)) with (S (Z.to_nat (Z.max r 1) - 1)) in Hx by lia. unfold A_at in Hx.
  assert (O : bytes_ok (H_iter (sha1 P) (S (Z.to_nat (Z.max r 1) - 1)) (D 64 ID ++ I_at (sha1 P) 64 salt pwd (S (Z.to_nat (Z.max r 1) - 1)) ID i))) by (cbn [H_iter]; apply HO).
  unfold bytes_ok in O. rewrite Forall_forall in O. auto.
Qed.
Definition ai_ok (a : AI) : Prop := bytes_ok (sl (rv_full (ai_params a))).
Lemma pbe_good P algo pwd : prims_ok P -> ai_ok algo -> bytes_ok pwd ->
  match pbeCipherFor P algo pwd with
  | Ret (bc, iv) => bc_good bc /\ bytes_ok iv /\ List.length iv = 8%nat
  | Err _ => True
  | Panic => False
  end.
Proof.
  intros HP Ha Hp. unfold pbeCipherFor.
  assert (Main : forall keyLen create, 0 <= keyLen -> (forall key, bytes_ok key -> zlen key = keyLen -> exists bc, create key = Ret bc /\ bc_good bc) ->
    match (do params <- unmarshal cPbe (sl (rv_full (ai_params algo)));
           do key <- pbkdf (sha1 P) 20 64 (sl (pbe_Salt params)) pwd (pbe_Iterations params) 1 keyLen;
           do iv <- pbkdf (sha1 P) 20 64 (sl (pbe_Salt params)) pwd (pbe_Iterations params) 2 8;
           do block <- create key; Ret (block, iv)) with
    | Ret (bc, iv) => bc_good bc /\ bytes_ok iv /\ List.length iv = 8%nat | Err _ => True | Panic => False end).
  { intros keyLen create Hk HC. pose proof (np_unm cPbe (sl (rv_full (ai_params algo))) np_pbe) as N.
    destruct (unmarshal cPbe _) as [params| |] eqn:E; cbn [bind]; [|exact I|exact (N eq_refl)].
    assert (Hs : bytes_ok (sl (pbe_Salt params))).
    { apply unm_inv in E. eapply (vok_unmarshal cPbe (fun p => bytes_ok (sl (pbe_Salt p)))); [|exact Ha|exact E].
      eapply vok_struct; [apply fok_cons; [apply vok_bytes|apply fok_cons; [apply vok_true|apply fok_nil]]|]. intros [s [i u]] [H1 _]. exact H1. }
    destruct (pbkdf20 P (sl (pbe_Salt params)) pwd (pbe_Iterations params) 1 keyLen HP Hs Hp Hk) as (key & -> & Lk & Ok). cbn [bind].
    destruct (pbkdf20 P (sl (pbe_Salt params)) pwd (pbe_Iterations params) 2 8 HP Hs Hp ltac:(lia)) as (iv & -> & Liv & Oiv). cbn [bind].
    destruct (HC key Ok Lk) as (bc & -> & Gb). cbn [bind]. repeat split; try apply Gb; auto. unfold zlen in Liv. lia. }
  destruct (oid_eqb (ai_alg algo) oidPBEWithSHAAnd3KeyTripleDESCBC); cbn [bind].
  { apply (Main 24 (create3DES P)); [lia|]. intros key Hk Lk. now apply create3DES_good. }
  destruct (oid_eqb (ai_alg algo) oidPBEWithSHAAnd40BitRC2CBC); cbn [bind]; [|exact I].
  apply (Main 5 createRC2); [lia|]. intros key Hk Lk. now apply createRC2_good.
Qed.
Lemma pbe_total P algo salt it pwd : prims_ok P -> ai_ok algo -> bytes_ok pwd ->
  ai_alg algo = oidPBEWithSHAAnd3KeyTripleDESCBC \/ ai_alg algo = oidPBEWithSHAAnd40BitRC2CBC ->
  unmarshal cPbe (sl (rv_full (ai_params algo))) = Ret (mkPbe salt it) -> exists bc iv, pbeCipherFor P algo pwd = Ret (bc, iv).
Proof.
  intros HP Ha Hp Ho E. assert (Hs : bytes_ok (sl salt)).
  { apply unm_inv in E. change salt with (pbe_Salt (mkPbe salt it)). eapply (vok_unmarshal cPbe (fun p => bytes_ok (sl (pbe_Salt p)))); [|exact Ha|exact E].
    eapply vok_struct; [apply fok_cons; [apply vok_bytes|apply fok_cons; [apply vok_true|apply fok_nil]]|]. intros [s [i u]] [H1 _]. exact H1. }
  unfold pbeCipherFor. destruct Ho as [-> | ->].
  - replace (oid_eqb oidPBEWithSHAAnd3KeyTripleDESCBC oidPBEWithSHAAnd3KeyTripleDESCBC) with true by reflexivity. cbn [bind]. rewrite E. cbn [bind pbe_Salt pbe_Iterations].
    destruct (pbkdf20 P (sl salt) pwd it 1 24 HP Hs Hp ltac:(lia)) as (key & -> & Lk & Ok). cbn [bind].
    destruct (pbkdf20 P (sl salt) pwd it 2 8 HP Hs Hp ltac:(lia)) as (iv & -> & Liv & Oiv). cbn [bind].
    destruct (create3DES_good P key HP Ok Lk) as (bc & -> & _). cbn [bind]. eauto.
  - replace (oid_eqb oidPBEWithSHAAnd40BitRC2CBC oidPBEWithSHAAnd3KeyTripleDESCBC) with false by reflexivity.
    replace (oid_eqb oidPBEWithSHAAnd40BitRC2CBC oidPBEWithSHAAnd40BitRC2CBC) with true by reflexivity. cbn [bind]. rewrite E. cbn [bind pbe_Salt pbe_Iterations].
    destruct (pbkdf20 P (sl salt) pwd it 1 5 HP Hs Hp ltac:(lia)) as (key & -> & Lk & Ok). cbn [bind].
    destruct (pbkdf20 P (sl salt) pwd it 2 8 HP Hs Hp ltac:(lia)) as (iv & -> & Liv & Oiv). cbn [bind].
    destruct (createRC2_good key Ok Lk) as (bc & -> & _). cbn [bind]. eauto.
Qed.

(** ** pbEncrypt / pbDecrypt *)
Lemma pad_range (m : bytes) : 1 <= 8 - zlen m mod 8 <= 8 /\ (zlen m + (8 - zlen m mod 8)) mod 8 = 0.
Proof.
  pose proof (zlen_nonneg m) as Hm. generalize (zlen m) Hm. clear. intros n Hn. pose proof (Z.mod_pos_bound n 8 ltac:(lia)). split; [lia|].
  replace (n + (8 - n mod 8)) with ((n / 8 + 1) * 8) by (pose proof (Z.div_mod n 8); lia). apply Z.mod_mul. lia.
Qed.
Lemma len_div8 (l : bytes) : zlen l mod 8 = 0 -> List.length l = (8 * (List.length l / 8))%nat.
Proof.
  unfold zlen. intros H. pose proof (Nat.div_mod (List.length l) 8 ltac:(lia)) as E.
  assert (List.length l mod 8 = 0)%nat by (apply Nat2Z.inj; rewrite Nat2Z.inj_mod; exact H). lia.
Qed.
Lemma last_repeat (l : bytes) x n : (0 < n)%nat -> last (l ++ repeat x n) 0 = x.
Proof. intros H. destruct n as [|n]; [lia|]. rewrite <- (rev_involutive (repeat x (S n))). 
  assert (R : forall k, rev (repeat x k) = repeat x k). { induction k; cbn; auto. rewrite IHk. clear. induction k; cbn; auto. now rewrite IHk. }
  rewrite R. cbn [repeat rev]. rewrite app_assoc. apply last_last. Qed.
Definition pkcs_pad (m : bytes) : bytes := m ++ repeat (8 - zlen m mod 8) (Z.to_nat (8 - zlen m mod 8)).
Lemma pkcs_pad_ok m : bytes_ok m -> bytes_ok (pkcs_pad m).
Proof. intros H. apply bytes_ok_app. split; auto. apply bytes_ok_repeat. pose proof (pad_range m). unfold byte_ok. lia. Qed.
Lemma pkcs_pad_len m : zlen (pkcs_pad m) = zlen m + (8 - zlen m mod 8) /\ zlen (pkcs_pad m) mod 8 = 0.
Proof.
  pose proof (pad_range m) as [A B]. assert (E : zlen (pkcs_pad m) = zlen m + (8 - zlen m mod 8)).
  { unfold pkcs_pad. rewrite zlen_app. unfold zlen at 2. rewrite repeat_length. lia. }
  split; auto. rewrite E. exact B.
Qed.
Lemma pb_roundtrip P algo m pwd bc iv : prims_ok P -> ai_ok algo -> bytes_ok pwd -> bytes_ok m -> pbeCipherFor P algo pwd = Ret (bc, iv) ->
  exists c, pbEncrypt P algo m pwd = Ret c /\ bytes_ok c /\ zlen c = zlen m + (8 - zlen m mod 8) /\ pbDecrypt P algo c pwd = Ret m.
Proof.
  intros HP Ha Hp Hm E. pose proof (pbe_good P algo pwd HP Ha Hp) as G. rewrite E in G. destruct G as (G & Oiv & Liv).
  unfold pbEncrypt, pbDecrypt. rewrite E. cbn [bind]. cbv zeta. change (m ++ repeat (8 - zlen m mod 8) (Z.to_nat (8 - zlen m mod 8))) with (pkcs_pad m).
  pose proof (pkcs_pad_len m) as [Lp Mp]. pose proof (pad_range m) as [R _]. pose proof (pkcs_pad_ok m Hm) as Op.
  assert (Ziv : zlen iv = 8) by (unfold zlen; lia). unfold CryptBlocks. rewrite Ziv, Mp. change (8 =? 8) with true. change (0 =? 0) with true. cbn [negb].
  destruct (cbc_enc_dec bc G (List.length (pkcs_pad m) / 8) iv (pkcs_pad m) Oiv Liv Op (len_div8 _ Mp)) as (c & Ec & Oc & Lc & Dc).
  rewrite Ec. exists c. split; [reflexivity|]. split; [exact Oc|]. rewrite <- len_div8 in Lc by exact Mp.
  assert (Zc : zlen c = zlen (pkcs_pad m)) by (unfold zlen; lia). split; [lia|].
  pose proof (zlen_nonneg m) as Hzm. replace (zlen c =? 0) with false by (symmetry; apply Z.eqb_neq; lia).
  rewrite Zc, Mp. change (0 =? 0) with true. cbn [negb]. rewrite Lc, Dc. cbn [bind].
  assert (La : last (pkcs_pad m) 0 = 8 - zlen m mod 8) by (apply last_repeat; lia). rewrite La.
  set (ps := 8 - zlen m mod 8) in *. clearbody ps.
  replace ((ps =? 0) || (8 <? ps)) with false by lia. replace (zlen (pkcs_pad m) <? ps) with false by lia.
  replace (List.length (pkcs_pad m) - Z.to_nat ps)%nat with (List.length m) by (unfold zlen in Lp; lia).
  unfold pkcs_pad at 1. rewrite skipn_app_exact by reflexivity.
  assert (Eps : 8 - zlen m mod 8 = ps). { rewrite <- La. symmetry. apply last_repeat. lia. }
  rewrite Eps, bytes_eqb_refl. cbn [negb]. unfold pkcs_pad. rewrite firstn_app_exact by reflexivity. reflexivity.
Qed.
(** the CBC decryption behind pbDecrypt *)
Definition cbc_plain (P : prims) (algo : AI) (c pwd : bytes) : outcome bytes :=
  do (bc, iv) <- pbeCipherFor P algo pwd; cbc_decrypt (bc_Decrypt bc) (List.length c / 8) iv c.
Lemma pbDecrypt_exact P algo c pwd : prims_ok P -> ai_ok algo -> bytes_ok pwd -> bytes_ok c ->
  pbDecrypt P algo c pwd <> Panic /\
  forall m, pbDecrypt P algo c pwd = Ret m <->
    (c <> [] /\ zlen c mod 8 = 0 /\ exists n, 1 <= n <= 8 /\ cbc_plain P algo c pwd = Ret (m ++ repeat n (Z.to_nat n))).
Proof.
  intros HP Ha Hp Hc. pose proof (pbe_good P algo pwd HP Ha Hp) as G. unfold pbDecrypt, cbc_plain.
  destruct (pbeCipherFor P algo pwd) as [[bc iv]| |]; cbn [bind].
  2:{ split; [discriminate|]. intros m. split; [discriminate|]. intros (_ & _ & n & _ & H). discriminate H. }
  2:{ contradiction. }
  destruct G as (G & Oiv & Liv). assert (Ziv : zlen iv = 8) by (unfold zlen; lia). rewrite Ziv. change (8 =? 8) with true. cbn [negb].
  destruct (Z.eqb_spec (zlen c) 0) as [Z0|Z0].
  { split; [discriminate|]. intros m. split; [discriminate|]. intros (Hn & _). destruct c; [congruence|]. rewrite zlen_cons in Z0. pose proof (zlen_nonneg c). lia. }
  destruct (Z.eqb_spec (zlen c mod 8) 0) as [M|M]; cbn [negb].
  2:{ split; [discriminate|]. intros m. split; [discriminate|]. tauto. }
  unfold CryptBlocks. rewrite Ziv, M. change (8 =? 8) with true. change (0 =? 0) with true. cbn [negb].
  destruct (cbc_dec_total bc G (List.length c / 8) iv c Oiv Liv Hc (len_div8 _ M)) as (d & Ed & Od & Ld). rewrite Ed. cbn [bind]. cbv zeta.
  rewrite <- (len_div8 c M) in Ld. assert (Zd : zlen d = zlen c) by (unfold zlen; lia).
  assert (Z8 : 8 <= zlen d). { rewrite Zd. pose proof (zlen_nonneg c). pose proof (Z.div_mod (zlen c) 8). lia. }
  assert (Hne : c <> []) by (intros ->; apply Z0; reflexivity).
  set (ps := last d 0). 
  destruct ((ps =? 0) || (8 <? ps)) eqn:B1.
  { split; [discriminate|]. intros m. split; [discriminate|]. intros (_ & _ & n & Hn & E). injection E as E. exfalso.
    assert (ps = n) by (unfold ps; rewrite E; apply last_repeat; lia). lia. }
  assert (Hps : 0 <= ps). { unfold ps. destruct (exists_last (l := d)) as (d' & y & ->); [intros ->; change (zlen (@nil Z)) with 0 in Z8; lia|].
    rewrite last_last. apply bytes_ok_app in Od as [_ Od]. apply bytes_ok_cons in Od as [Od _]. unfold byte_ok in Od. lia. }
  replace (zlen d <? ps) with false by lia.
  destruct (bytes_eqb (skipn _ d) _) eqn:B2; cbn [negb].
  - apply bytes_eqb_spec in B2. split; [discriminate|]. intros m. split.
    + intros [= <-]. split; [auto|]. split; [auto|]. exists ps. split; [lia|]. rewrite <- B2. now rewrite firstn_skipn.
    + intros (_ & _ & n & Hn & E). injection E as E. f_equal. assert (ps = n) by (unfold ps; rewrite E; apply last_repeat; lia). subst n. clearbody ps. rewrite E.
      rewrite app_length, repeat_length. rewrite firstn_app_exact; [reflexivity|lia].
  - split; [discriminate|]. intros m. split; [discriminate|]. intros (_ & _ & n & Hn & E). exfalso. injection E as E. apply bytes_eqb_neq in B2. apply B2.
    assert (ps = n) by (unfold ps; rewrite E; apply last_repeat; lia). subst n. clearbody ps. rewrite E.
    rewrite app_length, repeat_length. rewrite skipn_app_exact; [reflexivity|lia].
Qed.

(** ** MAC *)
Lemma verifyMac_spec P md msg pwd : prims_ok P -> bytes_ok (sl (mac_MacSalt md)) -> bytes_ok pwd ->
  verifyMac P md msg pwd =
    if negb (oid_eqb (ai_alg (di_Algorithm (mac_Mac md))) oidSHA1) then Err "go-pkcs12: unknown digest algorithm" else
    if bytes_eqb (sl (di_Digest (mac_Mac md))) (hmac_sha1 P (kdf (sha1 P) 20 64 (sl (mac_MacSalt md)) pwd (Z.to_nat (Z.max (mac_Iterations md) 1)) 3 20) msg)
    then Ret tt else Err ErrIncorrectPassword.
Proof.
  intros (HS & _) Hs Hp. unfold verifyMac. destruct (negb (oid_eqb _ _)); [reflexivity|].
  assert (HL : forall x, List.length (sha1 P x) = 20%nat) by (intros x; destruct (HS x) as [HL _]; unfold zlen in HL; lia).
  assert (HO : forall x, bytes_ok (sha1 P x)) by (intros x; apply HS).
  pose proof (pbkdf_kdf (sha1 P) HL HO 64 ltac:(lia) (sl (mac_MacSalt md)) pwd (mac_Iterations md) 3 Hs Hp 20 ltac:(lia)) as E.
  change (Z.of_nat 64) with 64 in E. change (Z.to_nat 20) with 20%nat in E. rewrite E. cbn [bind]. cbv zeta. destruct (bytes_eqb _ _); reflexivity.
Qed.
