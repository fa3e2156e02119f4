(** * pbeCipherFor, pbEncrypt and pbDecrypt against the specification *)
From Verif Require Import Base Words ECModel SM2Model CryptoByte Asn1 Asn1Proofs Asn1Safe KeysModel KeysProofs BMPModel RC2Spec RC2Model RC2Proofs PbkdfSpec PbkdfModel PbkdfProofs P12Spec P12Model P12Proofs.
Open Scope Z_scope.

Definition scheme_of (o : oid) : option pbe_scheme :=
  if oid_eqb o oidPBEWithSHAAnd3KeyTripleDESCBC then Some TripleDES3
  else if oid_eqb o oidPBEWithSHAAnd40BitRC2CBC then Some RC2_40 else None.
(** the block cipher [bc] computes [E] *)
Definition bc_is (bc : blockCipher) (E : bytes -> bytes) : Prop :=
  forall b, bytes_ok b -> List.length b = 8%nat ->
    bc_Encrypt bc b = Ret (E b) /\ bytes_ok (E b) /\ List.length (E b) = 8%nat /\ bc_Decrypt bc (E b) = Ret b /\
    exists d, bc_Decrypt bc b = Ret d /\ bytes_ok d /\ List.length d = 8%nat /\ E d = b.
Lemma pbkdf_p12 P salt pwd it ID n : prims_ok P -> bytes_ok salt -> bytes_ok pwd ->
  pbkdf (sha1 P) 20 64 salt pwd it ID (Z.of_nat n) = Ret (p12_kdf (sha1 P) salt pwd it ID n).
Proof.
  intros (HS & _) Hs Hp. assert (HL : forall x, List.length (sha1 P x) = 20%nat) by (intros x; destruct (HS x) as [HL _]; unfold zlen in HL; lia).
  assert (HO : forall x, bytes_ok (sha1 P x)) by (intros x; apply HS).
  pose proof (pbkdf_kdf (sha1 P) HL HO 64 ltac:(lia) salt pwd it ID Hs Hp (Z.of_nat n) ltac:(lia)) as E.
  change (Z.of_nat 64) with 64 in E. rewrite Nat2Z.id in E. exact E.
Qed.
Lemma p12_kdf_ok P salt pwd it ID n : prims_ok P -> bytes_ok salt -> bytes_ok pwd ->
  bytes_ok (p12_kdf (sha1 P) salt pwd it ID n) /\ zlen (p12_kdf (sha1 P) salt pwd it ID n) = Z.of_nat n.
Proof.
  intros HP Hs Hp. destruct (pbkdf20 P salt pwd it ID (Z.of_nat n) HP Hs Hp ltac:(lia)) as (k & E & L & O).
  rewrite (pbkdf_p12 P salt pwd it ID n HP Hs Hp) in E. assert (k = p12_kdf (sha1 P) salt pwd it ID n) by congruence. subst k. auto.
Qed.
Lemma params_salt_ok algo salt it : ai_ok algo -> unmarshal cPbe (sl (rv_full (ai_params algo))) = Ret (mkPbe salt it) -> bytes_ok (sl salt).
Proof.
  intros Ha E. apply unm_inv in E. change salt with (pbe_Salt (mkPbe salt it)). eapply (vok_unmarshal cPbe (fun p => bytes_ok (sl (pbe_Salt p)))); [|exact Ha|exact E].
  eapply vok_struct; [apply fok_cons; [apply vok_bytes|apply fok_cons; [apply vok_true|apply fok_nil]]|]. intros [s [i u]] [H1 _]. exact H1.
Qed.
Lemma tdes_is P key : prims_ok P -> bytes_ok key -> zlen key = 24 ->
  bc_is (mkBC (fun b => Ret (tdes_enc P key b)) (fun b => Ret (tdes_dec P key b))) (tdes_enc P key).
Proof.
  intros (_ & _ & T) Hk Hl b Hb Lb. cbn [bc_Encrypt bc_Decrypt]. destruct (T key b Hl ltac:(unfold zlen; lia) Hk Hb) as (A & B & C & D & E & F).
  split; [reflexivity|]. split; [exact B|]. split; [unfold zlen in A; lia|]. split; [now rewrite C|].
  exists (tdes_dec P key b). split; [reflexivity|]. split; [exact E|]. split; [unfold zlen in D; lia|exact F].
Qed.
Lemma rc2_is key K : bytes_ok key -> zlen key = 5 -> key_schedule key 40 K -> exists k, rc2_New key 40 = Ret k /\ bc_is (mkBC (rc2_Encrypt k) (rc2_Decrypt k)) (rc2_block K).
Proof.
  intros Hk Hl HS. unfold rc2_New. destruct (expandKey_schedule key 40 Hk ltac:(lia) ltac:(lia)) as (k & E & S).
  assert (k = K). { apply (schedule_unique key 40); auto; lia. } subst k. exists K. split; [exact E|].
  intros b Hb Lb. cbn [bc_Encrypt bc_Decrypt]. pose proof (rc2_Encrypt_spec K b Hb Lb) as Ee.
  destruct (rc2_dec_enc K b Hb Lb) as (e & E1 & E2 & E3 & E4). assert (e = rc2_block K b) by congruence. subst e.
  split; [exact Ee|]. split; [exact E2|]. split; [exact E3|]. split; [exact E4|].
  destruct (rc2_enc_dec K b Hb Lb) as (d & D1 & D2 & D3 & D4). exists d. split; [exact D1|]. split; [exact D2|]. split; [exact D3|].
  pose proof (rc2_Encrypt_spec K d D2 D3). congruence.
Qed.
Lemma cipher_spec P algo pwd s salt it : prims_ok P -> ai_ok algo -> bytes_ok pwd -> scheme_of (ai_alg algo) = Some s ->
  unmarshal cPbe (sl (rv_full (ai_params algo))) = Ret (mkPbe salt it) ->
  exists bc E, pbeCipherFor P algo pwd = Ret (bc, pbe_iv (sha1 P) (sl salt) it pwd) /\ pbe_block (sha1 P) (tdes_enc P) s (sl salt) it pwd E /\ bc_is bc E.
Proof.
  intros HP Ha Hp Hs Eu. pose proof (params_salt_ok _ _ _ Ha Eu) as Os. unfold scheme_of in Hs. unfold pbeCipherFor, pbe_iv.
  pose proof (pbkdf_p12 P (sl salt) pwd it 2 8 HP Os Hp) as Kiv. change (Z.of_nat 8) with 8 in Kiv.
  destruct (oid_eqb _ oidPBEWithSHAAnd3KeyTripleDESCBC); [|destruct (oid_eqb _ oidPBEWithSHAAnd40BitRC2CBC); [|discriminate Hs]].
  - assert (s = TripleDES3) by congruence. subst s. cbn [bind]. rewrite Eu. cbn [bind pbe_Salt pbe_Iterations].
    pose proof (pbkdf_p12 P (sl salt) pwd it 1 24 HP Os Hp) as K1. change (Z.of_nat 24) with 24 in K1. destruct (p12_kdf_ok P (sl salt) pwd it 1 24 HP Os Hp) as [O1 L1].
    rewrite K1. cbn [bind]. rewrite Kiv. cbn [bind]. remember (p12_kdf (sha1 P) (sl salt) pwd it 1 24) as key eqn:Hkey. change (Z.of_nat 24) with 24 in L1.
    unfold create3DES. rewrite L1. change (negb (24 =? 24)) with false. cbn iota. cbn [bind]. eexists. exists (tdes_enc P key). split; [reflexivity|].
    split; [cbn [pbe_block]; now rewrite Hkey|]. now apply tdes_is.
  - assert (s = RC2_40) by congruence. subst s. cbn [bind]. rewrite Eu. cbn [bind pbe_Salt pbe_Iterations].
    pose proof (pbkdf_p12 P (sl salt) pwd it 1 5 HP Os Hp) as K1. change (Z.of_nat 5) with 5 in K1. destruct (p12_kdf_ok P (sl salt) pwd it 1 5 HP Os Hp) as [O1 L1].
    rewrite K1. cbn [bind]. rewrite Kiv. cbn [bind]. unfold pbe_block. remember (p12_kdf (sha1 P) (sl salt) pwd it 1 5) as key eqn:Hkey. change (Z.of_nat 5) with 5 in L1.
    unfold createRC2. rewrite L1. change (5 * 8) with 40. destruct (expandKey_schedule key 40 O1 ltac:(lia) ltac:(lia)) as (K & _ & S).
    destruct (rc2_is key K O1 L1 S) as (k & E & B). rewrite E. cbn [bind]. eexists. exists (rc2_block K). split; [reflexivity|]. split; [eauto|exact B].
Qed.
Lemma pbe_block_fun P salt it pwd s E E' : prims_ok P -> bytes_ok salt -> bytes_ok pwd ->
  pbe_block (sha1 P) (tdes_enc P) s salt it pwd E -> pbe_block (sha1 P) (tdes_enc P) s salt it pwd E' -> E = E'.
Proof.
  intros HP Hs Hp. destruct s; cbn [pbe_block]; [congruence|]. intros (K & S & ->) (K' & S' & ->). f_equal.
  destruct (p12_kdf_ok P salt pwd it 1 5 HP Hs Hp) as [O1 L1]. remember (p12_kdf (sha1 P) salt pwd it 1 5) as key. change (Z.of_nat 5) with 5 in L1.
  eapply (schedule_unique key 40); eauto; lia.
Qed.
Lemma cipher_inv P algo pwd bc iv : pbeCipherFor P algo pwd = Ret (bc, iv) ->
  exists s salt it, scheme_of (ai_alg algo) = Some s /\ unmarshal cPbe (sl (rv_full (ai_params algo))) = Ret (mkPbe salt it).
Proof.
  unfold pbeCipherFor, scheme_of. destruct (oid_eqb _ oidPBEWithSHAAnd3KeyTripleDESCBC); [|destruct (oid_eqb _ oidPBEWithSHAAnd40BitRC2CBC); [|discriminate]]; cbn [bind];
    (destruct (unmarshal cPbe _) as [[salt it]| |]; [|discriminate|discriminate]); intros _; eauto.
Qed.

(** ** CBC *)
Section CBC.
Variable bc : blockCipher.
Variable E : bytes -> bytes.
Hypothesis B : bc_is bc E.
Lemma xor8_ok p iv : bytes_ok p -> bytes_ok iv -> bytes_ok (xor8 p iv). Proof. apply xor_ok. Qed.
Lemma xor8_len p iv : List.length p = 8%nat -> List.length iv = 8%nat -> List.length (xor8 p iv) = 8%nat.
Proof. intros A C. change (xor8 p iv) with (xor_bytes p iv). rewrite xor_len, A, C. reflexivity. Qed.
Lemma cbc_enc_rel n : forall iv p, bytes_ok iv -> List.length iv = 8%nat -> bytes_ok p -> List.length p = (8 * n)%nat ->
  exists c, cbc_encrypt (bc_Encrypt bc) n iv p = Ret c /\ bytes_ok c /\ List.length c = (8 * n)%nat /\ cbc E iv p c.
Proof.
  induction n as [|n IH]; intros iv p Oi Li Op Lp; cbn [cbc_encrypt].
  - destruct p; [|cbn [List.length] in Lp; lia]. exists []. split; [reflexivity|]. split; [constructor|]. split; [reflexivity|constructor].
  - rewrite <- (firstn_skipn 8 p) in Op. apply bytes_ok_app in Op as [O1 O2]. assert (L1 : List.length (firstn 8 p) = 8%nat) by (rewrite firstn_length; lia).
    change (xor_bytes (firstn 8 p) iv) with (xor8 (firstn 8 p) iv).
    destruct (B (xor8 (firstn 8 p) iv) (xor8_ok _ _ O1 Oi) (xor8_len _ _ L1 Li)) as (Ee & Oe & Le & _). rewrite Ee. cbn [bind].
    destruct (IH (E (xor8 (firstn 8 p) iv)) (skipn 8 p) Oe Le O2 ltac:(rewrite skipn_length; lia)) as (c & E1 & E2 & E3 & E4). rewrite E1. cbn [bind].
    eexists. split; [reflexivity|]. split; [apply bytes_ok_app; auto|]. split; [rewrite app_length; lia|].
    rewrite <- (firstn_skipn 8 p) at 1. constructor; auto.
Qed.
Lemma cbc_dec_rel n : forall iv c, bytes_ok iv -> List.length iv = 8%nat -> bytes_ok c -> List.length c = (8 * n)%nat ->
  exists p, cbc_decrypt (bc_Decrypt bc) n iv c = Ret p /\ bytes_ok p /\ List.length p = (8 * n)%nat /\ cbc E iv p c.
Proof.
  induction n as [|n IH]; intros iv c Oi Li Oc Lc; cbn [cbc_decrypt].
  - destruct c; [|cbn [List.length] in Lc; lia]. exists []. split; [reflexivity|]. split; [constructor|]. split; [reflexivity|constructor].
  - rewrite <- (firstn_skipn 8 c) in Oc. apply bytes_ok_app in Oc as [O1 O2]. assert (L1 : List.length (firstn 8 c) = 8%nat) by (rewrite firstn_length; lia).
    destruct (B (firstn 8 c) O1 L1) as (_ & _ & _ & _ & d & Ed & Od & Ld & Ee). rewrite Ed. cbn [bind].
    destruct (IH (firstn 8 c) (skipn 8 c) O1 L1 O2 ltac:(rewrite skipn_length; lia)) as (p & E1 & E2 & E3 & E4). rewrite E1. cbn [bind].
    assert (X : xor8 (xor8 d iv) iv = d) by (apply xor_xor; lia).
    eexists. split; [reflexivity|]. change (xor_bytes d iv) with (xor8 d iv). split; [apply bytes_ok_app; split; auto; apply xor8_ok; auto|].
    assert (Lx : List.length (xor8 d iv) = 8%nat) by (apply xor8_len; auto). split; [rewrite app_length; lia|].
    rewrite <- (firstn_skipn 8 c) at 1. rewrite <- Ee. rewrite <- X at 2. constructor; auto. rewrite X, Ee. exact E4.
Qed.
Lemma cbc_fun iv p c : cbc E iv p c -> forall p', bytes_ok p -> bytes_ok p' -> bytes_ok iv -> List.length iv = 8%nat -> cbc E iv p' c -> p = p'.
Proof.
  induction 1 as [iv|iv p ps cs Lp H IH]; intros p' Op Op' Oi Li H'.
  - inversion H' as [|i q qs ds Lq Hq E1 E2 E3]; [reflexivity|]. exfalso. apply app_eq_nil in E3 as [E3 _].
    subst p'. apply bytes_ok_app in Op' as [Oq _].
    destruct (B (xor8 q iv) (xor8_ok _ _ Oq Oi) (xor8_len _ _ Lq Li)) as (_ & _ & Le & _). rewrite E3 in Le. discriminate Le.
  - apply bytes_ok_app in Op as [O1 O2]. destruct (B (xor8 p iv) (xor8_ok _ _ O1 Oi) (xor8_len _ _ Lp Li)) as (_ & Oe & Le & De & _).
    inversion H' as [i E1 E2 E3|i q qs ds Lq Hq E1 E2 E3].
    + exfalso. destruct (E (xor8 p iv)) eqn:EE; [discriminate Le|discriminate E3].
    + subst i p'. apply bytes_ok_app in Op' as [Oq Oqs]. destruct (B (xor8 q iv) (xor8_ok _ _ Oq Oi) (xor8_len _ _ Lq Li)) as (_ & Oe' & Le' & De' & _).
      assert (X1 : E (xor8 q iv) = E (xor8 p iv)).
      { apply (f_equal (firstn 8)) in E3. rewrite !firstn_app_exact in E3 by (symmetry; auto). exact E3. }
      rewrite X1 in E3. apply app_inv_head in E3. subst ds. rewrite X1 in Hq, De'. assert (X2 : xor8 p iv = xor8 q iv) by congruence.
      assert (p = q).
      { rewrite <- (xor_xor p iv), <- (xor_xor q iv) by lia. change (xor_bytes (xor8 p iv) iv = xor_bytes (xor8 q iv) iv). now rewrite X2. }
      subst q. f_equal. apply IH; auto.
Qed.
Lemma cbc_len iv p c : cbc E iv p c -> bytes_ok p -> bytes_ok iv -> List.length iv = 8%nat -> List.length c = List.length p /\ exists n, List.length c = (8 * n)%nat.
Proof.
  induction 1 as [iv|iv p ps cs Lp H IH]; intros Op Oi Li; [split; [reflexivity|exists 0%nat; reflexivity]|].
  apply bytes_ok_app in Op as [O1 O2]. destruct (B (xor8 p iv) (xor8_ok _ _ O1 Oi) (xor8_len _ _ Lp Li)) as (_ & Oe & Le & _).
  destruct (IH O2 Oe Le) as (I1 & n & I2). rewrite !app_length. split; [lia|]. exists (S n). lia.
Qed.
End CBC.

(** ** pbDecrypt, pbEncrypt *)
(** [c] is what encrypting the padded message [m ++ pad] under the identified scheme gives *)
Definition pbe_encrypts (P : prims) (algo : AI) (pwd plain c : bytes) : Prop :=
  exists s salt it E, scheme_of (ai_alg algo) = Some s /\ unmarshal cPbe (sl (rv_full (ai_params algo))) = Ret (mkPbe salt it) /\
    pbe_block (sha1 P) (tdes_enc P) s (sl salt) it pwd E /\ cbc E (pbe_iv (sha1 P) (sl salt) it pwd) plain c.
Lemma iv_ok P salt it pwd : prims_ok P -> bytes_ok salt -> bytes_ok pwd -> bytes_ok (pbe_iv (sha1 P) salt it pwd) /\ List.length (pbe_iv (sha1 P) salt it pwd) = 8%nat.
Proof. intros HP Hs Hp. destruct (p12_kdf_ok P salt pwd it 2 8 HP Hs Hp) as [A L]. split; [exact A|]. unfold zlen in L. unfold pbe_iv. lia. Qed.
Lemma decrypt_rel P algo c pwd : prims_ok P -> ai_ok algo -> bytes_ok pwd -> bytes_ok c ->
  forall m, pbDecrypt P algo c pwd = Ret m <-> (bytes_ok m /\ exists n, 1 <= n <= 8 /\ pbe_encrypts P algo pwd (m ++ repeat n (Z.to_nat n)) c).
Proof.
  intros HP Ha Hp Hc m. destruct (pbDecrypt_exact P algo c pwd HP Ha Hp Hc) as [_ X]. rewrite X. clear X. unfold cbc_plain. split.
  - intros (Hne & Hm & n & Hn & Ed). destruct (pbeCipherFor P algo pwd) as [[bc iv]| |] eqn:Ec; cbn [bind] in Ed; try discriminate Ed.
    destruct (cipher_inv P algo pwd bc iv Ec) as (s & salt & it & Es & Eu). destruct (cipher_spec P algo pwd s salt it HP Ha Hp Es Eu) as (bc' & E & Ec' & Hb & Hi).
    assert (bc' = bc /\ iv = pbe_iv (sha1 P) (sl salt) it pwd) as [-> ->] by (rewrite Ec in Ec'; injection Ec' as -> ->; auto).
    pose proof (params_salt_ok _ _ _ Ha Eu) as Os. destruct (iv_ok P (sl salt) it pwd HP Os Hp) as [Oi Li].
    destruct (cbc_dec_rel bc E Hi (List.length c / 8) _ c Oi Li Hc (len_div8 _ Hm)) as (p & E1 & E2 & E3 & E4).
    assert (p = m ++ repeat n (Z.to_nat n)) by congruence. subst p. apply bytes_ok_app in E2 as [Om _]. split; [exact Om|]. exists n. split; [exact Hn|].
    exists s, salt, it, E. auto.
  - intros (Om & n & Hn & s & salt & it & E & Es & Eu & Hb & Hcbc). destruct (cipher_spec P algo pwd s salt it HP Ha Hp Es Eu) as (bc & E' & Ec & Hb' & Hi).
    pose proof (params_salt_ok _ _ _ Ha Eu) as Os. destruct (iv_ok P (sl salt) it pwd HP Os Hp) as [Oi Li].
    assert (E' = E) by (eapply (pbe_block_fun P (sl salt) it pwd s); eauto). subst E'.
    assert (Op : bytes_ok (m ++ repeat n (Z.to_nat n))) by (apply bytes_ok_app; split; auto; apply bytes_ok_repeat; unfold byte_ok; lia).
    destruct (cbc_len bc E Hi _ _ _ Hcbc Op Oi Li) as (L1 & k & L2).
    split; [|split; [unfold zlen; rewrite L2; replace (Z.of_nat (8 * k)) with (Z.of_nat k * 8) by lia; apply Z.mod_mul; lia|]].
    + intros ->. rewrite app_length, repeat_length in L1. cbn [List.length] in L1. lia.
    + exists n. split; [exact Hn|]. rewrite Ec. cbn [bind].
      assert (L3 : List.length c = (8 * (List.length c / 8))%nat) by (rewrite L2 at 2; rewrite (Nat.mul_comm 8 k), Nat.div_mul by lia; lia).
      destruct (cbc_dec_rel bc E Hi (List.length c / 8) _ c Oi Li Hc L3) as (p & E1 & E2 & E3 & E4). rewrite E1. f_equal.
      symmetry. eapply (cbc_fun bc E Hi _ _ c Hcbc); eauto.
Qed.
Lemma encrypt_rel P algo m pwd c : prims_ok P -> ai_ok algo -> bytes_ok pwd -> bytes_ok m ->
  pbEncrypt P algo m pwd = Ret c <-> pbe_encrypts P algo pwd (m ++ repeat (8 - zlen m mod 8) (Z.to_nat (8 - zlen m mod 8))) c.
Proof.
  intros HP Ha Hp Hm. unfold pbEncrypt. change (m ++ repeat (8 - zlen m mod 8) (Z.to_nat (8 - zlen m mod 8))) with (pkcs_pad m).
  destruct (pkcs_pad_len m) as [_ L8]. pose proof (pkcs_pad_ok m Hm) as Opad.
  assert (Main : forall s salt it, scheme_of (ai_alg algo) = Some s -> unmarshal cPbe (sl (rv_full (ai_params algo))) = Ret (mkPbe salt it) ->
    exists E c0, pbe_block (sha1 P) (tdes_enc P) s (sl salt) it pwd E /\ cbc E (pbe_iv (sha1 P) (sl salt) it pwd) (pkcs_pad m) c0 /\
      (do (block, iv) <- pbeCipherFor P algo pwd; CryptBlocks (cbc_encrypt (bc_Encrypt block)) iv (pkcs_pad m)) = Ret c0 /\
      (forall c', cbc E (pbe_iv (sha1 P) (sl salt) it pwd) (pkcs_pad m) c' -> c' = c0)).
  { intros s salt it Es Eu. destruct (cipher_spec P algo pwd s salt it HP Ha Hp Es Eu) as (bc & E & Ec & Hb & Hi).
    pose proof (params_salt_ok _ _ _ Ha Eu) as Os. destruct (iv_ok P (sl salt) it pwd HP Os Hp) as [Oi Li].
    destruct (cbc_enc_rel bc E Hi (List.length (pkcs_pad m) / 8) _ _ Oi Li Opad (len_div8 _ L8)) as (c0 & E1 & E2 & E3 & E4).
    exists E, c0. split; [exact Hb|]. split; [exact E4|]. split.
    - rewrite Ec. cbn [bind]. unfold CryptBlocks. assert (Z8 : zlen (pbe_iv (sha1 P) (sl salt) it pwd) = 8) by (unfold zlen; lia). rewrite Z8, L8. exact E1.
    - assert (D : forall iv p a, cbc E iv p a -> bytes_ok p -> bytes_ok iv -> List.length iv = 8%nat -> forall b, cbc E iv p b -> b = a).
      { clear - Hi. induction 1 as [iv|iv p ps cs Lp H IH]; intros Op Oi Li b Hb.
        - inversion Hb as [i E1 E2 E3|i q qs ds Lq Hq E1 E2 E3]; [reflexivity|]. apply app_eq_nil in E2 as [-> _]. discriminate Lq.
        - inversion Hb as [i E1 E2 E3|i q qs ds Lq Hq E1 E2 E3].
          + exfalso. destruct p; [discriminate Lp|discriminate E2].
          + subst i b. assert (q = p). { apply (f_equal (firstn 8)) in E2. rewrite !firstn_app_exact in E2 by (symmetry; auto). exact E2. }
            subst q. apply app_inv_head in E2. subst qs. apply bytes_ok_app in Op as [O1 O2].
            destruct (Hi (xor8 p iv) (xor8_ok _ _ O1 Oi) (xor8_len _ _ Lp Li)) as (_ & Oe & Le & _). f_equal. apply IH; auto. }
      intros c' H'. exact (D _ _ _ E4 Opad Oi Li c' H'). }
  split.
  - intros X. destruct (pbeCipherFor P algo pwd) as [[bc iv]| |] eqn:Ec; cbn [bind] in X; try discriminate X.
    destruct (cipher_inv P algo pwd bc iv Ec) as (s & salt & it & Es & Eu). destruct (Main s salt it Es Eu) as (E & c0 & H1 & H2 & H3 & _).
    cbn [bind] in H3. assert (c = c0) by congruence. subst c0. exists s, salt, it, E. auto.
  - intros (s & salt & it & E & Es & Eu & Hb & Hcbc). destruct (Main s salt it Es Eu) as (E' & c0 & H1 & H2 & H3 & H4).
    assert (E' = E) by (eapply (pbe_block_fun P (sl salt) it pwd s); eauto using params_salt_ok). subst E'. rewrite (H4 c Hcbc). exact H3.
Qed.
