(** * C38-C47: PKCS#12 *)
From Coq Require Import String.
From Verif Require Import Base Words Utf8 ECSpec ECModel SM2Spec Primes ECBridge ECProofs SM2Model SM2SigProofs BaseOrder PropertiesKeys CryptoByte Asn1 Asn1Proofs Asn1Safe KeysModel KeysProofs BMPModel RC2Spec RC2Model PbkdfSpec PbkdfModel P12Spec P12Model P12Proofs P12Enc P12Round P12Cipher P12Open.
Open Scope Z_scope.

(** A (cryptographically useless) instance of the primitives, for the examples. *)
Definition toy : prims := mkPrims (fun x => repeat (fold_left Z.add x 7 mod 256) 20) (fun k m => repeat (fold_left Z.add (k ++ m) 1 mod 256) 20) (fun k b => b) (fun k b => b).
Lemma toy_ok : prims_ok toy.
Proof.
  assert (R : forall v, zlen (repeat (v mod 256) 20) = 20 /\ bytes_ok (repeat (v mod 256) 20)).
  { intros v. split; [reflexivity|]. apply bytes_ok_repeat. unfold byte_ok. apply Z.mod_pos_bound. lia. }
  split; [intros x; apply R|]. split; [intros k m; apply R|]. intros k b _ Lb _ Hb. cbn. auto 10.
Qed.

(** ** C38 *)
(** the ciphertext is the CBC encryption of the message with 1..8 bytes of PKCS padding, under the cipher, key and
    IV that RFC 7292 prescribes for the algorithm identifier *)
Theorem C38_encrypt_spec : forall P algo m pwd c, prims_ok P -> bytes_ok (sl (rv_full (ai_params algo))) -> bytes_ok pwd -> bytes_ok m ->
  (pbEncrypt P algo m pwd = Ret c <->
   exists s salt it E,
     (ai_alg algo = oidPBEWithSHAAnd3KeyTripleDESCBC /\ s = TripleDES3 \/ ai_alg algo = oidPBEWithSHAAnd40BitRC2CBC /\ s = RC2_40) /\
     unmarshal cPbe (sl (rv_full (ai_params algo))) = Ret (mkPbe salt it) /\
     pbe_block (sha1 P) (tdes_enc P) s (sl salt) it pwd E /\
     cbc E (pbe_iv (sha1 P) (sl salt) it pwd) (m ++ repeat (8 - zlen m mod 8) (Z.to_nat (8 - zlen m mod 8))) c).
Proof.
  intros P algo m pwd c HP Ha Hp Hm. rewrite encrypt_rel by auto. unfold pbe_encrypts, scheme_of. split.
  - intros (s & salt & it & E & Es & H). exists s, salt, it, E. split; [|exact H].
    destruct (oid_eqb (ai_alg algo) oidPBEWithSHAAnd3KeyTripleDESCBC) eqn:E1; [left; apply oid_eqb_spec in E1; split; [auto|congruence]|].
    destruct (oid_eqb (ai_alg algo) oidPBEWithSHAAnd40BitRC2CBC) eqn:E2; [right; apply oid_eqb_spec in E2; split; [auto|congruence]|discriminate Es].
  - intros (s & salt & it & E & Es & H). exists s, salt, it, E. split; [|exact H]. destruct Es as [[-> ->]|[-> ->]]; reflexivity.
Qed.
Print Assumptions C38_encrypt_spec.
Theorem C38_roundtrip : forall P algo salt it m pwd, prims_ok P -> bytes_ok (sl (rv_full (ai_params algo))) -> bytes_ok pwd -> bytes_ok m ->
  ai_alg algo = oidPBEWithSHAAnd3KeyTripleDESCBC \/ ai_alg algo = oidPBEWithSHAAnd40BitRC2CBC ->
  unmarshal cPbe (sl (rv_full (ai_params algo))) = Ret (mkPbe salt it) ->
  exists c, pbEncrypt P algo m pwd = Ret c /\ pbDecrypt P algo c pwd = Ret m /\ zlen c mod 8 = 0 /\ 1 <= zlen c - zlen m <= 8.
Proof.
  intros P algo salt it m pwd HP Ha Hp Hm Ho Eu. destruct (pbe_total P algo salt it pwd HP Ha Hp Ho Eu) as (bc & iv & E).
  destruct (pb_roundtrip P algo m pwd bc iv HP Ha Hp Hm E) as (c & E1 & E2 & E3 & E4). exists c. split; [exact E1|]. split; [exact E4|].
  rewrite E3. destruct (pad_range m) as [A B]. split; [exact B|lia].
Qed.
Print Assumptions C38_roundtrip.
Definition algo1 (o : oid) : AI := mkAI o (mkRaw 0 0 false None (Some [48; 6; 4; 1; 9; 2; 1; 3])).
Example C38_instance : unmarshal cPbe (sl (rv_full (ai_params (algo1 oidPBEWithSHAAnd3KeyTripleDESCBC)))) = Ret (mkPbe (Some [9]) 3) /\
  pbEncrypt toy (algo1 oidPBEWithSHAAnd3KeyTripleDESCBC) [1; 2; 3; 4; 5; 6; 7; 8] [0; 65; 0; 0] =
    Ret (xor8 [1; 2; 3; 4; 5; 6; 7; 8] (p12_kdf (sha1 toy) [9] [0; 65; 0; 0] 3 2 8) ++ xor8 (repeat 8 8) (xor8 [1; 2; 3; 4; 5; 6; 7; 8] (p12_kdf (sha1 toy) [9] [0; 65; 0; 0] 3 2 8))) /\
  exists c, pbEncrypt toy (algo1 oidPBEWithSHAAnd40BitRC2CBC) [1; 2; 3] [0; 65; 0; 0] = Ret c /\ zlen c = 8.
Proof. split; [vm_compute; reflexivity|]. split; [vm_compute; reflexivity|]. eexists. split; vm_compute; reflexivity. Qed.

(** ** C39 *)
Theorem C39_total : forall P algo c pwd, prims_ok P -> bytes_ok (sl (rv_full (ai_params algo))) -> bytes_ok pwd -> bytes_ok c -> pbDecrypt P algo c pwd <> Panic.
Proof. intros P algo c pwd HP Ha Hp Hc. now apply pbDecrypt_exact. Qed.
Print Assumptions C39_total.
(** success exactly on CBC encryptions of m followed by n copies of n, 1 <= n <= 8 *)
Theorem C39_exact : forall P algo c pwd m, prims_ok P -> bytes_ok (sl (rv_full (ai_params algo))) -> bytes_ok pwd -> bytes_ok c ->
  (pbDecrypt P algo c pwd = Ret m <->
   bytes_ok m /\ exists n s salt it E, 1 <= n <= 8 /\
     (ai_alg algo = oidPBEWithSHAAnd3KeyTripleDESCBC /\ s = TripleDES3 \/ ai_alg algo = oidPBEWithSHAAnd40BitRC2CBC /\ s = RC2_40) /\
     unmarshal cPbe (sl (rv_full (ai_params algo))) = Ret (mkPbe salt it) /\
     pbe_block (sha1 P) (tdes_enc P) s (sl salt) it pwd E /\
     cbc E (pbe_iv (sha1 P) (sl salt) it pwd) (m ++ repeat n (Z.to_nat n)) c).
Proof.
  intros P algo c pwd m HP Ha Hp Hc. rewrite decrypt_rel by auto. unfold pbe_encrypts, scheme_of. split; (intros [Om H]; split; [exact Om|]).
  - destruct H as (n & Hn & s & salt & it & E & Es & H). exists n, s, salt, it, E. split; [exact Hn|]. split; [|exact H].
    destruct (oid_eqb (ai_alg algo) oidPBEWithSHAAnd3KeyTripleDESCBC) eqn:E1; [left; apply oid_eqb_spec in E1; split; [auto|congruence]|].
    destruct (oid_eqb (ai_alg algo) oidPBEWithSHAAnd40BitRC2CBC) eqn:E2; [right; apply oid_eqb_spec in E2; split; [auto|congruence]|discriminate Es].
  - destruct H as (n & s & salt & it & E & Hn & Es & H). exists n. split; [exact Hn|]. exists s, salt, it, E. split; [|exact H]. destruct Es as [[-> ->]|[-> ->]]; reflexivity.
Qed.
Print Assumptions C39_exact.
Theorem C39_bad_length : forall P algo c pwd, prims_ok P -> bytes_ok (sl (rv_full (ai_params algo))) -> bytes_ok pwd -> bytes_ok c ->
  c = [] \/ zlen c mod 8 <> 0 -> exists e, pbDecrypt P algo c pwd = Err e.
Proof.
  intros P algo c pwd HP Ha Hp Hc H. destruct (pbDecrypt_exact P algo c pwd HP Ha Hp Hc) as [N X].
  destruct (pbDecrypt P algo c pwd) as [m|e|] eqn:E; [|eauto|contradiction]. exfalso. destruct (X m) as [Y _]. destruct (Y eq_refl) as (A & B & _). tauto.
Qed.
Print Assumptions C39_bad_length.
Example C39_instance : pbDecrypt toy (algo1 oidPBEWithSHAAnd3KeyTripleDESCBC) (xor8 [1; 2; 3; 4; 5; 3; 3; 3] (p12_kdf (sha1 toy) [9] [0; 65; 0; 0] 3 2 8)) [0; 65; 0; 0] = Ret [1; 2; 3; 4; 5] /\
  pbDecrypt toy (algo1 oidPBEWithSHAAnd3KeyTripleDESCBC) (xor8 [1; 2; 3; 4; 5; 2; 3; 3] (p12_kdf (sha1 toy) [9] [0; 65; 0; 0] 3 2 8)) [0; 65; 0; 0] = Err ErrDecryption /\
  pbDecrypt toy (algo1 oidPBEWithSHAAnd3KeyTripleDESCBC) (xor8 [9; 9; 9; 9; 9; 9; 9; 9] (p12_kdf (sha1 toy) [9] [0; 65; 0; 0] 3 2 8)) [0; 65; 0; 0] = Err ErrDecryption.
Proof. vm_compute. auto. Qed.

(** ** C40 *)
Theorem C40_verify : forall P md msg pwd, prims_ok P -> bytes_ok (sl (mac_MacSalt md)) -> bytes_ok pwd ->
  (verifyMac P md msg pwd = Ret tt <->
   ai_alg (di_Algorithm (mac_Mac md)) = oidSHA1 /\
   sl (di_Digest (mac_Mac md)) = hmac_sha1 P (p12_kdf (sha1 P) (sl (mac_MacSalt md)) pwd (mac_Iterations md) 3 20) msg) /\
  verifyMac P md msg pwd <> Panic.
Proof.
  intros P md msg pwd HP Hs Hp. destruct (verifyMac_cases P md msg pwd HP Hs Hp) as [[N E]|[(A & M & E)|(A & M & E)]]; unfold mac_holds in *; rewrite E; (split; [|discriminate]); split; try discriminate; tauto.
Qed.
Print Assumptions C40_verify.
Theorem C40_compute : forall P md msg pwd, prims_ok P -> bytes_ok (sl (mac_MacSalt md)) -> bytes_ok pwd -> ai_alg (di_Algorithm (mac_Mac md)) = oidSHA1 ->
  exists md', computeMac P md msg pwd = Ret md' /\ mac_MacSalt md' = mac_MacSalt md /\ mac_Iterations md' = mac_Iterations md /\ verifyMac P md' msg pwd = Ret tt /\
    forall d, d <> sl (di_Digest (mac_Mac md')) -> verifyMac P (mkMac (mkDI (di_Algorithm (mac_Mac md')) (Some d)) (mac_MacSalt md') (mac_Iterations md')) msg pwd = Err ErrIncorrectPassword.
Proof.
  intros P md msg pwd HP Hs Hp Ha. pose proof (pbkdf_p12 P (sl (mac_MacSalt md)) pwd (mac_Iterations md) 3 20 HP Hs Hp) as K. change (Z.of_nat 20) with 20 in K.
  unfold computeMac. rewrite Ha, K. change (negb (oid_eqb oidSHA1 oidSHA1)) with false. cbn iota. cbn [bind]. eexists. split; [reflexivity|]. cbn [mac_MacSalt mac_Iterations mac_Mac di_Algorithm di_Digest sl].
  split; [reflexivity|]. split; [reflexivity|]. split.
  - apply C40_verify; cbn [mac_MacSalt mac_Iterations mac_Mac di_Algorithm di_Digest sl]; auto.
  - intros d Hd. match goal with |- verifyMac P ?m _ _ = _ => destruct (verifyMac_cases P m msg pwd HP) as [[N E]|[(A & M & E)|(A & M & E)]] end;
      cbn [mac_MacSalt mac_Iterations mac_Mac di_Algorithm di_Digest sl] in *; auto; try contradiction; exfalso; apply Hd, M.
Qed.
Print Assumptions C40_compute.
Example C40_instance : exists md', computeMac toy (mkMac (mkDI (mkAI oidSHA1 rawZero) None) (Some [1; 2; 3]) 1) [5; 6] [0; 65; 0; 0] = Ret md' /\
  verifyMac toy md' [5; 6] [0; 65; 0; 0] = Ret tt /\ verifyMac toy md' [5; 6] [0; 66; 0; 0] = Err ErrIncorrectPassword /\ verifyMac toy md' [5; 7] [0; 65; 0; 0] = Err ErrIncorrectPassword.
Proof. eexists. split; [vm_compute; reflexivity|]. vm_compute. auto. Qed.

(** ** C41 *)
Theorem C41_mac_first : forall P pfx pwd bags pwd', prims_ok P -> bytes_ok pfx -> bytes_ok pwd -> getSafeContents P pfx pwd = Ret (bags, pwd') ->
  exists pdu content items,
    unmarshal cPfx pfx = Ret pdu /\ pfx_Version pdu = 3 /\ ci_ContentType (pfx_AuthSafe pdu) = oidDataContentType /\
    unmarshal cRaw (sl (rv_bytes (ci_Content (pfx_AuthSafe pdu)))) = Ret content /\
    (let md := pfx_MacData pdu in let safe := sl (rv_bytes content) in
     ai_alg (di_Algorithm (mac_Mac md)) = oidSHA1 /\
     sl (di_Digest (mac_Mac md)) = hmac_sha1 P (p12_kdf (sha1 P) (sl (mac_MacSalt md)) pwd' (mac_Iterations md) 3 20) safe /\
     (pwd' = pwd \/ pwd = [0; 0] /\ pwd' = []) /\
     unmarshal (cSeqOf false cCI) safe = Ret (Some items) /\ List.length items = 2%nat).
Proof.
  intros P pfx pwd bags pwd' HP Ho Hp E. destruct (getSafe_sound P pfx pwd bags pwd' HP Ho Hp E) as (pdu & content & safe & items & H1 & H2 & H3 & H4 & -> & H6 & H7 & H8 & H9 & _).
  exists pdu, content, items. cbv zeta. do 5 (split; [assumption|]). unfold mac_password, mac_holds in H7. destruct H7 as [[-> M]|(-> & _ & -> & M)]; (split; [exact M|]); auto.
Qed.
Print Assumptions C41_mac_first.
(** at the level of Decode and DecodeAll: a key or certificate is returned only if the MAC holds *)
Theorem C41_decode : forall P edPub C (parseCerts : bytes -> outcome (list C)) all pfx password r, prims_ok P -> bytes_ok pfx ->
  decode_gen P edPub C parseCerts all pfx password = Ret r ->
  exists pwd pwd' pdu content,
    bmpString password = Ret pwd /\ (pwd' = pwd \/ pwd = [0; 0] /\ pwd' = []) /\
    unmarshal cPfx pfx = Ret pdu /\ unmarshal cRaw (sl (rv_bytes (ci_Content (pfx_AuthSafe pdu)))) = Ret content /\
    ai_alg (di_Algorithm (mac_Mac (pfx_MacData pdu))) = oidSHA1 /\
    sl (di_Digest (mac_Mac (pfx_MacData pdu))) =
      hmac_sha1 P (p12_kdf (sha1 P) (sl (mac_MacSalt (pfx_MacData pdu))) pwd' (mac_Iterations (pfx_MacData pdu)) 3 20) (sl (rv_bytes content)).
Proof.
  intros P edPub C pc all pfx password r HP Ho E. unfold decode_gen in E. destruct (bmpString password) as [pwd| |] eqn:Eb; cbn [bind] in E; try discriminate E.
  pose proof (bmpString_ok _ _ Eb) as Hp. destruct (getSafeContents P pfx pwd) as [[bags pwd']| |] eqn:Eg; cbn [bind] in E; try discriminate E.
  destruct (C41_mac_first P pfx pwd bags pwd' HP Ho Hp Eg) as (pdu & content & items & H1 & _ & _ & H4 & H5 & H6 & H7 & _). exists pwd, pwd', pdu, content. auto 10.
Qed.
Print Assumptions C41_decode.

(** ** C42 *)
Theorem C42_wrong_password : forall P edPub C (parseCerts : bytes -> outcome (list C)) all pfx password pwd pdu content, prims_ok P -> bytes_ok pfx ->
  bmpString password = Ret pwd ->
  unmarshal cPfx pfx = Ret pdu -> pfx_Version pdu = 3 -> ci_ContentType (pfx_AuthSafe pdu) = oidDataContentType ->
  unmarshal cRaw (sl (rv_bytes (ci_Content (pfx_AuthSafe pdu)))) = Ret content -> ai_alg (di_Algorithm (mac_Mac (pfx_MacData pdu))) = oidSHA1 ->
  (forall pwd', pwd' = pwd \/ pwd = [0; 0] /\ pwd' = [] ->
     sl (di_Digest (mac_Mac (pfx_MacData pdu))) <>
       hmac_sha1 P (p12_kdf (sha1 P) (sl (mac_MacSalt (pfx_MacData pdu))) pwd' (mac_Iterations (pfx_MacData pdu)) 3 20) (sl (rv_bytes content))) ->
  decode_gen P edPub C parseCerts all pfx password = Err ErrIncorrectPassword.
Proof.
  intros P edPub C pc all pfx password pwd pdu content HP Ho Eb E1 E2 E3 E4 E5 H. pose proof (bmpString_ok _ _ Eb) as Hp. unfold decode_gen. rewrite Eb. cbn [bind].
  rewrite (getSafe_wrong P pfx pwd pdu content) by (auto; intros; unfold mac_holds; apply H; auto). reflexivity.
Qed.
Print Assumptions C42_wrong_password.
(** a well-formed PFX whose MAC is wrong for every password exists, for every choice of primitives *)
Example C42_instance : forall P password pwd, prims_ok P -> bmpString password = Ret pwd -> exists pfx pdu content, bytes_ok pfx /\
  unmarshal cPfx pfx = Ret pdu /\ pfx_Version pdu = 3 /\ ci_ContentType (pfx_AuthSafe pdu) = oidDataContentType /\
  unmarshal cRaw (sl (rv_bytes (ci_Content (pfx_AuthSafe pdu)))) = Ret content /\ ai_alg (di_Algorithm (mac_Mac (pfx_MacData pdu))) = oidSHA1 /\
  forall pwd', sl (di_Digest (mac_Mac (pfx_MacData pdu))) <> hmac_sha1 P (p12_kdf (sha1 P) (sl (mac_MacSalt (pfx_MacData pdu))) pwd' (mac_Iterations (pfx_MacData pdu)) 3 20) (sl (rv_bytes content)).
Proof.
  intros P password pwd HP _. exists (pfx_bytes [4; 2; 48; 0] [7; 7] [1; 2; 3; 4; 5; 6; 7; 8]), (pfx_of' [4; 2; 48; 0] [7; 7] [1; 2; 3; 4; 5; 6; 7; 8]), (mkRaw 0 4 false (Some [48; 0]) (Some [4; 2; 48; 0])).
  split; [apply bytes_okb_spec; vm_compute; reflexivity|]. split; [vm_compute; reflexivity|]. do 4 (split; [vm_compute; reflexivity|]).
  intros pwd' H. destruct HP as (_ & HM & _). cbn [pfx_of' pfx_MacData mac_of mac_Mac di_Digest sl] in H.
  match type of H with _ = hmac_sha1 P ?k ?m => destruct (HM k m) as [L _]; rewrite <- H in L; discriminate L end.
Qed.

(** ** C43 *)
Theorem C43_topem_drops_errors : forall P edPub pfx password pwd e, bmpString password = Ret pwd -> getSafeContents P pfx pwd = Err e ->
  ToPEM P edPub pfx password = Ret [].
Proof. intros P edPub pfx password pwd e Eb Eg. unfold ToPEM. rewrite Eb, Eg. reflexivity. Qed.
Print Assumptions C43_topem_drops_errors.
Theorem C43_refuted : forall P edPub,
  ~ (forall pfx password, (exists pwd e, bmpString password = Ret pwd /\ getSafeContents P pfx pwd = Err e) -> exists e, ToPEM P edPub pfx password = Err e).
Proof.
  intros P edPub H. destruct (H [] []) as [e E].
  - exists [0; 0]. eexists. split; [reflexivity|]. vm_compute. reflexivity.
  - vm_compute in E. discriminate E.
Qed.
Print Assumptions C43_refuted.
(** in particular for a wrong password *)
Theorem C43_wrong_password_no_error : forall P edPub pfx password pwd pdu content, prims_ok P -> bytes_ok pfx ->
  bmpString password = Ret pwd -> unmarshal cPfx pfx = Ret pdu -> pfx_Version pdu = 3 -> ci_ContentType (pfx_AuthSafe pdu) = oidDataContentType ->
  unmarshal cRaw (sl (rv_bytes (ci_Content (pfx_AuthSafe pdu)))) = Ret content -> ai_alg (di_Algorithm (mac_Mac (pfx_MacData pdu))) = oidSHA1 ->
  (forall pwd', pwd' = pwd \/ pwd = [0; 0] /\ pwd' = [] ->
     sl (di_Digest (mac_Mac (pfx_MacData pdu))) <>
       hmac_sha1 P (p12_kdf (sha1 P) (sl (mac_MacSalt (pfx_MacData pdu))) pwd' (mac_Iterations (pfx_MacData pdu)) 3 20) (sl (rv_bytes content))) ->
  ToPEM P edPub pfx password = Ret [].
Proof.
  intros P edPub pfx password pwd pdu content HP Ho Eb E1 E2 E3 E4 E5 H. eapply C43_topem_drops_errors; [exact Eb|]. pose proof (bmpString_ok _ _ Eb) as Hp.
  apply (getSafe_wrong P pfx pwd pdu content); auto; intros; unfold mac_holds; apply H; auto.
Qed.
Print Assumptions C43_wrong_password_no_error.

(** ** C44 *)
(** The outcome of Decode (all = false) and DecodeAll (all = true) as a function of the bags in the opened PFX:
    the first unreadable bag's error; otherwise the last key, all certificates (Decode: the last one), and the
    "exactly one certificate bag" error only if some certificate after the first has no key bag after it. *)
Theorem C44_outcome : forall P edPub C (parseCerts : bytes -> outcome (list C)) all pfx password pwd bags pwd',
  bmpString password = Ret pwd -> getSafeContents P pfx pwd = Ret (bags, pwd') ->
  match mapM (read_bag P edPub C parseCerts pwd') bags with
  | Err e => decode_gen P edPub C parseCerts all pfx password = Err e
  | Panic => decode_gen P edPub C parseCerts all pfx password = Panic
  | Ret items =>
      (certs_in items = [] -> decode_gen P edPub C parseCerts all pfx password = Err "go-pkcs12: certificate missing") /\
      (certs_in items <> [] -> keys_in items = [] -> decode_gen P edPub C parseCerts all pfx password = Err "go-pkcs12: private key missing") /\
      (forall cs c ks k, certs_in items = cs ++ [c] -> keys_in items = ks ++ [k] ->
         exists err, decode_gen P edPub C parseCerts all pfx password = Ret (k, if all then cs ++ [c] else [c], err) /\
           (err = Some "go-pkcs12: expected exactly one certificate bag"%string /\ late_cert items \/ err = None /\ ~ late_cert items))
  end.
Proof.
  intros P edPub C pc all pfx password pwd bags pwd' Eb Eg. unfold decode_gen. rewrite Eb. cbn [bind]. rewrite Eg. cbn [bind]. rewrite loop_fold.
  destruct (mapM (read_bag P edPub C pc pwd') bags) as [items|e|]; cbn [bind]; try reflexivity.
  destruct (fold_spec C all items) as (K & Cs & Er). set (st := fold_left (step C all) items (mkDS C None [] None)) in *. split; [|split].
  - intros N. rewrite Cs, N. destruct all; reflexivity.
  - intros N Nk. rewrite Cs, K, Nk. cbn [last_opt fold_left]. destruct (certs_in items) as [|c l _] using rev_ind; [contradiction|]. rewrite last_opt_app. destruct all; [|reflexivity].
    destruct (l ++ [c]) eqn:E; [apply app_eq_nil in E as [_ E]; discriminate E|reflexivity].
  - intros cs c ks k Ec Ek. rewrite Cs, K, Ec, Ek, !last_opt_app. exists (ds_err C st). split.
    + destruct all; [|reflexivity]. destruct (cs ++ [c]) eqn:E; [apply app_eq_nil in E as [_ E]; discriminate E|reflexivity].
    + destruct Er as [[A B]|[A B]]; rewrite B; [left|right]; split; auto.
Qed.
Print Assumptions C44_outcome.

(** SM2 keys as PKCS#8 *)
Definition sm2_key (d : Z) : privKey := SKsm2 (mkPriv (mkPub SM2P256V1_id (fst (enc (sm2_pmul d sm2_G))) (snd (enc (sm2_pmul d sm2_G)))) d).
Lemma sm2_der edPub d : 0 <= d < sm2_N ->
  exists der t i, MarshalPKCS8PrivateKey (sm2_key d) = Ret der /\ bytes_ok der /\ zlen der < 1000 /\ elem der t i /\ ParsePKCS8PrivateKey edPub der = Ret (sm2_key d).
Proof.
  intros Hd. pose proof (enc_range d) as [Rx Ry]. unfold sm2_key. destruct (enc (sm2_pmul d sm2_G)) as [x y] eqn:Exy. cbn [fst snd] in *.
  cbn [MarshalPKCS8PrivateKey sk_Pub sk_D pk_Curve pk_X pk_Y].
  assert (Em : cv_ScalarBaseMult curve_sm2 (Z_to_be (byteLen (BitLen (cv_N curve_sm2))) d) = Ret (x, y)).
  { change (byteLen (BitLen (cv_N curve_sm2))) with 32%nat. change (cv_ScalarBaseMult curve_sm2 (Z_to_be 32 d)) with (sm2_ScalarBaseMult (Z_to_be 32 d)).
    rewrite sm2_ScalarBaseMult_correct by apply Z_to_be_ok. rewrite be_to_Z_to_be_small by (unfold sm2_N in Hd; lia). rewrite Exy. reflexivity. }
  destruct (pkcs8_ec_rt edPub SM2P256V1_id curve_sm2 x y d oidNamedCurveSM2P256 (Some oidNamedCurveSM2P256) curve_of_sm2 eq_refl Hd Rx Ry Em ltac:(auto)) as (bs & E & L & Pk).
  destruct (ec8_ok _ _ _ _ _ _ E ltac:(lia)) as (Ob & t & i & El). exists bs, t, i. split; [exact E|]. split; [exact Ob|]. split; [exact L|]. split; [exact El|exact Pk].
Qed.
(** any list of certificate and key bags can be put into a PFX that opens *)
Lemma pfx_written P pwd l0 l1 : prims_ok P -> bytes_ok pwd -> Forall bs_ok l0 -> bags_size l0 < 2 ^ 29 -> Forall bs_ok l1 -> bags_size l1 < 2 ^ 29 ->
  exists pfx, getSafeContents P pfx pwd = Ret (map bs_bag' l0 ++ map bs_bag' l1, pwd).
Proof.
  intros HP Op H0 Z0 H1 Z1. pose (salt := repeat 7 8). assert (Os : bytes_ok salt) by (apply bytes_okb_spec; reflexivity). assert (Ls : zlen salt = 8) by reflexivity. clearbody salt.
  destruct (bags_bytes_bound l0 H0 ltac:(lia)) as [LD0 OD0]. destruct (pb_written P _ salt (bags_bytes l0) pwd HP (or_intror eq_refl) Ls Os Op OD0) as (enc0 & E0 & Oe0 & Le0 & D0).
  set (safe := safe_bytes (ed_bytes salt enc0) (el 0 4 false (bags_bytes l1))). set (digest := hmac_sha1 P (kdf (sha1 P) 20 64 salt pwd 1 3 20) safe).
  exists (pfx_bytes (el 0 4 false safe) digest salt). apply getSafe_written; auto; try lia.
  - apply HP.
  - fold safe. rewrite verifyMac_spec by auto. cbn [mac_of mac_Mac di_Algorithm ai_alg di_Digest mac_MacSalt mac_Iterations sl]. change (negb (oid_eqb oidSHA1 oidSHA1)) with false. cbn iota.
    change (Z.to_nat (Z.max 1 1)) with 1%nat. fold digest. rewrite bytes_eqb_refl. reflexivity.
Qed.
Lemma key_bag_written P edPub d pwd : prims_ok P -> bytes_ok pwd -> 0 <= d < sm2_N ->
  exists s, bs_ok s /\ zlen (bs_val s) < 2000 /\ forall C pc, read_bag P edPub C pc pwd (bs_bag' s) = Ret (IKey (sm2_key d)).
Proof.
  intros HP Op Hd. destruct (sm2_der edPub d Hd) as (der & t & i & _ & Od & Ld & El & Ek). pose (salt := repeat 7 8). assert (Os : bytes_ok salt) by (apply bytes_okb_spec; reflexivity). assert (Ls : zlen salt = 8) by reflexivity. clearbody salt.
  destruct (keybag_written P edPub _ der t i pwd salt HP Ls Os Op Od ltac:(lia) El Ek) as (enc & _ & Oe & Le & De). exists (key_spec (epki_bytes salt enc) []).
  pose proof (epki_ub salt enc Ls ltac:(lia)) as Lu. split; [apply key_spec_ok; [apply epki_ok; auto; lia|apply el_ne|cbn; lia|constructor]|]. split; [cbn [bs_val key_spec]; lia|].
  intros C pc. unfold read_bag. cbv zeta. cbn [bs_bag' key_spec bag_of' bag_Id bag_Value ctx0' rv_bytes sl].
  change (oid_eqb oidPKCS8ShroundedKeyBag oidCertBag) with false. change (oid_eqb oidPKCS8ShroundedKeyBag oidPKCS8ShroundedKeyBag) with true. cbn iota. rewrite De. reflexivity.
Qed.
Lemma cert_bag_read P edPub C pc pwd raw (c : C) : zlen raw < 2 ^ 28 -> pc raw = Ret [c] -> read_bag P edPub C pc pwd (bs_bag' (cert_spec raw [])) = Ret (ICert c).
Proof.
  intros Hz Ec. unfold read_bag. cbv zeta. cbn [bs_bag' cert_spec bag_of' bag_Id bag_Value ctx0' rv_bytes sl]. change (oid_eqb oidCertBag oidCertBag) with true. cbn iota.
  pose proof (certBag_ub raw ltac:(lia)). rewrite decodeCertBag_eq by lia. cbn [bind]. rewrite Ec. reflexivity.
Qed.
(** two different keys: accepted without error, the second one is returned *)
Theorem C44_two_keys_accepted : forall P edPub C (parseCerts : bytes -> outcome (list C)) all password pwd raw c d1 d2, prims_ok P ->
  bmpString password = Ret pwd -> bytes_ok raw -> zlen raw < 2 ^ 28 -> parseCerts raw = Ret [c] -> 0 <= d1 < sm2_N -> 0 <= d2 < sm2_N ->
  exists pfx bags, getSafeContents P pfx pwd = Ret (bags, pwd) /\
    mapM (read_bag P edPub C parseCerts pwd) bags = Ret [ICert c; IKey (sm2_key d1); IKey (sm2_key d2)] /\
    decode_gen P edPub C parseCerts all pfx password = Ret (sm2_key d2, [c], None).
Proof.
  intros P edPub C pc all password pwd raw c d1 d2 HP Eb Or Lr Ec H1 H2. pose proof (bmpString_ok _ _ Eb) as Op.
  destruct (key_bag_written P edPub d1 pwd HP Op H1) as (s1 & B1 & L1 & R1). destruct (key_bag_written P edPub d2 pwd HP Op H2) as (s2 & B2 & L2 & R2).
  destruct (pfx_written P pwd [cert_spec raw []] [s1; s2] HP Op) as (pfx & E).
  - constructor; [|constructor]. apply cert_spec_ok; [auto|lia|cbn; lia|constructor].
  - cbn [bags_size cert_spec bs_val]. pose proof (certBag_ub raw ltac:(lia)). lia.
  - constructor; [auto|constructor; [auto|constructor]].
  - cbn [bags_size]. lia.
  - eexists pfx, _. split; [exact E|]. pose proof (C44_outcome P edPub C pc all pfx password pwd _ pwd Eb E) as O. cbn [map app] in O |- *.
    assert (M : mapM (read_bag P edPub C pc pwd) [bs_bag' (cert_spec raw []); bs_bag' s1; bs_bag' s2] = Ret [ICert c; IKey (sm2_key d1); IKey (sm2_key d2)]).
    { cbn [mapM]. rewrite (cert_bag_read P edPub C pc pwd raw c Lr Ec), R1, R2. reflexivity. }
    split; [exact M|]. rewrite M in O. destruct O as (_ & _ & O). destruct (O [] c [sm2_key d1] (sm2_key d2) eq_refl eq_refl) as (err & E1 & [[_ (a & x & b & Hl & Ha & _)]|[-> _]]).
    + exfalso. destruct a as [|? [|? [|? [|? ?]]]]; try discriminate Hl. apply Ha. reflexivity.
    + rewrite E1. destruct all; reflexivity.
Qed.
Print Assumptions C44_two_keys_accepted.
(** two certificates followed by a key: accepted without error; Decode returns the second certificate *)
Theorem C44_two_certs_accepted : forall P edPub C (parseCerts : bytes -> outcome (list C)) password pwd raw1 raw2 c1 c2 d, prims_ok P ->
  bmpString password = Ret pwd -> bytes_ok raw1 -> bytes_ok raw2 -> zlen raw1 < 2 ^ 27 -> zlen raw2 < 2 ^ 27 -> parseCerts raw1 = Ret [c1] -> parseCerts raw2 = Ret [c2] -> 0 <= d < sm2_N ->
  exists pfx, Decode P edPub C parseCerts pfx password = Ret (sm2_key d, [c2], None) /\ DecodeAll P edPub C parseCerts pfx password = Ret (sm2_key d, [c1; c2], None).
Proof.
  intros P edPub C pc password pwd raw1 raw2 c1 c2 d HP Eb O1 O2 L1 L2 E1 E2 Hd. pose proof (bmpString_ok _ _ Eb) as Op.
  destruct (key_bag_written P edPub d pwd HP Op Hd) as (s1 & B1 & Ls & R1).
  destruct (pfx_written P pwd [cert_spec raw1 []; cert_spec raw2 []] [s1] HP Op) as (pfx & E).
  - constructor; [apply cert_spec_ok; [auto|lia|cbn; lia|constructor]|]. constructor; [apply cert_spec_ok; [auto|lia|cbn; lia|constructor]|constructor].
  - cbn [bags_size cert_spec bs_val]. pose proof (certBag_ub raw1 ltac:(lia)). pose proof (certBag_ub raw2 ltac:(lia)). lia.
  - constructor; [auto|constructor].
  - cbn [bags_size]. lia.
  - exists pfx. cbn [map app] in E.
    assert (M : mapM (read_bag P edPub C pc pwd) [bs_bag' (cert_spec raw1 []); bs_bag' (cert_spec raw2 []); bs_bag' s1] = Ret [ICert c1; ICert c2; IKey (sm2_key d)]).
    { cbn [mapM]. rewrite (cert_bag_read P edPub C pc pwd raw1 c1), (cert_bag_read P edPub C pc pwd raw2 c2), R1 by (auto; lia). reflexivity. }
    assert (G : forall all, decode_gen P edPub C pc all pfx password = Ret (sm2_key d, if all then [c1; c2] else [c2], None)).
    { intros all. pose proof (C44_outcome P edPub C pc all pfx password pwd _ pwd Eb E) as O. rewrite M in O.
      destruct O as (_ & _ & O). destruct (O [c1] c2 [] (sm2_key d) eq_refl eq_refl) as (err & X & [[_ (a & x & b & Hl & Ha & Hb)]|[-> _]]); [|exact X].
      exfalso. destruct a as [|? [|? [|? [|? ?]]]]; try discriminate Hl; [apply Ha; reflexivity|]. injection Hl as _ _ <-. discriminate Hb. }
    split; [exact (G false)|exact (G true)].
Qed.
Print Assumptions C44_two_certs_accepted.
Theorem C44_exactly_one_refuted : forall P edPub C (parseCerts : bytes -> outcome (list C)) password pwd raw c, prims_ok P ->
  bmpString password = Ret pwd -> bytes_ok raw -> zlen raw < 2 ^ 27 -> parseCerts raw = Ret [c] ->
  ~ (forall pfx r bags pwd' items, DecodeAll P edPub C parseCerts pfx password = Ret (r, None) -> getSafeContents P pfx pwd = Ret (bags, pwd') ->
       mapM (read_bag P edPub C parseCerts pwd') bags = Ret items -> List.length (keys_in items) = 1%nat).
Proof.
  intros P edPub C pc password pwd raw c HP Eb Or Lr Ec H.
  destruct (C44_two_keys_accepted P edPub C pc true password pwd raw c 1 2 HP Eb Or ltac:(lia) Ec ltac:(unfold sm2_N; lia) ltac:(unfold sm2_N; lia)) as (pfx & bags & E1 & E2 & E3).
  specialize (H pfx _ bags pwd _ E3 E1 E2). discriminate H.
Qed.
Print Assumptions C44_exactly_one_refuted.

(** ** C45 *)
Theorem C45_encode_decode : forall P edPub C (parseCerts : bytes -> outcome (list C)) rnd d certRaw caRaws c cs password pwd, prims_ok P ->
  0 <= d < sm2_N -> bmpString password = Ret pwd -> bytes_ok rnd -> 24 <= zlen rnd ->
  bytes_ok certRaw -> Forall bytes_ok caRaws -> total_size (certRaw :: caRaws) < 2 ^ 29 ->
  parseCerts certRaw = Ret [c] -> Forall2 (fun raw c => parseCerts raw = Ret [c]) caRaws cs ->
  exists out, Encode P rnd (sm2_key d) certRaw caRaws password = Ret out /\ DecodeAll P edPub C parseCerts out password = Ret (sm2_key d, c :: cs, None).
Proof.
  intros P edPub C pc rnd d certRaw caRaws c cs password pwd HP Hd Eb Or Lr Oc Oca Hz Hc Hcs. destruct (sm2_der edPub d Hd) as (der & t & i & E1 & Od & Ld & El & Ek).
  eapply Encode_DecodeAll; eauto. lia.
Qed.
Print Assumptions C45_encode_decode.
(** the same for every key whose PKCS#8 form parses back (C48, C52: RSA, Ed25519) *)
Theorem C45_encode_decode_any : forall P edPub C (parseCerts : bytes -> outcome (list C)) rnd key der certRaw caRaws c cs password pwd, prims_ok P ->
  MarshalPKCS8PrivateKey key = Ret der -> ParsePKCS8PrivateKey edPub der = Ret key -> bytes_ok der -> zlen der < 2 ^ 28 -> (exists t i, elem der t i) ->
  bmpString password = Ret pwd -> bytes_ok rnd -> 24 <= zlen rnd ->
  bytes_ok certRaw -> Forall bytes_ok caRaws -> total_size (certRaw :: caRaws) < 2 ^ 29 ->
  parseCerts certRaw = Ret [c] -> Forall2 (fun raw c => parseCerts raw = Ret [c]) caRaws cs ->
  exists out, Encode P rnd key certRaw caRaws password = Ret out /\ DecodeAll P edPub C parseCerts out password = Ret (key, c :: cs, None).
Proof.
  intros P edPub C pc rnd key der certRaw caRaws c cs password pwd HP E1 Ek Od Ld (t & i & El) Eb Or Lr Oc Oca Hz Hc Hcs. eapply Encode_DecodeAll; eauto.
Qed.
Print Assumptions C45_encode_decode_any.
Lemma bmpString_np s : bmpString s <> Panic.
Proof.
  unfold bmpString. assert (N : forall l, bmp_loop l <> Panic); [|specialize (N (runes s)); destruct (bmp_loop (runes s)); cbn [bind]; congruence].
  induction l as [|r l IH]; cbn [bmp_loop]; [discriminate|]. destruct (negb _); [discriminate|]. destruct (bmp_loop l); cbn [bind]; congruence.
Qed.
(** with fewer than 24 random bytes, or a password outside the BMP, Encode fails *)
Theorem C45_encode_fails : forall P rnd d certRaw caRaws password, prims_ok P -> 0 <= d < sm2_N -> bytes_ok rnd -> bytes_ok certRaw -> Forall bytes_ok caRaws ->
  total_size (certRaw :: caRaws) < 2 ^ 29 -> (exists e, bmpString password = Err e) \/ zlen rnd < 24 ->
  exists e, Encode P rnd (sm2_key d) certRaw caRaws password = Err e.
Proof.
  intros P rnd d certRaw caRaws password HP Hd Or Oc Oca Hz H. unfold Encode. pose proof (bmpString_np password) as NP.
  destruct (bmpString password) as [pwd|e|] eqn:Eb; cbn [bind]; [|eauto|contradiction]. clear NP.
  destruct H as [[e H]|H]; [discriminate H|]. pose proof (bmpString_ok _ _ Eb) as Opw. change (Marshal cBytes (Some (sha1 P certRaw))) with (@Ret bytes (fp_of P certRaw)). cbn [bind].
  change (mkAttr oidLocalKeyID (mkRaw 0 17 true (Some (fp_of P certRaw)) None)) with (attr_of (fp_of P certRaw)).
  change (Some [attr_of (fp_of P certRaw)]) with (Some (map attr_of [fp_of P certRaw])). rewrite makeCertBag_eq. cbn [bind]. rewrite caBags_eq. cbn [bind].
  unfold encodePkcs8ShroudedKeyBag. destruct (sm2_der (fun x => x) d Hd) as (der & t & i & Em & Od & Ld & El & Ek). rewrite Em.
  destruct (Z.lt_ge_cases (zlen rnd) 8) as [L|L]; [unfold read8 at 1; replace (zlen rnd <? 8) with true by lia; cbn [bind]; eauto|].
  destruct (read8_ok rnd L) as (R1 & L1 & K1). fold (salt1 rnd) in R1, L1. rewrite R1. cbn [bind]. rewrite pbe_eq. cbn [bind]. fold (pbe_ai oidPBEWithSHAAnd3KeyTripleDESCBC (salt1 rnd)).
  assert (O1 : bytes_ok (salt1 rnd)) by (unfold salt1; auto).
  destruct (keybag_written P (fun x => x) _ der t i pwd (salt1 rnd) HP L1 O1 Opw Od ltac:(lia) El Ek) as (enck & Ee & _). rewrite Ee. cbn [bind]. rewrite epki_eq. cbn [bind].
  unfold makeSafeContents. change (bs_bag (cert_spec certRaw [fp_of P certRaw]) :: map bs_bag (map (fun r => cert_spec r []) caRaws)) with (map bs_bag (certs_spec P certRaw caRaws)).
  destruct (certs_spec_ok P certRaw caRaws HP Oc Oca Hz) as [HC SC]. unfold Marshal at 1. rewrite (bags_eq _ HC). cbn [bind].
  destruct (Z.lt_ge_cases (zlen (skipn 8 rnd)) 8) as [L'|L']; [unfold read8 at 1; replace (zlen (skipn 8 rnd) <? 8) with true by lia; cbn [bind]; eauto|].
  destruct (read8_ok (skipn 8 rnd) L') as (R2 & L2 & K2). fold (salt2 rnd) in R2, L2. rewrite R2. cbn [bind]. rewrite pbe_eq. cbn [bind]. fold (pbe_ai oidPBEWithSHAAnd40BitRC2CBC (salt2 rnd)).
  assert (O2 : bytes_ok (salt2 rnd)) by (unfold salt2; auto). destruct (bags_bytes_bound (certs_spec P certRaw caRaws) HC ltac:(lia)) as [LD0 OD0].
  destruct (pb_written P _ (salt2 rnd) (bags_bytes (certs_spec P certRaw caRaws)) pwd HP (or_intror eq_refl) L2 O2 Opw OD0) as (enc0 & E0 & _). rewrite E0. cbn [bind].
  change (mkED 0 (mkECI oidDataContentType (pbe_ai oidPBEWithSHAAnd40BitRC2CBC (salt2 rnd)) (Some enc0))) with (ed_of (salt2 rnd) enc0). rewrite ed_eq. cbn [bind].
  assert (HR : read8 (skipn 8 (skipn 8 rnd)) = Err "rand: short read") by (unfold read8; replace (zlen (skipn 8 (skipn 8 rnd)) <? 8) with true by lia; reflexivity).
  match goal with |- context [Marshal (cSeqOf false cBag) (Some [?b])] => destruct (Marshal (cSeqOf false cBag) (Some [b])) as [data| |] eqn:E3 end; cbn [bind]; [|eauto|].
  - change (Marshal cBytes (Some data)) with (@Ret bytes (el 0 4 false data)). cbn [bind]. fold (ctx0 (ed_bytes (salt2 rnd) enc0)). fold (ctx0 (el 0 4 false data)). rewrite safe_eq. cbn [bind].
    rewrite HR. cbn [bind]. eauto.
  - exfalso. set (shr := epki_bytes (salt1 rnd) enck) in *.
    change [mkBag oidPKCS8ShroundedKeyBag (mkRaw 2 0 true (Some shr) None) (Some (map attr_of [fp_of P certRaw]))] with (map bs_bag [key_spec shr [fp_of P certRaw]]) in E3.
    unfold Marshal in E3. rewrite mk_seq with (es := [bs_bytes (key_spec shr [fp_of P certRaw])]) in E3; [discriminate E3|]. cbn [map mapM bs_bag key_spec bs_bytes].
    erewrite bag_eq by (try reflexivity; cbn; lia). reflexivity.
Qed.
Print Assumptions C45_encode_fails.
Example C45_instance : exists out, Encode toy (repeat 5 24) (sm2_key 1) [48; 1; 7] [[48; 0]] [112; 119] = Ret out /\
  DecodeAll toy (fun x => x) bytes (fun raw => Ret [raw]) out [112; 119] = Ret (sm2_key 1, [[48; 1; 7]; [48; 0]], None).
Proof.
  apply (C45_encode_decode toy (fun x => x) bytes (fun raw => Ret [raw]) (repeat 5 24) 1 [48; 1; 7] [[48; 0]] [48; 1; 7] [[48; 0]] [112; 119] [0; 112; 0; 119; 0; 0] toy_ok).
  - unfold sm2_N. lia.
  - reflexivity.
  - apply bytes_okb_spec. reflexivity.
  - discriminate.
  - apply bytes_okb_spec. reflexivity.
  - constructor; [apply bytes_okb_spec; reflexivity|constructor].
  - reflexivity.
  - reflexivity.
  - constructor; [reflexivity|constructor].
Qed.
(** it also meets the hypotheses of C41 *)
Example C41_instance : exists out bags, getSafeContents toy out [0; 112; 0; 119; 0; 0] = Ret (bags, [0; 112; 0; 119; 0; 0]) /\ List.length bags = 2%nat.
Proof.
  destruct (C44_two_keys_accepted toy (fun x => x) bytes (fun raw => Ret [raw]) true [112; 119] [0; 112; 0; 119; 0; 0] [48; 0] [48; 0] 1 2 toy_ok eq_refl) as (pfx & bags & E & M & _).
  - apply bytes_okb_spec. reflexivity.
  - reflexivity.
  - reflexivity.
  - unfold sm2_N. lia.
  - unfold sm2_N. lia.
  - destruct (pfx_written toy [0; 112; 0; 119; 0; 0] [cert_spec [48; 0] []; cert_spec [48; 0] []] [] toy_ok) as (pfx' & E').
    + apply bytes_okb_spec. reflexivity.
    + constructor; [|constructor; [|constructor]]; (apply cert_spec_ok; [apply bytes_okb_spec; reflexivity|vm_compute; reflexivity|cbn; lia|constructor]).
    + vm_compute. reflexivity.
    + constructor.
    + reflexivity.
    + eexists _, _. split; [exact E'|reflexivity].
Qed.

(** ** C46 *)
Lemma parseEC_sm2_curve h der k : parseECPrivateKey h der = Ret (SKsm2 k) -> pk_Curve (sk_Pub k) = SM2P256V1_id.
Proof.
  unfold parseECPrivateKey. destruct (Unmarshal cEC der) as [[v r]| |]; [|repeat match goal with |- context [if ?b then _ else _] => destruct b end; discriminate|discriminate].
  destruct (negb _); [discriminate|]. destruct (namedCurveFromOID _) as [id|]; [|discriminate]. destruct (curve_of id) as [c|]; [|discriminate]. cbv zeta.
  destruct (_ <=? _); [discriminate|]. destruct (strip_zeros _ _) as [pk| |]; cbn [bind]; [|discriminate|discriminate].
  destruct (cv_ScalarBaseMult c _) as [xy| |]; cbn [bind]; [|discriminate|discriminate]. destruct (id =? SM2P256V1_id) eqn:Ei; [|discriminate].
  assert (Inj : forall a b, Ret (SKsm2 a) = Ret (SKsm2 b) -> b = a) by congruence. intros E. apply Inj in E. subst k. cbn [sk_Pub pk_Curve]. now apply Z.eqb_eq.
Qed.
Lemma parseP8_sm2_curve edPub der k : ParsePKCS8PrivateKey edPub der = Ret (SKsm2 k) -> pk_Curve (sk_Pub k) = SM2P256V1_id.
Proof.
  unfold ParsePKCS8PrivateKey. destruct (Unmarshal cP8 der) as [[v r]| |]; [|repeat match goal with |- context [if ?b then _ else _] => destruct b end; discriminate|discriminate]. cbv zeta.
  destruct (oid_eqb _ oidPublicKeyRSA); [destruct (ParsePKCS1PrivateKey _); discriminate|]. destruct (oid_eqb _ oidPublicKeyECDSA).
  - destruct (parseECPrivateKey _ _) as [x| |] eqn:E; [|discriminate|discriminate]. intros H. assert (x = SKsm2 k) by congruence. subst x. eapply parseEC_sm2_curve; eauto.
  - destruct (oid_eqb _ oidPublicKeyEd25519); [|discriminate]. destruct (sl _); [|discriminate]. destruct (Unmarshal cBytes _) as [[s r']| |]; [|discriminate|discriminate].
    destruct (negb _); discriminate.
Qed.
Lemma keybag_sm2_curve P edPub b pwd k : decodePkcs8ShroudedKeyBag P edPub b pwd = Ret (SKsm2 k) -> pk_Curve (sk_Pub k) = SM2P256V1_id.
Proof.
  unfold decodePkcs8ShroudedKeyBag. destruct (unmarshal cEPKI b); [|discriminate|discriminate]. destruct (pbDecrypt _ _ _ _); [|discriminate|discriminate].
  destruct (unmarshal cRaw _); [|discriminate|discriminate]. destruct (ParsePKCS8PrivateKey edPub _) eqn:E; [|discriminate|discriminate]. intros H. eapply parseP8_sm2_curve. rewrite E. exact H.
Qed.
Lemma mapM_keys P edPub C pc pwd : forall bags items, mapM (read_bag P edPub C pc pwd) bags = Ret items -> Forall (fun k => forall s, k = SKsm2 s -> pk_Curve (sk_Pub s) = SM2P256V1_id) (keys_in items).
Proof.
  induction bags as [|b bags IH]; intros items; cbn [mapM]; [intros [= <-]; constructor|].
  destruct (read_bag P edPub C pc pwd b) as [i| |] eqn:E; cbn [bind]; try discriminate. destruct (mapM _ bags) as [is| |]; cbn [bind]; try discriminate. intros [= <-].
  cbn [keys_in flat_map]. destruct i as [c|k|]; cbn [app]; try (apply IH; reflexivity). constructor; [|apply IH; reflexivity].
  intros s ->. unfold read_bag in E. cbv zeta in E. destruct (oid_eqb (bag_Id b) oidCertBag).
  - destruct (decodeCertBag _); cbn [bind] in E; try discriminate E. destruct (pc _) as [[|? [|? ?]]| |]; cbn [bind] in E; discriminate E.
  - destruct (oid_eqb (bag_Id b) oidPKCS8ShroundedKeyBag); [|discriminate E]. destruct (decodePkcs8ShroudedKeyBag _ _ _ _) as [k| |] eqn:Ek; cbn [bind] in E; try discriminate E.
    assert (k = SKsm2 s) by congruence. subst k. eapply keybag_sm2_curve; eauto.
Qed.
Lemma decode_sm2_curve P edPub C pc all pfx password k cs e : decode_gen P edPub C pc all pfx password = Ret (SKsm2 k, cs, e) -> cs <> [] /\ pk_Curve (sk_Pub k) = SM2P256V1_id.
Proof.
  intros E. assert (E0 := E). unfold decode_gen in E. destruct (bmpString password) as [pwd| |] eqn:Eb; cbn [bind] in E; try discriminate E.
  destruct (getSafeContents P pfx pwd) as [[bags pwd']| |] eqn:Eg; cbn [bind] in E; try discriminate E. rewrite loop_fold in E.
  destruct (mapM (read_bag P edPub C pc pwd') bags) as [items| |] eqn:Em; cbn [bind] in E; try discriminate E.
  destruct (fold_spec C all items) as (K & _ & _). destruct (ds_certs C _) as [|c l] eqn:Ec; [discriminate E|]. rewrite K in E.
  pose proof (mapM_keys P edPub C pc pwd' bags items Em) as F. destruct (keys_in items) as [|x ks _] using rev_ind; [discriminate E|]. rewrite last_opt_app in E.
  assert (x = SKsm2 k) by congruence. assert (c :: l = cs) by congruence. subst x cs. split; [discriminate|]. apply Forall_app in F as [_ F]. inversion F; subst. auto.
Qed.
Lemma decode_certs_ne P edPub C pc all pfx password k cs e : decode_gen P edPub C pc all pfx password = Ret (k, cs, e) -> cs <> [].
Proof.
  unfold decode_gen. destruct (bmpString password) as [pwd| |]; cbn [bind]; try discriminate. destruct (getSafeContents P pfx pwd) as [[bags pwd']| |]; cbn [bind]; try discriminate.
  destruct (bags_loop _ _ _ _ _ _ _ _) as [st| |]; cbn [bind]; try discriminate. destruct (ds_certs C st); [discriminate|]. destruct (ds_key C st); [|discriminate]. intros [= _ <- _]. discriminate.
Qed.
Theorem C46_success : forall P edPub C (parseCerts : bytes -> outcome (list C)) file pwd r,
  SM2P12Decrypt P edPub C parseCerts (Some file) pwd = Ret r <->
  exists k c cs, DecodeAll P edPub C parseCerts file pwd = Ret (k, c :: cs, None) /\ r = Some (c, k) /\
    match k with SKrsa _ => True | SKsm2 s => sm2_on_curve (PA (pk_X (sk_Pub s)) (pk_Y (sk_Pub s))) | _ => False end.
Proof.
  intros P edPub C pc file pwd r. unfold SM2P12Decrypt. cbn [sl]. split.
  - destruct (DecodeAll P edPub C pc file pwd) as [[[k certs] e]| |] eqn:E; cbn [bind]; try discriminate. destruct e as [e|]; [discriminate|].
    destruct certs as [|c cs]; [discriminate|]. destruct k as [k|a b c' d|k|k|]; try discriminate.
    + intros [= <-]. exists (SKrsa k), c, cs. auto.
    + destruct (decode_sm2_curve _ _ _ _ _ _ _ _ _ _ E) as [_ Hc]. rewrite Hc. change (SM2P256V1_id =? SM2P256V1_id) with true. cbn iota.
      destruct (sm2_IsOnCurve _ _) eqn:Ho; cbn [negb]; [|discriminate]. intros [= <-]. exists (SKsm2 k), c, cs. split; [reflexivity|]. split; [reflexivity|]. now apply sm2_IsOnCurve_spec.
  - intros (k & c & cs & E & -> & H). rewrite E. cbn [bind]. destruct k as [k|a b c' d|k|k|]; try contradiction; [reflexivity|].
    destruct (decode_sm2_curve _ _ _ _ _ _ _ _ _ _ E) as [_ Hc]. rewrite Hc. change (SM2P256V1_id =? SM2P256V1_id) with true. cbn iota.
    apply sm2_IsOnCurve_spec in H. rewrite H. reflexivity.
Qed.
Print Assumptions C46_success.
(** every other result of DecodeAll is turned into an error; the panic and the "nil, nil, nil" returns are unreachable *)
Theorem C46_errors : forall P edPub C (parseCerts : bytes -> outcome (list C)) file pwd k cs err,
  DecodeAll P edPub C parseCerts file pwd = Ret (k, cs, err) ->
  err <> None \/ (match k with SKrsa _ => False | SKsm2 s => ~ sm2_on_curve (PA (pk_X (sk_Pub s)) (pk_Y (sk_Pub s))) | _ => True end) ->
  exists e, SM2P12Decrypt P edPub C parseCerts (Some file) pwd = Err e.
Proof.
  intros P edPub C pc file pwd k cs err E H. unfold SM2P12Decrypt. cbn [sl]. rewrite E. cbn [bind]. destruct err as [e|]; [eauto|]. destruct H as [H|H]; [congruence|].
  pose proof (decode_certs_ne _ _ _ _ _ _ _ _ _ _ E) as N. destruct cs as [|c cs]; [congruence|]. destruct k as [k|a b c' d|k|k|]; try contradiction; eauto.
  destruct (decode_sm2_curve _ _ _ _ _ _ _ _ _ _ E) as [_ Hc]. rewrite Hc. change (SM2P256V1_id =? SM2P256V1_id) with true. cbn iota.
  destruct (sm2_IsOnCurve _ _) eqn:Ho; cbn [negb]; [|eauto]. exfalso. apply H. now apply sm2_IsOnCurve_spec.
Qed.
Print Assumptions C46_errors.
Theorem C46_decode_error : forall P edPub C (parseCerts : bytes -> outcome (list C)) file pwd e,
  DecodeAll P edPub C parseCerts file pwd = Err e -> SM2P12Decrypt P edPub C parseCerts (Some file) pwd = Err e.
Proof. intros P edPub C pc file pwd e E. unfold SM2P12Decrypt. cbn [sl]. rewrite E. reflexivity. Qed.
Print Assumptions C46_decode_error.
Theorem C46_unreadable_file : forall P edPub C (parseCerts : bytes -> outcome (list C)) pwd, exists e, SM2P12Decrypt P edPub C parseCerts None pwd = Err e.
Proof.
  intros P edPub C pc pwd. unfold SM2P12Decrypt, DecodeAll, decode_gen. cbn [sl]. pose proof (bmpString_np pwd) as NP. destruct (bmpString pwd) as [b|e|] eqn:Eb; cbn [bind]; [|eauto|contradiction].
  assert (E : exists e, getSafeContents P [] b = Err e) by (eexists; vm_compute; reflexivity). destruct E as [e E]. rewrite E. cbn [bind]. eauto.
Qed.
Print Assumptions C46_unreadable_file.
Example C46_instance : exists file, SM2P12Decrypt toy (fun x => x) bytes (fun raw => Ret [raw]) (Some file) [112; 119] = Ret (Some ([48; 1; 7], sm2_key 1)).
Proof.
  destruct C45_instance as (out & _ & E). exists out. apply C46_success. exists (sm2_key 1), [48; 1; 7], [[48; 0]]. split; [exact E|]. split; [reflexivity|].
  unfold sm2_key. rewrite sm2_pmul_1. cbn [enc fst snd sk_Pub pk_X pk_Y]. exact sm2_G_on.
Qed.

(** ** C47 *)
Theorem C47_topem_sm2 : forall P edPub pfx password pwd bags pwd' bag k,
  bmpString password = Ret pwd -> getSafeContents P pfx pwd = Ret (bags, pwd') ->
  In bag bags -> bag_Id bag = oidPKCS8ShroundedKeyBag -> decodePkcs8ShroudedKeyBag P edPub (sl (rv_bytes (bag_Value bag))) pwd' = Ret (SKsm2 k) ->
  forall blocks, ToPEM P edPub pfx password <> Ret blocks.
Proof.
  intros P edPub pfx password pwd bags pwd' bag k Eb Eg Hin Hid Ek blocks E. unfold ToPEM in E. rewrite Eb, Eg in E. revert blocks E.
  induction bags as [|b bags IH] in Hin |- *; [contradiction|]. intros blocks. cbn [convertBags].
  destruct (convertBag P edPub b pwd') as [x| |] eqn:E1; cbn [bind]; try discriminate. destruct (convertBags P edPub bags pwd') as [xs| |] eqn:E2; cbn [bind]; try discriminate. intros _.
  destruct Hin as [->|Hin]; [|exact (IH Hin xs eq_refl)]. unfold convertBag in E1. destruct (convertAttributes _ _); cbn [bind] in E1; try discriminate E1. cbv zeta in E1.
  rewrite Hid in E1. change (oid_eqb oidPKCS8ShroundedKeyBag oidCertBag) with false in E1. change (oid_eqb oidPKCS8ShroundedKeyBag oidPKCS8ShroundedKeyBag) with true in E1. cbn iota in E1.
  rewrite Ek in E1. discriminate E1.
Qed.
Print Assumptions C47_topem_sm2.
(** such files exist: the ones Encode writes *)
Example C47_instance : exists pfx bags bag, getSafeContents toy pfx [0; 112; 0; 119; 0; 0] = Ret (bags, [0; 112; 0; 119; 0; 0]) /\ In bag bags /\
  bag_Id bag = oidPKCS8ShroundedKeyBag /\ decodePkcs8ShroudedKeyBag toy (fun x => x) (sl (rv_bytes (bag_Value bag))) [0; 112; 0; 119; 0; 0] = Ret (sm2_key 1).
Proof.
  destruct (sm2_der (fun x => x) 1) as (der & t & i & E1 & Od & Ld & El & Ek); [unfold sm2_N; lia|].
  destruct (Encode_written toy (fun x => x) (repeat 5 24) (sm2_key 1) der t i [48; 0] [] [112; 119] [0; 112; 0; 119; 0; 0] toy_ok eq_refl) as (out & enck & _ & De & Eg & _); auto.
  - apply bytes_okb_spec. reflexivity.
  - discriminate.
  - lia.
  - apply bytes_okb_spec. reflexivity.
  - reflexivity.
  - eexists out, _, _. split; [exact Eg|]. split; [apply in_or_app; right; left; reflexivity|]. split; [reflexivity|exact De].
Qed.
