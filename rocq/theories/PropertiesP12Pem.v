(** * C103, C104: pkcs12.ToPEM *)
From Coq Require Import String Permutation.
From Verif Require Pkcs7Proofs.
From Verif Require Import Base Words Utf8 ECSpec ECModel SM2Spec SM2Model PropertiesKeys CryptoByte Asn1 Asn1Proofs Asn1Safe KeysModel KeysProofs BMPModel PropertiesP12Prim P12Spec P12Model P12Proofs P12Enc P12Round P12Open PropertiesP12.
Open Scope Z_scope.

Lemma bind_inv {A B} (x : outcome A) (f : A -> outcome B) r : bind x f = Ret r -> exists a, x = Ret a /\ f a = Ret r.
Proof. destruct x as [a| |]; cbn [bind]; try discriminate. eauto. Qed.
(** lower-case hexadecimal: '0' to '9', then 'a' to 'f' *)
Definition digit16 (n : Z) : Z := if n <? 10 then 48 + n else 97 + (n - 10).
Definition hex (b : bytes) : bytes := flat_map (fun x => [digit16 (x / 16); digit16 (x mod 16)]) b.
Lemma hex_spec b : hex_EncodeToString b = hex b.
Proof.
  unfold hex_EncodeToString, hex. apply flat_map_ext. intros x. assert (H : forall n, hexdigit n = digit16 n) by (intros n; unfold hexdigit, digit16; destruct (n <? 10); lia). rewrite !H. reflexivity.
Qed.
Example hex_case : hex [10; 255; 9; 0] = [48; 97; 102; 102; 48; 57; 48; 48]. Proof. reflexivity. Qed.

(** ** C104: what ToPEM makes of the bags of any file it can open *)
(** what an attribute says: a header and its value.  The value of the attribute is the content of its SET *)
Inductive says (a : pkcs12Attribute) : string -> bytes -> Prop :=
| says_name r s : at_Id a = [1; 2; 840; 113549; 1; 9; 20] -> unmarshal cRaw (sl (rv_bytes (at_Value a))) = Ret r -> decodeBMPString (sl (rv_bytes r)) = Ret s -> says a "friendlyName" s
| says_id i : at_Id a = [1; 2; 840; 113549; 1; 9; 21] -> unmarshal cBytes (sl (rv_bytes (at_Value a))) = Ret i -> says a "localKeyId" (hex (sl i))
| says_csp r s : at_Id a = [1; 3; 6; 1; 4; 1; 311; 17; 1] -> unmarshal cRaw (sl (rv_bytes (at_Value a))) = Ret r -> decodeBMPString (sl (rv_bytes r)) = Ret s -> says a "Microsoft CSP Name" s.
(** the headers made of a list of attributes: every attribute is understood, and of several for the same header the last one counts *)
Definition headers_of (attrs : list pkcs12Attribute) (h : list (string * bytes)) : Prop :=
  (forall a, In a attrs -> exists k v, says a k v) /\ NoDup (map fst h) /\
  forall k v, In (k, v) h <-> exists pre a post, attrs = pre ++ a :: post /\ says a k v /\ forall a' v', In a' post -> ~ says a' k v'.
Lemma says_iff a k v : convertAttribute a = Ret (k, v) <-> says a k v.
Proof.
  unfold convertAttribute. split.
  - intros E. destruct (oid_eqb (at_Id a) oidFriendlyName) eqn:E1; cbn [bind] in E; [|destruct (oid_eqb (at_Id a) oidLocalKeyID) eqn:E2; cbn [bind] in E; [|destruct (oid_eqb (at_Id a) oidMicrosoftCSPName) eqn:E3; cbn [bind] in E; [|discriminate]]].
    + apply oid_eqb_spec in E1. cbv zeta iota in E. apply bind_inv in E as (r & Er & E). apply bind_inv in E as (s & Es & E). injection E as <- <-. exact (says_name a r s E1 Er Es).
    + apply oid_eqb_spec in E2. cbv zeta iota in E. apply bind_inv in E as (i & Ei & E). injection E as <- <-. rewrite hex_spec. exact (says_id a i E2 Ei).
    + apply oid_eqb_spec in E3. cbv zeta iota in E. apply bind_inv in E as (r & Er & E). apply bind_inv in E as (s & Es & E). injection E as <- <-. exact (says_csp a r s E3 Er Es).
  - intros S. destruct S as [r s E1 Er Es|i E1 Ei|r s E1 Er Es]; rewrite E1; cbv zeta.
    + change (oid_eqb [1; 2; 840; 113549; 1; 9; 20] oidFriendlyName) with true. cbn [bind]. rewrite Er. cbn [bind]. rewrite Es. reflexivity.
    + change (oid_eqb [1; 2; 840; 113549; 1; 9; 21] oidFriendlyName) with false. change (oid_eqb [1; 2; 840; 113549; 1; 9; 21] oidLocalKeyID) with true. cbn [bind]. rewrite Ei. cbn [bind]. rewrite hex_spec. reflexivity.
    + change (oid_eqb [1; 3; 6; 1; 4; 1; 311; 17; 1] oidFriendlyName) with false. change (oid_eqb [1; 3; 6; 1; 4; 1; 311; 17; 1] oidLocalKeyID) with false. change (oid_eqb [1; 3; 6; 1; 4; 1; 311; 17; 1] oidMicrosoftCSPName) with true. cbn [bind]. rewrite Er. cbn [bind]. rewrite Es. reflexivity.
Qed.
Lemma headers_snoc attrs h a k v : headers_of attrs h -> says a k v -> headers_of (attrs ++ [a]) (set_header h k v).
Proof.
  intros (A & N & I) S. unfold set_header. split; [|split].
  - intros b Hb. apply in_app_iff in Hb as [Hb|[<-|[]]]; [exact (A b Hb)|eauto].
  - rewrite map_app. cbn [map fst]. clear - N. assert (F : ~ In k (map fst (filter (fun e : string * bytes => negb (fst e =? k)%string) h))).
    { intros H. apply in_map_iff in H as ([k' v'] & E & H). apply filter_In in H as [_ H]. cbn [fst] in *. subst k'. rewrite String.eqb_refl in H. discriminate. }
    assert (D : NoDup (map fst (filter (fun e : string * bytes => negb (fst e =? k)%string) h))).
    { clear F. induction h as [|[k1 v1] h IH]; [constructor|]. cbn [map fst] in N. apply NoDup_cons_iff in N as [N1 N2]. cbn [filter fst]. destruct (negb _); [|auto]. cbn [map fst]. constructor; [|auto].
      intros H. apply N1. apply in_map_iff in H as (e & E & H). apply filter_In in H as [H _]. apply in_map_iff. eauto. }
    revert F D. generalize (map fst (filter (fun e : string * bytes => negb (fst e =? k)%string) h)) as l. intros l F D. induction D as [|x l X D IH]; cbn [app]; [constructor; [tauto|constructor]|].
    constructor; [|apply IH; cbn in F; tauto]. rewrite in_app_iff. cbn in *. intuition.
  - assert (U : forall v', says a k v' -> v' = v) by (intros v' S'; apply says_iff in S, S'; congruence). assert (U' : forall k' v', says a k' v' -> k' = k) by (intros k' v' S'; apply says_iff in S, S'; congruence).
    intros k' v'. rewrite in_app_iff, filter_In. cbn [In fst]. split.
    + intros [[H1 H2]|[E|[]]].
      * apply I in H1 as (pre & b & post & -> & Sb & Q). exists pre, b, (post ++ [a]). split; [rewrite <- app_assoc; reflexivity|]. split; [exact Sb|]. intros c w Hc Sc. apply in_app_iff in Hc as [Hc|[<-|[]]]; [exact (Q c w Hc Sc)|].
        apply U' in Sc. subst k'. rewrite String.eqb_refl in H2. discriminate.
      * injection E as <- <-. exists attrs, a, []. split; [reflexivity|]. split; [exact S|]. intros ? ? [].
    + intros (pre & b & post & E & Sb & Q). destruct post as [|c post] using rev_ind.
      * apply app_inj_tail in E as [_ <-]. right. left. pose proof (U' _ _ Sb). subst k'. pose proof (U _ Sb). subst v'. reflexivity.
      * clear IHpost. rewrite app_comm_cons, app_assoc in E. apply app_inj_tail in E as [E <-]. left. split.
        -- apply I. exists pre, b, post. split; [exact E|]. split; [exact Sb|]. intros d w Hd. apply Q. apply in_app_iff. auto.
        -- destruct (String.eqb_spec k' k) as [->|]; [|reflexivity]. exfalso. exact (Q a v ltac:(apply in_app_iff; cbn; auto) S).
Qed.
Lemma headers_conv l : forall pre h h', headers_of pre h -> convertAttributes l h = Ret h' -> headers_of (pre ++ l) h'.
Proof.
  induction l as [|a l IH]; intros pre h h' H E; cbn [convertAttributes] in E; [injection E as <-; rewrite app_nil_r; exact H|].
  apply bind_inv in E as ([k v] & Ea & E). apply says_iff in Ea. replace (pre ++ a :: l) with ((pre ++ [a]) ++ l) by (rewrite <- app_assoc; reflexivity). exact (IH _ _ _ (headers_snoc _ _ _ _ _ H Ea) E).
Qed.
(** the block of one bag: a certificate as it is, an RSA key in PKCS#1 form, an ECDSA key in SEC 1 form *)
Definition described (P : prims) (edPub : bytes -> bytes) (pwd : bytes) (bag : safeBag) (b : pemBlock) : Prop :=
  headers_of (match bag_Attributes bag with Some l => l | None => [] end) (pem_Headers b) /\
  let value := sl (rv_bytes (bag_Value bag)) in
  (bag_Id bag = [1; 2; 840; 113549; 1; 12; 10; 1; 3] /\ pem_Type b = "CERTIFICATE"%string /\ decodeCertBag value = Ret (pem_Bytes b) \/
   bag_Id bag = [1; 2; 840; 113549; 1; 12; 10; 1; 2] /\ pem_Type b = "PRIVATE KEY"%string /\
     ((exists k, decodePkcs8ShroudedKeyBag P edPub value pwd = Ret (SKrsa k) /\ MarshalPKCS1PrivateKey k = Ret (pem_Bytes b)) \/
      (exists c x y d, decodePkcs8ShroudedKeyBag P edPub value pwd = Ret (SKecdsa c x y d) /\ MarshalECPrivateKey c x y d = Ret (pem_Bytes b)))).
Theorem C104_blocks : forall P edPub pfx password pwd bags pwd' blocks,
  bmpString password = Ret pwd -> getSafeContents P pfx pwd = Ret (bags, pwd') -> ToPEM P edPub pfx password = Ret blocks ->
  Forall2 (described P edPub pwd') bags blocks.
Proof.
  intros P edPub pfx password pwd bags pwd' blocks Eb Eg E. unfold ToPEM in E. rewrite Eb, Eg in E. clear Eb Eg. revert blocks E.
  induction bags as [|b bags IH]; intros blocks E; cbn [convertBags] in E; [injection E as <-; constructor|].
  apply bind_inv in E as (x & Ex & E). apply bind_inv in E as (xs & Exs & E). injection E as <-. constructor; [|exact (IH _ Exs)]. clear IH Exs.
  unfold convertBag in Ex. apply bind_inv in Ex as (h & Eh & Ex). cbv zeta in Ex.
  assert (H : headers_of (match bag_Attributes b with Some l => l | None => [] end) h).
  { refine (headers_conv _ [] [] h _ Eh). split; [intros ? []|]. split; [constructor|]. intros k v. split; [intros []|]. intros (pre & a & post & F & _). destruct pre; discriminate F. }
  unfold described. cbv zeta. destruct (oid_eqb (bag_Id b) oidCertBag) eqn:O1.
  - apply oid_eqb_spec in O1. apply bind_inv in Ex as (c & Ec & Ex). injection Ex as <-. cbn [pem_Headers pem_Type pem_Bytes]. split; [exact H|]. left. auto.
  - destruct (oid_eqb (bag_Id b) oidPKCS8ShroundedKeyBag) eqn:O2; [|discriminate]. apply oid_eqb_spec in O2. apply bind_inv in Ex as (k & Ek & Ex).
    destruct k as [k|c x0 y d|k|k|]; try discriminate Ex; apply bind_inv in Ex as (z & Ez & Ex); injection Ex as <-; cbn [pem_Headers pem_Type pem_Bytes]; (split; [exact H|]); right; (split; [exact O2|]); (split; [reflexivity|]); [left|right]; eauto 8.
Qed.
Print Assumptions C104_blocks.
(** and when it is refused: a bag of another kind, an attribute of another kind, a key that is neither RSA nor ECDSA *)
Theorem C104_refused : forall P edPub pfx password pwd bags pwd' bag,
  bmpString password = Ret pwd -> getSafeContents P pfx pwd = Ret (bags, pwd') -> In bag bags ->
  (bag_Id bag <> [1; 2; 840; 113549; 1; 12; 10; 1; 3] /\ bag_Id bag <> [1; 2; 840; 113549; 1; 12; 10; 1; 2]) \/
  (exists a, In a (match bag_Attributes bag with Some l => l | None => [] end) /\ forall k v, ~ says a k v) \/
  (bag_Id bag = [1; 2; 840; 113549; 1; 12; 10; 1; 2] /\ exists k, decodePkcs8ShroudedKeyBag P edPub (sl (rv_bytes (bag_Value bag))) pwd' = Ret k /\ match k with SKrsa _ | SKecdsa _ _ _ _ => False | _ => True end) ->
  forall blocks, ToPEM P edPub pfx password <> Ret blocks.
Proof.
  intros P edPub pfx password pwd bags pwd' bag Eb Eg Hin R blocks E. pose proof (C104_blocks _ _ _ _ _ _ _ _ Eb Eg E) as F. clear E Eb Eg.
  induction F as [|x b l bs [(A & _) D] F IH]; [contradiction|]. destruct Hin as [->|Hin]; [|exact (IH Hin)]. clear IH F. cbv zeta in D. destruct R as [[R1 R2]|[(a & Ha & R)|(R & k & Rk & Rm)]].
  - tauto.
  - destruct (A a Ha) as (k & v & S). exact (R k v S).
  - destruct D as [(D & _)|(_ & _ & [(k' & D & _)|(c & x & y & d & D & _)])]; [rewrite R in D; discriminate D| |]; rewrite D in Rk; injection Rk as <-; exact Rm.
Qed.
Print Assumptions C104_refused.
(** a friendly name comes back as it was, with or without the terminating zero *)
Theorem C104_friendly_name : forall s b cls tag full, bytes_ok s -> utf8_valid s = true -> bmpString s = Ret b -> zlen b < 2 ^ 31 ->
  says (mkAttr [1; 2; 840; 113549; 1; 9; 20] (mkRaw cls tag true (Some (el 0 30 false b)) full)) "friendlyName" s.
Proof.
  intros s b cls tag full Os Vs Eb Hz. pose proof (zlen_nonneg b).
  pose proof (raw_parse noP (el 0 30 false b) (mkTL 0 30 (zlen b) false) b [] eq_refl eq_refl (el_elem 0 30 false b ltac:(lia) ltac:(lia) ltac:(lia))) as R. rewrite app_nil_r in R.
  eapply says_name; [reflexivity|cbn [at_Value rv_bytes sl]; unfold unmarshal, Unmarshal; rewrite R; reflexivity|]. cbn [rv_bytes sl]. exact (C34_roundtrip s b Os Vs Eb).
Qed.
Print Assumptions C104_friendly_name.

(** ** C103: ToPEM of what Encode writes *)
(** the encoding of the private key in the block *)
Definition key_der (key : privKey) (b : bytes) : Prop :=
  match key with SKrsa k => MarshalPKCS1PrivateKey k = Ret b | SKecdsa c x y d => MarshalECPrivateKey c x y d = Ret b | _ => False end.
Lemma local_id P raw : prims_ok P -> convertAttribute (attr_of' (fp_of P raw)) = Ret ("localKeyId"%string, hex (sha1 P raw)).
Proof.
  intros (HS & _). destruct (HS raw) as [L O]. apply says_iff. change (hex (sha1 P raw)) with (hex (sl (Some (sha1 P raw)))). apply says_id; [reflexivity|].
  cbn [at_Value attr_of' rv_bytes sl]. unfold fp_of, unmarshal.
  pose proof (marshal_rt cBytes (Some (sha1 P raw)) (Some (sha1 P raw)) (el 0 4 false (sha1 P raw)) (bytes_rt (sha1 P raw)) eq_refl) as M. unfold Unmarshal in M. unfold Unmarshal. rewrite M; [reflexivity|]. pose proof (el_ub 0 4 false (sha1 P raw) ltac:(lia) ltac:(lia)). lia.
Qed.
Theorem C103_topem_of_encode : forall P edPub rnd key der b certRaw caRaws password pwd, prims_ok P ->
  MarshalPKCS8PrivateKey key = Ret der -> ParsePKCS8PrivateKey edPub der = Ret key -> bytes_ok der -> zlen der < 2 ^ 28 -> (exists t i, elem der t i) -> key_der key b ->
  bmpString password = Ret pwd -> bytes_ok rnd -> 24 <= zlen rnd ->
  bytes_ok certRaw -> Forall bytes_ok caRaws -> total_size (certRaw :: caRaws) < 2 ^ 29 ->
  let id := [("localKeyId"%string, hex (sha1 P certRaw))] in
  exists out, Encode P rnd key certRaw caRaws password = Ret out /\
    ToPEM P edPub out password = Ret (mkPem "CERTIFICATE" id certRaw :: map (mkPem "CERTIFICATE" []) caRaws ++ [mkPem "PRIVATE KEY" id b]).
Proof.
  intros P edPub rnd key der b certRaw caRaws password pwd HP Ek Ep Od Ld (t & i & El) Kb Epw Or Lr Oc Oca Hz id.
  destruct (Encode_written P edPub rnd key der t i certRaw caRaws password pwd HP Epw Or Lr Ek Od Ld El Ep Oc Oca Hz) as (out & enck & E1 & E2 & E3 & _).
  exists out. split; [exact E1|]. unfold ToPEM. rewrite Epw, E3. clear E1 E3. pose proof (local_id P certRaw HP) as Li. cbn [total_size] in Hz. pose proof (zlen_nonneg certRaw). pose proof (total_nonneg caRaws).
  assert (C0 : convertBag P edPub (bs_bag' (cert_spec certRaw [fp_of P certRaw])) pwd = Ret (mkPem "CERTIFICATE" id certRaw)).
  { unfold convertBag. cbn [bs_bag' cert_spec bag_of' bag_Attributes bag_Id bag_Value map convertAttributes ctx0' rv_bytes sl]. rewrite Li. cbn [bind]. cbv zeta. change (oid_eqb oidCertBag oidCertBag) with true. cbv iota.
    pose proof (certBag_ub certRaw ltac:(lia)). rewrite decodeCertBag_eq by lia. reflexivity. }
  assert (C1 : forall raw, zlen raw < 2 ^ 29 -> convertBag P edPub (bs_bag' (cert_spec raw [])) pwd = Ret (mkPem "CERTIFICATE" [] raw)).
  { intros raw Hr. unfold convertBag. cbn [bs_bag' cert_spec bag_of' bag_Attributes bag_Id bag_Value map convertAttributes ctx0' rv_bytes sl bind]. cbv zeta. change (oid_eqb oidCertBag oidCertBag) with true. cbv iota.
    pose proof (certBag_ub raw ltac:(lia)). rewrite decodeCertBag_eq by lia. reflexivity. }
  assert (C2 : convertBag P edPub (bs_bag' (key_spec (epki_bytes (salt1 rnd) enck) [fp_of P certRaw])) pwd = Ret (mkPem "PRIVATE KEY" id b)).
  { unfold convertBag. cbn [bs_bag' key_spec bag_of' bag_Attributes bag_Id bag_Value map convertAttributes ctx0' rv_bytes sl]. rewrite Li. cbn [bind]. cbv zeta.
    change (oid_eqb oidPKCS8ShroundedKeyBag oidCertBag) with false. change (oid_eqb oidPKCS8ShroundedKeyBag oidPKCS8ShroundedKeyBag) with true. cbv iota. rewrite E2. cbn [bind]. destruct key; cbn [key_der] in Kb; try contradiction; rewrite Kb; reflexivity. }
  unfold certs_spec. cbn [map app convertBags]. rewrite C0. cbn [bind].
  assert (R : convertBags P edPub (map bs_bag' (map (fun r => cert_spec r []) caRaws) ++ [bs_bag' (key_spec (epki_bytes (salt1 rnd) enck) [fp_of P certRaw])]) pwd = Ret (map (mkPem "CERTIFICATE" []) caRaws ++ [mkPem "PRIVATE KEY" id b])).
  { assert (Hz' : total_size caRaws < 2 ^ 29) by lia. clear - C1 C2 Hz'. induction caRaws as [|r l IH]; cbn [map app convertBags total_size] in *.
    - rewrite C2. reflexivity.
    - pose proof (zlen_nonneg r). pose proof (total_nonneg l). rewrite C1 by lia. cbn [bind]. rewrite IH by lia. reflexivity. }
  rewrite R. reflexivity.
Qed.
Print Assumptions C103_topem_of_encode.
(** in particular for every valid RSA key *)
Lemma eok_seq {A} isSET (c : codec A) Q : eok c Q -> eok (cSeqOf isSET c) (fun l => Forall Q (match l with Some l => l | None => [] end)).
Proof.
  intros C. split; [|split; [discriminate|left; apply tag_small; destruct isSET; reflexivity]]. intros set a b H E Hz. cbn [c_body cSeqOf] in E. unfold seq_body in E. apply bind_inv in E as (es & Em & E).
  assert (Pm : exists es', Permutation es es' /\ b = List.concat es'). { destruct (set && _) in E; injection E as <-; [exists (sort_bytes es); split; [apply Pkcs7Proofs.sort_perm|reflexivity]|exists es; auto]. }
  destruct Pm as (es' & Pm & ->). clear E.
  assert (B : Forall (fun e => zlen e < 2 ^ 32) es').
  { clear - Hz. induction es' as [|e l IH]; [constructor|]. cbn [List.concat] in Hz. rewrite zlen_app in Hz. pose proof (zlen_nonneg e). pose proof (zlen_nonneg (List.concat l)). constructor; [lia|apply IH; lia]. }
  apply (Permutation_Forall (Permutation_sym Pm)) in B.
  assert (O : Forall bytes_ok es).
  { clear - C H Em B. revert es Em B. induction H as [|x l Hx Hl IH]; intros es Em B; cbn [mapM] in Em; [injection Em as <-; constructor|]. apply bind_inv in Em as (y & Ey & Em). apply bind_inv in Em as (ys & Eys & Em). injection Em as <-.
    apply Forall_cons_iff in B as [B1 B2]. constructor; [|exact (IH _ Eys B2)]. eapply (eok_make c Q noP); [exact C|pok|exact Hx|exact Ey|exact B1]. }
  apply (Permutation_Forall Pm) in O. clear - O. induction O as [|e l He Hl IH]; [constructor|]. cbn [List.concat]. apply bytes_ok_app. auto.
Qed.
Lemma eok_P1 : eok cP1 (fun _ => True).
Proof.
  eapply eok_struct.
  - do 3 (apply feok_cons; [pok|first [apply eok_int|apply eok_big]|]). do 6 (apply feok_cons; [pok|apply eok_big|]).
    apply feok_cons; [pok|apply (eok_seq false cAP (fun _ => True)); eapply eok_struct; [apply feok_cons; [pok|apply eok_big|apply feok_cons; [pok|apply eok_big|apply feok_cons; [pok|apply eok_big|apply feok_nil]]]|cbn; tauto]|apply feok_nil].
  - intros a _. cbn. repeat split. apply Forall_forall. auto.
Qed.
Lemma rsa8_ok k b der : MarshalPKCS1PrivateKey k = Ret b -> MarshalPKCS8PrivateKey (SKrsa k) = Ret der -> zlen der < 2 ^ 31 -> bytes_ok der /\ exists t i, elem der t i.
Proof.
  intros Eb E Hz. cbn [MarshalPKCS8PrivateKey] in E. rewrite Eb in E. cbn [bind] in E. pose proof (cP8_inner_len _ _ _ E) as Lb.
  assert (Ob : bytes_ok b).
  { unfold MarshalPKCS1PrivateKey in Eb. destruct (rsa_Primes k) as [|p [|q add]]; try discriminate Eb. cbv zeta in Eb.
    match type of Eb with match ?m with _ => _ end = _ => destruct m as [b'| |] eqn:Em; try discriminate Eb end; injection Eb as <-; [|constructor].
    eapply (eok_make cP1 _ noP); [apply eok_P1|pok|exact I|exact Em|lia]. }
  split.
  - eapply (eok_make cP8 _ noP); [apply eok_P8|pok| |exact E|lia]. cbn -[maxInt32]. unfold raw_ok. cbn -[maxInt32]. repeat split; auto; try (unfold maxInt32; lia); repeat constructor; unfold byte_ok; lia.
  - destruct (make_elem cP8 _ der eq_refl (tag_small cP8 eq_refl) E Hz) as (b' & _ & _ & El). eauto.
Qed.
Theorem C103_topem_rsa : forall P edPub rnd key b der certRaw caRaws password pwd, prims_ok P ->
  2 <= rsa_E key < 2 ^ 31 -> Forall (fun p => 1 < p /\ (rsa_E key * rsa_D key) mod (p - 1) = 1) (rsa_Primes key) -> zprod (rsa_Primes key) = rsa_N key -> 0 < rsa_D key ->
  MarshalPKCS1PrivateKey key = Ret b -> b <> [] -> MarshalPKCS8PrivateKey (SKrsa key) = Ret der -> zlen der < 2 ^ 28 ->
  bmpString password = Ret pwd -> bytes_ok rnd -> 24 <= zlen rnd -> bytes_ok certRaw -> Forall bytes_ok caRaws -> total_size (certRaw :: caRaws) < 2 ^ 29 ->
  let id := [("localKeyId"%string, hex (sha1 P certRaw))] in
  exists out, Encode P rnd (SKrsa key) certRaw caRaws password = Ret out /\
    ToPEM P edPub out password = Ret (mkPem "CERTIFICATE" id certRaw :: map (mkPem "CERTIFICATE" []) caRaws ++ [mkPem "PRIVATE KEY" id b]).
Proof.
  intros P edPub rnd key b der certRaw caRaws password pwd HP He Hp Hn Hd Eb Nb Ed Ld Epw Or Lr Oc Oca Hz id.
  destruct (rsa8_ok key b der Eb Ed ltac:(lia)) as [Od El].
  exact (C103_topem_of_encode P edPub rnd (SKrsa key) der b certRaw caRaws password pwd HP Ed (C84_pkcs8_rsa_roundtrip edPub key b der He Hp Hn Hd Eb Nb Ed ltac:(lia)) Od Ld El Eb Epw Or Lr Oc Oca Hz).
Qed.
Print Assumptions C103_topem_rsa.
Definition rsa0 : rsaKey := mkRsa 33 3 7 [3; 11].
Example C103_nonvacuous : exists b der, (rsa_E rsa0 * rsa_D rsa0) mod (3 - 1) = 1 /\ (rsa_E rsa0 * rsa_D rsa0) mod (11 - 1) = 1 /\ zprod (rsa_Primes rsa0) = rsa_N rsa0 /\
  MarshalPKCS1PrivateKey rsa0 = Ret b /\ b <> [] /\ MarshalPKCS8PrivateKey (SKrsa rsa0) = Ret der /\ zlen der < 2 ^ 28 /\ bmpString [112; 119] = Ret [0; 112; 0; 119; 0; 0] /\ total_size [[48; 0]; [48; 1; 7]] < 2 ^ 29.
Proof. eexists _, _. split; [reflexivity|]. split; [reflexivity|]. split; [reflexivity|]. split; [vm_compute; reflexivity|]. split; [discriminate|]. split; [vm_compute; reflexivity|]. split; [reflexivity|]. split; reflexivity. Qed.
(** two friendly names and an identifier: the last name counts *)
Definition name_attr (b : bytes) : pkcs12Attribute := mkAttr [1; 2; 840; 113549; 1; 9; 20] (mkRaw 0 17 true (Some (el 0 30 false b)) None).
Example C104_instance : convertAttributes [name_attr [0; 65]; attr_of' (el 0 4 false [1; 171]); name_attr [0; 66; 0; 0]] [] = Ret [("localKeyId"%string, [48; 49; 97; 98]); ("friendlyName"%string, [66])].
Proof. vm_compute. reflexivity. Qed.
