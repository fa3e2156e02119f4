(** * C119: truncated inputs are rejected *)
From Coq Require Import String ZifyBool ZifyNat.
From Verif Require Import Base Words ECSpec ECModel SM2Model CryptoByte Asn1 Asn1Proofs KeysModel KeysProofs Asn1Safe BMPModel P12Spec P12Model P12Proofs
  X509Model X509Safe X509CertProofs PropertiesX509Cert PropertiesX509Safe PropertiesKeys PropertiesKeysCurves PropertiesP12 PropertiesNoPanic X509Crl PropertiesX509Csr
  PropertiesX509Crl Pkcs7Model PropertiesPkcs7.
Open Scope Z_scope.

(** a parser rejects what is left of an accepted input after bytes were cut off its end *)
Definition rejects_truncated {A} (f : bytes -> outcome A) : Prop :=
  forall p q x, bytes_ok (p ++ q) -> f (p ++ q) = Ret x -> q <> [] -> exists e, f p = Err e.

(** the same for one element with the bytes [r] behind it *)
Lemma unmarshal_short {A} (c : codec A) p q a r : np c -> bytes_ok (p ++ q) -> Unmarshal c (p ++ q) = Ret (a, r) -> (List.length r < List.length q)%nat -> exists e, Unmarshal c p = Err e.
Proof.
  intros N Ho E L. apply bytes_ok_app in Ho as [Op _]. destruct (Unmarshal c p) as [[a' r']|e|] eqn:E'; [|eauto|].
  - pose proof (Unmarshal_app c p a' r' q Op E') as X. rewrite E in X. assert (r = r' ++ q) by congruence. subst r. rewrite app_length in L. lia.
  - exfalso. exact (np_unmarshal c p N E').
Qed.
Lemma unmarshal_short0 {A} (c : codec A) p q a : np c -> bytes_ok (p ++ q) -> Unmarshal c (p ++ q) = Ret (a, []) -> q <> [] -> exists e, Unmarshal c p = Err e.
Proof. intros N Ho E Q. eapply unmarshal_short; eauto. destruct q; [congruence|cbn; lia]. Qed.
(** an element can be read without what follows it *)
Lemma unmarshal_cut {A} (c : codec A) s a r : bytes_ok s -> Unmarshal c s = Ret (a, r) -> exists el, s = el ++ r /\ Unmarshal c el = Ret (a, []).
Proof.
  intros Ho. unfold Unmarshal, parseField. destruct s as [|b s]; [discriminate|]. destruct (parseTagAndLength (b :: s)) as [[t s1]| |] eqn:E; cbn [bind p_exp noP]; try discriminate.
  pose proof (ptl_inv _ _ _ Ho E) as (Es & Hc & Ht & Hl). rewrite Es. pose proof (ptl_suffix _ _ _ E) as (pre & Ep & Np).
  unfold parseFieldTail at 1. cbn [p_exp p_tag p_set noP]. cbv zeta iota. change (setDefault c noP) with (@None A). destruct (_ || _) eqn:B; [discriminate|].
  destruct (Z.ltb_spec (zlen s1) (t_len t)) as [|Hz]; [discriminate|]. intros X. apply bind_inv in X as (a' & X & Y). injection Y as -> <-.
  set (n := Z.to_nat (t_len t)) in *. assert (Hn : (n <= List.length s1)%nat) by (unfold n, zlen in *; lia).
  set (h := appendTagAndLength t) in *. exists (h ++ firstn n s1). split; [now rewrite <- app_assoc, firstn_skipn|].
  assert (Eh : forall r', parseTagAndLength (h ++ r') = Ret (t, r')).
  { intros r'. unfold h. destruct t as [cl tg ln cm]. cbn [t_class t_tag t_len t_comp] in *. exact (hdr_parse cl tg cm ln r' Hc Ht Hl). }
  rewrite Eh. cbn [bind]. assert (Hh : h <> []). { intros Z0. rewrite Z0 in Es. cbn [app] in Es. rewrite Es in Ep. apply (f_equal (@List.length Z)) in Ep. rewrite app_length in Ep. destruct pre; [congruence|cbn in Ep; lia]. }
  destruct (h ++ firstn n s1) as [|y l] eqn:El; [destruct h; [congruence|discriminate El]|]. rewrite <- El. clear El.
  unfold parseFieldTail. cbn [p_exp p_tag p_set noP]. cbv zeta iota. rewrite B. replace (zlen (firstn n s1) <? t_len t) with false by (unfold zlen; rewrite firstn_length; unfold n, zlen in *; lia).
  fold n. rewrite firstn_firstn, Nat.min_id. rewrite (skipn_all2 (firstn n s1)) by (rewrite firstn_length; lia). cbn [List.length]. rewrite Nat.sub_0_r, firstn_all.
  replace (h ++ firstn n s1) with (firstn (List.length (h ++ s1) - List.length (skipn n s1)) (h ++ s1)); [rewrite X; reflexivity|].
  rewrite app_length, skipn_length. replace (List.length h + List.length s1 - (List.length s1 - n))%nat with (List.length h + n)%nat by lia. apply firstn_app_2.
Qed.

(** C119: keys, lists, requests, messages and PKCS#12 files *)
Theorem C119_keys : rejects_truncated ParsePKCS1PrivateKey /\ rejects_truncated ParsePKCS1PublicKey /\ rejects_truncated ParsePKIXPublicKey.
Proof.
  split; [|split]; intros p q x Ho E Q.
  - unfold ParsePKCS1PrivateKey in *. destruct (Unmarshal cP1 (p ++ q)) as [[v [|? ?]]|e|] eqn:U; try discriminate E; [|destruct (ok _); [discriminate E|destruct (ok _); discriminate E]].
    destruct (unmarshal_short0 cP1 p q v np_cP1 Ho U Q) as [e ->]. destruct (ok _); [eauto|destruct (ok _); eauto].
  - unfold ParsePKCS1PublicKey in *. destruct (Unmarshal cP1Pub (p ++ q)) as [[v [|? ?]]|e|] eqn:U; try discriminate E; [|destruct (ok _); discriminate E].
    destruct (unmarshal_short0 cP1Pub p q v np_cP1Pub Ho U Q) as [e ->]. destruct (ok _); eauto.
  - unfold ParsePKIXPublicKey in *. destruct (Unmarshal cPKI (p ++ q)) as [[v [|? ?]]|e|] eqn:U; try discriminate E; [|destruct (ok _); discriminate E].
    destruct (unmarshal_short0 cPKI p q v np_cPKI Ho U Q) as [e ->]. destruct (ok _); eauto.
Qed.
Print Assumptions C119_keys.
(** the parsers that ignore what follows the key accept an initial segment exactly when it contains the key's element *)
Definition cut_at_element {A} (f : bytes -> outcome A) : Prop :=
  forall der x, bytes_ok der -> f der = Ret x -> exists el rest, der = el ++ rest /\ el <> [] /\
    forall n, ((n < List.length el)%nat -> exists e, f (firstn n der) = Err e) /\ ((List.length el <= n)%nat -> f (firstn n der) = Ret x).
Lemma cut_codec {A B} (c : codec A) (f : bytes -> outcome B) : np c -> (forall der e, Unmarshal c der = Err e -> exists e', f der = Err e') -> (forall der, Unmarshal c der = Panic -> f der = Panic) ->
  (exists g, forall der v r, Unmarshal c der = Ret (v, r) -> f der = g v) -> cut_at_element f.
Proof.
  intros N He Hp [g Hg] der x Ho E. destruct (Unmarshal c der) as [[v r]|e|] eqn:U.
  2:{ destruct (He _ _ U) as [e' X]. congruence. }
  2:{ rewrite (Hp _ U) in E. discriminate E. }
  destruct (unmarshal_cut c der v r Ho U) as (el & -> & Ue). exists el, r. split; [reflexivity|]. split; [intros ->; discriminate Ue|]. intros n. apply bytes_ok_app in Ho as [Oe Or]. split; intros L.
  - rewrite firstn_app. replace (n - List.length el)%nat with 0%nat by lia. rewrite firstn_O, app_nil_r.
    destruct (unmarshal_short c (firstn n el) (skipn n el) v [] N) as [e X].
    + now rewrite firstn_skipn.
    + now rewrite firstn_skipn.
    + rewrite skipn_length. cbn [List.length]. lia.
    + exact (He _ _ X).
  - rewrite firstn_app, firstn_all2 by lia. pose proof (Unmarshal_app c el v [] (firstn (n - List.length el) r) Oe Ue) as X. rewrite (Hg _ _ _ X), <- (Hg _ _ _ U). exact E.
Qed.
Theorem C119_private_keys : forall edPub, cut_at_element (ParsePKCS8PrivateKey edPub) /\ cut_at_element ParseECPrivateKey.
Proof.
  intros edPub. split.
  - apply (cut_codec cP8 _ np_cP8).
    + intros der e U. unfold ParsePKCS8PrivateKey. rewrite U. destruct (ok _); [eauto|destruct (ok _); eauto].
    + intros der U. unfold ParsePKCS8PrivateKey. now rewrite U.
    + eexists. intros der v r U. unfold ParsePKCS8PrivateKey. rewrite U. cbv zeta. reflexivity.
  - apply (cut_codec cEC _ np_cEC).
    + intros der e U. unfold ParseECPrivateKey, parseECPrivateKey. rewrite U. destruct (ok _); [eauto|destruct (ok _); eauto].
    + intros der U. unfold ParseECPrivateKey, parseECPrivateKey. now rewrite U.
    + eexists. intros der v r U. unfold ParseECPrivateKey, parseECPrivateKey. rewrite U. cbv zeta. reflexivity.
Qed.
Print Assumptions C119_private_keys.
Theorem C119_signature : rejects_truncated UnmarshalSign.
Proof.
  intros p q x Ho E Q. unfold UnmarshalSign in *. pose proof Ho as Ho'. apply bytes_ok_app in Ho' as [Op _].
  destruct (readASN1 T_SEQUENCE p) as [[i [|? ?]]|] eqn:R; eauto.
  exfalso. apply readASN1_inv in R as (-> & T & L); [|exact Op]. rewrite app_nil_r, (readASN1_tlv T_SEQUENCE i q T L) in E. destruct q; [congruence|discriminate E].
Qed.
Print Assumptions C119_signature.
Theorem C119_lists : rejects_truncated ParseDERCRL /\ forall net, rejects_truncated (ParseCertificateRequest net).
Proof.
  split; [|intros net]; intros p q x Ho E Q.
  - unfold ParseDERCRL in *. destruct (Unmarshal cCertList (p ++ q)) as [[v [|? ?]]|e|] eqn:U; try discriminate E.
    destruct (unmarshal_short0 cCertList p q v np_certList Ho U Q) as [e ->]. cbn [bind]. eauto.
  - unfold ParseCertificateRequest in *. destruct (Unmarshal cCsr (p ++ q)) as [[v [|? ?]]|e|] eqn:U; try discriminate E.
    destruct (unmarshal_short0 cCsr p q v np_csr Ho U Q) as [e ->]. cbn [bind]. eauto.
Qed.
Print Assumptions C119_lists.
(** certificates: one, and a concatenation of several, of which an initial segment is accepted when it ends between two *)
Theorem C119_certificate : forall net, rejects_truncated (ParseCertificate net).
Proof.
  intros net p q x Ho E Q. apply bytes_ok_app in Ho as [Op _]. destruct (ParseCertificate net p) as [c|e|] eqn:Ep; [|eauto|].
  - pose proof (C70_trailing_data net p c q Op Ep Q) as X. rewrite E in X. first [discriminate X | destruct X; discriminate].
  - exfalso. exact (proj1 (C90_no_panic net p Op) Ep).
Qed.
Print Assumptions C119_certificate.
Lemma align net : forall c1 c2 q, Forall (fun c => ParseCertificate net (c_Raw c) = Ret c) c1 -> Forall (fun c => ParseCertificate net (c_Raw c) = Ret c) c2 ->
  bytes_ok (List.concat (map c_Raw c1) ++ q) -> List.concat (map c_Raw c1) ++ q = List.concat (map c_Raw c2) -> exists c3, c2 = c1 ++ c3 /\ q = List.concat (map c_Raw c3).
Proof.
  induction c1 as [|c c1 IH]; intros c2 q F1 F2 Ho E; [exists c2; split; [reflexivity|exact E]|]. cbn [map List.concat app] in *. inversion F1 as [|? ? P1 F1']; subst.
  rewrite <- app_assoc in E, Ho. pose proof Ho as Ho'. apply bytes_ok_app in Ho as [Oc Ho]. pose proof (Parse_inv net (c_Raw c) c P1) as [A1 _].
  pose proof (parse_again net (c_Raw c) c (List.concat (map c_Raw c1) ++ q) Oc A1) as B1. destruct c2 as [|d c2].
  - exfalso. cbn [map List.concat] in E. destruct (c_Raw c) eqn:R; [vm_compute in A1; discriminate A1|discriminate E].
  - cbn [map List.concat] in E. inversion F2 as [|? ? P2 F2']; subst. rewrite E in Ho'. apply bytes_ok_app in Ho' as [Od _]. pose proof (Parse_inv net (c_Raw d) d P2) as [A2 _].
    pose proof (parse_again net (c_Raw d) d (List.concat (map c_Raw c2)) Od A2) as B2. rewrite E, B2 in B1. assert (d = c) by congruence. subst d. apply app_inv_head in E.
    destruct (IH c2 q F1' F2' Ho E) as (c3 & -> & ->). exists c3. split; reflexivity.
Qed.
Theorem C119_certificates : forall net p q certs, bytes_ok (p ++ q) -> ParseCertificates net (p ++ q) = Ret certs ->
  (exists e, ParseCertificates net p = Err e) \/ exists c1 c2, certs = c1 ++ c2 /\ ParseCertificates net p = Ret c1 /\ ParseCertificates net q = Ret c2 /\ (q <> [] -> c2 <> []).
Proof.
  intros net p q certs Ho E. pose proof Ho as Ho'. apply bytes_ok_app in Ho' as [Op Oq]. destruct (ParseCertificates net p) as [c1|e|] eqn:Ep; [|eauto|exfalso; exact (proj2 (C90_no_panic net p Op) Ep)].
  right. destruct (C71_exact net p c1 Op Ep) as [Rp F1]. destruct (C71_exact net (p ++ q) certs Ho E) as [R F2]. rewrite Rp in R at 1. rewrite Rp in Ho.
  destruct (align net c1 certs q F1 F2 Ho R) as (c2 & -> & Eq'). exists c1, c2. split; [reflexivity|]. split; [reflexivity|]. split.
  - rewrite Eq'. apply C71_concatenation.
    + clear - Oq Eq'. rewrite Eq' in Oq. clear Eq'. induction c2 as [|c c2 IH]; cbn [map List.concat] in *; [constructor|]. apply bytes_ok_app in Oq as [? ?]. constructor; auto.
    + apply Forall_app in F2 as [_ F2]. clear - F2. induction F2; constructor; auto.
  - intros Q ->. apply Q. exact Eq'.
Qed.
Print Assumptions C119_certificates.
Theorem C119_pkcs7 : forall CRL (cCRL : codec CRL) net, rejects_truncated (ParsePKCS7 cCRL net).
Proof.
  intros CRL cCRL net p q x Ho E Q. unfold ParsePKCS7 in *. destruct (p ++ q) as [|y l] eqn:Epq; [discriminate E|]. rewrite <- Epq in *. clear Epq y l.
  destruct (Unmarshal cCI (p ++ q)) as [[v [|? ?]]|e|] eqn:U; try discriminate E.
  destruct (unmarshal_short0 cCI p q v np_cinfo Ho U Q) as [e U']. destruct p as [|y l]; [eauto|]. rewrite U'. cbn [bind]. eauto.
Qed.
Print Assumptions C119_pkcs7.
Lemma pfx_short p q v : bytes_ok (p ++ q) -> unmarshal cPfx (p ++ q) = Ret v -> q <> [] -> exists e, unmarshal cPfx p = Err e.
Proof. intros Ho U Q. apply unm_inv in U. destruct (unmarshal_short0 cPfx p q v np_cPfx Ho U Q) as [e U']. unfold unmarshal. rewrite U'. cbn [bind]. eauto. Qed.
Lemma getSafe_short P p q pwd r : bytes_ok (p ++ q) -> getSafeContents P (p ++ q) pwd = Ret r -> q <> [] -> forall pwd', exists e, getSafeContents P p pwd' = Err e.
Proof.
  intros Ho E Q pwd'. unfold getSafeContents in E |- *. destruct (unmarshal cPfx (p ++ q)) as [v| |] eqn:U; try discriminate E. destruct (pfx_short p q v Ho U Q) as [e ->]. eauto.
Qed.
(** PKCS#12, whatever password is tried on the truncated file; ToPEM reports no error but returns nothing *)
Theorem C119_pkcs12 : forall P edPub C (parseCerts : bytes -> outcome (list C)) p q pwd pwd', bytes_ok (p ++ q) -> q <> [] ->
  (forall x, DecodeAll P edPub C parseCerts (p ++ q) pwd = Ret x -> exists e, DecodeAll P edPub C parseCerts p pwd' = Err e) /\
  (forall x, Decode P edPub C parseCerts (p ++ q) pwd = Ret x -> exists e, Decode P edPub C parseCerts p pwd' = Err e) /\
  (forall x, SM2P12Decrypt P edPub C parseCerts (Some (p ++ q)) pwd = Ret x -> exists e, SM2P12Decrypt P edPub C parseCerts (Some p) pwd' = Err e) /\
  (forall b l, ToPEM P edPub (p ++ q) pwd = Ret (b :: l) -> ToPEM P edPub p pwd' = Ret [] \/ exists e, ToPEM P edPub p pwd' = Err e).
Proof.
  intros P edPub C pc p q pwd pwd' Ho Q.
  assert (D : forall all x, decode_gen P edPub C pc all (p ++ q) pwd = Ret x -> exists e, decode_gen P edPub C pc all p pwd' = Err e).
  { intros all x E. unfold decode_gen in E |- *. apply bind_inv in E as (b & _ & E). apply bind_inv in E as ([bags b'] & E & _).
    pose proof (bmpString_np pwd') as N. destruct (bmpString pwd') as [c| |]; cbn [bind]; [|eauto|congruence]. destruct (getSafe_short P p q b _ Ho E Q c) as [e ->]. cbn [bind]. eauto. }
  split; [intros x; apply D|]. split; [intros x; apply D|]. split.
  - intros x E. unfold SM2P12Decrypt in E |- *. apply bind_inv in E as (y & E & _). cbn [sl] in *. destruct (D true y E) as [e X]. unfold DecodeAll. rewrite X. cbn [bind]. eauto.
  - intros b l E. unfold ToPEM in E |- *. destruct (bmpString pwd) as [c| |]; try discriminate E. destruct (getSafeContents P (p ++ q) c) as [r| |] eqn:G; try discriminate E.
    pose proof (bmpString_np pwd') as N. destruct (bmpString pwd') as [c'| |]; [|right; eauto|congruence]. destruct (getSafe_short P p q c r Ho G Q c') as [e ->]. left. reflexivity.
Qed.
Print Assumptions C119_pkcs12.
Example C119_instance :
  (exists c, ParseCertificate net0 example_der = Ret c) /\ (exists e, ParseCertificate net0 (firstn 100 example_der) = Err e) /\
  (exists x, UnmarshalSign [48; 6; 2; 1; 5; 2; 1; 7] = Ret x) /\ (exists e, UnmarshalSign [48; 6; 2; 1; 5; 2; 1] = Err e).
Proof.
  split; [exact (proj1 C90_instance)|]. repeat split; eexists; vm_compute; reflexivity.
Qed.
