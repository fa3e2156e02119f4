(** * C59, C60, C62-C64, C85, C86: round trips of the certificate extensions *)
From Coq Require Import String Ascii ZifyBool ZifyNat.
From Verif Require Import Base Words Utf8 BMPModel ECModel SM2Model CryptoByte Asn1 Asn1Proofs KeysModel KeysProofs P12Enc X509Model X509Sig X509Build X509Proofs X509StrProofs PropertiesX509Str X509ExtProofs X509NCProofs.
Open Scope Z_scope.

(** ** Specification *)
(** an address and its shortest form: ::ffff:a.b.c.d is a.b.c.d *)
Definition mapped : bytes := [0; 0; 0; 0; 0; 0; 0; 0; 0; 0; 255; 255].
Definition same_ip (ip short : bytes) : Prop :=
  (List.length short = 4%nat /\ (ip = short \/ ip = mapped ++ short)) \/ (List.length ip = 16%nat /\ firstn 12 ip <> mapped /\ short = ip).
(** ASCII text *)
Definition ascii (s : bytes) : Prop := Forall (fun b => b < 128) s.
(** a URL which survives printing and parsing, with an acceptable host *)
Definition url_ok (net : netlib) (u : urlT) : Prop :=
  url_Parse net (u_String u) = Some u /\ (u_Host u = [] \/ exists ls, domainToReverseLabels (u_Host u) = Some ls).
(** a network: the mask is a prefix of 32 or 128 bits, and the address has the same size (or is an IPv4-mapped address under
    a 32-bit mask).  It is written as the masked address and the mask. *)
Definition network (n written : IPNet) : Prop :=
  exists ip ones zeros,
    (List.length ip = 4 \/ List.length ip = 16)%nat /\ List.length (ipn_Mask n) = List.length ip /\
    (ipn_IP n = ip \/ (List.length ip = 4%nat /\ ipn_IP n = mapped ++ ip)) /\
    bits (ipn_Mask n) = repeat true ones ++ repeat false zeros /\
    written = mkIPNet (map (fun '(a, b) => Z.land a b) (combine ip (ipn_Mask n))) (ipn_Mask n).
(** host names in constraints may start with a dot *)
Definition host (s : bytes) : Prop := exists ls, domainToReverseLabels (match s with 46 :: r => r | _ => s end) = Some ls.
Definition email_or_host (s : bytes) : Prop := if existsb (Z.eqb 64) s then exists m, parseRFC2821Mailbox s = Some m else host s.
Definition written_nc (net : netlib) (c c' : constraints) : Prop :=
  nc_DNS c' = nc_DNS c /\ Forall host (nc_DNS c) /\ Forall2 network (nc_IP c) (nc_IP c') /\
  nc_Email c' = nc_Email c /\ Forall email_or_host (nc_Email c) /\
  nc_URI c' = nc_URI c /\ Forall (fun s => net_ParseIP net s = false /\ host s) (nc_URI c).

(** ** C59: key usage *)
Theorem C59_roundtrip : forall ku, exists e, marshalKeyUsage ku = Ret e /\ x_Id e = [2; 5; 29; 15] /\ x_Critical e = true /\
  exists ku', parseKeyUsageExtension (x_Value e) = Ret ku' /\ forall i, 0 <= i -> Z.testbit ku' i = (i <? 9) && Z.testbit ku i.
Proof.
  intros ku. destruct (keyUsage_rt ku) as (v & M & _ & R). eexists. split; [exact M|]. split; [reflexivity|]. split; [reflexivity|].
  exists (Z.land ku 511). split; [exact R|]. intros i Hi. rewrite Z.land_spec. change 511 with (Z.ones 9).
  destruct (Z.ltb_spec i 9); [rewrite Z.ones_spec_low by lia; now rewrite andb_true_r|rewrite Z.ones_spec_high by lia; now rewrite andb_false_r].
Qed.
Print Assumptions C59_roundtrip.
(** every set of the nine usages comes back; other bits are lost *)
Theorem C59_exact : forall ku e, 0 <= ku < 512 -> marshalKeyUsage ku = Ret e -> parseKeyUsageExtension (x_Value e) = Ret ku.
Proof.
  intros ku e H E. destruct (keyUsage_rt ku) as (v & M & _ & R). rewrite M in E. injection E as <-. cbn [x_Value]. rewrite R. f_equal.
  change 511 with (Z.ones 9). rewrite Z.land_ones by lia. apply Z.mod_small. exact H.
Qed.
Print Assumptions C59_exact.
Example C59_instance : marshalKeyUsage 0x161 = Ret (mkExt [2; 5; 29; 15] true [3; 3; 7; 0x86; 0x80]) /\ parseKeyUsageExtension [3; 3; 7; 0x86; 0x80] = Ret 0x161 /\
  marshalKeyUsage 0x260 = Ret (mkExt [2; 5; 29; 15] true [3; 3; 6; 6; 0x40]) /\ parseKeyUsageExtension [3; 3; 6; 6; 0x40] = Ret 0x60.
Proof. vm_compute. auto. Qed.

(** ** C60: basic constraints *)
(** -1, and 0 without MaxPathLenZero, mean: no limit *)
Definition limit (mpl : Z) (zero : bool) : option Z := if (mpl =? -1) || ((mpl =? 0) && negb zero) then None else Some mpl.
Theorem C60_roundtrip : forall isCA mpl zero, - 2 ^ 63 <= mpl < 2 ^ 63 ->
  exists v, marshalBasicConstraints isCA mpl zero = Ret (mkExt [2; 5; 29; 19] true v) /\
    parseBasicConstraintsExtension v = Ret (isCA, match limit mpl zero with Some n => n | None => -1 end).
Proof.
  intros isCA mpl zero H. destruct (basicConstraints_rt isCA mpl zero H) as (v & M & _ & R). exists v. split; [exact M|]. rewrite R. repeat f_equal.
  unfold eff_mpl, limit. destruct (Z.eqb_spec mpl (-1)); [subst; reflexivity|]. cbn [orb]. destruct (_ && _); reflexivity.
Qed.
Print Assumptions C60_roundtrip.
(** the fields of the parsed certificate *)
Theorem C60_fields : forall net i isCA mpl zero e, - 2 ^ 63 <= mpl < 2 ^ 63 -> marshalBasicConstraints isCA mpl zero = Ret e ->
  exists i', processExtension net i e = Ret (i', false) /\ i_BasicConstraintsValid i' = true /\ i_IsCA i' = isCA /\
    limit (i_MaxPathLen i') (i_MaxPathLenZero i') = limit mpl zero /\ (limit mpl zero = None -> i_MaxPathLen i' = -1).
Proof.
  intros net i isCA mpl zero e H E. destruct (basicConstraints_rt isCA mpl zero H) as (v & M & _ & R). rewrite M in E. injection E as <-.
  unfold processExtension. cbn [x_Id x_Value]. change ((List.length oidExtensionBasicConstraints =? 4)%nat && _ && _ && _) with true. cbv iota zeta.
  change (nth 3 oidExtensionBasicConstraints 0) with 19. change (19 =? 15) with false. change (19 =? 19) with true. cbv iota. rewrite R. cbn [bind].
  eexists. split; [reflexivity|]. destruct i. cbn. split; [reflexivity|]. split; [reflexivity|]. unfold limit, eff_mpl.
  destruct (Z.eqb_spec mpl (-1)); [subst; cbn; auto|]. destruct (Z.eqb_spec mpl 0); [subst; destruct zero; cbn; (split; [reflexivity|]); [discriminate|reflexivity]|]. cbn [andb orb negb].
  destruct (Z.eqb_spec mpl (-1)); [lia|]. destruct (Z.eqb_spec mpl 0); [lia|]. cbn. split; [reflexivity|discriminate].
Qed.
Print Assumptions C60_fields.
Example C60_instance : marshalBasicConstraints true 0 true = Ret (mkExt [2; 5; 29; 19] true [48; 6; 1; 1; 255; 2; 1; 0]) /\
  parseBasicConstraintsExtension [48; 6; 1; 1; 255; 2; 1; 0] = Ret (true, 0) /\
  marshalBasicConstraints true 0 false = Ret (mkExt [2; 5; 29; 19] true [48; 3; 1; 1; 255]) /\ parseBasicConstraintsExtension [48; 3; 1; 1; 255] = Ret (true, -1).
Proof. vm_compute. auto. Qed.

(** ** C62: extended key usage *)
Theorem C62_table : forall u o, oidFromExtKeyUsage u = Some o <-> extKeyUsageFromOID o = Some u.
Proof.
  intros u o. split; [intros H; apply oidFrom_inv, H|]. unfold extKeyUsageFromOID. destruct (find _ _) as [[u' o']|] eqn:E; [|discriminate]. intros [= <-].
  apply find_some in E as [E1 E2]. cbn [snd] in E2. unfold oid_eqb in E2. apply bytes_eqb_spec in E2. subst. cbn [fst].
  pose proof eku_table as T. rewrite Forall_forall in T. destruct (T _ E1) as (_ & _ & B). exact B.
Qed.
Print Assumptions C62_table.
Theorem C62_known : forall u, (exists o, oidFromExtKeyUsage u = Some o) <-> 0 <= u <= 13.
Proof.
  intros u. split.
  - intros [o H]. apply oidFrom_In in H. cbn [In extKeyUsageOIDs] in H. repeat destruct H as [[= <- _]|H]; lia.
  - intros H. assert (C : u = 0 \/ u = 1 \/ u = 2 \/ u = 3 \/ u = 4 \/ u = 5 \/ u = 6 \/ u = 7 \/ u = 8 \/ u = 9 \/ u = 10 \/ u = 11 \/ u = 12 \/ u = 13) by lia.
    repeat destruct C as [->|C]; try (eexists; reflexivity). subst. eexists; reflexivity.
Qed.
Print Assumptions C62_known.
(** the encoder works on the fourteen usages and on any further identifiers, and refuses every other usage *)
Theorem C62_encodes : forall known unknown, Forall valid_oid unknown ->
  ((exists e, marshalExtKeyUsage known unknown = Ret e) <-> Forall (fun u => 0 <= u <= 13) known).
Proof.
  intros known unknown Hu. unfold marshalExtKeyUsage. split.
  - intros [e E]. destruct (mapM _ known) as [oids| |] eqn:Em; cbn [bind] in E; try discriminate E. apply mapM_Forall2 in Em. clear E. induction Em as [|u o l m H _ IH]; constructor; auto.
    apply C62_known. destruct (oidFromExtKeyUsage u); [eauto|discriminate].
  - intros H. assert (Em : exists oids, mapM (fun u => match oidFromExtKeyUsage u with Some o => Ret o | None => Err "x509: unknown extended key usage" end) known = Ret oids /\ Forall oid_ok oids).
    { induction H as [|u l Hu' _ (m & E & F)]; [exists []; split; [reflexivity|constructor]|]. apply C62_known in Hu' as [o Ho]. exists (o :: m). cbn [mapM]. rewrite Ho. cbn [bind]. rewrite E. split; [reflexivity|].
      constructor; auto. apply (oidFrom_inv u o Ho). }
    destruct Em as (oids & -> & F). cbn [bind]. unfold Marshal. rewrite (mk_seq cOID (oids ++ unknown) (map (fun o => el 0 6 false (oid_bytes o)) (oids ++ unknown))); [eexists; reflexivity|].
    apply mapM_ret. apply Forall_app. split; [eapply Forall_impl; [|exact F]; apply mk_oid_ok|]. eapply Forall_impl; [|exact Hu]. intros o Ho. apply mk_oid_ok, valid_oid_ok, Ho.
Qed.
Print Assumptions C62_encodes.
Theorem C62_roundtrip : forall known unknown e, Forall valid_oid unknown -> Forall (fun o => extKeyUsageFromOID o = None) unknown ->
  marshalExtKeyUsage known unknown = Ret e -> zlen (x_Value e) < 2 ^ 31 ->
  x_Id e = [2; 5; 29; 37] /\ x_Critical e = false /\ parseExtKeyUsageExtension (x_Value e) = Ret (known, unknown).
Proof. intros known unknown e Hu. apply eku_rt. eapply Forall_impl; [|exact Hu]. intros o. apply valid_oid_ok. Qed.
Print Assumptions C62_roundtrip.
Example C62_instance : marshalExtKeyUsage [1; 0] [[1; 2; 3]] = Ret (mkExt [2; 5; 29; 37] false [48; 20; 6; 8; 43; 6; 1; 5; 5; 7; 3; 1; 6; 4; 85; 29; 37; 0; 6; 2; 42; 3]) /\
  Forall valid_oid [[1; 2; 3]] /\ extKeyUsageFromOID [1; 2; 3] = None /\
  parseExtKeyUsageExtension [48; 20; 6; 8; 43; 6; 1; 5; 5; 7; 3; 1; 6; 4; 85; 29; 37; 0; 6; 2; 42; 3] = Ret ([1; 0], [[1; 2; 3]]).
Proof. split; [reflexivity|]. split; [|split; reflexivity]. constructor; [|constructor]. exists 1, 2, [3]. repeat split; try lia. constructor; [lia|constructor]. Qed.

(** ** C63: policies *)
Theorem C63_roundtrip : forall l, Forall valid_oid l ->
  exists v, marshalCertificatePolicies l = Ret (mkExt [2; 5; 29; 32] false v) /\ (zlen v < 2 ^ 31 -> parseCertificatePoliciesExtension v = Ret l).
Proof.
  intros l Hl. assert (Ho : Forall oid_ok l) by (eapply Forall_impl; [|exact Hl]; intros o; apply valid_oid_ok).
  destruct (marshalCertificatePolicies l) as [e| |] eqn:E.
  - pose proof (policies_rt l e Ho E) as R. exists (x_Value e). split.
    + f_equal. unfold marshalCertificatePolicies in E. destruct (Marshal _ _); cbn [bind] in E; try discriminate E. injection E as <-. reflexivity.
    + intros Hz. apply R, Hz.
  - exfalso. unfold marshalCertificatePolicies, Marshal in E. rewrite (mk_seq cPolicy l (map (fun o => el 0 16 true (el 0 6 false (oid_bytes o))) l)) in E; [discriminate|].
    apply mapM_ret. eapply Forall_impl; [|exact Ho]. intros o H. apply (mk_struct _ _ _ o). apply f_one. apply mk_oid_ok. exact H.
  - exfalso. unfold marshalCertificatePolicies, Marshal in E. rewrite (mk_seq cPolicy l (map (fun o => el 0 16 true (el 0 6 false (oid_bytes o))) l)) in E; [discriminate|].
    apply mapM_ret. eapply Forall_impl; [|exact Ho]. intros o H. apply (mk_struct _ _ _ o). apply f_one. apply mk_oid_ok. exact H.
Qed.
Print Assumptions C63_roundtrip.
Example C63_instance : marshalCertificatePolicies [[2; 23; 140; 1; 2; 1]; [1; 2; 3]] = Ret (mkExt [2; 5; 29; 32] false [48; 16; 48; 8; 6; 6; 103; 129; 12; 1; 2; 1; 48; 4; 6; 2; 42; 3]) /\
  parseCertificatePoliciesExtension [48; 16; 48; 8; 6; 6; 103; 129; 12; 1; 2; 1; 48; 4; 6; 2; 42; 3] = Ret [[2; 23; 140; 1; 2; 1]; [1; 2; 3]].
Proof. split; reflexivity. Qed.

(** ** C64: subject alternative names *)
Lemma norm_same ip short : same_ip ip short -> norm_ip ip = short /\ (List.length ip = 4 \/ List.length ip = 16)%nat.
Proof.
  unfold norm_ip, IP_To4. intros [(L & [->| ->])|(L & N & ->)].
  - rewrite L. cbn [Nat.eqb]. auto.
  - rewrite app_length, L. cbn [List.length Nat.add Nat.eqb]. rewrite (firstn_app_exact mapped short) by reflexivity. change (bytes_eqb mapped v4InV6Prefix) with true. cbn [andb].
    rewrite (skipn_app_exact mapped short) by reflexivity. auto.
  - rewrite L. cbn [Nat.eqb andb]. apply bytes_eqb_neq in N. change v4InV6Prefix with mapped. rewrite N. auto.
Qed.
Lemma mapM_ia5_ok {A} t (f : A -> bytes) l : Forall (fun u => bytes_ok (f u)) l ->
  (exists rs, mapM (fun u => ia5Raw t (f u)) l = Ret rs) <-> Forall (fun u => ascii (f u)) l.
Proof.
  intros Hb. split.
  - intros [rs E]. apply mapM_ia5 in E as [_ E]. rewrite Forall_forall in *. intros u Hu. apply isIA5_iff; auto.
  - intros H. exists (map (fun u => ctxRaw t (f u)) l). apply mapM_ret. rewrite Forall_forall in *. intros u Hu. unfold ia5Raw. replace (isIA5String (f u)) with true; [reflexivity|]. symmetry. apply isIA5_iff; [apply Hb, Hu|apply H, Hu].
Qed.
(** the encoder succeeds exactly when the names are ASCII *)
Theorem C64_encodes : forall d e i u, Forall bytes_ok d -> Forall bytes_ok e -> Forall (fun u => bytes_ok (u_String u)) u ->
  ((exists v, marshalSANs d e i u = Ret v) <-> Forall ascii d /\ Forall ascii e /\ Forall (fun u => ascii (u_String u)) u).
Proof.
  intros d e i u Hd He Hu. unfold marshalSANs.
  pose proof (mapM_ia5_ok nameTypeDNS (fun x => x) d Hd) as Ad. pose proof (mapM_ia5_ok nameTypeEmail (fun x => x) e He) as Ae. pose proof (mapM_ia5_ok nameTypeURI u_String u Hu) as Au.
  split.
  - intros [v E]. destruct (mapM (ia5Raw nameTypeDNS) d) as [rd| |] eqn:Ed; cbn [bind] in E; try discriminate E.
    destruct (mapM (ia5Raw nameTypeEmail) e) as [re| |] eqn:Ee; cbn [bind] in E; try discriminate E.
    destruct (mapM (fun u => ia5Raw nameTypeURI (u_String u)) u) as [ru| |] eqn:Eu; cbn [bind] in E; try discriminate E.
    split; [apply Ad; eexists; reflexivity|]. split; [apply Ae; eexists; reflexivity|]. apply Au. exists ru. reflexivity.
  - intros (Fd & Fe & Fu). apply Ad in Fd as [rd Fd]. apply Ae in Fe as [re Fe]. apply Au in Fu as [ru Fu]. change (fun u => ia5Raw nameTypeDNS u) with (ia5Raw nameTypeDNS) in Fd. change (fun u => ia5Raw nameTypeEmail u) with (ia5Raw nameTypeEmail) in Fe.
    rewrite Fd, Fe. cbn [bind]. rewrite Fu. cbn [bind]. apply (mapM_ia5 nameTypeDNS (fun x => x)) in Fd as [-> _]. apply (mapM_ia5 nameTypeEmail (fun x => x)) in Fe as [-> _]. apply (mapM_ia5 nameTypeURI u_String) in Fu as [-> _].
    eexists. unfold Marshal. rewrite (mk_seq cRaw _ (map (fun r => el 2 (rv_tag r) false (sl (rv_bytes r))) (map (fun u => ctxRaw nameTypeDNS u) d ++ map (fun u => ctxRaw nameTypeEmail u) e ++ map (fun ip => ctxRaw nameTypeIP match IP_To4 ip with Some v4 => v4 | None => ip end) i ++ map (fun u => ctxRaw nameTypeURI (u_String u)) u))); [reflexivity|].
    apply mapM_ret. rewrite !Forall_app. repeat split; apply Forall_map, Forall_forall; intros; reflexivity.
Qed.
Print Assumptions C64_encodes.
Theorem C64_roundtrip : forall net d e ips shorts u v, Forall2 same_ip ips shorts -> Forall (url_ok net) u ->
  marshalSANs d e ips u = Ret v -> zlen v < 2 ^ 31 -> parseSANExtension net v = Ret (mkSANs d e shorts u).
Proof.
  intros net d e ips shorts u v Hi Hu E Hz.
  assert (HH : shorts = map norm_ip ips /\ Forall (fun ip => (List.length ip = 4 \/ List.length ip = 16)%nat) ips).
  { clear - Hi. induction Hi as [|x y l m H _ [I1 I2]]; [split; [reflexivity|constructor]|]. apply norm_same in H as [H1 H2]. split; [cbn [map]; now f_equal|constructor; auto]. }
  destruct HH as [-> HH]. eapply sans_rt; eauto.
Qed.
Print Assumptions C64_roundtrip.
(** what the parser accepts *)
Definition gen_ok (g : genName) : Prop :=
  match g with GNemail s | GNdns s => ascii s | GNip ip => (List.length ip = 4 \/ List.length ip = 16)%nat | _ => True end.
Lemma sanCallback_ok net tag b g : bytes_ok b -> sanCallback net tag b = Ret g -> gen_ok g.
Proof.
  intros Hb. unfold sanCallback. destruct (tag =? nameTypeEmail); [destruct (isIA5String b) eqn:E; [|discriminate]; intros [= <-]; apply isIA5_iff; auto|].
  destruct (tag =? nameTypeDNS); [destruct (isIA5String b) eqn:E; [|discriminate]; intros [= <-]; apply isIA5_iff; auto|].
  destruct (tag =? nameTypeURI).
  { destruct (isIA5String b); cbn [negb]; [|discriminate]. destruct (url_Parse net b); [|discriminate]. destruct (_ && _); [discriminate|]. intros [= <-]. exact I. }
  destruct (tag =? nameTypeIP); [|intros [= <-]; exact I]. destruct (Nat.eqb_spec (List.length b) 4); cbn [orb]; [intros [= <-]; left; auto|].
  destruct (Nat.eqb_spec (List.length b) 16); [intros [= <-]; right; auto|discriminate].
Qed.
Theorem C64_parsed : forall net v s, bytes_ok v -> parseSANExtension net v = Ret s ->
  Forall ascii (san_DNS s) /\ Forall ascii (san_Email s) /\ Forall (fun ip => (List.length ip = 4 \/ List.length ip = 16)%nat) (san_IP s).
Proof.
  intros net v s Hv. unfold parseSANExtension, forEachSAN. destruct (readASN1 T_SEQUENCE v) as [[der r]|] eqn:E; cbn [need bind]; [|discriminate].
  apply readASN1_inv in E as (Ev & _); [|exact Hv]. assert (Hd : bytes_ok der).
  { subst v. apply bytes_ok_app in Hv as [Hv _]. unfold tlv in Hv. apply bytes_ok_cons in Hv as [_ Hv]. apply bytes_ok_app in Hv. apply Hv. }
  destruct (many _ der) as [l| |] eqn:Em; cbn [bind]; try discriminate. intros [= <-].
  assert (G : exists es, der = List.concat es /\ Forall2 (fun g (_ : bytes) => gen_ok g) l es).
  { eapply many_inv; [|exact Hd|exact Em]. clear. intros s a r Hs E. unfold readAny in E. destruct (readAnyElt s) as [[[[tag e] san] r']|] eqn:Er; cbn [need bind] in E; [|discriminate E].
    destruct (sanCallback _ _ _) as [g| |] eqn:Eg; cbn [bind] in E; try discriminate E. injection E as -> ->.
    apply readAny_inv in Er as (Es & Ee & _); [|exact Hs]. exists e. subst e. split; [exact Es|].
    assert (Hs' : bytes_ok (tlv tag san) /\ bytes_ok r) by (rewrite Es in Hs; apply bytes_ok_app in Hs; exact Hs). destruct Hs' as [H1 H2].
    split; [unfold tlv; discriminate|]. split; [|exact H2]. eapply sanCallback_ok; [|exact Eg]. unfold tlv in H1. apply bytes_ok_cons in H1 as [_ H1]. apply bytes_ok_app in H1. apply H1. }
  destruct G as (es & _ & G). clear - G. unfold collect_san. cbn [san_DNS san_Email san_IP]. induction G as [|g e l es H _ (I1 & I2 & I3)]; [repeat split; constructor|].
  cbn [flat_map]. rewrite !Forall_app. destruct g; cbn in H; repeat split; auto.
Qed.
Print Assumptions C64_parsed.
Lemma many_err {A} (step : bytes -> outcome (A * bytes)) s e : s <> [] -> step s = Err e -> many step s = Err e.
Proof. intros H E. destruct s as [|b s]; [congruence|]. unfold many. cbn [List.length many_fuel]. rewrite E. reflexivity. Qed.
(** an address of another length is encoded but the result is not accepted by the parser *)
Theorem C64_bad_ip : forall net ip v, (List.length ip <> 4)%nat -> (List.length ip <> 16)%nat -> marshalSANs [] [] [ip] [] = Ret v -> zlen v < 2 ^ 31 ->
  parseSANExtension net v = Err "x509: cannot parse IP address of length ".
Proof.
  intros net ip v H4 H16 E Hz. unfold marshalSANs in E. cbn [mapM bind map app] in E. unfold IP_To4 in E.
  destruct (Nat.eqb_spec (List.length ip) 4) as [|N4]; [congruence|]. destruct (Nat.eqb_spec (List.length ip) 16) as [|N16]; [congruence|]. cbn [andb] in E.
  unfold Marshal in E. rewrite (mk_seq cRaw _ [el 2 7 false ip]) in E by reflexivity.
  assert (EC : List.concat [el 2 7 false ip] = el 2 7 false ip) by (apply app_nil_r). rewrite EC in E. clear EC.
  assert (EV : v = el 0 16 true (el 2 7 false ip)) by congruence. rewrite EV in *. clear E EV.
  pose proof (el_len 0 16 true (el 2 7 false ip)). unfold parseSANExtension, forEachSAN. rewrite <- (app_nil_r (el 0 16 true _)). rewrite (el_read 0 16 true _ [] T_SEQUENCE); [|reflexivity|apply tseq|lia|lia]. cbn [need bind].
  rewrite (many_err _ _ "x509: cannot parse IP address of length "); [reflexivity|apply el_ne|]. rewrite <- (app_nil_r (el 2 7 false ip)).
  rewrite (el_any 2 7 false ip []) by (try tagok; try lia; try split; vm_compute; congruence). cbn [need bind]. change (Z.lxor (2 * 64 + 0 + 7) 0x80) with 7.
  unfold sanCallback. change (7 =? nameTypeEmail) with false. change (7 =? nameTypeDNS) with false. change (7 =? nameTypeURI) with false. change (7 =? nameTypeIP) with true. cbv iota.
  apply Nat.eqb_neq in N4, N16. rewrite N4, N16. reflexivity.
Qed.
Print Assumptions C64_bad_ip.
Example C64_instance :
  marshalSANs [chars "a.cn"] [chars "x@b.cn"] [[10; 0; 0; 1]; mapped ++ [10; 0; 0; 2]] [] = Ret ([48; 26] ++ [130; 4] ++ chars "a.cn" ++ [129; 6] ++ chars "x@b.cn" ++ [135; 4; 10; 0; 0; 1; 135; 4; 10; 0; 0; 2]) /\
  same_ip (mapped ++ [10; 0; 0; 2]) [10; 0; 0; 2] /\ ascii (chars "a.cn") /\
  parseSANExtension (mkNet (fun _ => None) (fun _ => false)) ([48; 26] ++ [130; 4] ++ chars "a.cn" ++ [129; 6] ++ chars "x@b.cn" ++ [135; 4; 10; 0; 0; 1; 135; 4; 10; 0; 0; 2]) =
    Ret (mkSANs [chars "a.cn"] [chars "x@b.cn"] [[10; 0; 0; 1]; [10; 0; 0; 2]] []).
Proof. split; [reflexivity|]. split; [left; split; [reflexivity|right; reflexivity]|]. split; [repeat constructor|]. reflexivity. Qed.

(** ** C85: name constraints *)
Lemma host_ok s : host s -> labels_ok (trim_dot s) = true.
Proof.
  unfold host, labels_ok. replace (match s with 46 :: r => r | _ => s end) with (trim_dot s); [intros [ls ->]; reflexivity|].
  unfold trim_dot. destruct s as [|c r]; [reflexivity|]. destruct (Z.eqb_spec c 46) as [->|N]; [reflexivity|]. destruct c as [|c|c]; try reflexivity. do 6 (destruct c as [c|c|]; try reflexivity). congruence.
Qed.
Lemma and_bytes_combine a b : and_bytes a b = map (fun '(x, y) => Z.land x y) (combine a b).
Proof. revert b. induction a as [|x a IH]; intros [|y b]; cbn; auto. now f_equal. Qed.
Lemma network_norm n n' : bytes_ok (ipn_Mask n) -> network n n' -> n' = norm_net n /\ net_ok n.
Proof.
  intros Hm (ip & ones & zeros & L & LM & Hip & P & ->).
  assert (V : isValidIPMask (ipn_Mask n) = true) by (apply C65_prefix_masks; eauto).
  assert (M : IP_Mask (ipn_IP n) (ipn_Mask n) = and_bytes ip (ipn_Mask n)).
  { unfold IP_Mask. destruct Hip as [->|(L4 & ->)].
    - rewrite LM. destruct L as [L|L]; rewrite L; cbn [Nat.eqb andb]; rewrite ?LM, ?L; cbn [Nat.eqb andb]; rewrite ?L; reflexivity.
    - rewrite app_length, LM, L4. cbn [List.length Nat.add Nat.eqb andb]. rewrite LM, L4. cbn [Nat.eqb andb]. rewrite (firstn_app_exact mapped ip) by reflexivity.
      change (bytes_eqb mapped v4InV6Prefix) with true. cbv iota. rewrite (skipn_app_exact mapped ip) by reflexivity. change (List.length mapped + 4 =? 16)%nat with true. cbn [andb]. rewrite L4. reflexivity. }
  split; [unfold norm_net; now rewrite M, and_bytes_combine|]. split; [lia|]. split; [|exact V]. rewrite M, and_bytes_combine, map_length, combine_length. lia.
Qed.
Lemma written_norm net c c' : Forall (fun n => bytes_ok (ipn_Mask n)) (nc_IP c) -> written_nc net c c' -> c' = norm_nc c /\ nc_ok net c.
Proof.
  intros Hb (E1 & H1 & H2 & E3 & H3 & E4 & H4). destruct c' as [d i e u]. cbn in *. subst d e u.
  assert (G : i = map norm_net (nc_IP c) /\ Forall net_ok (nc_IP c)).
  { clear - H2 Hb. induction H2 as [|n n' l m H _ IH]; [split; [reflexivity|constructor]|]. inversion Hb as [|? ? B1 B2]; subst. apply network_norm in H as [N1 N2]; [|exact B1]. destruct (IH B2) as [I1 I2]. split; [cbn [map]; congruence|constructor; auto]. }
  destruct G as [-> G]. split; [reflexivity|]. split; [eapply Forall_impl; [|exact H1]; apply host_ok|]. split; [exact G|]. split.
  - eapply Forall_impl; [|exact H3]. intros s. unfold email_or_host, email_constraint_ok. destruct (existsb _ s); [tauto|apply host_ok].
  - eapply Forall_impl; [|exact H4]. intros s [? ?]. split; [auto|apply host_ok; auto].
Qed.
Definition no_constraints (c : constraints) : Prop := c = mkNC [] [] [] [].
Theorem C85_roundtrip : forall net p x p' x' v,
  Forall (fun n => bytes_ok (ipn_Mask n)) (nc_IP p) -> Forall (fun n => bytes_ok (ipn_Mask n)) (nc_IP x) ->
  written_nc net p p' -> written_nc net x x' -> ~ (no_constraints p /\ no_constraints x) ->
  marshalNC p x = Ret v -> zlen v < 2 ^ 31 -> parseNameConstraintsExtension net v = Ret (p', x', false).
Proof.
  intros net p x p' x' v Bp Bx Hp Hx Hn E Hz. apply written_norm in Hp as [-> Hp]; [|exact Bp]. apply written_norm in Hx as [-> Hx]; [|exact Bx].
  apply nc_rt; auto. destruct (nc_empty p) eqn:E1; [|reflexivity]. destruct (nc_empty x) eqn:E2; [|reflexivity]. exfalso. apply Hn. clear - E1 E2.
  destruct p as [[] [] [] []], x as [[] [] [] []]; try discriminate. split; reflexivity.
Qed.
Print Assumptions C85_roundtrip.
(** an IPv4 network given with a 16-byte mask (as IPv4-mapped masks are) is written as 20 bytes, which the parser refuses *)
Theorem C85_mixed_mask : forall net ip m v, List.length ip = 4%nat -> List.length m = 4%nat ->
  marshalNC (mkNC [] [mkIPNet ip (repeat 255 12 ++ m)] [] []) noNC = Ret v -> parseNameConstraintsExtension net v = Err "x509: IP constraint contained value of length ".
Proof.
  intros net ip m v Li Lm E. destruct ip as [|i0 [|i1 [|i2 [|i3 [|? ?]]]]]; cbn in Li; try lia. destruct m as [|m0 [|m1 [|m2 [|m3 [|? ?]]]]]; cbn in Lm; try lia. clear Li Lm.
  cbn - [Z.land] in E. injection E as <-. reflexivity.
Qed.
Print Assumptions C85_mixed_mask.
Example C85_instance : let net := mkNet (fun _ => None) (fun _ => false) in
  let p := mkNC [chars ".example.cn"] [mkIPNet (mapped ++ [10; 1; 2; 3]) [255; 255; 0; 0]] [chars "a@b.cn"] [] in
  written_nc net p (mkNC [chars ".example.cn"] [mkIPNet [10; 1; 0; 0] [255; 255; 0; 0]] [chars "a@b.cn"] []) /\
  exists v, marshalNC p noNC = Ret v /\ parseNameConstraintsExtension net v = Ret (mkNC [chars ".example.cn"] [mkIPNet [10; 1; 0; 0] [255; 255; 0; 0]] [chars "a@b.cn"] [], noNC, false).
Proof.
  split.
  - split; [reflexivity|]. split; [constructor; [eexists; reflexivity|constructor]|]. split.
    { constructor; [|constructor]. exists [10; 1; 2; 3], 16%nat, 16%nat. split; [left; reflexivity|]. split; [reflexivity|]. split; [right; split; reflexivity|]. split; reflexivity. }
    split; [reflexivity|]. split; [constructor; [eexists; reflexivity|constructor]|]. split; [reflexivity|constructor].
  - eexists. split; reflexivity.
Qed.

(** ** C86: key identifiers, authority information, distribution points *)
Theorem C86_key_ids : forall id va vs, Marshal cAuthKeyId (Some id) = Ret va -> Marshal cBytes (Some id) = Ret vs -> zlen va < 2 ^ 31 -> zlen vs < 2 ^ 31 ->
  parseAKI va = Ret (Some id) /\ readASN1 T_OCTET_STRING vs = Some (id, []).
Proof. intros id va vs A B Ha Hb. split; [eapply aki_rt; eauto|]. pose proof (ski_rt id vs [] B Hb) as S. rewrite app_nil_r in S. exact S. Qed.
Print Assumptions C86_key_ids.
Theorem C86_authority_info : forall ocsp issuing, exists v, marshalAIA ocsp issuing = Ret v /\ (zlen v < 2 ^ 31 -> parseAIA v = Ret (ocsp, issuing)).
Proof.
  intros ocsp issuing. assert (E : exists v, marshalAIA ocsp issuing = Ret v); [|destruct E as [v E]; exists v; split; [exact E|apply aia_rt, E]].
  assert (OK1 : oid_ok oidAuthorityInfoAccessOcsp) by oidok. assert (OK2 : oid_ok oidAuthorityInfoAccessIssuers) by oidok.
  unfold marshalAIA, Marshal. eexists. erewrite mk_seq; [reflexivity|]. apply (mapM_ret _ (fun p => el 0 16 true (el 0 6 false (oid_bytes (fst p)) ++ el 2 6 false (sl (rv_bytes (snd p)))))).
  apply Forall_app. split; apply Forall_map, Forall_forall; intros n _; apply (mk_struct _ _ _ (_, ctxRaw 6 n)); (apply f_cons; [apply mk_oid_ok; auto|]); apply f_one; apply mk_ctxRaw.
Qed.
Print Assumptions C86_authority_info.
Theorem C86_distribution_points : forall names, exists v, marshalCRLDP names = Ret v /\ (zlen v < 2 ^ 31 -> parseCRLDP v = Ret names).
Proof.
  intros names. assert (E : exists v, marshalCRLDP names = Ret v); [|destruct E as [v E]; exists v; split; [exact E|apply crldp_rt, E]].
  unfold marshalCRLDP, Marshal. eexists. erewrite mk_seq; [reflexivity|].
  apply (mapM_ret _ (fun d => match dp_Name d with Some [r] => el 0 16 true (el 2 0 true (el 2 0 true (el 2 6 false (sl (rv_bytes r))))) | _ => [] end)). apply Forall_map, Forall_forall. intros n _. apply mk_dp.
Qed.
Print Assumptions C86_distribution_points.
Example C86_instance : marshalAIA [chars "http://o"] [] = Ret ([48; 22; 48; 20; 6; 8; 43; 6; 1; 5; 5; 7; 48; 1; 134; 8] ++ chars "http://o") /\
  marshalCRLDP [chars "http://c"] = Ret ([48; 16; 48; 14; 160; 12; 160; 10; 134; 8] ++ chars "http://c") /\
  Marshal cAuthKeyId (Some [1; 2]) = Ret [48; 4; 128; 2; 1; 2].
Proof. vm_compute. auto. Qed.
