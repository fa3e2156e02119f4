(** * Opening a PFX: getSafeContents, the bag loop, ToPEM *)
From Coq Require Import String.
From Verif Require Import Base Words ECModel SM2Model CryptoByte Asn1 Asn1Proofs Asn1Safe KeysModel KeysProofs BMPModel PbkdfSpec PbkdfModel P12Spec P12Model P12Proofs P12Cipher.
Open Scope Z_scope.

Lemma vok_mac : vok cMac (fun m => bytes_ok (sl (mac_MacSalt m))).
Proof.
  eapply vok_struct; [apply fok_cons; [apply vok_true|apply fok_cons; [apply vok_bytes|apply fok_cons; [apply vok_true|apply fok_nil]]]|].
  intros [m [s [i u]]] (_ & H & _). exact H.
Qed.
Lemma vok_pfx : vok cPfx (fun p => bytes_ok (sl (mac_MacSalt (pfx_MacData p)))).
Proof.
  eapply vok_struct; [apply fok_cons; [apply vok_true|apply fok_cons; [apply vok_true|apply fok_cons; [apply vok_mac|apply fok_nil]]]|].
  intros [v [a [m u]]] (_ & _ & H & _). exact H.
Qed.
Lemma pfx_salt_ok s p : bytes_ok s -> unmarshal cPfx s = Ret p -> bytes_ok (sl (mac_MacSalt (pfx_MacData p))).
Proof. intros Ho E. apply unm_inv in E. exact (vok_unmarshal cPfx _ s p [] vok_pfx Ho E). Qed.

(** the MAC of [md] is the HMAC of [msg] under the key derived from [pwd] *)
Definition mac_holds (P : prims) (md : macData) (msg pwd : bytes) : Prop :=
  sl (di_Digest (mac_Mac md)) = hmac_sha1 P (p12_kdf (sha1 P) (sl (mac_MacSalt md)) pwd (mac_Iterations md) 3 20) msg.
Lemma verifyMac_cases P md msg pwd : prims_ok P -> bytes_ok (sl (mac_MacSalt md)) -> bytes_ok pwd ->
  (ai_alg (di_Algorithm (mac_Mac md)) <> oidSHA1 /\ verifyMac P md msg pwd = Err "go-pkcs12: unknown digest algorithm") \/
  (ai_alg (di_Algorithm (mac_Mac md)) = oidSHA1 /\ mac_holds P md msg pwd /\ verifyMac P md msg pwd = Ret tt) \/
  (ai_alg (di_Algorithm (mac_Mac md)) = oidSHA1 /\ ~ mac_holds P md msg pwd /\ verifyMac P md msg pwd = Err ErrIncorrectPassword).
Proof.
  intros HP Hs Hp. rewrite verifyMac_spec by auto. unfold mac_holds, p12_kdf.
  destruct (oid_eqb (ai_alg _) oidSHA1) eqn:Eo; cbn [negb].
  - right. apply oid_eqb_spec in Eo. destruct (bytes_eqb (sl _) _) eqn:B.
    + left. apply bytes_eqb_spec in B. auto.
    + right. apply bytes_eqb_neq in B. auto.
  - left. split; [|reflexivity]. intros H. apply oid_eqb_spec in H. congruence.
Qed.
(** the password for which the MAC holds: the given one or, for the empty string, the zero-length one *)
Definition mac_password (P : prims) (md : macData) (msg pwd pwd' : bytes) : Prop :=
  (pwd' = pwd /\ mac_holds P md msg pwd) \/ (pwd = [0; 0] /\ ~ mac_holds P md msg [0; 0] /\ pwd' = [] /\ mac_holds P md msg []).
Lemma checkMac_spec P md msg pwd : prims_ok P -> bytes_ok (sl (mac_MacSalt md)) -> bytes_ok pwd -> ai_alg (di_Algorithm (mac_Mac md)) = oidSHA1 ->
  (exists pwd', mac_password P md msg pwd pwd' /\ checkMac P md msg pwd = Ret pwd') \/
  (~ mac_holds P md msg pwd /\ (pwd = [0; 0] -> ~ mac_holds P md msg []) /\ checkMac P md msg pwd = Err ErrIncorrectPassword).
Proof.
  intros HP Hs Hp Ha. unfold checkMac.
  destruct (verifyMac_cases P md msg pwd HP Hs Hp) as [[N _]|[(_ & H & E)|(_ & H & E)]]; [contradiction| |]; rewrite E.
  - left. exists pwd. split; [left; auto|reflexivity].
  - change ((ErrIncorrectPassword =? ErrIncorrectPassword)%string) with true. cbn [andb]. destruct (bytes_eqb pwd [0; 0]) eqn:B.
    + apply bytes_eqb_spec in B. subst pwd. destruct (verifyMac_cases P md msg [] HP Hs (Forall_nil _)) as [[N _]|[(_ & H' & E')|(_ & H' & E')]]; [contradiction| |]; rewrite E'; cbn [bind].
      * left. exists []. split; [right; auto|reflexivity].
      * right. auto.
    + apply bytes_eqb_neq in B. right. split; [exact H|]. split; [intros; contradiction|reflexivity].
Qed.
Lemma checkMac_alg P md msg pwd pwd' : prims_ok P -> bytes_ok (sl (mac_MacSalt md)) -> bytes_ok pwd -> checkMac P md msg pwd = Ret pwd' -> ai_alg (di_Algorithm (mac_Mac md)) = oidSHA1.
Proof.
  intros HP Hs Hp E. unfold checkMac in E. destruct (verifyMac_cases P md msg pwd HP Hs Hp) as [[N X]|[(H & _)|(H & _)]]; auto.
  rewrite X in E. discriminate E.
Qed.
(** what a PFX that [getSafeContents] accepts looks like *)
Lemma getSafe_sound P pfx pwd bags pwd' : prims_ok P -> bytes_ok pfx -> bytes_ok pwd -> getSafeContents P pfx pwd = Ret (bags, pwd') ->
  exists pdu content safe items,
    unmarshal cPfx pfx = Ret pdu /\ pfx_Version pdu = 3 /\ ci_ContentType (pfx_AuthSafe pdu) = oidDataContentType /\
    unmarshal cRaw (sl (rv_bytes (ci_Content (pfx_AuthSafe pdu)))) = Ret content /\ safe = sl (rv_bytes content) /\
    ai_alg (di_Algorithm (mac_Mac (pfx_MacData pdu))) = oidSHA1 /\ mac_password P (pfx_MacData pdu) safe pwd pwd' /\
    unmarshal (cSeqOf false cCI) safe = Ret (Some items) /\ List.length items = 2%nat /\ safes_loop P pwd' items = Ret bags.
Proof.
  intros HP Ho Hp E. unfold getSafeContents in E. destruct (unmarshal cPfx pfx) as [pdu| |] eqn:E1; try discriminate E.
  pose proof (pfx_salt_ok pfx pdu Ho E1) as Hs.
  destruct (pfx_Version pdu =? 3) eqn:E2; cbn [negb] in E; [|discriminate E].
  destruct (oid_eqb (ci_ContentType (pfx_AuthSafe pdu)) oidDataContentType) eqn:E3; cbn [negb] in E; [|discriminate E]. apply oid_eqb_spec in E3.
  destruct (unmarshal cRaw _) as [content| |] eqn:E4; cbn [bind] in E; try discriminate E. cbv zeta in E.
  destruct (ai_alg (di_Algorithm (mac_Mac (pfx_MacData pdu)))) as [|x o] eqn:E5; [discriminate E|].
  destruct (checkMac P (pfx_MacData pdu) (sl (rv_bytes content)) pwd) as [p| |] eqn:E6; cbn [bind] in E; try discriminate E.
  destruct (unmarshal (cSeqOf false cCI) (sl (rv_bytes content))) as [l| |] eqn:E7; cbn [bind] in E; try discriminate E.
  destruct (List.length _ =? 2)%nat eqn:E8; cbn [negb] in E; [|discriminate E]. apply Nat.eqb_eq in E8.
  destruct (safes_loop P p _) as [b| |] eqn:E9; cbn [bind] in E; try discriminate E. assert (b = bags /\ p = pwd') as [-> ->] by (injection E; auto).
  pose proof (checkMac_alg _ _ _ _ _ HP Hs Hp E6) as Ea. destruct l as [items|]; [|discriminate E8].
  exists pdu, content, (sl (rv_bytes content)), items. repeat (split; [solve [auto | now apply Z.eqb_eq]|]).
  split; [|auto]. destruct (checkMac_spec P (pfx_MacData pdu) (sl (rv_bytes content)) pwd HP Hs Hp Ea) as [(p & Hm & Ec)|(_ & _ & Ec)]; [|congruence].
  assert (p = pwd') by congruence. now subst p.
Qed.
Lemma getSafe_wrong P pfx pwd pdu content : prims_ok P -> bytes_ok pfx -> bytes_ok pwd ->
  unmarshal cPfx pfx = Ret pdu -> pfx_Version pdu = 3 -> ci_ContentType (pfx_AuthSafe pdu) = oidDataContentType ->
  unmarshal cRaw (sl (rv_bytes (ci_Content (pfx_AuthSafe pdu)))) = Ret content -> ai_alg (di_Algorithm (mac_Mac (pfx_MacData pdu))) = oidSHA1 ->
  ~ mac_holds P (pfx_MacData pdu) (sl (rv_bytes content)) pwd -> (pwd = [0; 0] -> ~ mac_holds P (pfx_MacData pdu) (sl (rv_bytes content)) []) ->
  getSafeContents P pfx pwd = Err ErrIncorrectPassword.
Proof.
  intros HP Ho Hp E1 E2 E3 E4 E5 H1 H2. pose proof (pfx_salt_ok pfx pdu Ho E1) as Hs. unfold getSafeContents. rewrite E1, E2, E3.
  change (negb (3 =? 3)) with false. change (negb (oid_eqb oidDataContentType oidDataContentType)) with false. cbn iota. rewrite E4. cbn [bind]. cbv zeta. rewrite E5.
  cbn [oidSHA1]. destruct (checkMac_spec P (pfx_MacData pdu) (sl (rv_bytes content)) pwd HP Hs Hp E5) as [(p & [[_ Hm]|(X & _ & _ & Hm)] & Ec)|(_ & _ & Ec)].
  - contradiction.
  - exfalso. exact (H2 X Hm).
  - rewrite Ec. reflexivity.
Qed.

(** ** The bag loop *)
Section Loop.
Variable P : prims.
Variable edPub : bytes -> bytes.
Variable C : Type.
Variable parseCerts : bytes -> outcome (list C).
(** what one bag contributes *)
Definition read_bag (pwd : bytes) (bag : safeBag) : outcome (item privKey C) :=
  let value := sl (rv_bytes (bag_Value bag)) in
  if oid_eqb (bag_Id bag) oidCertBag then
    do d <- decodeCertBag value;
    do cs <- parseCerts d;
    match cs with [c] => Ret (ICert c) | _ => Err "go-pkcs12: expected exactly one certificate in the certBag" end
  else if oid_eqb (bag_Id bag) oidPKCS8ShroundedKeyBag then
    do k <- decodePkcs8ShroudedKeyBag P edPub value pwd; Ret (IKey k)
  else Ret IOther.
(** the loop as a fold over the items *)
Definition step (all : bool) (st : decodeState C) (i : item privKey C) : decodeState C :=
  match i with
  | ICert c => mkDS C (ds_key C st) (if all then ds_certs C st ++ [c] else [c])
                 (match ds_certs C st with [] => ds_err C st | _ => Some "go-pkcs12: expected exactly one certificate bag"%string end)
  | IKey k => mkDS C (Some k) (ds_certs C st) None
  | IOther => st
  end.
Lemma loop_fold all pwd : forall bags st, bags_loop P edPub C parseCerts all pwd st bags =
  do items <- mapM (read_bag pwd) bags; Ret (fold_left (step all) items st).
Proof.
  induction bags as [|b bags IH]; intros st; cbn [bags_loop mapM bind fold_left]; [reflexivity|]. unfold read_bag at 1. cbv zeta.
  destruct (oid_eqb (bag_Id b) oidCertBag).
  - destruct (decodeCertBag _) as [d| |]; cbn [bind]; try reflexivity. destruct (parseCerts d) as [cs| |]; cbn [bind]; try reflexivity.
    destruct cs as [|c [|? ?]]; cbn [bind]; try reflexivity. rewrite IH. destruct (mapM (read_bag pwd) bags); reflexivity.
  - destruct (oid_eqb (bag_Id b) oidPKCS8ShroundedKeyBag).
    + destruct (decodePkcs8ShroudedKeyBag _ _ _ _) as [k| |]; cbn [bind]; try reflexivity. rewrite IH. destruct (mapM (read_bag pwd) bags); reflexivity.
    + cbn [bind]. rewrite IH. destruct (mapM (read_bag pwd) bags); reflexivity.
Qed.
Definition last_opt {A} (l : list A) : option A := fold_left (fun _ x => Some x) l None.
Lemma last_opt_app {A} (l : list A) x : last_opt (l ++ [x]) = Some x.
Proof. unfold last_opt. rewrite fold_left_app. reflexivity. Qed.
Lemma certs_app {K} (a b : list (item K C)) : certs_in (a ++ b) = certs_in a ++ certs_in b. Proof. unfold certs_in. apply flat_map_app. Qed.
Lemma keys_app {K} (a b : list (item K C)) : keys_in (a ++ b) = keys_in a ++ keys_in b. Proof. unfold keys_in. apply flat_map_app. Qed.
Definition tooMany : string := "go-pkcs12: expected exactly one certificate bag".
Lemma fold_spec all : forall items, let st := fold_left (step all) items (mkDS C None [] None) in
  ds_key C st = last_opt (keys_in items) /\
  ds_certs C st = (if all then certs_in items else match last_opt (certs_in items) with Some c => [c] | None => [] end) /\
  (late_cert items /\ ds_err C st = Some tooMany \/ ~ late_cert items /\ ds_err C st = None).
Proof.
  intros items. cbv zeta. induction items as [|i items IH] using rev_ind.
  - cbn. split; [reflexivity|]. split; [destruct all; reflexivity|]. right. split; [|reflexivity]. intros (a & c & b & H & _). destruct a; discriminate H.
  - rewrite fold_left_app. cbn [fold_left]. destruct IH as (I1 & I2 & I3). set (st := fold_left (step all) items (mkDS C None [] None)) in *.
    rewrite certs_app, keys_app. destruct i as [c|k|]; cbn [certs_in keys_in flat_map app step ds_key ds_certs ds_err] in *.
    + rewrite app_nil_r. split; [exact I1|]. split; [rewrite last_opt_app, I2; destruct all; reflexivity|].
      assert (Hl : late_cert (items ++ [ICert c]) <-> certs_in items <> []).
      { split.
        - intros (a & c' & b & H & Ha & Hb). destruct b as [|z b _] using rev_ind.
          + apply app_inj_tail in H as [-> _]. exact Ha.
          + rewrite app_comm_cons, app_assoc in H. apply app_inj_tail in H as [-> _]. rewrite certs_app. cbn. intros X. apply app_eq_nil in X as [_ X]. discriminate X.
        - intros N. exists items, c, []. auto. }
      assert (Hc : ds_certs C st = [] <-> certs_in items = []).
      { rewrite I2. destruct all; [tauto|]. destruct (certs_in items) as [|x l] using rev_ind; [cbn; tauto|]. rewrite last_opt_app. split; intros X; [discriminate X|apply app_eq_nil in X as [_ X]; discriminate X]. }
      destruct (ds_certs C st) eqn:Ed.
      * right. destruct Hc as [Hc _]. specialize (Hc eq_refl). split; [tauto|]. destruct I3 as [[(a & c' & b & -> & Ha & _) _]|[_ I3]]; [|exact I3].
        exfalso. rewrite certs_app in Hc. apply app_eq_nil in Hc as [Hc _]. contradiction.
      * left. split; [|reflexivity]. apply Hl. intros N. apply Hc in N. discriminate N.
    + rewrite app_nil_r. split; [now rewrite last_opt_app|]. split; [exact I2|]. right. split; [|reflexivity].
      intros (a & c' & b & H & Ha & Hb). destruct b as [|z b _] using rev_ind.
      * apply app_inj_tail in H as [_ H]. discriminate H.
      * rewrite app_comm_cons, app_assoc in H. apply app_inj_tail in H as [_ H]. subst z. rewrite keys_app in Hb. apply app_eq_nil in Hb as [_ Hb]. discriminate Hb.
    + rewrite !app_nil_r. split; [exact I1|]. split; [exact I2|].
      assert (Hl : late_cert (items ++ [IOther]) <-> late_cert items).
      { split.
        - intros (a & c' & b & H & Ha & Hb). destruct b as [|z b _] using rev_ind.
          + apply app_inj_tail in H as [_ H]. discriminate H.
          + rewrite app_comm_cons, app_assoc in H. apply app_inj_tail in H as [-> H]. subst z. rewrite keys_app in Hb. apply app_eq_nil in Hb as [Hb _]. exists a, c', b. auto.
        - intros (a & c' & b & -> & Ha & Hb). exists a, c', (b ++ [IOther]). rewrite keys_app, Hb, <- app_assoc. auto. }
      rewrite Hl. exact I3.
Qed.
End Loop.
