(** * C61, C65-C69: object identifiers, masks, labels, mailboxes, strings and bit strings of X.509 *)
From Coq Require Import String Ascii ZifyBool ZifyNat.
From Verif Require Import Base Words Utf8 BMPModel ECModel SM2Model CryptoByte Asn1 Asn1Proofs KeysModel KeysProofs X509Model X509Sig X509Build X509Proofs X509StrProofs.
Open Scope Z_scope.

(** ** Specification *)
(** the bytes of an ASCII literal *)
Definition chars (s : string) : bytes := map (fun a => Z.of_N (N_of_ascii a)) (list_ascii_of_string s).
(** C61: a valid object identifier: two or more arcs, the first at most 2, the second below 40 unless the first is 2; every
    number fits 31 bits (the first two together, as they share one number of the encoding) *)
Definition valid_oid (o : oid) : Prop :=
  exists a b rest, o = a :: b :: rest /\ 0 <= a <= 2 /\ 0 <= b /\ (b < 40 \/ a = 2) /\ 40 * a + b < 2 ^ 31 /\ Forall (fun x => 0 <= x < 2 ^ 31) rest.
(** C66: labels joined with dots *)
Fixpoint dotted (labels : list bytes) : bytes :=
  match labels with [] => [] | [l] => l | l :: r => l ++ chars "." ++ dotted r end.
(** a label: visible ASCII characters other than the dot, at least one *)
Definition label (l : bytes) : Prop := l <> [] /\ Forall (fun c => 33 <= c <= 126 /\ c <> 46) l.
(** C67: the ways to write a local part *)
Definition qtext (c : Z) : Prop := 1 <= c <= 127 /\ ~ In c [9; 10; 13; 34; 92].
Definition qpair (c : Z) : Prop := 1 <= c <= 127 /\ ~ In c [10; 13].
Definition atext (c : Z) : Prop :=
  In c (chars "abcdefghijklmnopqrstuvwxyzABCDEFGHIJKLMNOPQRSTUVWXYZ0123456789!#$%&'*+-/=?^_`{|}~.").
Inductive written (text pair : Z -> Prop) : bytes -> bytes -> Prop :=
| w_nil : written text pair [] []
| w_text c e l : text c -> written text pair e l -> written text pair (c :: e) (c :: l)
| w_pair c e l : pair c -> written text pair e l -> written text pair (92 :: c :: e) (c :: l).
(** no dot at either end and no two dots in a row *)
Definition dots_ok (l : bytes) : Prop :=
  l <> [] /\ (forall r, l <> chars "." ++ r) /\ (forall r, l <> r ++ chars ".") /\ (forall a b, l <> a ++ chars ".." ++ b).
(** the two forms of an address *)
Definition mailbox (s local domain : bytes) : Prop :=
  (exists ls, domainToReverseLabels domain = Some ls) /\
  ((exists e, written qtext qpair e local /\ s = [34] ++ e ++ [34] ++ chars "@" ++ domain) \/
   (exists e, written atext (fun _ => True) e local /\ dots_ok local /\ s = e ++ chars "@" ++ domain)).
(** C68 *)
Definition printable : bytes := chars "abcdefghijklmnopqrstuvwxyzABCDEFGHIJKLMNOPQRSTUVWXYZ0123456789 '()+,-./:=?*&".
Definition string_spec (tag : Z) (v s : bytes) : Prop :=
  (tag = 20 /\ s = v) \/                                                      (* T61String *)
  (tag = 19 /\ s = v /\ Forall (fun b => In b printable) v) \/                (* PrintableString *)
  (tag = 12 /\ s = v /\ exists rs, Forall scalar rs /\ v = utf8_encode rs) \/ (* UTF8String *)
  (tag = 22 /\ s = v /\ Forall (fun b => b < 128) v) \/                       (* IA5String *)
  (tag = 18 /\ s = v /\ Forall (fun b => In b (chars "0123456789 ")) v) \/    (* NumericString *)
  (tag = 30 /\ decodeBMPString v = Ret s).                                    (* BMPString: as in PKCS#12 (C34) *)

(** ** C61 *)
Lemma valid_oid_ok o : valid_oid o <-> oid_ok o.
Proof.
  unfold valid_oid, oid_ok, maxInt32. change (2 ^ 31 - 1) with 2147483647. change (2 ^ 31) with 2147483648. split.
  - intros (a & b & rest & -> & H1 & H2 & H3 & H4 & H5). repeat split; try lia. eapply Forall_impl; [|exact H5]. intros x Hx. cbv beta in *. lia.
  - destruct o as [|a [|b rest]]; try tauto. intros (H1 & H2 & H3 & H4 & H5). exists a, b, rest. repeat split; try lia.
    eapply Forall_impl; [|exact H5]. intros x Hx. cbv beta in *. lia.
Qed.
Lemma base128_digits_length l n : List.length (base128_digits l n) = l. Proof. induction l; cbn; auto. Qed.
Lemma append_len x : 0 <= x < 2 ^ 31 -> zlen (appendBase128Int x) <= 5.
Proof.
  intros H. unfold zlen, appendBase128Int. rewrite base128_digits_length. unfold base128_length. destruct (Z.eqb_spec x 0); [lia|].
  assert (L : Z.log2 x < 31) by (apply Z.log2_lt_pow2; lia). pose proof (Z.log2_nonneg x).
  assert (Z.log2 x / 7 <= 4) by (apply Z.lt_succ_r, Z.div_lt_upper_bound; lia). assert (0 <= Z.log2 x / 7) by (apply Z.div_pos; lia). lia.
Qed.
Lemma flat_append_len l : Forall (fun x => 0 <= x < 2 ^ 31) l -> zlen (flat_map appendBase128Int l) <= 5 * zlen l.
Proof. induction 1; cbn [flat_map]; [reflexivity|]. rewrite zlen_app, zlen_cons. pose proof (append_len x H). lia. Qed.
Lemma oid_bytes_len o : valid_oid o -> zlen (oid_bytes o) <= 5 * zlen o.
Proof.
  intros (a & b & rest & -> & H1 & H2 & H3 & H4 & H5). unfold oid_bytes.
  pose proof (flat_append_len (a * 40 + b :: rest) ltac:(constructor; [lia|auto])) as L. rewrite zlen_cons in L. rewrite !zlen_cons. lia.
Qed.
(** encoding and decoding: with encoding/asn1 (both ways) and with the reader of the parser; the encoding is self-delimiting: what
    follows it is left alone.  (An OID of 2^28 arcs is a gigabyte long: asn1.Unmarshal refuses lengths from 2^31.) *)
Theorem C61_roundtrip : forall o rest, valid_oid o -> zlen o < 2 ^ 28 ->
  exists b, Marshal cOID o = Ret b /\ Unmarshal cOID (b ++ rest) = Ret (o, rest) /\ readOID (b ++ rest) = Some (o, rest).
Proof.
  intros o rest H Hz. pose proof (oid_bytes_len o H) as L. apply valid_oid_ok in H. exists (oid_tlv o).
  assert (M : Marshal cOID o = Ret (oid_tlv o)) by (apply Marshal_oid; auto; lia).
  split; [exact M|]. split.
  - apply (oid_rt_f o H (oid_tlv o) rest M). unfold oid_tlv. pose proof (tlv_zlen T_OID (oid_bytes o)) as TZ. lia.
  - apply readOID_tlv; auto. unfold max_content. lia.
Qed.
Print Assumptions C61_roundtrip.
(** the parser accepts nothing but the encodings of valid OIDs *)
Theorem C61_canonical : forall s o rest, bytes_ok s -> readOID s = Some (o, rest) -> valid_oid o /\ exists b, Marshal cOID o = Ret b /\ s = b ++ rest.
Proof.
  intros s o rest Hs E. apply readOID_inv in E as (-> & H & Hz); auto. split; [apply valid_oid_ok; auto|].
  exists (oid_tlv o). split; [|reflexivity]. apply Marshal_oid; [exact H|]. unfold max_content in Hz. clear - Hz. lia.
Qed.
Print Assumptions C61_canonical.
(** so two OIDs never share an encoding, even with something after it *)
Theorem C61_self_delimiting : forall o o' b b' r r', valid_oid o -> valid_oid o' -> zlen o < 2 ^ 28 -> zlen o' < 2 ^ 28 ->
  Marshal cOID o = Ret b -> Marshal cOID o' = Ret b' -> b ++ r = b' ++ r' -> o = o' /\ r = r'.
Proof.
  intros o o' b b' r r' H H' Hz Hz' M M' E. destruct (C61_roundtrip o r H Hz) as (x & Mx & _ & R). destruct (C61_roundtrip o' r' H' Hz') as (x' & Mx' & _ & R').
  assert (x = b) by congruence. assert (x' = b') by congruence. subst. rewrite E in R. split; congruence.
Qed.
Print Assumptions C61_self_delimiting.
Example C61_instance : valid_oid [1; 2; 156; 10197; 1; 501] /\ Marshal cOID [1; 2; 156; 10197; 1; 501] = Ret [6; 8; 0x2a; 0x81; 0x1c; 0xcf; 0x55; 1; 0x83; 0x75].
Proof. split; [|reflexivity]. exists 1, 2, [156; 10197; 1; 501]. repeat split; try lia; repeat constructor; lia. Qed.

(** ** C65: masks *)
Theorem C65_prefix_masks : forall mask, bytes_ok mask ->
  (isValidIPMask mask = true <-> exists ones zeros, bits mask = repeat true ones ++ repeat false zeros).
Proof. intros mask H. unfold isValidIPMask. rewrite mask_false by auto. apply otz_iff. Qed.
Print Assumptions C65_prefix_masks.
Example C65_instance : isValidIPMask [255; 255; 240; 0] = true /\ isValidIPMask [255; 0; 255; 0] = false /\
  bits [255; 240] = repeat true 12 ++ repeat false 4.
Proof. vm_compute. auto. Qed.

(** ** C66: labels *)
Lemma dotted_rjoin ls : dotted (rev ls) = rjoin ls.
Proof.
  induction ls as [|x r IH]; [reflexivity|]. cbn [rev]. destruct r as [|y r]; [reflexivity|]. change (rjoin (x :: y :: r)) with (rjoin (y :: r) ++ 46 :: x). rewrite <- IH.
  assert (G : forall a (x : bytes), a <> [] -> dotted (a ++ [x]) = dotted a ++ 46 :: x).
  { clear. induction a as [|y a IH]; [congruence|]. intros x _. destruct a as [|z a]; [reflexivity|].
    change (dotted ((y :: z :: a) ++ [x])) with (y ++ [46] ++ dotted ((z :: a) ++ [x])). rewrite IH by discriminate.
    change (dotted (y :: z :: a)) with (y ++ [46] ++ dotted (z :: a)). rewrite <- !app_assoc. reflexivity. }
  apply G. cbn [rev]. destruct (rev r); discriminate.
Qed.
Lemma label_check l : bytes_ok l -> negb (List.length l =? 0)%nat && forallb (fun c => negb ((c <? 33) || (126 <? c))) (runes l) = true <->
  l <> [] /\ Forall (fun c => 33 <= c <= 126) l.
Proof.
  intros H. rewrite runes_forallb by (auto; intros; lia). rewrite andb_true_iff, forallb_forall, Forall_forall, negb_true_iff, Nat.eqb_neq. split; intros [A B]; split.
  - intros ->. apply A. reflexivity.
  - intros x Hx. specialize (B x Hx). lia.
  - destruct l; [congruence|discriminate].
  - intros x Hx. specialize (B x Hx). lia.
Qed.
Lemma rjoin_ok ls : bytes_ok (rjoin ls) -> Forall bytes_ok ls.
Proof.
  induction ls as [|x [|y r] IH]; intros H; [constructor|auto|]. change (rjoin (x :: y :: r)) with (rjoin (y :: r) ++ 46 :: x) in H.
  apply bytes_ok_app in H as [H1 H2]. apply bytes_ok_cons in H2 as [_ H2]. constructor; auto.
Qed.
(** the domain is empty, or it is its labels joined with dots, possibly with one dot in front *)
Theorem C66_labels : forall domain labels, bytes_ok domain ->
  (domainToReverseLabels domain = Some labels <->
   (domain = [] /\ labels = []) \/
   (labels <> [] /\ Forall label labels /\ (domain = dotted (rev labels) \/ domain = chars "." ++ dotted (rev labels)))).
Proof.
  intros d ls Hd. rewrite dotted_rjoin. unfold domainToReverseLabels. destruct d as [|c d].
  { cbn. split; [intros [= <-]; auto|]. intros [[_ ->]|(N & F & [E|E])]; [reflexivity| |discriminate].
    exfalso. destruct ls as [|x [|y r]]; [congruence| |]; cbn [rjoin] in E.
    - inversion F as [|? ? [Hx _] _]. congruence.
    - destruct (match r with [] => y | _ :: _ => rjoin r ++ 46 :: y end); discriminate. }
  remember (c :: d) as s eqn:Es. assert (Ns : s <> []) by (subst; discriminate). clear Es c d.
  destruct (labels_loop_out (List.length s) s (le_n _) Ns) as (L1 & L2 & L3). cbv zeta in *. split.
  - destruct (match labels_loop (List.length s) s with [] :: _ => true | _ => false end); [discriminate|].
    destruct (forallb _ _) eqn:F; [|discriminate]. intros [= <-]. right. split; [exact L1|]. split; [|exact L3].
    assert (Ok : Forall bytes_ok (labels_loop (List.length s) s)).
    { apply rjoin_ok. destruct L3 as [E|E]; rewrite E in Hd; [exact Hd|]. apply bytes_ok_cons in Hd. apply Hd. }
    rewrite forallb_forall in F. rewrite Forall_forall in *. intros l Hl. specialize (F l Hl). apply label_check in F; [|auto]. destruct F as [F1 F2].
    split; [exact F1|]. rewrite Forall_forall in *. intros x Hx. split; [auto|]. intros ->. exact (L2 l Hl Hx).
  - intros [[E _]|(N & F & E)]; [congruence|].
    assert (HL : labels_loop (List.length s) s = ls).
    { apply labels_loop_in; auto. rewrite Forall_forall in *. intros l Hl. specialize (F l Hl). destruct F as [F1 F2]. split; [|exact F1]. rewrite Forall_forall in F2. intros I. apply F2 in I. lia. }
    rewrite HL in *. assert (Ok : Forall bytes_ok ls).
    { apply rjoin_ok. destruct E as [E|E]; rewrite E in Hd; [exact Hd|]. apply bytes_ok_cons in Hd. apply Hd. }
    replace (match ls with [] :: _ => true | _ => false end) with false by (destruct ls as [|[|] ?]; auto; inversion F as [|? ? [HH _] _]; congruence).
    replace (forallb _ ls) with true; [reflexivity|]. symmetry. apply forallb_forall. intros l Hl. rewrite Forall_forall in *. apply label_check; auto.
    destruct (F l Hl) as [F1 F2]. split; auto. eapply Forall_impl; [|exact F2]. cbv beta. tauto.
Qed.
Print Assumptions C66_labels.
(** so a final dot is never accepted, and neither is a lone dot, although one dot in front is *)
Theorem C66_trailing_dot : forall d, bytes_ok d -> domainToReverseLabels (d ++ chars ".") = None.
Proof.
  intros d Hd. destruct (domainToReverseLabels (d ++ chars ".")) as [ls|] eqn:E; [|reflexivity]. exfalso.
  apply C66_labels in E; [|apply bytes_ok_app; split; [auto|repeat constructor; lia]].
  destruct E as [[E _]|(N & F & E)]; [destruct d; discriminate|]. rewrite dotted_rjoin in E. change (chars ".") with [46] in E.
  destruct ls as [|x r]; [congruence|]. inversion F as [|? ? [Hx Fx] Fr]; subst. destruct x as [|z x _] using rev_ind; [congruence|].
  assert (Z46 : z = 46).
  { destruct r as [|y r].
    - cbn [rjoin] in E. destruct E as [E|E]; [|change ([46] ++ x ++ [z]) with ((46 :: x) ++ [z]) in E]; apply app_inj_tail in E; symmetry; apply E.
    - change (rjoin ((x ++ [z]) :: y :: r)) with (rjoin (y :: r) ++ (46 :: x) ++ [z]) in E.
      destruct E as [E|E]; [rewrite app_assoc in E|rewrite app_assoc, app_assoc in E]; apply app_inj_tail in E; symmetry; apply E. }
  apply Forall_app in Fx as [_ Fx]. inversion Fx as [|? ? [_ Hz] _]; subst. congruence.
Qed.
Print Assumptions C66_trailing_dot.
Example C66_instance : domainToReverseLabels (chars "foo.example.com") = Some [chars "com"; chars "example"; chars "foo"] /\
  domainToReverseLabels (chars ".example.com") = Some [chars "com"; chars "example"] /\ domainToReverseLabels (chars ".") = None /\
  domainToReverseLabels [] = Some [] /\ domainToReverseLabels (chars "a..b") = None.
Proof. repeat split; reflexivity. Qed.

(** ** C67: mailboxes *)
Lemma qtext_iff c : (is_qtext c = true /\ c <> 34 /\ c <> 92) <-> qtext c.
Proof. unfold is_qtext, qtext. cbn [In]. lia. Qed.
Lemma qpair_iff c : is_quoted_text c = true <-> qpair c.
Proof. unfold is_quoted_text, qpair. cbn [In]. lia. Qed.
Lemma atext_iff c : is_atext c = true <-> atext c.
Proof.
  unfold atext. set (l := chars _). split.
  - intros H. assert (B : byte_ok c) by (unfold is_atext in H; cbn [existsb] in H; unfold byte_ok; lia).
    assert (E : implb (is_atext c) (existsb (Z.eqb c) l) = true) by (revert c B H; intros c B _; revert c B; apply all_bytes; vm_compute; reflexivity).
    rewrite H in E. cbn [implb] in E. apply existsb_exists in E as (x & Hx & E). apply Z.eqb_eq in E. subst. exact Hx.
  - revert c. apply Forall_forall. assert (F : forallb is_atext l = true) by reflexivity. rewrite forallb_forall in F. apply Forall_forall. exact F.
Qed.
Lemma written_quoted e l : quoted e l <-> written qtext qpair e l.
Proof.
  split; induction 1; try constructor; auto; try (apply qtext_iff; auto); try (apply qpair_iff; auto).
Qed.
Lemma written_atoms e l : atoms e l <-> written atext (fun _ => True) e l.
Proof. split; induction 1; try constructor; auto; apply atext_iff; auto. Qed.
Lemma dots_ok_iff l : l <> [] -> ((hd 0 l =? 46) || (last l 0 =? 46) || two_dots l = false <-> dots_ok l).
Proof.
  intros N. unfold dots_ok. change (chars ".") with [46]. change (chars "..") with [46; 46]. rewrite !orb_false_iff, !Z.eqb_neq. split.
  - intros [[H1 H2] H3]. split; [exact N|]. split; [intros r ->; apply H1; reflexivity|]. split; [intros r ->; apply H2, last_last|].
    intros a b ->. assert (T : two_dots (a ++ 46 :: 46 :: b) = true) by (apply two_dots_iff; eauto). cbn [app] in H3. congruence.
  - intros (_ & H1 & H2 & H3). split; [split|].
    + destruct l as [|x l]; [congruence|]. cbn [hd]. intros ->. exact (H1 l eq_refl).
    + destruct l as [|x l _] using rev_ind; [congruence|]. rewrite last_last. intros ->. exact (H2 l eq_refl).
    + destruct (two_dots l) eqn:T; [|reflexivity]. exfalso. apply two_dots_iff in T as (a & b & E). exact (H3 a b E).
Qed.
(** exactly the addresses "local part @ domain", the local part quoted or a sequence of atom characters and escaped characters *)
Theorem C67_mailbox : forall s local domain, parseRFC2821Mailbox s = Some (local, domain) <-> mailbox s local domain.
Proof.
  intros s l d. unfold mailbox. change (chars "@") with [64]. split.
  - unfold parseRFC2821Mailbox. destruct s as [|c r]; [discriminate|].
    destruct (if c =? 34 then _ else _) as [[l' rest]|] eqn:E; [|discriminate].
    destruct rest as [|a dom]; [discriminate|]. destruct (Z.eqb_spec a 64) as [->|]; [|discriminate]. cbn [negb].
    destruct (domainToReverseLabels dom) as [ls|] eqn:Ed; [|discriminate]. intros [= <- <-]. split; [eauto|].
    destruct (Z.eqb_spec c 34) as [->|Nq].
    + left. apply quoted_loop_inv in E as (e & -> & Q). exists e. split; [apply written_quoted; auto|]. reflexivity.
    + right. destruct (atom_loop (c :: r)) as [[[|x l0] t]|] eqn:Ea; try discriminate.
      destruct ((hd 0 (x :: l0) =? 46) || (last (x :: l0) 0 =? 46) || two_dots (x :: l0)) eqn:Dd; [discriminate|]. injection E as E1 E2. subst t. rewrite <- E1.
      apply atom_loop_inv in Ea as (e & -> & A & _). exists e. split; [apply written_atoms; auto|]. split; [|reflexivity]. apply dots_ok_iff; [discriminate|exact Dd].
  - intros [(ls & Ed) [(e & W & ->)|(e & W & D & ->)]].
    + apply written_quoted in W. cbn [app]. unfold parseRFC2821Mailbox. change (34 =? 34) with true. cbv iota.
      rewrite (quoted_loop_app e l W (64 :: d)). change (64 =? 64) with true. cbn [negb]. rewrite Ed. reflexivity.
    + apply written_atoms in W. cbn [app]. assert (AL : atom_loop (e ++ 64 :: d) = Some (l, 64 :: d)) by (apply atom_loop_app; auto; split; [reflexivity|discriminate]).
      assert (Nl : l <> []) by apply D. apply (dots_ok_iff l Nl) in D.
      assert (Ne : exists c e', e = c :: e' /\ c <> 34).
      { destruct W as [|c e l Hc W|c e l W]; [congruence| |]; [exists c, e|exists 92, (c :: e)]; split; auto; [intros ->; discriminate Hc|discriminate]. }
      destruct Ne as (c & e' & -> & Nc). cbn [app] in *. unfold parseRFC2821Mailbox. rewrite (proj2 (Z.eqb_neq c 34) Nc), AL.
      destruct l as [|x l]; [congruence|]. rewrite D. change (64 =? 64) with true. cbn [negb]. rewrite Ed. reflexivity.
Qed.
Print Assumptions C67_mailbox.
(** simple addresses: atoms separated by single dots *)
Theorem C67_simple : forall local domain ls, Forall atext local -> dots_ok local -> domainToReverseLabels domain = Some ls ->
  parseRFC2821Mailbox (local ++ chars "@" ++ domain) = Some (local, domain).
Proof.
  intros l d ls Ha Hd E. apply C67_mailbox. split; [eauto|]. right. exists l. split; [|split; auto]. clear Hd E. induction Ha; constructor; auto.
Qed.
Print Assumptions C67_simple.
(** the domain may be empty: an address may end with the @ *)
Theorem C67_empty_domain : forall local, Forall atext local -> dots_ok local -> parseRFC2821Mailbox (local ++ chars "@") = Some (local, []).
Proof. intros l H D. exact (C67_simple l [] [] H D eq_refl). Qed.
Print Assumptions C67_empty_domain.
Example C67_instance : parseRFC2821Mailbox (chars "a.b@example.com") = Some (chars "a.b", chars "example.com") /\
  parseRFC2821Mailbox ([34] ++ chars "a b" ++ [34] ++ chars "@x") = Some (chars "a b", chars "x") /\
  parseRFC2821Mailbox (chars "a..b@x") = None /\ parseRFC2821Mailbox (chars "a\@b@x") = Some (chars "a@b", chars "x") /\ parseRFC2821Mailbox (chars "a@") = Some (chars "a", []).
Proof. repeat split; reflexivity. Qed.

(** ** C68: strings *)
Theorem C68_printable : forall b, isPrintable b = true <-> In b printable.
Proof.
  intros b. split.
  - intros H. assert (B : byte_ok b) by (unfold isPrintable in H; unfold byte_ok; lia).
    assert (E : implb (isPrintable b) (existsb (Z.eqb b) printable) = true) by (clear H; revert b B; apply all_bytes; vm_compute; reflexivity).
    rewrite H in E. cbn [implb] in E. apply existsb_exists in E as (x & Hx & E). apply Z.eqb_eq in E. subst. exact Hx.
  - assert (F : forallb isPrintable printable = true) by reflexivity. rewrite forallb_forall in F. apply F.
Qed.
Print Assumptions C68_printable.
Lemma forallb_In (f : Z -> bool) (P : Z -> Prop) v : (forall b, f b = true <-> P b) -> forallb f v = true <-> Forall P v.
Proof. intros H. rewrite forallb_forall, Forall_forall. split; intros A x Hx; apply H; auto. Qed.
Lemma numeric_iff b : ((48 <=? b) && (b <=? 57)) || (b =? 32) = true <-> In b (chars "0123456789 ").
Proof.
  set (l := chars _). vm_compute in l. subst l. cbn [In]. split; [intros H|intros H]; lia.
Qed.
(** which strings are accepted, with which result *)
Theorem C68_strings : forall tag v s, bytes_ok v -> parseASN1String tag v = Ret s <-> string_spec tag v s.
Proof.
  intros tag v s Hv. unfold parseASN1String, string_spec, T_T61String, T_PrintableString, T_UTF8String, T_BMPString, T_IA5String, T_NumericString, decodeBMPString.
  destruct (Z.eqb_spec tag 20) as [->|N1]; [split; [intros [= <-]; auto|intros [[_ ->]|[[A _]|[[A _]|[[A _]|[[A _]|[A _]]]]]]; [reflexivity|discriminate A..]]|].
  destruct (Z.eqb_spec tag 19) as [->|N2].
  { pose proof (forallb_In isPrintable (fun b => In b printable) v C68_printable) as F. destruct (forallb isPrintable v).
    - split; [intros [= <-]; right; left; repeat split; auto; apply F; reflexivity|intros [[A _]|[(_ & -> & _)|[[A _]|[[A _]|[[A _]|[A _]]]]]]; [discriminate A|reflexivity|discriminate A..]].
    - split; [discriminate|intros [[A _]|[(_ & -> & H)|[[A _]|[[A _]|[[A _]|[A _]]]]]]; [discriminate A|apply F in H; discriminate H|discriminate A..]]. }
  destruct (Z.eqb_spec tag 12) as [->|N3].
  { pose proof (utf8_valid_iff v Hv) as F. destruct (utf8_valid v).
    - split; [intros [= <-]; right; right; left; repeat split; auto; apply F; reflexivity|intros [[A _]|[[A _]|[(_ & -> & _)|[[A _]|[[A _]|[A _]]]]]]; [discriminate A|discriminate A|reflexivity|discriminate A..]].
    - split; [discriminate|intros [[A _]|[[A _]|[(_ & -> & H)|[[A _]|[[A _]|[A _]]]]]]; [discriminate A|discriminate A|apply F in H; discriminate H|discriminate A..]]. }
  destruct (Z.eqb_spec tag 30) as [->|N4].
  { destruct (negb (zlen v mod 2 =? 0)); [split; [discriminate|intros [[A _]|[[A _]|[[A _]|[[A _]|[[A _]|[_ A]]]]]]; discriminate A]|].
    split; [intros H; do 5 right; auto|intros [[A _]|[[A _]|[[A _]|[[A _]|[[A _]|[_ A]]]]]]; [discriminate A..|exact A]]. }
  destruct (Z.eqb_spec tag 22) as [->|N5].
  { pose proof (isIA5_iff v Hv) as F. destruct (isIA5String v).
    - split; [intros [= <-]; right; right; right; left; repeat split; auto; apply F; reflexivity|intros [[A _]|[[A _]|[[A _]|[(_ & -> & _)|[[A _]|[A _]]]]]]; [discriminate A..|reflexivity|discriminate A|discriminate A]].
    - split; [discriminate|intros [[A _]|[[A _]|[[A _]|[(_ & -> & H)|[[A _]|[A _]]]]]]; [discriminate A..|apply F in H; discriminate H|discriminate A|discriminate A]]. }
  destruct (Z.eqb_spec tag 18) as [->|N6].
  { pose proof (forallb_In (fun b => ((48 <=? b) && (b <=? 57)) || (b =? 32)) (fun b => In b (chars "0123456789 ")) v numeric_iff) as F. destruct (forallb _ v).
    - split; [intros [= <-]; do 4 right; left; repeat split; auto; apply F; reflexivity|intros [[A _]|[[A _]|[[A _]|[[A _]|[(_ & -> & _)|[A _]]]]]]; [discriminate A..|reflexivity|discriminate A]].
    - split; [discriminate|intros [[A _]|[[A _]|[[A _]|[[A _]|[(_ & -> & H)|[A _]]]]]]; [discriminate A..|apply F in H; discriminate H|discriminate A]]. }
  split; [discriminate|]. intros [[A _]|[[A _]|[[A _]|[[A _]|[[A _]|[A _]]]]]]; contradiction.
Qed.
Print Assumptions C68_strings.
Theorem C68_total : forall tag v, parseASN1String tag v <> Panic.
Proof.
  intros tag v. unfold parseASN1String. repeat match goal with |- context[if ?c then _ else _] => destruct c end; discriminate.
Qed.
Print Assumptions C68_total.
Example C68_instance : parseASN1String 19 (chars "Acme (HK), Ltd.") = Ret (chars "Acme (HK), Ltd.") /\ parseASN1String 19 (chars "a@b") = Err "invalid PrintableString" /\
  parseASN1String 22 (chars "a@b") = Ret (chars "a@b") /\ parseASN1String 22 [0xC3; 0xA9] = Err "invalid IA5String" /\ parseASN1String 18 (chars "12 3") = Ret (chars "12 3") /\
  parseASN1String 30 [0; 0xE9] = Ret [0xC3; 0xA9].
Proof. repeat split; reflexivity. Qed.

(** ** C69: bits *)
Theorem C69_reverse : forall b i, byte_ok b -> 0 <= i < 8 -> Z.testbit (reverseBitsInAByte b) i = Z.testbit b (7 - i).
Proof.
  intros b i Hb Hi.
  assert (E : forallb (fun i => Bool.eqb (Z.testbit (reverseBitsInAByte b) i) (Z.testbit b (7 - i))) [0; 1; 2; 3; 4; 5; 6; 7] = true) by (clear i Hi; revert b Hb; apply all_bytes; vm_compute; reflexivity).
  rewrite forallb_forall in E. apply eqb_prop, E. assert (i = 0 \/ i = 1 \/ i = 2 \/ i = 3 \/ i = 4 \/ i = 5 \/ i = 6 \/ i = 7) by lia. cbn [In]. intuition.
Qed.
Print Assumptions C69_reverse.
Theorem C69_reverse_byte : forall b, byte_ok b -> byte_ok (reverseBitsInAByte b) /\ reverseBitsInAByte (reverseBitsInAByte b) = b.
Proof.
  intros b Hb. assert (E : byte_okb (reverseBitsInAByte b) && (reverseBitsInAByte (reverseBitsInAByte b) =? b) = true) by (revert b Hb; apply all_bytes; vm_compute; reflexivity).
  unfold byte_okb in E. unfold byte_ok. lia.
Qed.
Print Assumptions C69_reverse_byte.
(** the length is that of the bits up to and including the last one that is set *)
Theorem C69_bit_length : forall s, let n := asn1BitLength s in
  0 <= n <= 8 * zlen s /\ (forall i, n <= i < 8 * zlen s -> nth (Z.to_nat i) (bits s) false = false) /\ (0 < n -> nth (Z.to_nat (n - 1)) (bits s) false = true).
Proof.
  intros s. cbv zeta. unfold asn1BitLength. rewrite bitlen_loop_spec. pose proof (trimmed_spec (bits s)) as T. cbv zeta in T. rewrite bits_length in T. exact T.
Qed.
Print Assumptions C69_bit_length.
Theorem C69_all_zero : forall n, asn1BitLength (repeat 0 n) = 0.
Proof. intros n. unfold asn1BitLength. rewrite bitlen_loop_spec. induction n; [reflexivity|]. cbn [repeat]. unfold bits in *. cbn [flat_map]. rewrite trimmed_app, IHn. reflexivity. Qed.
Print Assumptions C69_all_zero.
Example C69_instance : reverseBitsInAByte 0x06 = 0x60 /\ asn1BitLength [0x06; 0x80; 0] = 9 /\ asn1BitLength [0xa0] = 3.
Proof. repeat split; reflexivity. Qed.
