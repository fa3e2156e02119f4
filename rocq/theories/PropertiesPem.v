(** * C133, C134: revocation lists in PEM, and the blocks of ToPEM written as PEM *)
From Coq Require Import String Ascii Permutation ZifyBool ZifyNat.
From Verif Require Import Base Words Utf8 CryptoByte Asn1 Asn1Proofs Asn1Safe KeysModel BMPModel P12Spec P12Model P12Enc P12Round P12Open PropertiesP12 PropertiesP12Pem X509Model PropertiesX509Str X509Sig PropertiesX509Sig X509Crl PropertiesX509Crl X509Reg PropertiesX509Names Pem PemProofs.
Open Scope Z_scope.

(** pem.Decode as ParseCRL uses it: type and contents of the first block *)
Definition pemFirst (b : bytes) : option (bytes * bytes) := match Decode b with Some (blk, _) => Some (b_Type blk, b_Bytes blk) | None => None end.
Definition ReadCRL : bytes -> outcome certList := ParseCRL pemFirst.

(** ** C133 *)
(** a DER list begins with the octet of a SEQUENCE *)
Lemma der_first c r l : byte_ok c -> ParseDERCRL (c :: r) = Ret l -> c = 48.
Proof.
  intros B E. unfold byte_ok in B. unfold ParseDERCRL, Unmarshal in E. apply bind_inv in E as ([l' rest] & E & _). unfold parseField in E. apply bind_inv in E as ([t s1] & Et & E). unfold parseTagAndLength in Et. cbv zeta in Et.
  apply bind_inv in Et as ([tg r1] & Eg & Et).
  assert (T : t_class t = c / 64 /\ t_comp t = ((c / 32) mod 2 =? 1) /\ (t_tag t = c mod 32 \/ 31 <= t_tag t)).
  { assert (G : tg = c mod 32 \/ 31 <= tg). { destruct (c mod 32 =? 31); [|injection Eg as <- <-; auto]. apply bind_inv in Eg as ([g r2] & _ & Eg). destruct (g <? 31) eqn:Hg; [discriminate|]. injection Eg as <- <-. right. lia. }
    destruct r1 as [|b1 r1]; [discriminate|]. destruct (b1 <? 128); [injection Et as <- <-; cbn; auto|]. destruct (b1 - 128 =? 0); [discriminate|]. apply bind_inv in Et as ([n r2] & _ & Et). destruct (n <? 128); [discriminate|]. injection Et as <- <-. cbn. auto. }
  change (p_exp noP) with false in E. cbv iota in E. unfold parseFieldTail in E. change (p_exp noP) with false in E. change (p_tag noP) with (@None Z) in E. change (p_set noP) with false in E. change (c_any cCertList) with false in E. change (c_comp cCertList) with true in E. change (c_tag cCertList) with 16 in E.
  change (setDefault cCertList noP) with (@None certList) in E. cbv iota zeta beta in E. unfold ClassUniversal in E. destruct T as (T1 & T2 & T3). rewrite T1, T2 in E.
  destruct ((negb false && (negb (c / 64 =? 0) || negb (t_tag t =? 16))) || (negb false && negb (Bool.eqb ((c / 32) mod 2 =? 1) true))) eqn:G; [discriminate|]. clear E. destruct ((c / 32) mod 2 =? 1) eqn:G2; cbn [negb andb Bool.eqb orb] in G; lia.
Qed.
Lemma crl_type : bytes_eqb pemType pemType = true. Proof. reflexivity. Qed.
Definition ok_headers (h : list (bytes * bytes)) : Prop := NoDup (map fst h) /\ Forall good_entry h.
(** C133: a list wrapped in PEM is read like the list itself, whatever headers it carries and whatever follows it *)
Theorem C133_pem_list : forall h d text rest, bytes_ok d -> ok_headers h -> Encode (mkBlock (chars "X509 CRL") h d) = Some text -> ReadCRL (text ++ rest) = ParseDERCRL d.
Proof.
  intros h d text rest B [N F] E. assert (G : good_block (mkBlock (chars "X509 CRL") h d)). { split; [exact B|]. cbn [b_Type b_Headers]. split; [cbn; intuition lia|]. split; [cbn; intuition lia|]. auto. }
  pose proof (encode_decode _ text rest G E) as D. cbn [b_Type b_Headers b_Bytes] in D. unfold ReadCRL, ParseCRL, pemFirst. rewrite D. cbn [b_Type b_Bytes]. change (chars "X509 CRL") with pemType. rewrite crl_type.
  assert (H : HasPrefix (text ++ rest) pemCRLPrefix = true); [|rewrite H; reflexivity]. apply HasPrefix_iff. unfold Encode in E. destruct (existsb _ _) in E; [discriminate|]. apply (f_equal (fun o => match o with Some x => x | None => [] end)) in E. cbv beta iota in E. rewrite <- E.
  change pemCRLPrefix with (pemBegin ++ chars "X509 CRL"). cbn [b_Type]. rewrite <- !app_assoc. eexists. reflexivity.
Qed.
Print Assumptions C133_pem_list.
(** every DER list has such a text *)
Theorem C133_writes : forall h d, bytes_ok d -> ok_headers h -> exists text, Encode (mkBlock (chars "X509 CRL") h d) = Some text.
Proof. intros h d B [N F]. apply good_encodes. split; [exact B|]. cbn [b_Type b_Headers]. split; [cbn; intuition lia|]. split; [cbn; intuition lia|]. auto. Qed.
Print Assumptions C133_writes.
Lemma dash_rejected b : HasPrefix b [45] = true -> exists e, ParseDERCRL b = Err e.
Proof.
  intros H. apply HasPrefix_iff in H as [r ->]. destruct (ParseDERCRL ([45] ++ r)) as [l|e|] eqn:E; [|eauto|].
  - apply der_first in E; [discriminate E|unfold byte_ok; lia].
  - exfalso. revert E. unfold ParseDERCRL, Unmarshal, parseField. cbn [app]. unfold parseTagAndLength. cbv zeta. change (45 mod 32 =? 31) with false. cbv iota. cbn [bind]. destruct r as [|b r]; [discriminate|]. destruct (b <? 128); [cbn; discriminate|]. destruct (b - 128 =? 0); [cbn; discriminate|].
    assert (L : forall n r a, len_loop n r a <> Panic). { clear. induction n as [|n IH]; intros r a; cbn [len_loop]; [discriminate|]. destruct r as [|x r]; [discriminate|]. repeat match goal with |- (if ?c then _ else _) <> _ => destruct c; try discriminate end. cbv zeta. repeat match goal with |- (if ?c then _ else _) <> _ => destruct c; try discriminate end. apply IH. }
    destruct (len_loop _ r 0) as [[n r2]| |] eqn:El; [|cbn; discriminate|destruct (L _ _ _ El)]. cbn [bind]. destruct (n <? 128); cbn; discriminate.
Qed.
(** a block of another type is refused *)
Theorem C133_other_types : forall ty h d text rest, ty <> chars "X509 CRL" -> ~ In 10 ty -> ~ In 58 ty -> bytes_ok d -> ok_headers h -> Encode (mkBlock ty h d) = Some text -> exists e, ReadCRL (text ++ rest) = Err e.
Proof.
  intros ty h d text rest Ht T10 T58 B [N F] E. assert (G : good_block (mkBlock ty h d)) by (split; [exact B|]; cbn [b_Type b_Headers]; auto).
  pose proof (encode_decode _ text rest G E) as D. cbn [b_Type b_Headers b_Bytes] in D.
  assert (H : HasPrefix (text ++ rest) [45] = true). { apply HasPrefix_iff. unfold Encode in E. destruct (existsb _ _) in E; [discriminate|]. apply (f_equal (fun o => match o with Some x => x | None => [] end)) in E. cbv beta iota in E. rewrite <- E. eexists. reflexivity. }
  unfold ReadCRL, ParseCRL, pemFirst. rewrite D. cbn [b_Type b_Bytes]. replace (bytes_eqb ty pemType) with false by (symmetry; apply bytes_eqb_neq; exact Ht). destruct (HasPrefix (text ++ rest) pemCRLPrefix); apply dash_rejected; exact H.
Qed.
Print Assumptions C133_other_types.
(** whatever is accepted is a list in DER, or contains a complete PEM block of type "X509 CRL" with a list in DER, and then the input begins like such a block *)
Theorem C133_sound : forall b l, ReadCRL b = Ret l -> ParseDERCRL b = Ret l \/
  (exists r, b = chars "-----BEGIN X509 CRL" ++ r) /\
  exists pre text hdr d rest, b = pre ++ chars "-----BEGIN " ++ text /\ (pre = [] \/ exists p, pre = p ++ [10]) /\ pem_body text (chars "X509 CRL") hdr d rest /\ ParseDERCRL d = Ret l.
Proof.
  intros b l E. apply C114_parse_crl in E as [E|(Hp & d & Ed & E)]; [auto|]. right. split; [exact Hp|]. unfold pemFirst in Ed. destruct (Decode b) as [[blk rest]|] eqn:D; [|discriminate]. injection Ed as Et Eb. apply Decode_sound in D as (pre & text & E1 & H1 & HB).
  exists pre, text, (match b_Headers blk with [] => false | _ => true end), d, rest. rewrite <- Eb, <- Et. repeat split; try assumption. rewrite Eb. exact E.
Qed.
Print Assumptions C133_sound.
(** leading garbage: an input that begins neither like a SEQUENCE nor with a dash is refused, even if a block follows *)
Theorem C133_leading : forall c r, byte_ok c -> c <> 48 -> c <> 45 -> is_ret (ReadCRL (c :: r)) = false.
Proof.
  intros c r B H1 H2. destruct (ReadCRL (c :: r)) as [l| |] eqn:E; try reflexivity. exfalso. unfold ReadCRL, ParseCRL in E. assert (Hp : HasPrefix (c :: r) pemCRLPrefix = false). { destruct (HasPrefix _ _) eqn:H; [|reflexivity]. apply HasPrefix_iff in H as [q H]. injection H as H _. contradiction. }
  rewrite Hp in E. apply der_first in E; [contradiction|exact B].
Qed.
Print Assumptions C133_leading.
(** a broken first block is passed over: it is the next block that counts.  Here the first block is an "X509 CRL" whose contents are not base64 *)
Definition broken : bytes := chars "-----BEGIN X509 CRL-----" ++ [10] ++ chars "*" ++ [10] ++ chars "-----END X509 CRL-----" ++ [10].
Lemma broken_skipped t : Decode (broken ++ pemBegin ++ t) = Decode (pemBegin ++ t).
Proof.
  rewrite Decode_step. replace (broken ++ pemBegin ++ t) with (pemBegin ++ (chars "X509 CRL-----" ++ [10] ++ chars "*" ++ [10] ++ chars "-----END X509 CRL-----" ++ [10]) ++ pemBegin ++ t) by reflexivity. rewrite HasPrefix_app, skip_app.
  assert (O : decodeOne ((chars "X509 CRL-----" ++ [10] ++ chars "*" ++ [10] ++ chars "-----END X509 CRL-----" ++ [10]) ++ pemBegin ++ t) = inl ((chars "*" ++ [10] ++ chars "-----END X509 CRL-----" ++ [10]) ++ pemBegin ++ t)) by (vm_compute; reflexivity).
  rewrite O. rewrite Decode_step. rewrite (Decode_step (pemBegin ++ t)). rewrite HasPrefix_app, skip_app.
  replace (HasPrefix ((chars "*" ++ [10] ++ chars "-----END X509 CRL-----" ++ [10]) ++ pemBegin ++ t) pemBegin) with false by reflexivity.
  replace (Cut ((chars "*" ++ [10] ++ chars "-----END X509 CRL-----" ++ [10]) ++ pemBegin ++ t) (10 :: pemBegin)) with (Some (chars "*" ++ [10] ++ chars "-----END X509 CRL-----", t)) by (vm_compute; reflexivity). reflexivity.
Qed.
Theorem C133_broken_block : forall h d text rest, bytes_ok d -> ok_headers h -> Encode (mkBlock (chars "X509 CRL") h d) = Some text -> ReadCRL (broken ++ text ++ rest) = ParseDERCRL d.
Proof.
  intros h d text rest B [N F] E. assert (G : good_block (mkBlock (chars "X509 CRL") h d)). { split; [exact B|]. cbn [b_Type b_Headers]. split; [cbn; intuition lia|]. split; [cbn; intuition lia|]. auto. }
  pose proof (encode_decode _ text rest G E) as D. cbn [b_Type b_Headers b_Bytes] in D.
  assert (Q : exists t, text ++ rest = pemBegin ++ t). { unfold Encode in E. destruct (existsb _ _) in E; [discriminate|]. apply (f_equal (fun o => match o with Some x => x | None => [] end)) in E. cbv beta iota in E. rewrite <- E, <- !app_assoc. eexists. reflexivity. }
  destruct Q as [t Et]. rewrite Et in *. rewrite <- (broken_skipped t) in D. unfold ReadCRL, ParseCRL, pemFirst. rewrite D. cbn [b_Type b_Bytes]. change (chars "X509 CRL") with pemType. rewrite crl_type.
  replace (HasPrefix (broken ++ pemBegin ++ t) pemCRLPrefix) with true; [reflexivity|]. symmetry. apply HasPrefix_iff. change broken with (pemCRLPrefix ++ skipn 19 broken). rewrite <- app_assoc. eexists. reflexivity.
Qed.
Print Assumptions C133_broken_block.
(** a decision procedure for [clean], for the instances *)
Definition cleanb (v : bytes) : bool := forallb (fun sp => negb (HasPrefix v sp) && negb (HasPrefix (rev v) (rev sp))) space_encodings.
Lemma cleanb_ok v : cleanb v = true -> clean v.
Proof.
  unfold cleanb. rewrite forallb_forall. intros H sp r I. specialize (H sp I). apply andb_true_iff in H as [H1 H2]. apply negb_true_iff in H1, H2. split; intros ->.
  - rewrite HasPrefix_app in H1. discriminate.
  - rewrite rev_app_distr, HasPrefix_app in H2. discriminate.
Qed.
Definition goodb (e : bytes * bytes) : bool := negb (existsb (Z.eqb 58) (fst e)) && negb (existsb (Z.eqb 10) (fst e)) && negb (existsb (Z.eqb 10) (snd e)) && cleanb (fst e) && cleanb (snd e).
Lemma notin_ok c l : negb (existsb (Z.eqb c) l) = true -> ~ In c l.
Proof. intros H I. apply negb_true_iff in H. assert (existsb (Z.eqb c) l = true); [|congruence]. apply existsb_exists. exists c. split; [exact I|apply Z.eqb_refl]. Qed.
Lemma goodb_ok e : goodb e = true -> good_entry e.
Proof. unfold goodb. intros H. repeat (apply andb_true_iff in H as [H ?]). split; [apply notin_ok; assumption|]. split; [apply notin_ok; assumption|]. split; [apply notin_ok; assumption|]. split; apply cleanb_ok; assumption. Qed.
Example C133_nonvacuous : exists der l text, ParseDERCRL der = Ret l /\ Encode (mkBlock (chars "X509 CRL") [(chars "Comment", chars "a: b")] der) = Some text /\ ReadCRL (text ++ chars "tail") = Ret l
  /\ (exists text', Encode (mkBlock (chars "X509 CRLS") [] der) = Some text' /\ exists e, ReadCRL text' = Err e) /\ is_ret (ReadCRL (10 :: text)) = false.
Proof.
  destruct C92_nonvacuous as (der & E & Hz & Ho). destruct rl0_valid as (N & [V1 _] & [V2 _] & R & X).
  assert (S : sound_signer prims0 rsa_signer) by (intros rand m h pss sig _; cbn; destruct pss; reflexivity).
  destruct (C94_revocation_list_verifies prims0 [] rl0 issuer0 rsa_signer der (cert0 3 info0 0 (PKrsa 35 3) [] []) E N V1 V2 R X Hz S I eq_refl) as (l & L & _). exists der, l.
  assert (O1 : ok_headers [(chars "Comment", chars "a: b")]). { split; [repeat constructor; intros []|]. constructor; [|constructor]. apply goodb_ok. reflexivity. }
  assert (O2 : ok_headers []) by (split; constructor).
  destruct (C133_writes _ der Ho O1) as [text Et]. exists text. split; [exact L|]. split; [exact Et|]. split; [rewrite (C133_pem_list _ _ _ _ Ho O1 Et); exact L|]. split.
  - assert (T10 : ~ In 10 (chars "X509 CRLS")) by (cbn; intuition lia). assert (T58 : ~ In 58 (chars "X509 CRLS")) by (cbn; intuition lia).
    destruct (good_encodes (mkBlock (chars "X509 CRLS") [] der)) as [text' Et']; [repeat split; try assumption; constructor|]. exists text'. split; [exact Et'|]. rewrite <- (app_nil_r text'). apply (C133_other_types (chars "X509 CRLS") [] der text' []); try assumption. discriminate.
  - apply C133_leading; unfold byte_ok; lia.
Qed.

(** ** C134 *)
(** a block of ToPEM as pem.Encode takes it *)
Definition to_block (b : pemBlock) : block := mkBlock (chars (pem_Type b)) (map (fun e => (chars (fst e), snd e)) (pem_Headers b)) (pem_Bytes b).
(** reading blocks one after the other *)
Inductive reads : bytes -> list block -> bytes -> Prop :=
| reads_nil data : reads data [] data
| reads_cons data b r bs rest : Decode data = Some (b, r) -> reads r bs rest -> reads data (b :: bs) rest.
(** the same type, the same contents, the same headers in some order *)
Definition same_block (b b' : block) : Prop := b_Type b = b_Type b' /\ b_Bytes b = b_Bytes b' /\ Permutation (b_Headers b) (b_Headers b').
(** names of one line, without surrounding space *)
Definition tidy (b : pemBlock) : Prop := bytes_ok (pem_Bytes b) /\ forall k v, In (k, v) (pem_Headers b) -> ~ In 10 v /\ clean v.
Definition all_texts (blocks : list pemBlock) (texts : list bytes) : Prop := Forall2 (fun b t => Encode (to_block b) = Some t) blocks texts.

Lemma digit16_range n : 0 <= n < 16 -> 48 <= digit16 n <= 57 \/ 97 <= digit16 n <= 102.
Proof. intros H. unfold digit16. destruct (n <? 10) eqn:E; lia. Qed.
Lemma graphic_clean v : Forall (fun c => 32 < c < 128) v -> ~ In 10 v /\ clean v.
Proof.
  intros F. split; [intros I; rewrite Forall_forall in F; apply F in I; lia|].
  assert (X : forall sp, In sp space_encodings -> exists c, In c sp /\ (c <= 32 \/ 128 <= c)).
  { intros sp I. cbn in I. repeat (destruct I as [<-|I]; [eexists; split; [left; reflexivity|lia]|]). contradiction. }
  intros sp r I. destruct (X sp I) as (c & Ic & Hc). split; intros ->; apply Forall_app in F as [F1 F2]; [rewrite Forall_forall in F1; apply F1 in Ic|rewrite Forall_forall in F2; apply F2 in Ic]; lia.
Qed.
Lemma hex_graphic b : bytes_ok b -> Forall (fun c => 32 < c < 128) (hex b).
Proof.
  intros B. unfold hex. induction b as [|x b IH]; [constructor|]. apply bytes_ok_cons in B as [Bx B]. unfold byte_ok in Bx. cbn [flat_map app]. constructor; [|constructor; [|exact (IH B)]]; [pose proof (digit16_range (x / 16) ltac:(lia))|pose proof (digit16_range (x mod 16) ltac:(lia))]; lia.
Qed.
Lemma chars_inj a : forall b, chars a = chars b -> a = b.
Proof.
  induction a as [|x a IH]; intros [|y b] E; cbn in E; try discriminate; [reflexivity|]. injection E as E1 E2. f_equal; [|apply IH; exact E2].
  rewrite <- (ascii_N_embedding x), <- (ascii_N_embedding y). f_equal. lia.
Qed.

(** local key ids are always tidy *)
Theorem C134_local_id : forall a v, bytes_ok (sl (rv_bytes (at_Value a))) -> says a "localKeyId" v -> ~ In 10 v /\ clean v.
Proof.
  intros a v B S. inversion S as [|i Ha Ei|]; subst. apply graphic_clean, hex_graphic. unfold unmarshal in Ei. apply bind_inv in Ei as ([x r] & Ex & Ei). apply (Unmarshal_inv cBytes _ _ _ B) in Ex. apply field_read_ok in Ex as (_ & t & full & inner & Hi & _ & _ & Ex); [|exact B].
  cbn in Ex. injection Ex as <-. destruct r; [|discriminate]. injection Ei as <-. exact Hi.
Qed.
Print Assumptions C134_local_id.
Lemma blocks_good P edPub pwd bag b : described P edPub pwd bag b -> tidy b -> good_block (to_block b).
Proof.
  intros ((A & N & HI) & D) (B & T). unfold to_block. split; [exact B|]. cbn [b_Type b_Headers]. assert (Ty : pem_Type b = "CERTIFICATE"%string \/ pem_Type b = "PRIVATE KEY"%string) by (cbv zeta in D; tauto). clear D.
  split; [destruct Ty as [-> | ->]; cbn; intuition lia|]. split; [destruct Ty as [-> | ->]; cbn; intuition lia|]. split.
  - rewrite map_map. cbn [fst]. rewrite <- map_map with (f := fst). clear - N. induction N as [|k l Hk N IH]; cbn [map]; constructor; [|exact IH]. intros I. apply in_map_iff in I as (k' & E & I). apply chars_inj in E. subst k'. contradiction.
  - apply Forall_forall. intros [k v] I. apply in_map_iff in I as ([k0 v0] & E & I). injection E as <- <-. destruct (T k0 v0 I) as [V1 V2]. apply HI in I as (pre & a & post & _ & Sa & _).
    assert (K : k0 = "friendlyName"%string \/ k0 = "localKeyId"%string \/ k0 = "Microsoft CSP Name"%string) by (destruct Sa; tauto).
    unfold good_entry. cbn [fst snd]. destruct K as [-> | [-> | ->]]; (split; [apply notin_ok; reflexivity|]); (split; [apply notin_ok; reflexivity|]); (split; [exact V1|]); (split; [apply cleanb_ok; reflexivity|exact V2]).
Qed.
Lemma texts_read blocks : Forall (fun b => good_block (to_block b)) blocks -> forall rest, exists texts bs, all_texts blocks texts /\ reads (List.concat texts ++ rest) bs rest /\ Forall2 same_block (map to_block blocks) bs.
Proof.
  induction 1 as [|b bl G F IH]; intros rest; [exists [], []; repeat split; constructor|]. destruct (IH rest) as (texts & bs & T & R & S). destruct (good_encodes _ G) as [t Et].
  exists (t :: texts), (mkBlock (b_Type (to_block b)) (header_order (b_Headers (to_block b))) (b_Bytes (to_block b)) :: bs). split; [constructor; assumption|]. split.
  - cbn [List.concat]. rewrite <- app_assoc. econstructor; [exact (encode_decode _ t _ G Et)|exact R].
  - constructor; [|exact S]. split; [reflexivity|]. split; [reflexivity|]. apply order_perm.
Qed.
(** C134: the blocks of ToPEM, written one after the other as PEM text, are read back as they were *)
Theorem C134_blocks_survive : forall P edPub pfx password blocks rest, ToPEM P edPub pfx password = Ret blocks -> Forall tidy blocks ->
  exists texts bs, all_texts blocks texts /\ reads (List.concat texts ++ rest) bs rest /\ Forall2 same_block (map to_block blocks) bs.
Proof.
  intros P edPub pfx password blocks rest E T. apply texts_read. unfold ToPEM in E. destruct (bmpString password) as [pwd| |] eqn:Eb; try discriminate. destruct (getSafeContents P pfx pwd) as [[bags pwd']| |] eqn:Eg; [| |discriminate].
  - assert (E' : ToPEM P edPub pfx password = Ret blocks) by (unfold ToPEM; rewrite Eb, Eg; exact E). pose proof (C104_blocks _ _ _ _ _ _ _ _ Eb Eg E') as F. clear E E' Eb Eg. induction F as [|x y l l' D F IH]; [constructor|]. inversion T as [|? ? Ty Tl]; subst. constructor; [exact (blocks_good _ _ _ _ _ D Ty)|exact (IH Tl)].
  - injection E as <-. constructor.
Qed.
Print Assumptions C134_blocks_survive.
Lemma same_text ty d h h' : h <> [] -> h' <> [] -> existsb (fun e => existsb (Z.eqb 58) (fst e)) h = existsb (fun e => existsb (Z.eqb 58) (fst e)) h' ->
  flat_map writeHeader (header_order h) = flat_map writeHeader (header_order h') -> Encode (mkBlock ty h d) = Encode (mkBlock ty h' d).
Proof. intros H H' E F. unfold Encode. cbn [b_Type b_Headers b_Bytes]. rewrite E. destruct (existsb _ h'); [reflexivity|]. destruct h; [congruence|]. destruct h'; [congruence|]. rewrite F. reflexivity. Qed.
(** what happens otherwise: a friendly name with a newline in it forges a header.  The text of a block named name, newline, "localKeyId: " id is the text of a block that is named name and has the key id id *)
Theorem C134_injection : forall ty name id d,
  Encode (to_block (mkPem ty [("friendlyName"%string, name ++ [10] ++ chars "localKeyId: " ++ id)] d)) = Encode (to_block (mkPem ty [("friendlyName"%string, name); ("localKeyId"%string, id)] d)).
Proof.
  intros ty name id d. unfold to_block. cbn [pem_Type pem_Headers pem_Bytes map fst snd]. apply same_text; [discriminate|discriminate|reflexivity|].
  assert (E1 : flat_map writeHeader (header_order [(chars "friendlyName", name ++ [10] ++ chars "localKeyId: " ++ id)]) = writeHeader (chars "friendlyName", name ++ [10] ++ chars "localKeyId: " ++ id) ++ []) by reflexivity.
  assert (E2 : flat_map writeHeader (header_order [(chars "friendlyName", name); (chars "localKeyId", id)]) = writeHeader (chars "friendlyName", name) ++ writeHeader (chars "localKeyId", id) ++ []) by reflexivity.
  refine (eq_trans E1 (eq_trans _ (eq_sym E2))). unfold writeHeader. cbn [fst snd]. rewrite !app_nil_r. change (chars "localKeyId: ") with (chars "localKeyId" ++ [58; 32]). rewrite <- !app_assoc. reflexivity.
Qed.
Print Assumptions C134_injection.
(** and such a name does occur: every friendly name of valid UTF-8 in the basic plane is the value of some attribute *)
Theorem C134_refuted : ~ (forall a b, Encode (to_block a) = Encode (to_block b) -> (exists x k v, In (k, v) (pem_Headers a) /\ says x k v) -> (forall k v, In (k, v) (pem_Headers a ++ pem_Headers b) -> bytes_ok v) -> Permutation (pem_Headers a) (pem_Headers b)).
Proof.
  intros H. set (name := chars "x" ++ [10] ++ chars "localKeyId: " ++ chars "00").
  assert (S : exists x, says x "friendlyName" name).
  { eexists. apply (C104_friendly_name name (match bmpString name with Ret b => b | _ => [] end) 0 17 None); [apply bytes_okb_spec; reflexivity|reflexivity|reflexivity|reflexivity]. }
  destruct S as [x S]. specialize (H _ _ (C134_injection "CERTIFICATE" (chars "x") (chars "00") [1])). cbn [pem_Headers] in H. apply Permutation_length in H; [discriminate H| |].
  - exists x, "friendlyName"%string, name. split; [left; reflexivity|exact S].
  - intros k v I. cbn [app In] in I. destruct I as [I|[I|[I|[]]]]; injection I as _ <-; apply bytes_okb_spec; reflexivity.
Qed.
Print Assumptions C134_refuted.
(** from end to end: what Encode writes, turned into PEM text by way of ToPEM, and read again *)
Theorem C134_encode_to_pem : forall P edPub rnd key der b certRaw caRaws password pwd rest, prims_ok P ->
  MarshalPKCS8PrivateKey key = Ret der -> ParsePKCS8PrivateKey edPub der = Ret key -> bytes_ok der -> zlen der < 2 ^ 28 -> (exists t i, elem der t i) -> key_der key b -> bytes_ok b ->
  bmpString password = Ret pwd -> bytes_ok rnd -> 24 <= zlen rnd ->
  bytes_ok certRaw -> Forall bytes_ok caRaws -> total_size (certRaw :: caRaws) < 2 ^ 29 ->
  let id := [(chars "localKeyId", hex (sha1 P certRaw))] in
  exists out blocks texts, P12Model.Encode P rnd key certRaw caRaws password = Ret out /\ ToPEM P edPub out password = Ret blocks /\ all_texts blocks texts /\
    reads (List.concat texts ++ rest) (mkBlock (chars "CERTIFICATE") id certRaw :: map (mkBlock (chars "CERTIFICATE") []) caRaws ++ [mkBlock (chars "PRIVATE KEY") id b]) rest.
Proof.
  intros P edPub rnd key der b certRaw caRaws password pwd rest HP Ek Ep Od Ld El Kb Ob Epw Or Lr Oc Oca Hz id.
  destruct (C103_topem_of_encode P edPub rnd key der b certRaw caRaws password pwd HP Ek Ep Od Ld El Kb Epw Or Lr Oc Oca Hz) as (out & E1 & E2). cbv zeta in E2. set (blocks := _ :: _) in E2. exists out, blocks.
  assert (Ti : ~ In 10 (hex (sha1 P certRaw)) /\ clean (hex (sha1 P certRaw))). { apply graphic_clean, hex_graphic. destruct HP as (HS & _). apply (HS certRaw). }
  assert (T : Forall tidy blocks).
  { unfold blocks. assert (T1 : forall ty d, bytes_ok d -> tidy (mkPem ty [("localKeyId"%string, hex (sha1 P certRaw))] d)). { intros ty d Bd. split; [exact Bd|]. intros k v [I|[]]. injection I as _ <-. exact Ti. }
    constructor; [apply T1; exact Oc|]. apply Forall_app. split; [|constructor; [apply T1; exact Ob|constructor]]. clear - Oca. induction Oca as [|d l Hd Hl IH]; [constructor|]. constructor; [split; [exact Hd|intros k v []]|exact IH]. }
  destruct (C134_blocks_survive P edPub out password blocks rest E2 T) as (texts & bs & A & R & S). exists texts. split; [exact E1|]. split; [exact E2|]. split; [exact A|].
  match goal with |- reads _ ?w _ => assert (Eq : bs = w); [|rewrite <- Eq; exact R] end.
  assert (U : forall x y, same_block x y -> (List.length (b_Headers x) <= 1)%nat -> y = x).
  { intros [t1 h1 d1] [t2 h2 d2] (X1 & X2 & X3) X4. cbn [b_Type b_Bytes b_Headers] in *. subst. f_equal. destruct h1 as [|e [|]]; [apply Permutation_nil in X3; exact X3|apply Permutation_length_1_inv in X3; exact X3|cbn in X4; lia]. }
  assert (M : map to_block blocks = mkBlock (chars "CERTIFICATE") id certRaw :: map (mkBlock (chars "CERTIFICATE") []) caRaws ++ [mkBlock (chars "PRIVATE KEY") id b]) by (unfold blocks; cbn [map]; rewrite map_app, map_map; reflexivity).
  rewrite <- M. assert (L : Forall (fun x => (List.length (b_Headers x) <= 1)%nat) (map to_block blocks)).
  { rewrite M. constructor; [cbn; lia|]. apply Forall_app. split; [apply Forall_forall; intros x I; apply in_map_iff in I as (y & <- & _); cbn; lia|constructor; [cbn; lia|constructor]]. }
  clear - S U L. revert L. induction S as [|x y l l' H S IH]; intros L; [reflexivity|]. inversion L as [|? ? L1 L2]; subst. rewrite (U _ _ H L1), (IH L2). reflexivity.
Qed.
Print Assumptions C134_encode_to_pem.
Example C134_nonvacuous : exists b, MarshalPKCS1PrivateKey rsa0 = Ret b /\ bytes_ok b /\ key_der (SKrsa rsa0) b /\
  tidy (mkPem "CERTIFICATE" [("localKeyId"%string, chars "01ab"); ("friendlyName"%string, chars "my key: no. 1")] [48; 0]) /\ ~ tidy (mkPem "CERTIFICATE" [("friendlyName"%string, [65; 10])] [48; 0]) /\ ~ tidy (mkPem "CERTIFICATE" [("friendlyName"%string, [32; 65])] [48; 0]).
Proof.
  eexists. split; [vm_compute; reflexivity|]. split; [apply bytes_okb_spec; vm_compute; reflexivity|]. split; [vm_compute; reflexivity|]. split; [|split].
  - split; [apply bytes_okb_spec; reflexivity|]. intros k v I. cbn [pem_Headers In] in I. destruct I as [I|[I|[]]]; injection I as _ <-; (split; [apply notin_ok; reflexivity|apply cleanb_ok; reflexivity]).
  - intros [_ T]. destruct (T _ _ (or_introl eq_refl)) as [H _]. apply H. cbn. auto.
  - intros [_ T]. destruct (T _ _ (or_introl eq_refl)) as [_ H]. destruct (H [32] [65]) as [H1 _]; [cbn; tauto|]. apply H1. reflexivity.
Qed.
