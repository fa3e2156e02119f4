(** * Property C136 (x509: how names are written) *)
From Coq Require Import String Permutation Sorted.
From Verif Require Import Base Words ECModel SM2Model CryptoByte Utf8 BMPModel Asn1 Asn1Proofs Asn1Safe KeysModel KeysProofs P12Enc X509Model X509Sig PropertiesX509Sig X509Build X509Proofs X509StrProofs PropertiesX509Str X509ExtProofs X509CertProofs Pkcs7Proofs X509Crl X509CrlProofs X509CreateProofs.
From Coq Require Import ZifyBool ZifyNat.
Open Scope Z_scope.

(** ** Specification *)
(** the characters of a PrintableString *)
Definition PrintableChars : bytes := chars "abcdefghijklmnopqrstuvwxyzABCDEFGHIJKLMNOPQRSTUVWXYZ0123456789 '()+,-./:=?".
Definition all_printable (s : bytes) : Prop := Forall (fun b => In b PrintableChars) s.
Definition well_formed_utf8 (s : bytes) : Prop := exists rs, Forall scalar rs /\ s = utf8_encode rs.
(** PrintableString when that is possible, UTF8String otherwise *)
Definition string_der (s e : bytes) : Prop :=
  (all_printable s /\ e = el 0 19 false s) \/ (~ all_printable s /\ well_formed_utf8 s /\ e = el 0 12 false s).
(** SEQUENCE { type, value } *)
Definition atv_der (a : ATV) (e : bytes) : Prop :=
  exists ob str, oid_body (atv_Type a) = Ret ob /\ string_der (atv_Value a) str /\ e = el 0 16 true (el 0 6 false ob ++ str).
(** a SET of them, and a SEQUENCE of SETs *)
Definition rdn_der (r : list ATV) (m : bytes) : Prop := exists es, Forall2 atv_der r es /\ der_set es m.
Definition name_der (n : RDNSequence) (m : bytes) : Prop := exists sets, Forall2 rdn_der n sets /\ m = el 0 16 true (List.concat sets).

(** ** Strings *)
Lemma strict_iff b : (b <? 128) && printable_strict b = true <-> In b PrintableChars.
Proof.
  split.
  - intros H. assert (B : byte_ok b) by (unfold printable_strict, isPrintable in H; unfold byte_ok; lia).
    assert (E : implb ((b <? 128) && printable_strict b) (existsb (Z.eqb b) PrintableChars) = true) by (clear H; revert b B; apply all_bytes; vm_compute; reflexivity).
    rewrite H in E. cbn [implb] in E. apply existsb_exists in E as (x & Hx & E). apply Z.eqb_eq in E. subst. exact Hx.
  - assert (F : forallb (fun b => (b <? 128) && printable_strict b) PrintableChars = true) by reflexivity. rewrite forallb_forall in F. apply F.
Qed.
Theorem C136_string : forall s e, bytes_ok s -> marshalString s = Ret e <-> string_der s e.
Proof.
  intros s e Hs. unfold marshalString, string_der. rewrite runes_forallb by (auto; intros; lia).
  pose proof (forallb_In (fun b => (b <? 128) && printable_strict b) (fun b => In b PrintableChars) s strict_iff) as F. fold (all_printable s) in F.
  pose proof (utf8_valid_iff s Hs) as U. fold (well_formed_utf8 s) in U. destruct (forallb _ s).
  - split; [intros [= <-]; left; split; [apply F; reflexivity|reflexivity]|]. intros [(_ & ->)|(N & _)]; [reflexivity|exfalso; apply N, F; reflexivity].
  - assert (N : ~ all_printable s) by (rewrite <- F; discriminate). destruct (utf8_valid s).
    + split; [intros [= <-]; right; split; [exact N|]; split; [apply U; reflexivity|reflexivity]|]. intros [(A & _)|(_ & _ & ->)]; [contradiction|reflexivity].
    + split; [discriminate|]. intros [(A & _)|(_ & A & _)]; [contradiction|apply U in A; discriminate A].
Qed.
Print Assumptions C136_string.
(** so a string is refused only when it is not UTF-8 *)
Theorem C136_refused : forall s, bytes_ok s -> (forall e, marshalString s <> Ret e) <-> ~ well_formed_utf8 s.
Proof.
  intros s Hs. split.
  - intros N U. destruct (marshalString s) as [e|x|] eqn:E; [exact (N e eq_refl)| |].
    + destruct (forallb (fun b => (b <? 128) && printable_strict b) s) eqn:F.
      * pose proof (proj1 (forallb_In _ (fun b => In b PrintableChars) s strict_iff) F) as A. assert (Q : marshalString s = Ret (el 0 19 false s)) by (apply C136_string; [exact Hs|left; auto]). congruence.
      * assert (A : ~ all_printable s) by (intros A; apply (proj2 (forallb_In _ (fun b => In b PrintableChars) s strict_iff)) in A; congruence). assert (Q : marshalString s = Ret (el 0 12 false s)) by (apply C136_string; [exact Hs|right; auto]). congruence.
    + unfold marshalString in E. destruct (forallb _ _); [discriminate E|]. destruct (utf8_valid s); discriminate E.
  - intros N e E. apply C136_string in E; [|exact Hs]. destruct E as [(A & _)|(_ & U & _)]; [|contradiction]. apply N. exists s. split.
    + eapply Forall_impl; [|exact A]. intros b Hb. apply strict_iff in Hb. unfold scalar, printable_strict, isPrintable in *. lia.
    + clear - A. induction A as [|b s Hb _ IH]; [reflexivity|]. change (utf8_encode (b :: s)) with (utf8_rune b ++ utf8_encode s). rewrite <- IH. apply strict_iff in Hb.
      assert (R : utf8_rune b = [b]). { unfold utf8_rune. replace (scalarb b) with true by (unfold scalarb, printable_strict, isPrintable in *; lia). cbv zeta. replace (b <? 128) with true by lia. reflexivity. }
      rewrite R. reflexivity.
Qed.
Print Assumptions C136_refused.

(** ** Names *)
Definition strings_ok (n : RDNSequence) : Prop := Forall (Forall (fun a => bytes_ok (atv_Value a))) n.
Lemma atv_marshal a e : bytes_ok (atv_Value a) -> makeField cATV noP a = Ret e <-> atv_der a e.
Proof.
  intros Ha. unfold atv_der. split.
  - intros E. unfold makeField in E. cbn [p_omit p_opt p_def noP andb c_whole cATV cStruct p_set c_tag c_body p_tag] in E.
    apply bind_inv in E as (body & Eb & E). change (Ret (el 0 16 true body) = Ret e) in E. assert (Ee : e = el 0 16 true body) by congruence. clear E.
    apply f_cons_inv in Eb as (x & y & Ex & Ey & Eb). apply f_cons_inv in Ey as (z & w & Ez & Ew & Ey). apply f_nil_inv in Ew. subst w. rewrite app_nil_r in Ey. subst y.
    change (marshalString (atv_Value a) = Ret z) in Ez. apply C136_string in Ez; [|exact Ha].
    destruct (oid_body (atv_Type a)) as [ob|s|] eqn:Eo.
    + rewrite (mk_oid _ _ Eo) in Ex. exists ob, z. split; [reflexivity|]. split; [exact Ez|]. rewrite Ee, Eb. congruence.
    + exfalso. unfold makeField in Ex. cbn [p_omit p_opt p_def noP andb c_whole cOID prim p_set c_tag c_body p_tag] in Ex. rewrite Eo in Ex. discriminate Ex.
    + exfalso. unfold makeField in Ex. cbn [p_omit p_opt p_def noP andb c_whole cOID prim p_set c_tag c_body p_tag] in Ex. rewrite Eo in Ex. discriminate Ex.
  - intros (ob & str & Eo & Es & ->). unfold cATV. apply mk_struct. apply f_cons; [now apply mk_oid|]. apply f_one. change (marshalString (atv_Value a) = Ret str). apply C136_string; assumption.
Qed.
Lemma mapM_F2_on {A B} (f : A -> outcome B) (R : A -> B -> Prop) (P : A -> Prop) : (forall a b, P a -> f a = Ret b <-> R a b) -> forall l, Forall P l -> forall ys, mapM f l = Ret ys <-> Forall2 R l ys.
Proof.
  intros H. induction l as [|a l IH]; intros Hl ys; cbn [mapM].
  - split; [intros E; assert (ys = []) by congruence; subst; constructor|inversion 1; reflexivity].
  - inversion Hl as [|? ? Ha Hl']; subst. split.
    + intros E. apply bind_inv in E as (y & Ey & E). apply bind_inv in E as (r & Er & E). assert (ys = y :: r) by congruence. subst. constructor; [now apply H|now apply IH].
    + inversion 1; subst. rewrite (proj2 (H _ _ Ha)) by eassumption. cbn [bind]. rewrite (proj2 (IH Hl' _)) by eassumption. reflexivity.
Qed.
Lemma make_rdn {A} (c : codec A) l m : makeField (cSeqOf true c) noP (Some l) = Ret m <-> exists es, mapM (makeField c noP) l = Ret es /\ m = el 0 17 true (List.concat (sort_bytes es)).
Proof.
  unfold makeField at 1. cbn [p_omit p_opt p_def noP andb c_whole cSeqOf p_set c_tag c_body p_tag]. change (TagSet =? TagSet) with true. unfold seq_body.
  destruct (mapM (makeField c noP) l) as [es|s|] eqn:E; cbn [bind]; [|split; [discriminate|intros (es & ? & _); discriminate]|split; [discriminate|intros (es & ? & _); discriminate]].
  assert (Sx : (if true && (1 <? List.length l)%nat then sort_bytes es else es) = sort_bytes es).
  { cbn [andb]. destruct (Nat.ltb_spec 1 (List.length l)) as [L|L]; auto. apply mapM_length in E. destruct es as [|x [|y es]]; auto. cbn [List.length] in E. lia. }
  change (match (if true && (1 <? List.length l)%nat then sort_bytes es else es) with x => Ret (el 0 17 true (List.concat x)) = Ret m end <-> (exists es0, Ret es = Ret es0 /\ m = el 0 17 true (List.concat (sort_bytes es0)))).
  rewrite Sx. split.
  - intros H. exists es. split; auto. change (Ret (el 0 17 true (List.concat (sort_bytes es))) = Ret m) in H. congruence.
  - intros (es' & E' & ->). assert (es' = es) by congruence. subst. reflexivity.
Qed.
Lemma rdn_marshal r m : Forall (fun a => bytes_ok (atv_Value a)) r -> makeField (cSeqOf true cATV) noP (Some r) = Ret m <-> rdn_der r m.
Proof.
  intros Hr. rewrite make_rdn. unfold rdn_der. pose proof (mapM_F2_on (makeField cATV noP) atv_der (fun a => bytes_ok (atv_Value a)) atv_marshal r Hr) as M.
  split; intros (es & A & B); exists es; (split; [apply M; exact A|apply der_set_iff; exact B]).
Qed.
Theorem C136_name : forall n m, strings_ok n -> marshalName n = Ret m <-> name_der n m.
Proof.
  intros n m Hn. unfold marshalName, Marshal, name_der.
  pose proof (mapM_F2_on (fun r => makeField (cSeqOf true cATV) noP (Some r)) rdn_der (Forall (fun a => bytes_ok (atv_Value a))) (fun r b => rdn_marshal r b) n Hn) as M.
  assert (Em : forall es, mapM (makeField (cSeqOf true cATV) noP) (map Some n) = Ret es <-> mapM (fun r => makeField (cSeqOf true cATV) noP (Some r)) n = Ret es).
  { clear. induction n as [|r n IH]; intros es; [reflexivity|]. cbn [map mapM]. destruct (makeField (cSeqOf true cATV) noP (Some r)) as [y| |]; cbn [bind]; [|reflexivity|reflexivity].
    assert (Q : mapM (makeField (cSeqOf true cATV) noP) (map Some n) = mapM (fun r => makeField (cSeqOf true cATV) noP (Some r)) n). { clear. induction n as [|r n IH]; [reflexivity|]. cbn [map mapM]. rewrite IH. reflexivity. }
    rewrite Q. reflexivity. }
  split.
  - intros E. unfold makeField in E at 1. cbn [p_omit noP p_opt andb p_def c_whole cSeqOf p_set c_tag c_body p_tag c_comp] in E. apply bind_inv in E as (b & Eb & E). change (Ret (el 0 16 true b) = Ret m) in E.
    unfold seq_body in Eb. apply bind_inv in Eb as (es & Ee & Eb). change (Ret (List.concat es) = Ret b) in Eb. exists es. split; [apply M, Em; exact Ee|]. congruence.
  - intros (es & F & ->). apply mk_seq. apply Em, M. exact F.
Qed.
Print Assumptions C136_name.
(** two names with the same encoding differ only in the order inside their sets *)
Theorem C136_unique : forall n1 n2 m, name_ok n1 -> name_ok n2 -> marshalName n1 = Ret m -> marshalName n2 = Ret m -> zlen m < 2 ^ 31 ->
  Forall2 (@Permutation ATV) n1 n2.
Proof.
  intros n1 n2 m H1 H2 E1 E2 Hz. destruct (name_parse n1 m H1 E1 Hz) as (_ & a & _ & S1 & P1). destruct (name_parse n2 m H2 E2 Hz) as (_ & b & _ & S2 & P2).
  assert (a = b) by congruence. subst b. unfold same_name in *. clear - S1 S2. revert n2 S2. induction S1 as [|x y l l' Hx _ IH]; intros n2 S2; inversion S2; subst; constructor; [etransitivity; [exact Hx|symmetry; assumption]|auto].
Qed.
Print Assumptions C136_unique.
(** and the order inside a set does not matter *)
Theorem C136_order_free : forall n1 n2 m, strings_ok n1 -> Forall2 (@Permutation ATV) n1 n2 -> marshalName n1 = Ret m -> marshalName n2 = Ret m.
Proof.
  intros n1 n2 m H1 Hp E. assert (H2 : strings_ok n2). { clear - H1 Hp. unfold strings_ok in *. induction Hp as [|x y l l' Hx _ IH]; [constructor|]. inversion H1; subst. constructor; [eapply Permutation_Forall; eassumption|auto]. }
  apply C136_name in E; [|exact H1]. apply C136_name; [exact H2|]. destruct E as (sets & F & ->). exists sets. split; [|reflexivity]. clear - Hp F.
  revert sets F. induction Hp as [|x y l l' Hx _ IH]; intros sets F; inversion F as [|? s ? ss Hr Hrest]; subst; constructor; [|auto]. destruct Hr as (es & Fe & es' & P1 & So & ->).
  destruct (Permutation_Forall2 Hx Fe) as (es2 & P2 & F2). exists es2. split; [exact F2|]. exists es'. split; [|auto]. etransitivity; [symmetry; exact P2|exact P1].
Qed.
Print Assumptions C136_order_free.
(** CN=example.com is printable, the ampersand of O=A&B makes a UTF8String *)
Example C136_instance : marshalName [[mkATV [2; 5; 4; 10] (chars "A&B")]; [mkATV [2; 5; 4; 3] (chars "example.com")]] =
  Ret ([48; 36; 49; 12; 48; 10; 6; 3; 85; 4; 10; 12; 3; 65; 38; 66; 49; 20; 48; 18; 6; 3; 85; 4; 3; 19; 11] ++ chars "example.com") /\
  marshalString [255] = Err "asn1: string not valid UTF-8" /\ string_der (chars "a*") (12 :: 2 :: chars "a*").
Proof.
  split; [vm_compute; reflexivity|]. split; [vm_compute; reflexivity|]. apply C136_string; [apply bytes_okb_spec; reflexivity|vm_compute; reflexivity].
Qed.
