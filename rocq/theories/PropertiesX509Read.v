(** * Property C145 (x509: exactly which byte strings are certificates) *)
From Coq Require Import String.
From Verif Require PropertiesMemCert PropertiesX509Create.
From Verif Require Import Base Words Utf8 BMPModel ECSpec ECModel SM2Model CryptoByte Asn1 Asn1Proofs KeysModel KeysProofs P12Enc X509Model X509Sig X509Build X509Proofs X509StrProofs PropertiesX509Str X509ExtProofs X509CertProofs PropertiesX509Cert PropertiesX509Alg PropertiesX509Time PropertiesSpki X509CreateProofs.
From Coq Require Import ZifyBool ZifyNat.
Open Scope Z_scope.

(** ** Specification *)
(** [e] is one DER element: identifier octet [t], the shortest length octets, contents [c].  (Contents of 2^32 - 6 bytes and more are never read.) *)
Definition element (t : Z) (c e : bytes) : Prop := tag_ok t /\ zlen c <= max_content /\ e = tlv t c.
(** [e] is an element whose contents are the concatenation of the encodings of the members of [l] *)
Definition each_in {A} (t : Z) (R : A -> bytes -> Prop) (l : list A) (e : bytes) : Prop :=
  exists es, Forall2 R l es /\ element t (List.concat es) e.
Definition identifier (o : oid) (e : bytes) : Prop := valid_oid o /\ element 6 (oid_bytes o) e.
Definition integer (n : Z) (e : bytes) : Prop := element 2 (bigint_content n) e.
(** an attribute of a name: its type, a string of one of the known types, and possibly more, which is ignored *)
Definition attribute (a : ATV) (e : bytes) : Prop :=
  exists id t raw v ignored, identifier (atv_Type a) id /\ element t raw v /\ string_spec t raw (atv_Value a) /\ element 48 (id ++ v ++ ignored) e.
(** a name: a SEQUENCE of SETs of attributes *)
Definition name (n : RDNSequence) (e : bytes) : Prop := each_in 48 (each_in 49 attribute) n e.
(** the contents of an AlgorithmIdentifier: an OBJECT IDENTIFIER, then nothing or one element, after which anything is ignored *)
Definition algorithm (a : AI) (params c : bytes) : Prop :=
  exists id, identifier (ai_alg a) id /\
    ((c = id /\ params = [] /\ ai_params a = rawZero) \/
     (exists t v ignored, element t v params /\ c = id ++ params ++ ignored /\ ai_params a = mkRaw 0 t false None (Some params))).
(** the number given to a signature algorithm: the one C115 says the identifier denotes, or 0 *)
Definition numbered (a : AI) (x : Z) : Prop := (x <> 0 /\ denotes a x) \/ (x = 0 /\ forall y, ~ denotes a y).
(** a BIT STRING with the octets [q], which the reader moves to the right by the number of unused bits *)
Definition bit_string (q e : bytes) : Prop := bytes_ok q /\ exists pad bits, element 3 (pad :: bits) e /\ holds pad bits q /\ (q = [] -> pad = 0).
(** the key algorithms: RSA 1.2.840.113549.1.1.1, DSA 1.2.840.10040.4.1, EC 1.2.840.10045.2.1, Ed25519 1.3.101.112 *)
Definition key_algorithms : list (pkAlgo * oid) :=
  [(RSA, [1; 2; 840; 113549; 1; 1; 1]); (DSA, [1; 2; 840; 10040; 4; 1]); (ECDSA, [1; 2; 840; 10045; 2; 1]); (Ed25519, [1; 3; 101; 112])].
(** the SubjectPublicKeyInfo: of a known algorithm and then well formed (C128 describes the forms), or of another algorithm and then not looked at *)
Definition public_key (p : pkAlgo) (k : pubKey) (e : bytes) : Prop :=
  exists a params ac ae q bs ignored, algorithm a params ac /\ element 48 ac ae /\ bit_string q bs /\ element 48 (ae ++ bs ++ ignored) e /\
    ((In (p, ai_alg a) key_algorithms /\ key_form k (ai_alg a) params q) \/
     (p = UnknownPublicKeyAlgorithm /\ ~ In (ai_alg a) (map snd key_algorithms) /\ k = PKother)).
(** an extension: identifier, optional BOOLEAN, OCTET STRING, and possibly more, which is ignored *)
Definition extension (x : Extension) (e : bytes) : Prop :=
  exists id crit v ignored, identifier (x_Id x) id /\
    ((crit = [] /\ x_Critical x = false) \/ (crit = [1; 1; 0] /\ x_Critical x = false) \/ (crit = [1; 1; 255] /\ x_Critical x = true)) /\
    element 4 (x_Value x) v /\ element 48 (id ++ crit ++ v ++ ignored) e.
(** an optional field before [rest]: there as an element of that identifier octet, or [rest] does not begin with that octet *)
Definition starts (t : Z) (s : bytes) : Prop := exists r, s = t :: r.
Definition maybe (t : Z) (f rest : bytes) : Prop := (exists c, element t c f) \/ (f = [] /\ ~ starts t rest).
(** what follows the key: nothing of it is looked at in versions up to 1; unique identifiers [1] and [2] in the others; extensions [3] in version 3 only *)
Definition extensions (version : Z) (l : list Extension) (s : bytes) : Prop :=
  (version <= 1 /\ l = []) \/
  (2 <= version /\ exists u1 u2 rest, s = u1 ++ u2 ++ rest /\ maybe 161 u1 (u2 ++ rest) /\ maybe 162 u2 rest /\
     ((version <> 3 /\ l = []) \/ (version = 3 /\ ~ starts 163 rest /\ l = []) \/
      (version = 3 /\ exists x es ignored more, each_in 48 extension l es /\ element 163 (es ++ ignored) x /\ rest = x ++ more))).
(** the version: absent, or [0] and any 64-bit number that is not negative (2^63 - 1 wraps around) *)
Definition version_is (version : Z) (ver : bytes) : Prop :=
  (ver = [] /\ version = 1) \/
  (exists v i, integer v i /\ element 160 i ver /\ ((0 <= v <= 2 /\ version = v + 1) \/ (v = 2 ^ 63 - 1 /\ version = - 2 ^ 63))).
(** the bytes of the certificate [c] *)
Definition certificate (net : netlib) (der : bytes) (c : Certificate) : Prop :=
  exists a params ac alg sig ignored ver serial notBefore notAfter ignored' validity rest,
    algorithm a params ac /\ element 48 ac alg /\ numbered a (c_SignatureAlgorithm c) /\
    bit_string (c_Signature c) sig /\
    version_is (c_Version c) ver /\ integer (c_SerialNumber c) serial /\
    name (c_Issuer c) (c_RawIssuer c) /\ name (c_Subject c) (c_RawSubject c) /\
    time_element notBefore (c_NotBefore c) /\ time_element notAfter (c_NotAfter c) /\ element 48 (notBefore ++ notAfter ++ ignored') validity /\
    public_key (c_PublicKeyAlgorithm c) (c_PublicKey c) (c_RawSubjectPublicKeyInfo c) /\
    extensions (c_Version c) (c_Extensions c) rest /\
    processExtensions net info0 (c_Extensions c) = Ret (c_Info c) /\
    element 48 (ver ++ serial ++ alg ++ c_RawIssuer c ++ validity ++ c_RawSubject c ++ c_RawSubjectPublicKeyInfo c ++ rest) (c_RawTBSCertificate c) /\
    element 48 (c_RawTBSCertificate c ++ alg ++ sig ++ ignored) der /\ c_Raw c = der.

(** ** Lemmas *)
Definition reads {A} (p : bytes -> outcome (A * bytes)) (R : A -> bytes -> Prop) : Prop :=
  forall s a r, bytes_ok s -> (p s = Ret (a, r) <-> exists e, s = e ++ r /\ R a e).
Lemma many_reads {A} (p : bytes -> outcome (A * bytes)) R : reads p R -> (forall a e, R a e -> e <> []) ->
  forall s l, bytes_ok s -> (many p s = Ret l <-> exists es, Forall2 R l es /\ s = List.concat es).
Proof.
  intros Hp Hn s l Hs. split.
  - intros E. destruct (many_inv p R bytes_ok) with (s := s) (l := l) as (es & E1 & E2); auto; [|eauto].
    intros t a r Ht Et. apply Hp in Et as (e & -> & HR); [|exact Ht]. exists e. split; [reflexivity|]. split; [eauto|]. split; [exact HR|]. apply bytes_ok_app in Ht. tauto.
  - intros (es & F & ->). unfold many.
    assert (G : forall fuel, (List.length (List.concat es) <= fuel)%nat -> bytes_ok (List.concat es) -> many_fuel p fuel (List.concat es) = Ret l).
    { clear Hs. induction F as [|a e l es HR F IH]; intros fuel Hf Ho; cbn [List.concat] in *; [destruct fuel; reflexivity|].
      pose proof (Hn _ _ HR) as Ne. rewrite app_length in Hf.
      assert (St : p (e ++ List.concat es) = Ret (a, List.concat es)) by (apply Hp; eauto). apply bytes_ok_app in Ho as [_ Ho].
      destruct e as [|x e]; [congruence|]. cbn [List.length app] in *. destruct fuel as [|fuel]; [lia|]. cbn [many_fuel].
      rewrite St. cbn [bind]. rewrite IH; [reflexivity|lia|exact Ho]. }
    apply G; auto.
Qed.
Lemma element_ne t c e : element t c e -> e <> []. Proof. intros (_ & _ & ->). discriminate. Qed.
Lemma read_iff t s c r : tag_ok t -> bytes_ok s -> (readASN1 t s = Some (c, r) <-> exists e, element t c e /\ s = e ++ r).
Proof.
  intros Ht Hs. split.
  - intros E. apply readASN1_inv in E as (E & _ & Z0); [|exact Hs]. exists (tlv t c). split; [split; auto|exact E].
  - intros (e & (_ & Z0 & ->) & ->). now apply readASN1_tlv.
Qed.
Lemma read_el t c e r : element t c e -> readASN1 t (e ++ r) = Some (c, r).
Proof. intros (T & Z0 & ->). now apply readASN1_tlv. Qed.
Lemma read_el_nil t c e : element t c e -> readASN1 t e = Some (c, []).
Proof. intros H. rewrite <- (app_nil_r e). now apply read_el. Qed.
Lemma el_ok t c e r : element t c e -> bytes_ok (e ++ r) -> bytes_ok c /\ bytes_ok r.
Proof. intros (_ & _ & ->). apply tlv_bytes. Qed.
Lemma el_ok' t c e : element t c e -> bytes_ok e -> bytes_ok c.
Proof. intros H Ho. rewrite <- (app_nil_r e) in Ho. eapply el_ok in Ho; [|exact H]. tauto. Qed.
Ltac tg := split; [unfold byte_ok; lia|vm_compute; discriminate].
Lemma tagok48 : tag_ok 48. Proof. tg. Qed.
Lemma tagok49 : tag_ok 49. Proof. tg. Qed.
Lemma readOID_iff s o r : bytes_ok s -> (readOID s = Some (o, r) <-> exists e, identifier o e /\ s = e ++ r).
Proof.
  intros Hs. split.
  - intros E. apply readOID_inv in E as (E & K & Z0); [|exact Hs]. exists (oid_tlv o). split; [|exact E]. split; [now apply valid_oid_ok|]. split; [tg|]. split; [exact Z0|reflexivity].
  - intros (e & (V & _ & Z0 & ->) & ->). apply valid_oid_ok in V. now apply (readOID_tlv o r).
Qed.
Lemma ATV_reads : reads parseATV attribute.
Proof.
  intros s a r Hs. unfold parseATV. split.
  - intros E. bs E p H1. destruct p as [atav r']. apply read_iff in H1 as (e & He & ->); [|exact tagok48|exact Hs]. destruct (el_ok _ _ _ _ He Hs) as [Ho _].
    bs E p H2. destruct p as [ty a2]. apply readOID_iff in H2 as (id & Hid & ->); [|exact Ho]. destruct (el_ok _ _ _ _ (proj2 Hid) Ho) as [_ Ho2].
    bs E p H3. destruct p as [[tag raw] rest]. unfold readAny in H3. destruct (readAnyElt a2) as [[[[t' e'] c'] r2]|] eqn:EA; [|discriminate H3]. injection H3 as <- <- <-.
    apply readAny_inv in EA as (-> & _ & T & Z0); [|exact Ho2].
    assert (Hr : bytes_ok c') by (apply tlv_bytes in Ho2; tauto).
    destruct (parseASN1String t' c') as [v| |] eqn:EP; try discriminate. injection E as <- <-. apply C68_strings in EP; [|exact Hr].
    exists e. split; [reflexivity|]. exists id, t', c', (tlv t' c'), r2. cbn [atv_Type atv_Value]. split; [exact Hid|]. split; [split; auto|]. split; [exact EP|exact He].
  - intros (e & -> & (id & t & raw & v & z & Hid & Hv & Hstr & He)). rewrite (read_el _ _ _ _ He). cbn [need bind]. destruct (el_ok _ _ _ _ He Hs) as [Ho _].
    destruct (el_ok _ _ _ _ (proj2 Hid) Ho) as [_ Ho2].
    rewrite (proj2 (readOID_iff _ (atv_Type a) (v ++ z) Ho)) by eauto. cbn [need bind]. destruct (el_ok _ _ _ _ Hv Ho2) as [Or _].
    unfold readAny. destruct Hv as (T & Z0 & ->). rewrite readAny_tlv by auto. cbn [need bind]. apply C68_strings in Hstr; [|exact Or]. rewrite Hstr. destruct a. reflexivity.
Qed.
Lemma attribute_ne a e : attribute a e -> e <> [].
Proof. intros (? & ? & ? & ? & ? & _ & _ & _ & H). eapply element_ne; eauto. Qed.
Lemma RDN_reads : reads parseRDN (each_in 49 attribute).
Proof.
  intros s l r Hs. unfold parseRDN. split.
  - intros E. bs E p H1. destruct p as [set r']. apply read_iff in H1 as (e & He & ->); [|exact tagok49|exact Hs]. destruct (el_ok _ _ _ _ He Hs) as [Ho _].
    bs E l' H2. injection E as <- <-. apply (many_reads _ _ ATV_reads attribute_ne) in H2 as (es & F & ->); [|exact Ho]. exists e. split; [reflexivity|]. exists es. auto.
  - intros (e & -> & (es & F & He)). rewrite (read_el _ _ _ _ He). cbn [need bind]. destruct (el_ok _ _ _ _ He Hs) as [Ho _].
    rewrite (proj2 (many_reads _ _ ATV_reads attribute_ne (List.concat es) l Ho)) by eauto. reflexivity.
Qed.
Lemma name_iff e n : bytes_ok e -> (exists c, element 48 c e) -> (parseName e = Ret n <-> name n e).
Proof.
  intros Ho (c & He). unfold parseName. change T_SEQUENCE with 48. rewrite (read_el_nil _ _ _ He). cbn [need bind]. pose proof (el_ok' _ _ _ He Ho) as Oc.
  assert (Ne : forall (l : list ATV) e, each_in 49 attribute l e -> e <> []) by (intros ? ? (? & _ & H); eapply element_ne; eauto).
  rewrite (many_reads _ _ RDN_reads Ne c n Oc). unfold name. split.
  - intros (es & F & ->). exists es. auto.
  - intros (es & F & (_ & Z1 & E)). exists es. split; [exact F|]. pose proof (read_el_nil 48 (List.concat es) e) as R1. rewrite (read_el_nil _ _ _ He) in R1.
    assert (Some (c, @nil Z) = Some (List.concat es, [])) by (apply R1; split; [exact tagok48|auto]). congruence.
Qed.
Lemma AI_iff c a : bytes_ok c -> (parseAI c = Ret a <-> exists params, algorithm a params c).
Proof.
  intros Hc. unfold parseAI. split.
  - intros E. bs E p H1. destruct p as [o d]. apply readOID_iff in H1 as (id & Hid & ->); [|exact Hc]. destruct (el_ok _ _ _ _ (proj2 Hid) Hc) as [_ Ho].
    destruct d as [|x d]; [injection E as <-; exists [], id; split; [exact Hid|]; left; rewrite app_nil_r; auto|].
    remember (x :: d) as s. bs E p H2. destruct p as [[tag params] r]. unfold readAnyElement in H2. destruct (readAnyElt s) as [[[[t' e'] c'] r2]|] eqn:EA; [|discriminate H2]. injection H2 as <- <- <-.
    apply readAny_inv in EA as (-> & -> & T & Z0); [|exact Ho]. injection E as <-. exists (tlv t' c'), id. split; [exact Hid|]. right. exists t', c', r2. split; [split; auto|]. auto.
  - intros (params & id & Hid & [(-> & -> & Ha)|(t & v & z & (T & Z0 & ->) & -> & Ha)]).
    + rewrite (proj2 (readOID_iff _ (ai_alg a) [] Hc)) by (exists id; rewrite app_nil_r; auto). cbn [need bind]. rewrite <- Ha. now destruct a.
    + rewrite (proj2 (readOID_iff _ (ai_alg a) (tlv t v ++ z) Hc)) by eauto. cbn [need bind]. unfold tlv at 1. cbn [app].
      change (t :: (match der_len (zlen v) with Some l => l | None => [] end ++ v) ++ z) with (tlv t v ++ z). unfold readAnyElement. rewrite readAny_tlv by auto. cbn [need bind]. rewrite <- Ha. now destruct a.
Qed.
Lemma numbered_iff a x : getSignatureAlgorithmFromAI a = x <-> numbered a x.
Proof.
  destruct (C115_signature_algorithm a) as [P Q]. unfold numbered, UnknownSignatureAlgorithm in *. destruct (Z.eq_dec x 0) as [->|N].
  - rewrite Q. split; [auto|]. intros [[H _]|[_ H]]; [congruence|exact H].
  - rewrite (P x N). split; [auto|]. intros [[_ H]|[H _]]; [exact H|congruence].
Qed.
Lemma bits_same c : bytes_ok c -> forall r,
  match c with
  | pad :: b => if (7 <? pad) || ((List.length b =? 0)%nat && negb (pad =? 0)) || ((0 <? List.length b)%nat && negb (Z.land (last b 0) (2 ^ pad - 1) =? 0))
      then None else Some (mkBits (Some b) (8 * zlen b - pad), r)
  | [] => None
  end = match bits_parse c with Ret b => Some (b, r : bytes) | _ => None end.
Proof.
  intros Hc r. destruct c as [|pad b]; [reflexivity|]. apply bytes_ok_cons in Hc as [Hp _]. unfold byte_ok in Hp. unfold bits_parse. destruct b as [|x b].
  - cbn [List.length Nat.eqb Nat.ltb Nat.leb andb orb last]. change (zlen [pad] =? 1) with true. cbn [andb]. destruct (Z.eqb_spec pad 0) as [->|N]; [reflexivity|]. cbn [negb].
    replace (0 <? pad) with true by lia. rewrite !Bool.orb_true_r. reflexivity.
  - change (last (pad :: x :: b) 0) with (last (x :: b) 0). replace (zlen (pad :: x :: b) =? 1) with false by (symmetry; rewrite !zlen_cons; pose proof (zlen_nonneg b); lia).
    replace (List.length (x :: b) =? 0)%nat with false by reflexivity. replace (0 <? List.length (x :: b))%nat with true by reflexivity. cbn [andb]. rewrite !Bool.orb_false_r.
    destruct (_ || _); [reflexivity|]. replace (8 * zlen (x :: b)) with (zlen (x :: b) * 8) by lia. reflexivity.
Qed.
Lemma bits_spec c q : bytes_ok c -> bytes_ok q -> ((exists v, bits_parse c = Ret v /\ RightAlign v = q) <-> exists pad bits, c = pad :: bits /\ holds pad bits q /\ (q = [] -> pad = 0)).
Proof.
  intros Hc Hq. destruct q as [|x q].
  2: { rewrite (bits_exact c (x :: q) Hc Hq) by discriminate. split; intros (pad & bits & H); exists pad, bits; [split; [apply H|]; split; [apply H|discriminate]|split; apply H]. }
  split.
  - intros (v & E & R). unfold bits_parse in E. destruct c as [|pad bits]; [discriminate E|]. apply bytes_ok_cons in Hc as [Hp Hb]. unfold byte_ok in Hp.
    destruct (_ || _) eqn:B in E; [discriminate E|]. injection E as <-. apply Bool.orb_false_iff in B as [B _]. apply Bool.orb_false_iff in B as [B B2].
    assert (bits = []) as ->.
    { unfold RightAlign in R. cbn [bs_len bs_bytes sl] in R. destruct bits as [|y bits]; [reflexivity|]. exfalso. destruct (_ || _) in R; [discriminate R|].
      apply (f_equal (@List.length Z)) in R. rewrite shift_right_length in R. discriminate R. }
    change (zlen [pad] =? 1) with true in B2. cbn [andb] in B2. exists pad, []. split; [reflexivity|]. unfold holds. split; [split; [lia|]; split; [reflexivity|cbn; lia]|intros _; lia].
  - intros (pad & bits & -> & (P1 & P2 & _) & P3). destruct bits as [|y bits]; [|discriminate P2]. rewrite (P3 eq_refl). eexists. split; reflexivity.
Qed.
Lemma tagok3 : tag_ok 3. Proof. tg. Qed.
Lemma bit_string_ne q e : bit_string q e -> e <> [].
Proof. intros (_ & ? & ? & H & _). eapply element_ne; eauto. Qed.
Lemma bits_iff s q r : bytes_ok s -> ((exists b, readBitString s = Some (b, r) /\ RightAlign b = q) <-> exists e, bit_string q e /\ s = e ++ r).
Proof.
  intros Hs. unfold readBitString. split.
  - intros (b & E & <-). destruct (readASN1 T_BIT_STRING s) as [[c r']|] eqn:E1; [|discriminate E]. apply read_iff in E1 as (e & He & ->); [|exact tagok3|exact Hs]. destruct (el_ok _ _ _ _ He Hs) as [Hc _].
    pose proof (bits_same c Hc r') as BS. destruct (bits_parse c) as [b'| |] eqn:Eb; [|rewrite BS in E; discriminate E..]. rewrite BS in E. injection E as <- <-.
    pose proof (RightAlign_ok c b' Hc Eb) as Hq. destruct (proj1 (bits_spec c _ Hc Hq)) as (pad & bits & -> & H); [eauto|].
    exists e. split; [|reflexivity]. split; [exact Hq|]. exists pad, bits. split; [exact He|exact H].
  - intros (e & (Hq & pad & bits & He & H) & ->). change T_BIT_STRING with 3. rewrite (read_el _ _ _ _ He). destruct (el_ok _ _ _ _ He Hs) as [Hc _].
    destruct (proj2 (bits_spec (pad :: bits) q Hc Hq)) as (v & Ev & Er); [eauto|]. pose proof (bits_same (pad :: bits) Hc r) as BS. rewrite Ev in BS. cbv beta iota in BS. rewrite BS. eauto.
Qed.
Lemma oid_eqb_dec a b : oid_eqb a b = true \/ oid_eqb a b = false. Proof. destruct (oid_eqb a b); auto. Qed.
Lemma key_alg_iff p o : getPublicKeyAlgorithmFromOID o = p <->
  (p <> UnknownPublicKeyAlgorithm /\ In (p, o) key_algorithms) \/ (p = UnknownPublicKeyAlgorithm /\ ~ In o (map snd key_algorithms)).
Proof.
  change (map snd key_algorithms) with [oidPublicKeyRSA; oidPublicKeyDSA; oidPublicKeyECDSA; oidPublicKeyEd25519].
  change key_algorithms with [(RSA, oidPublicKeyRSA); (DSA, oidPublicKeyDSA); (ECDSA, oidPublicKeyECDSA); (Ed25519, oidPublicKeyEd25519)].
  unfold getPublicKeyAlgorithmFromOID. split.
  - intros <-. destruct (oid_eqb o oidPublicKeyRSA) eqn:B1; [apply oid_eqb_spec in B1; left; split; [discriminate|left; congruence]|].
    destruct (oid_eqb o oidPublicKeyDSA) eqn:B2; [apply oid_eqb_spec in B2; left; split; [discriminate|right; left; congruence]|].
    destruct (oid_eqb o oidPublicKeyECDSA) eqn:B3; [apply oid_eqb_spec in B3; left; split; [discriminate|right; right; left; congruence]|].
    destruct (oid_eqb o oidPublicKeyEd25519) eqn:B4; [apply oid_eqb_spec in B4; left; split; [discriminate|right; right; right; left; congruence]|].
    right. split; [reflexivity|]. intros H. repeat (destruct H as [H|H]; [symmetry in H; apply oid_eqb_spec in H; congruence|]). destruct H.
  - intros [[_ H]|[-> H]].
    + repeat (destruct H as [H|H]; [injection H as <- <-; reflexivity|]). destruct H.
    + destruct (oid_eqb o oidPublicKeyRSA) eqn:B1; [apply oid_eqb_spec in B1; exfalso; apply H; cbn [In]; auto|].
      destruct (oid_eqb o oidPublicKeyDSA) eqn:B2; [apply oid_eqb_spec in B2; exfalso; apply H; cbn [In]; auto|].
      destruct (oid_eqb o oidPublicKeyECDSA) eqn:B3; [apply oid_eqb_spec in B3; exfalso; apply H; cbn [In]; auto|].
      destruct (oid_eqb o oidPublicKeyEd25519) eqn:B4; [apply oid_eqb_spec in B4; exfalso; apply H; cbn [In]; auto|]. reflexivity.
Qed.
Lemma params_full a params c : algorithm a params c -> sl (rv_full (ai_params a)) = params.
Proof. intros (id & _ & [(_ & -> & ->)|(t & v & z & _ & _ & ->)]); reflexivity. Qed.
Lemma params_whole a params c params' z : algorithm a params c -> zlen params < 2 ^ 31 -> params = params' ++ z -> (params' = [] \/ exists t b, tag_ok t /\ params' = tlv t b) -> (params' = [] -> z = []) -> z = [].
Proof.
  intros (id & _ & [(_ & -> & _)|(t & v & w & (T & Z0 & ->) & _ & _)]) L E F N.
  - symmetry in E. now apply app_eq_nil in E.
  - destruct F as [F|(t' & b & T' & ->)]; [auto|]. assert (Zb : zlen b <= max_content).
    { rewrite E, zlen_app in L. pose proof (zlen_nonneg z). pose proof (tlv_ge t' b). unfold max_content. lia. }
    pose proof (readAny_tlv t v [] T Z0) as R. rewrite app_nil_r, E, (readAny_tlv t' b z T' Zb) in R. injection R. auto.
Qed.
Lemma alg_len a params c : algorithm a params c -> bytes_ok c -> zlen params <= zlen c /\ bytes_ok params.
Proof.
  intros (id & _ & [(-> & -> & _)|(t & v & w & _ & -> & _)]) Hc.
  - split; [apply zlen_nonneg|constructor].
  - rewrite !zlen_app. pose proof (zlen_nonneg id). pose proof (zlen_nonneg w). split; [lia|]. apply bytes_ok_app in Hc as [_ Hc]. apply bytes_ok_app in Hc. tauto.
Qed.
Lemma bit_string_len q e : bit_string q e -> zlen q < zlen e.
Proof.
  intros (_ & pad & bits & (_ & _ & ->) & (_ & L & _) & _). pose proof (tlv_ge 3 (pad :: bits)). rewrite zlen_cons in *. unfold zlen in *. lia.
Qed.
Lemma key_parse a params q b k c : algorithm a params c -> bytes_ok params -> bytes_ok q -> zlen params < 2 ^ 31 -> zlen q < 2 ^ 31 -> RightAlign b = q -> forall p,
  (p = getPublicKeyAlgorithmFromOID (ai_alg a) /\ parsePublicKey p (mkPKI None a b) = Ret k) <->
  ((In (p, ai_alg a) key_algorithms /\ key_form k (ai_alg a) params q) \/ (p = UnknownPublicKeyAlgorithm /\ ~ In (ai_alg a) (map snd key_algorithms) /\ k = PKother)).
Proof.
  intros Ha Op Oq Zp Zq Eq p. destruct (parsePublicKey_exact (ai_alg a) (ai_params a) b params q None k Op Oq Zp Zq (params_full _ _ _ Ha) Eq) as [P1 P2].
  replace (mkAI (ai_alg a) (ai_params a)) with a in * by now destruct a. split.
  - intros (-> & E). destruct (proj1 (key_alg_iff _ (ai_alg a)) eq_refl) as [[Nu Hin]|[Un Nin]].
    + left. split; [exact Hin|]. destruct P1 as (params' & z & Ep & F & N); [destruct (getPublicKeyAlgorithmFromOID (ai_alg a)); [congruence|exact E..]|].
      assert (z = []) as -> by (eapply params_whole; eauto; eapply form_params; eauto). rewrite app_nil_r in Ep. now subst params'.
    + right. rewrite Un in *. split; [reflexivity|]. split; [exact Nin|]. cbn in E. congruence.
  - intros [[Hin F]|(-> & Nin & ->)].
    + assert (Nu : p <> UnknownPublicKeyAlgorithm) by (intros ->; repeat (destruct Hin as [Hin|Hin]; [discriminate Hin|]); destruct Hin).
      assert (Ep : getPublicKeyAlgorithmFromOID (ai_alg a) = p) by (apply key_alg_iff; auto). split; [auto|]. specialize (P2 F). rewrite Ep in P2. destruct p; [congruence|exact P2..].
    + assert (Ep : getPublicKeyAlgorithmFromOID (ai_alg a) = UnknownPublicKeyAlgorithm) by (apply key_alg_iff; auto). split; [auto|reflexivity].
Qed.
Lemma peek_iff t s : peekTag t s = true <-> starts t s.
Proof.
  unfold peekTag, starts. destruct s as [|x s]; [split; [discriminate|intros (? & ?); discriminate]|]. rewrite Z.eqb_eq. split; [intros ->; eauto|]. intros (r & E). now injection E.
Qed.
Lemma peek_not t s : peekTag t s = false <-> ~ starts t s.
Proof. rewrite <- peek_iff. destruct (peekTag t s); split; congruence. Qed.
Lemma el_starts t c e r : element t c e -> starts t (e ++ r).
Proof. intros (_ & _ & ->). eexists. reflexivity. Qed.
Lemma skip_iff t s r : tag_ok t -> bytes_ok s -> (skipOptional t s = Some r <-> exists f, s = f ++ r /\ maybe t f r).
Proof.
  intros Ht Hs. unfold skipOptional, maybe. split.
  - destruct (peekTag t s) eqn:P.
    + destruct (readASN1 t s) as [[c r']|] eqn:E; [|discriminate]. intros [= <-]. apply read_iff in E as (e & He & ->); eauto.
    + intros [= <-]. apply peek_not in P. exists []. auto.
  - intros (f & -> & [(c & He)|(-> & N)]).
    + rewrite (proj2 (peek_iff _ _) (el_starts _ _ _ r He)), (read_el _ _ _ _ He). reflexivity.
    + cbn [app]. now rewrite (proj2 (peek_not _ _) N).
Qed.
Lemma tagok4 : tag_ok 4. Proof. tg. Qed.
Lemma el_bool b : tlv 1 [b] = [1; 1; b]. Proof. reflexivity. Qed.
Lemma extension_ne x e : extension x e -> e <> [].
Proof. intros (? & ? & ? & ? & _ & _ & _ & H). eapply element_ne; eauto. Qed.
Lemma ext_reads : reads parseExtStep extension.
Proof.
  intros s x r Hs. unfold parseExtStep, parseExtension. split.
  - intros E. bs E p H1. destruct p as [c r']. apply read_iff in H1 as (e & He & ->); [|exact tagok48|exact Hs]. destruct (el_ok _ _ _ _ He Hs) as [Ho _].
    bs E x' H2. injection E as <- <-. bs H2 p H3. destruct p as [id d]. apply readOID_iff in H3 as (ide & Hid & ->); [|exact Ho]. destruct (el_ok _ _ _ _ (proj2 Hid) Ho) as [_ Ho2].
    bs H2 p H4. destruct p as [crit d2]. bs H2 p H5. destruct p as [v z]. injection H2 as <-.
    assert (C : exists ce, d = ce ++ d2 /\ ((ce = [] /\ crit = false) \/ (ce = [1; 1; 0] /\ crit = false) \/ (ce = [1; 1; 255] /\ crit = true))).
    { destruct (peekTag T_BOOLEAN d).
      - apply need_inv in H4. unfold readBool in H4. destruct (readASN1 T_BOOLEAN d) as [[[|b [|]] r2]|] eqn:EB; try discriminate H4. apply readASN1_inv in EB as (-> & _ & _); [|exact Ho2]. change T_BOOLEAN with 1. rewrite el_bool.
        exists [1; 1; b]. destruct (Z.eqb_spec b 0) as [->|]; [injection H4 as <- <-; auto|]. destruct (Z.eqb_spec b 255) as [->|]; [injection H4 as <- <-; auto|discriminate H4].
      - injection H4 as <- <-. exists []. auto. }
    destruct C as (ce & -> & C). assert (Ho3 : bytes_ok d2) by (apply bytes_ok_app in Ho2; tauto). apply read_iff in H5 as (ve & Hv & ->); [|exact tagok4|exact Ho3].
    exists e. split; [reflexivity|]. exists ide, ce, ve, z. cbn [x_Id x_Critical x_Value]. auto.
  - intros (e & -> & (id & crit & v & z & Hid & C & Hv & He)). change T_SEQUENCE with 48. rewrite (read_el _ _ _ _ He). cbn [need bind]. destruct (el_ok _ _ _ _ He Hs) as [Ho _].
    rewrite (proj2 (readOID_iff _ (x_Id x) (crit ++ v ++ z) Ho)) by eauto. cbn [need bind].
    assert (R4 : readASN1 T_OCTET_STRING (v ++ z) = Some (x_Value x, z)) by (change T_OCTET_STRING with 4; apply (read_el _ _ _ _ Hv)).
    match goal with |- context[if ?b then ?t else ?u] => assert (R1 : (if b then t else u) = Ret (x_Critical x, v ++ z)) end.
    { destruct C as [(-> & ->)|[(-> & ->)|(-> & ->)]].
      - cbn [app]. rewrite (proj2 (peek_not T_BOOLEAN (v ++ z))); [reflexivity|]. intros (r1 & E1). destruct Hv as (_ & _ & ->). discriminate E1.
      - change ([1; 1; 0] ++ v ++ z) with (tlv 1 [0] ++ v ++ z). replace (peekTag T_BOOLEAN (tlv 1 [0] ++ v ++ z)) with true by reflexivity. unfold readBool. change T_BOOLEAN with 1. rewrite readASN1_tlv; [reflexivity|tg|vm_compute; discriminate].
      - change ([1; 1; 255] ++ v ++ z) with (tlv 1 [255] ++ v ++ z). replace (peekTag T_BOOLEAN (tlv 1 [255] ++ v ++ z)) with true by reflexivity. unfold readBool. change T_BOOLEAN with 1. rewrite readASN1_tlv; [reflexivity|tg|vm_compute; discriminate]. }
    rewrite R1. cbn [bind]. rewrite R4. cbn [need bind]. now destruct x.
Qed.
Lemma proc_nil net i : processExtensions net info0 [] = Ret i <-> i = info0.
Proof. change (processExtensions net info0 []) with (Ret info0). split; congruence. Qed.
Lemma tail_iff net version s l i : bytes_ok s -> (parseTail net version s = Ret (l, i) <-> extensions version l s /\ processExtensions net info0 l = Ret i).
Proof.
  intros Hs. unfold parseTail, extensions. destruct (Z.ltb_spec 1 version) as [V|V].
  2: { split; [intros [= <- <-]; split; [left; auto|reflexivity]|]. intros [[[_ ->]|[? _]] P]; [|lia]. apply proc_nil in P. now subst. }
  assert (T1 : tag_ok 161) by tg. assert (T2 : tag_ok 162) by tg. assert (T3 : tag_ok 163) by tg. change (ctxc 1) with 161. change (ctxc 2) with 162. change (ctxc 3) with 163.
  split.
  - intros E. bs E s1 H1. apply (skip_iff 161 s s1 T1 Hs) in H1 as (u1 & -> & M1). apply bytes_ok_app in Hs as [_ Hs].
    bs E s2 H2. apply (skip_iff 162 s1 s2 T2 Hs) in H2 as (u2 & -> & M2). apply bytes_ok_app in Hs as [_ Hs].
    assert (G : forall X : Prop, X -> (version <= 1 /\ l = []) \/ (2 <= version /\ X)) by (intros; right; split; [lia|auto]).
    destruct (Z.eqb_spec version 3) as [V3|V3].
    + bs E p H3. destruct p as [[pr c] r]. unfold readOptional in H3. destruct (peekTag 163 s2) eqn:P.
      * destruct (readASN1 163 s2) as [[c' r']|] eqn:ER; [|discriminate H3]. injection H3 as <- <- <-. apply read_iff in ER as (x & Hx & ->); [|exact T3|exact Hs]. destruct (el_ok _ _ _ _ Hx Hs) as [Hc _].
        bs E p H4. destruct p as [c2 r2]. apply read_iff in H4 as (es & Hes & ->); [|exact tagok48|exact Hc]. destruct (el_ok _ _ _ _ Hes Hc) as [Hc2 _].
        bs E l' H5. bs E i' H6. injection E as <- <-. apply (many_reads _ _ ext_reads extension_ne) in H5 as (ess & F & ->); [|exact Hc2].
        split; [|exact H6]. apply G. exists u1, u2, (x ++ r'). repeat (split; [reflexivity || assumption|]). right. right. split; [exact V3|]. exists x, es, r2, r'. split; [|auto]. exists ess. auto.
      * injection H3 as <- <- <-. injection E as <- <-. split; [|reflexivity]. apply G. exists u1, u2, s2. repeat (split; [reflexivity || assumption|]). right. left. apply peek_not in P. auto.
    + injection E as <- <-. split; [|reflexivity]. apply G. exists u1, u2, s2. repeat (split; [reflexivity || assumption|]). left. auto.
  - intros [[[? _]|(_ & u1 & u2 & rest & -> & M1 & M2 & C)] P]; [lia|].
    rewrite (proj2 (skip_iff 161 (u1 ++ u2 ++ rest) (u2 ++ rest) T1 Hs)) by eauto. cbn [need bind]. apply bytes_ok_app in Hs as [_ Hs].
    rewrite (proj2 (skip_iff 162 (u2 ++ rest) rest T2 Hs)) by eauto. cbn [need bind]. apply bytes_ok_app in Hs as [_ Hs].
    destruct C as [(N3 & ->)|[(-> & N & ->)|(-> & x & es & z & more & (ess & F & Hes) & Hx & ->)]].
    + replace (version =? 3) with false by lia. apply proc_nil in P. now subst.
    + change (3 =? 3) with true. cbv iota. unfold readOptional. rewrite (proj2 (peek_not _ _) N). cbn [need bind]. apply proc_nil in P. now subst.
    + change (3 =? 3) with true. cbv iota. unfold readOptional. rewrite (proj2 (peek_iff _ _) (el_starts _ _ _ more Hx)), (read_el _ _ _ _ Hx). cbn [need bind]. destruct (el_ok _ _ _ _ Hx Hs) as [Hc _].
      change T_SEQUENCE with 48. rewrite (read_el _ _ _ _ Hes). cbn [need bind]. destruct (el_ok _ _ _ _ Hes Hc) as [Hc2 _].
      rewrite (proj2 (many_reads _ _ ext_reads extension_ne (List.concat ess) l Hc2)) by eauto. cbn [bind]. rewrite P. reflexivity.
Qed.
Lemma version_iff ver V : (exists v, version_field ver v /\ 0 <= v /\ V = wrap64 (v + 1) /\ V <= 3) <-> version_is V ver.
Proof.
  unfold version_field, version_is. split.
  - intros (v & [(-> & ->)|(-> & Hv)] & V0 & EV & V3); [left; rewrite EV; auto|]. right. destruct (int64_content v Hv) as [L1 L2]. exists v, (tlv 2 (bigint_content v)). unfold integer, element.
    split; [split; [tg|split; [unfold max_content; lia|reflexivity]]|]. split; [split; [tg|split; [exact L2|reflexivity]]|]. unfold int64 in Hv. unfold wrap64 in EV.
    destruct (Z.eq_dec v (2 ^ 63 - 1)) as [->|N]; [right; split; [reflexivity|exact EV]|]. left. rewrite Z.mod_small in EV by lia. lia.
  - intros [(-> & ->)|(v & i & (_ & _ & ->) & (_ & _ & ->) & [(V0 & ->)|(-> & ->)])].
    + exists 0. split; [auto|]. split; [lia|]. split; [reflexivity|lia].
    + exists v. split; [right; split; [reflexivity|unfold int64; lia]|]. split; [lia|]. split; [|lia]. unfold wrap64. rewrite Z.mod_small by lia. lia.
    + exists (2 ^ 63 - 1). split; [right; split; [reflexivity|unfold int64; lia]|]. split; [lia|]. split; [reflexivity|lia].
Qed.
Lemma mk_el t c : tag_ok t -> zlen (tlv t c) < 2 ^ 31 -> element t c (tlv t c).
Proof. intros T Z0. split; [exact T|]. split; [|reflexivity]. pose proof (tlv_ge t c). unfold max_content. lia. Qed.
Lemma el_len t c e : element t c e -> zlen c <= zlen e.
Proof. intros (_ & _ & ->). apply tlv_ge. Qed.
(** the key of the layout of X509CertProofs *)
Lemma key_iff p k e : bytes_ok e -> zlen e < 2 ^ 31 ->
  ((exists pkAlg pkKey a b r, e = tlv T_SEQUENCE (tlv T_SEQUENCE pkAlg ++ pkKey) /\ parseAI pkAlg = Ret a /\ readBitString pkKey = Some (b, r) /\
      p = getPublicKeyAlgorithmFromOID (ai_alg a) /\ parsePublicKey p (mkPKI None a b) = Ret k) <-> public_key p k e).
Proof.
  intros Ho Hz. split.
  - intros (pa & pk & a & b & r & -> & Ha & Hb & Hp & Hk). change T_SEQUENCE with 48 in *. rewrite <- (app_nil_r (tlv 48 _)) in Ho. apply tlv_bytes in Ho as [Ho _]. assert (Z1 := tlv_ge 48 (tlv 48 pa ++ pk)).
    assert (O1 := Ho). apply tlv_bytes in O1 as [O1 O2]. assert (Z2 := tlv_ge 48 pa). pose proof (zlen_nonneg pk) as N1. rewrite zlen_app in Z1.
    apply AI_iff in Ha as (params & Ha); [|exact O1]. destruct (alg_len _ _ _ Ha O1) as [Zp Op]. pose proof (tlv_ge 48 pa). pose proof (zlen_nonneg (tlv 48 pa)).
    destruct (proj1 (bits_iff pk (RightAlign b) r O2)) as (bs & Hbs & Epk); [eauto|]. assert (Zq := bit_string_len _ _ Hbs). assert (zlen bs <= zlen pk) by (rewrite Epk, zlen_app; pose proof (zlen_nonneg r); lia).
    destruct (proj1 (key_parse a params (RightAlign b) b k pa Ha Op (proj1 Hbs) ltac:(lia) ltac:(lia) eq_refl p)) as [K|K]; [auto| |];
      (exists a, params, pa, (tlv 48 pa), (RightAlign b), bs, r; split; [exact Ha|]; split; [apply mk_el; [exact tagok48|lia]|]; split; [exact Hbs|]; split; [rewrite Epk; rewrite Epk in Hz; apply mk_el; [exact tagok48|exact Hz]|auto]).
  - intros (a & params & ac & ae & q & bs & z & Ha & Hae & Hbs & He & K). assert (Hc := el_ok' _ _ _ He Ho). destruct (el_ok _ _ _ _ Hae Hc) as [Oac O2]. destruct (alg_len _ _ _ Ha Oac) as [Zp Op].
    assert (Zc := el_len _ _ _ He). rewrite !zlen_app in Zc. pose proof (el_len _ _ _ Hae). pose proof (zlen_nonneg ae). pose proof (zlen_nonneg bs). pose proof (zlen_nonneg z). pose proof (bit_string_len _ _ Hbs).
    destruct (proj2 (bits_iff (bs ++ z) q z O2)) as (b & Hb & Eq); [eauto|]. exists ac, (bs ++ z), a, b, z.
    split; [destruct He as (_ & _ & ->); destruct Hae as (_ & _ & ->); reflexivity|]. split; [apply AI_iff; eauto|]. split; [exact Hb|].
    apply (key_parse a params q b k ac Ha Op (proj1 Hbs)); [lia|lia|exact Eq|exact K].
Qed.
Ltac lens := repeat match goal with
  | |- context[zlen (?a ++ ?b)] => rewrite (zlen_app a b)
  | H : context[zlen (?a ++ ?b)] |- _ => rewrite (zlen_app a b) in H end.

(** ** C145 *)
Theorem C145_certificate : forall net der c, bytes_ok der -> zlen der < 2 ^ 31 -> (ParseCertificate net der = Ret c <-> certificate net der c).
Proof.
  intros net der c Hb Hz. split.
  - intros E. pose proof (Parse_raw _ _ _ Hb E) as R. apply Parse_inv in E as [E _]. apply parse_inv in E as (r0 & ver & v & ai & ic & val & sc & pa & pk & tail & sigF & E & L & Sm); [|exact Hb].
    apply Forall_cons_iff in Sm as [S1 S2]. apply Forall_cons_iff in S2 as [S2 _].
    destruct L as [Lraw Ltbs Lver (V0 & V1 & V3) [Li Ni] [Ls Ns] (a & Pa & Ea) Lval Lspki (ka & kb & kr & Pk & Rk & Ek & Epk) Ltail (b & br & Rb & Eb)]. rewrite R in Lraw.
    change T_SEQUENCE with 48 in *. assert (Ho := Hb). rewrite Lraw in Ho. rewrite <- (app_nil_r (tlv 48 _)) in Ho. apply tlv_bytes in Ho as [Ho _].
    assert (O1 := Ho). rewrite Ltbs in O1. apply tlv_bytes in O1 as [O1 Oa]. apply tlv_bytes in Oa as [Oai Osig].
    assert (O2 := O1). apply bytes_ok_app in O2 as [_ O2]. apply tlv_bytes in O2 as [_ O2]. apply tlv_bytes in O2 as [_ O2]. apply bytes_ok_app in O2 as [Oi O2]. apply tlv_bytes in O2 as [Ov O2].
    apply bytes_ok_app in O2 as [Os O2]. apply bytes_ok_app in O2 as [Ok Ot].
    assert (Z1 := tlv_ge 48 (c_RawTBSCertificate c ++ tlv 48 ai ++ sigF)). rewrite <- Lraw in Z1. rewrite !zlen_app in Z1.
    assert (Z2 : zlen (ver ++ tlv T_INTEGER (bigint_content (c_SerialNumber c)) ++ tlv 48 ai ++ c_RawIssuer c ++ tlv 48 val ++ c_RawSubject c ++ c_RawSubjectPublicKeyInfo c ++ tail) <= zlen (c_RawTBSCertificate c)) by (rewrite Ltbs; apply tlv_ge).
    rewrite !zlen_app in Z2.
    pose proof (zlen_nonneg sigF) as N1. pose proof (zlen_nonneg (tlv 48 ai)) as N2. pose proof (zlen_nonneg ver) as N3. pose proof (zlen_nonneg (tlv T_INTEGER (bigint_content (c_SerialNumber c)))) as N4. pose proof (zlen_nonneg (c_RawIssuer c)) as N5.
    pose proof (zlen_nonneg (tlv 48 val)) as N6. pose proof (zlen_nonneg (c_RawSubject c)) as N7. pose proof (zlen_nonneg (c_RawSubjectPublicKeyInfo c)) as N8. pose proof (zlen_nonneg tail) as N9. pose proof (zlen_nonneg (c_RawTBSCertificate c)) as N10.
    apply AI_iff in Pa as (params & Pa); [|exact Oai].
    apply C110_validity in Lval as (t1 & t2 & tz & Eval & T1 & T2); [|exact Ov].
    destruct (proj1 (bits_iff sigF (c_Signature c) br Osig)) as (se & Hse & Esig); [exists b; auto|].
    assert (EI : exists x, element 48 x (c_RawIssuer c)) by (rewrite Li; eexists; apply mk_el; [exact tagok48|]; rewrite <- Li; clear - Z1 Z2 Hz N1 N2 N3 N4 N5 N6 N7 N8 N9 N10; lia).
    assert (ES : exists x, element 48 x (c_RawSubject c)) by (rewrite Ls; eexists; apply mk_el; [exact tagok48|]; rewrite <- Ls; clear - Z1 Z2 Hz N1 N2 N3 N4 N5 N6 N7 N8 N9 N10; lia).
    apply tail_iff in Ltail as [Lt1 Lt2]; [|exact Ot].
    exists a, params, ai, (tlv 48 ai), se, br, ver, (tlv 2 (bigint_content (c_SerialNumber c))), t1, t2, tz, (tlv 48 val), tail.
    split; [exact Pa|]. split; [apply mk_el; [exact tagok48|clear - Z1 Z2 Hz N1 N2 N3 N4 N5 N6 N7 N8 N9 N10; lia]|]. split; [apply numbered_iff; auto|]. split; [exact Hse|].
    split; [apply version_iff; exists v; auto|]. split; [unfold integer; apply mk_el; [tg|]; change T_INTEGER with 2 in *; clear - Z1 Z2 Hz N1 N2 N3 N4 N5 N6 N7 N8 N9 N10; lia|].
    split; [apply name_iff; auto|]. split; [apply name_iff; auto|]. split; [exact T1|]. split; [exact T2|]. split; [rewrite <- Eval; apply mk_el; [exact tagok48|clear - Z1 Z2 Hz N1 N2 N3 N4 N5 N6 N7 N8 N9 N10; lia]|].
    split; [apply key_iff; [exact Ok|clear - Z1 Z2 Hz N1 N2 N3 N4 N5 N6 N7 N8 N9 N10; lia|]; exists pa, pk, ka, kb, kr; auto|].
    split; [exact Lt1|]. split; [exact Lt2|].
    split; [split; [exact tagok48|]; split; [exact S2|exact Ltbs]|].
    split; [|exact R]. rewrite Lraw, Esig. rewrite Esig in S1. split; [exact tagok48|]. split; [exact S1|reflexivity].
  - intros (a & params & ac & alg & sig & ign & ver & serial & t1 & t2 & tz & validity & tail & Ha & Halg & Hnum & Hsig & Hver & Hser & Hi & Hs & T1 & T2 & Hval & Hkey & Hext & Hproc & Htbs & Hder & R).
    assert (Oc := el_ok' _ _ _ Hder Hb). assert (O1 := Oc). destruct (el_ok _ _ _ _ Htbs O1) as [Otbs O2]. destruct (el_ok _ _ _ _ Halg O2) as [Oac Osig].
    assert (O3 := Otbs). apply bytes_ok_app in O3 as [_ O3]. destruct (el_ok _ _ _ _ Hser O3) as [_ O4]. destruct (el_ok _ _ _ _ Halg O4) as [_ O5]. apply bytes_ok_app in O5 as [Oi O5].
    destruct (el_ok _ _ _ _ Hval O5) as [Ov O6]. apply bytes_ok_app in O6 as [Os O6]. apply bytes_ok_app in O6 as [Ok Ot].
    assert (Zd := el_len _ _ _ Hder). assert (Zt := el_len _ _ _ Htbs). assert (Zk : zlen (c_RawSubjectPublicKeyInfo c) < 2 ^ 31).
    { rewrite !zlen_app in Zd. rewrite !zlen_app in Zt. clear - Hz Zd Zt. pose proof (zlen_nonneg sig). pose proof (zlen_nonneg alg). pose proof (zlen_nonneg ign). pose proof (zlen_nonneg ver). pose proof (zlen_nonneg serial). pose proof (zlen_nonneg (c_RawIssuer c)).
      pose proof (zlen_nonneg validity). pose proof (zlen_nonneg (c_RawSubject c)). pose proof (zlen_nonneg tail). lia. }
    destruct (proj2 (key_iff _ _ _ Ok Zk) Hkey) as (pa & pk & ka & kb & kr & Espki & Pk & Rk & Ek & Epk).
    destruct (proj2 (bits_iff (sig ++ ign) (c_Signature c) ign Osig)) as (b & Rb & Eb); [eauto|].
    destruct (proj2 (version_iff _ _) Hver) as (v & Lver & V0 & V1 & V3).
    assert (EI : exists x, element 48 x (c_RawIssuer c)) by (destruct Hi as (es & _ & H); eauto). assert (ES : exists x, element 48 x (c_RawSubject c)) by (destruct Hs as (es & _ & H); eauto).
    assert (Ni := proj2 (name_iff _ _ Oi EI) Hi). assert (Ns := proj2 (name_iff _ _ Os ES) Hs). destruct EI as (ic & _ & _ & Ei). destruct ES as (sc & _ & _ & Es).
    assert (Ealg : alg = tlv 48 ac) by apply Halg. assert (Eser : serial = tlv T_INTEGER (bigint_content (c_SerialNumber c))) by apply Hser. assert (Eval : validity = tlv 48 (t1 ++ t2 ++ tz)) by apply Hval.
    assert (L : layout net c ver v ac ic (t1 ++ t2 ++ tz) sc pa pk tail (sig ++ ign)).
    { constructor; change T_SEQUENCE with 48.
      - rewrite R, <- Ealg. apply Hder.
      - rewrite <- Ealg, <- Eser, <- Eval. apply Htbs.
      - exact Lver.
      - auto.
      - auto.
      - auto.
      - exists a. split; [apply AI_iff; eauto|]. symmetry. now apply numbered_iff.
      - apply C110_validity; [exact Ov|]. exists t1, t2, tz. auto.
      - exact Espki.
      - exists ka, kb, kr. auto.
      - apply tail_iff; auto.
      - exists b, ign. auto. }
    assert (Sm : small [c_RawTBSCertificate c ++ tlv T_SEQUENCE ac ++ (sig ++ ign);
           ver ++ tlv T_INTEGER (bigint_content (c_SerialNumber c)) ++ tlv T_SEQUENCE ac ++ c_RawIssuer c ++ tlv T_SEQUENCE (t1 ++ t2 ++ tz) ++ c_RawSubject c ++ c_RawSubjectPublicKeyInfo c ++ tail]).
    { change T_SEQUENCE with 48. rewrite <- Ealg, <- Eser, <- Eval. constructor; [apply Hder|]. constructor; [apply Htbs|constructor]. }
    pose proof (parse_ok net c [] _ _ _ _ _ _ _ _ _ _ L Sm) as P. rewrite app_nil_r, R in P. unfold ParseCertificate. rewrite P. cbn [bind]. rewrite R, Nat.eqb_refl. reflexivity.
Qed.
Print Assumptions C145_certificate.
(** there is exactly one reading *)
Theorem C145_one_reading : forall net der c1 c2, bytes_ok der -> zlen der < 2 ^ 31 -> certificate net der c1 -> certificate net der c2 -> c1 = c2.
Proof. intros net der c1 c2 Hb Hz H1 H2. apply C145_certificate in H1, H2; auto. congruence. Qed.
Print Assumptions C145_one_reading.
(** several certificates: such byte strings one after the other, in the order of the list *)
Theorem C145_certificates : forall net der l, bytes_ok der -> zlen der < 2 ^ 31 ->
  (ParseCertificates net der = Ret l <-> exists es, Forall2 (certificate net) es l /\ der = List.concat es).
Proof.
  intros net der l Hb Hz. assert (S : forall es, Forall bytes_ok es -> zlen (List.concat es) < 2 ^ 31 -> Forall (fun e => bytes_ok e /\ zlen e < 2 ^ 31) es).
  { clear. induction 1 as [|e es He _ IH]; intros Z; constructor; cbn [List.concat] in Z; rewrite zlen_app in Z; pose proof (zlen_nonneg e); pose proof (zlen_nonneg (List.concat es)); [split; [exact He|lia]|apply IH; lia]. }
  assert (B : forall es, bytes_ok (List.concat es) -> Forall bytes_ok es).
  { clear. induction es as [|e es IH]; intros H; constructor; cbn [List.concat] in H; apply bytes_ok_app in H as [H1 H2]; auto. }
  split.
  - intros E. apply PropertiesX509Cert.C71_exact in E as [E F]; [|exact Hb]. exists (map c_Raw l). split; [|exact E]. rewrite E in Hb, Hz. apply B in Hb. apply (S _ Hb) in Hz. clear - F Hz.
    induction F as [|c l Hc F IH]; cbn [map] in *; [constructor|]. inversion Hz as [|? ? [H1 H2] H3]; subst. constructor; [now apply C145_certificate|auto].
  - intros (es & F & ->). apply B in Hb. apply (S _ Hb) in Hz. apply PropertiesX509Cert.C71_concatenation; [exact Hb|]. clear - F Hz.
    induction F as [|e c es l He F IH]; [constructor|]. inversion Hz as [|? ? [H1 H2] H3]; subst. constructor; [now apply C145_certificate|auto].
Qed.
Print Assumptions C145_certificates.
Definition whole : bytes := PropertiesMemCert.der3.
Example C145_nonvacuous : bytes_ok whole /\ zlen whole < 2 ^ 31 /\
  (exists c, certificate PropertiesX509Create.noNet whole c /\ c_SerialNumber c = -300 /\ c_Version c = 3 /\ c_SignatureAlgorithm c <> 0) /\ forall c, ~ certificate PropertiesX509Create.noNet (whole ++ [0]) c.
Proof.
  assert (B : bytes_ok whole) by (apply bytes_okb_spec; vm_compute; reflexivity). assert (L : zlen whole < 2 ^ 31) by (vm_compute; reflexivity).
  assert (B' : bytes_ok (whole ++ [0])) by (apply bytes_okb_spec; vm_compute; reflexivity). assert (L' : zlen (whole ++ [0]) < 2 ^ 31) by (vm_compute; reflexivity).
  split; [exact B|]. split; [exact L|]. split.
  - assert (E : match ParseCertificate PropertiesX509Create.noNet whole with Ret c => (c_SerialNumber c =? -300) && (c_Version c =? 3) && negb (c_SignatureAlgorithm c =? 0) | _ => false end = true) by (vm_compute; reflexivity).
    destruct (ParseCertificate PropertiesX509Create.noNet whole) as [c| |] eqn:P; try discriminate E. exists c. split; [apply C145_certificate; auto|]. repeat rewrite Bool.andb_true_iff in E. lia.
  - intros c H. apply C145_certificate in H; [|exact B'|exact L'].
    assert (E : match ParseCertificate PropertiesX509Create.noNet (whole ++ [0]) with Ret c => false | _ => true end = true) by (vm_compute; reflexivity). rewrite H in E. discriminate E.
Qed.
