(** * Property C147 (x509: exactly which byte strings are PKCS#1 keys) *)
From Coq Require Import String.
From Verif Require Import Base Words CryptoByte ECSpec ECModel SM2Model Asn1 Asn1Proofs Asn1Safe KeysModel KeysProofs P12Enc X509Model X509Proofs X509ExtProofs X509CertProofs PropertiesKeys PropertiesKeysCurves PropertiesSpki PropertiesSec1.
From Coq Require Import ZifyBool ZifyNat.
Open Scope Z_scope.

(** ** Specification *)
(** an element with the identifier octet [t]: the octet, the shortest DER length, the content *)
Definition element (t : Z) (c e : bytes) : Prop := zlen c < 2 ^ 31 /\ e = tlv t c.
(** a number: INTEGER in its shortest two's complement form *)
Definition number (n : Z) (e : bytes) : Prop := element 2 (bigint_content n) e.
(** RFC 8017, A.1.1: SEQUENCE of modulus and public exponent; Go ignores what follows them inside *)
Definition pkcs1_public (n e : Z) (der : bytes) : Prop :=
  exists mod_ exp ignored, number n mod_ /\ number e exp /\ element 48 (mod_ ++ exp ++ ignored) der /\ 0 < n /\ 0 < e < 2 ^ 31.

(** ** Lemmas *)
Lemma f_big s v r : bytes_ok s -> (parseField cBig noP s = Ret (v, r) <-> exists n e, v = Some n /\ number n e /\ s = e ++ r).
Proof.
  intros Os. rewrite (field_exact cBig s v r eq_refl ltac:(cbn; unfold TagInteger; lia) Os). cbn [c_tag c_comp c_parse cBig prim]. change (0 + TagInteger) with 2. unfold number, element. split.
  - intros (body & -> & Hz & E). apply bytes_ok_app in Os as [Ot _]. apply tlv_ok_inv in Ot. destruct (checkASN1Integer body) eqn:C; [|discriminate E]. injection E as <-.
    pose proof (bigint_content_canonical body Ot C) as K. exists (bigint_of_content body), (tlv 2 body). rewrite <- K. auto.
  - intros (n & e & -> & [Hz ->] & ->). exists (bigint_content n). split; [reflexivity|]. split; [exact Hz|]. destruct (bigint_content_roundtrip n) as [C R]. now rewrite C, R.
Qed.
Lemma f_num s n r : bytes_ok s -> (parseField cInt noP s = Ret (n, r) <-> exists e, number n e /\ s = e ++ r /\ - 2 ^ 63 <= n < 2 ^ 63).
Proof.
  intros Os. rewrite (f_int s n r Os). unfold INTEGER, number, element. split.
  - intros (-> & Hn). exists (tlv 2 (bigint_content n)). pose proof (bigint_content_zlen n 8 ltac:(lia) ltac:(lia)). repeat split; lia.
  - intros (e & [_ ->] & -> & Hn). auto.
Qed.
Lemma pub_iff der v r : bytes_ok der -> (Unmarshal cP1Pub der = Ret (v, r) <->
  exists n e a b ign el, v = mkP1Pub (Some n) e /\ number n a /\ number e b /\ - 2 ^ 63 <= e < 2 ^ 63 /\ element 48 (a ++ b ++ ign) el /\ der = el ++ r).
Proof.
  intros Od. unfold Unmarshal. rewrite (field_exact cP1Pub der v r eq_refl ltac:(cbn; unfold TagSequence; lia) Od). cbn [c_tag c_comp c_parse cP1Pub cStruct]. change (32 + TagSequence) with 48. split.
  - intros (body & -> & Hz & E). apply bytes_ok_app in Od as [Ob _]. apply tlv_ok_inv in Ob. cbn [f_dec fcons fnil] in E.
    destruct (parseField cBig noP body) as [[x r1]| |] eqn:F1; cbn [bind] in E; try discriminate E.
    destruct (parseField cInt noP r1) as [[y r2]| |] eqn:F2; cbn [bind] in E; try discriminate E. injection E as <-.
    apply (f_big _ _ _ Ob) in F1 as (n & a & -> & Ha & ->). apply bytes_ok_app in Ob as [_ Ob]. apply (f_num _ _ _ Ob) in F2 as (b & Hb & -> & Hy).
    exists n, y, a, b, r2, (tlv 48 (a ++ b ++ r2)). unfold element at 1. auto 8.
  - intros (n & e & a & b & ign & el & -> & Ha & Hb & He & [Hz ->] & ->). exists (a ++ b ++ ign). split; [reflexivity|]. split; [exact Hz|].
    apply bytes_ok_app in Od as [Ob _]. apply tlv_ok_inv in Ob. cbn [f_dec fcons fnil].
    assert (F1 : parseField cBig noP (a ++ b ++ ign) = Ret (Some n, b ++ ign)) by (apply f_big; eauto). rewrite F1. cbn [bind]. apply bytes_ok_app in Ob as [_ Ob].
    assert (F2 : parseField cInt noP (b ++ ign) = Ret (e, ign)) by (apply f_num; eauto). rewrite F2. reflexivity.
Qed.
(** ** Theorems *)
Theorem C147_public : forall der n e, bytes_ok der -> (ParsePKCS1PublicKey der = Ret (n, e) <-> pkcs1_public n e der).
Proof.
  intros der n e Od. unfold ParsePKCS1PublicKey, pkcs1_public. split.
  - destruct (Unmarshal cP1Pub der) as [[v r]|er|] eqn:U; [|destruct (ok _); discriminate|discriminate]. destruct r; [|discriminate].
    apply (pub_iff _ _ _ Od) in U as (n' & e' & a & b & ign & el & -> & Ha & Hb & He & Hel & ->). cbn [p1p_N p1p_E]. rewrite app_nil_r.
    destruct (Z.leb_spec n' 0); [discriminate|]. destruct (Z.leb_spec e' 0); [discriminate|]. cbn [orb]. destruct (Z.ltb_spec (2 ^ 31 - 1) e'); [discriminate|]. intros [= <- <-].
    exists a, b, ign. repeat (split; [assumption|]). lia.
  - intros (a & b & ign & Ha & Hb & Hel & Hn & He). assert (U : Unmarshal cP1Pub der = Ret (mkP1Pub (Some n) e, [])).
    { apply (pub_iff _ _ _ Od). exists n, e, a, b, ign, der. rewrite app_nil_r. repeat (split; [first [reflexivity|assumption|lia]|]). reflexivity. }
    rewrite U. cbn [p1p_N p1p_E]. replace (n <=? 0) with false by lia. replace (e <=? 0) with false by lia. cbn [orb]. replace (2 ^ 31 - 1 <? e) with false by lia. reflexivity.
Qed.
Print Assumptions C147_public.
(** ** Private keys *)
(** an optional element is taken to be missing: nothing is left, or an element of another type is there *)
Definition missing (tag : Z) (comp : bool) (s : bytes) : Prop :=
  s = [] \/ exists t s1, header t /\ s = head_bytes t ++ s1 /\ ~ (t_class t = 0 /\ t_tag t = tag /\ t_comp t = comp).
(** [r] is what is left of [s] behind an optional number, which is not looked at *)
Definition optional_number (s r : bytes) : Prop := (r = s /\ missing 2 false s) \/ exists n e, number n e /\ s = e ++ r.
(** a prime beyond the first two: with its exponent and coefficient, which are not looked at *)
Definition other_prime (p : Z) (e : bytes) : Prop :=
  exists a x b y c ignored, number p a /\ number x b /\ number y c /\ element 48 (a ++ b ++ c ++ ignored) e.
Definition other_primes (l : list Z) (s : bytes) : Prop :=
  (l = [] /\ missing 16 true s) \/ exists es e ignored, Forall2 other_prime l es /\ element 48 (List.concat es) e /\ s = e ++ ignored.
(** RFC 8017, A.1.2; any version up to 1, even a negative one; the CRT values need not even be there *)
Definition pkcs1_private (k : rsaKey) (der : bytes) : Prop :=
  exists v n e d p q l bv bn be bd bp bq s s1 s2 s3, k = mkRsa n e d (p :: q :: l) /\
    number v bv /\ number n bn /\ number e be /\ number d bd /\ number p bp /\ number q bq /\ - 2 ^ 63 <= v <= 1 /\
    element 48 (bv ++ bn ++ be ++ bd ++ bp ++ bq ++ s) der /\
    optional_number s s1 /\ optional_number s1 s2 /\ optional_number s2 s3 /\ other_primes l s3 /\
    2 <= e < 2 ^ 31 /\ 0 < d /\ fold_left Z.mul (p :: q :: l) 1 = n /\ Forall (fun r => 1 < r /\ (e * d) mod (r - 1) = 1) (p :: q :: l).

Lemma opt_field {A} (c : codec A) p s a r : c_any c = false -> p_opt p = true -> p_exp p = false -> p_tag p = None -> p_set p = false -> p_def p = None -> bytes_ok s ->
  (parseField c p s = Ret (a, r) <-> (a = c_zero c /\ r = s /\ missing (c_tag c) (c_comp c) s) \/ parseField c noP s = Ret (a, r)).
Proof.
  intros Ha P1 P2 P3 P4 P5 Os. unfold parseField, parseFieldTail, setDefault, missing. rewrite P1, P2, P3, P4, P5, Ha. cbn [p_opt p_exp p_tag p_set p_def noP negb andb].
  destruct s as [|b s0] eqn:Ew.
  - split; [intros [= <- <-]; left; auto|]. intros [(-> & -> & _)|E]; [reflexivity|discriminate E].
  - rewrite <- Ew in *. assert (Ns : s <> []) by (rewrite Ew; discriminate). clear Ew. destruct (parseTagAndLength s) as [[t s1]|er|] eqn:ET; cbn [bind].
    + destruct (header_inv _ _ _ Os ET) as (Es & Hh). unfold ClassUniversal. match goal with |- ((if ?b then _ else _) = _ <-> _) => destruct b eqn:B end.
      * assert (M : ~ (t_class t = 0 /\ t_tag t = c_tag c /\ t_comp t = c_comp c)) by (intros (K1 & K2 & K3); rewrite K1, K2, K3, !Z.eqb_refl, Bool.eqb_reflx in B; discriminate B).
        split; [intros [= <- <-]; left; split; [reflexivity|]; split; [reflexivity|]; right; eauto|]. intros [(-> & -> & _)|E]; [reflexivity|discriminate E].
      * split; [auto|]. intros [(_ & _ & [K|(t' & s2 & Hh' & Es' & M)])|E]; [contradiction| |exact E]. exfalso. apply M. rewrite Es' in ET. rewrite (header_parse _ _ Hh') in ET. injection ET as <- <-.
        apply orb_false_iff in B as [B B3]. apply orb_false_iff in B as [B1 B2]. apply negb_false_iff in B1, B2, B3. apply Z.eqb_eq in B1, B2. apply eqb_prop in B3. auto.
    + split; [discriminate|]. intros [(_ & _ & [K|(t' & s2 & Hh' & Es' & _)])|E]; [contradiction| |discriminate E]. rewrite Es', (header_parse _ _ Hh') in ET. discriminate ET.
    + split; [discriminate|]. intros [(_ & _ & [K|(t' & s2 & Hh' & Es' & _)])|E]; [contradiction| |discriminate E]. rewrite Es', (header_parse _ _ Hh') in ET. discriminate ET.
Qed.
Lemma opt_num_iff s r : bytes_ok s -> ((exists v, parseField cBig optP s = Ret (v, r)) <-> optional_number s r).
Proof.
  intros Os. unfold optional_number. split.
  - intros (v & E). apply opt_field in E as [(_ & -> & M)|E]; try reflexivity; auto. apply (f_big _ _ _ Os) in E as (n & e & _ & H & ->). right. eauto.
  - intros [(-> & M)|(n & e & H & ->)].
    + exists None. apply opt_field; try reflexivity; auto.
    + exists (Some n). apply opt_field; try reflexivity; auto. right. apply (f_big _ _ _ Os). eauto.
Qed.
(** repeated elements *)
Definition one {A} (c : codec A) (a : A) (e : bytes) : Prop :=
  exists body, e = tlv ((if c_comp c then 32 else 0) + c_tag c) body /\ zlen body < 2 ^ 31 /\
    c_parse c (mkTL 0 (c_tag c) (zlen body) (c_comp c)) (tlv ((if c_comp c then 32 else 0) + c_tag c) body) body = Ret a.
Lemma one_field {A} (c : codec A) s a r : c_any c = false -> 0 <= c_tag c <= 30 -> bytes_ok s -> (parseField c noP s = Ret (a, r) <-> exists e, one c a e /\ s = e ++ r).
Proof.
  intros Ha Ht Os. rewrite (field_exact c s a r Ha Ht Os). unfold one. split.
  - intros (body & -> & H). eauto.
  - intros (e & (body & -> & H) & ->). eauto.
Qed.
Lemma tlv_head {A} (c : codec A) body r : 0 <= c_tag c <= 30 -> zlen body < 2 ^ 31 ->
  parseTagAndLength (tlv ((if c_comp c then 32 else 0) + c_tag c) body ++ r) = Ret (mkTL 0 (c_tag c) (zlen body) (c_comp c), body ++ r).
Proof. intros Ht Hz. rewrite (tlv_el _ _ _ Ht Hz). unfold el. rewrite <- app_assoc. apply hdr_parse; [lia|unfold maxInt32; lia|pose proof (zlen_nonneg body); lia]. Qed.
Lemma tlv_ne t body : tlv t body <> []. Proof. unfold tlv. discriminate. Qed.
Lemma count_step {A} (c : codec A) fuel body r : c_any c = false -> 0 <= c_tag c <= 30 -> zlen body < 2 ^ 31 ->
  count_elems c (S fuel) (tlv ((if c_comp c then 32 else 0) + c_tag c) body ++ r) = (do n <- count_elems c fuel r; Ret (S n)).
Proof.
  intros Ha Ht Hz. cbn [count_elems]. rewrite (tlv_head c body r Ht Hz). destruct (tlv _ body ++ r) as [|x y] eqn:Ex; [apply app_eq_nil in Ex as [Ex _]; now apply tlv_ne in Ex|].
  cbn [bind t_class t_tag t_len t_comp]. rewrite Ha. unfold ClassUniversal. rewrite !Z.eqb_refl, Bool.eqb_reflx. cbn [negb andb orb].
  replace (zlen (body ++ r) <? zlen body) with false by (rewrite zlen_app; pose proof (zlen_nonneg r); lia).
  unfold zlen. rewrite Nat2Z.id, skipn_app, skipn_all, Nat.sub_diag. reflexivity.
Qed.
Lemma elems_iff {A} (c : codec A) l : c_any c = false -> 0 <= c_tag c <= 30 -> forall s, bytes_ok s ->
  ((exists n, count_elems c (List.length s) s = Ret n /\ parse_elems c n s = Ret l) <-> exists es, Forall2 (one c) l es /\ s = List.concat es).
Proof.
  intros Ha Ht s Os. split.
  - intros (n & E1 & E2). assert (G : forall fuel s n l, bytes_ok s -> (List.length s <= fuel)%nat -> count_elems c fuel s = Ret n -> parse_elems c n s = Ret l -> exists es, Forall2 (one c) l es /\ s = List.concat es).
    { clear s n l Os E1 E2. induction fuel as [|fuel IH]; intros s n l Os L E1 E2.
      - destruct s; [|cbn in L; lia]. cbn in E1. injection E1 as <-. cbn in E2. injection E2 as <-. exists []. auto.
      - destruct (bytes_eqb s []) eqn:Es; [apply bytes_eqb_spec in Es; subst s; cbn in E1; injection E1 as <-; cbn in E2; injection E2 as <-; exists []; auto|].
        destruct n as [|n].
        { exfalso. cbn [count_elems] in E1. destruct s as [|x y]; [discriminate Es|]. destruct (parseTagAndLength _) as [[t r]| |]; cbn [bind] in E1; try discriminate E1.
          destruct (_ && _) in E1; [discriminate E1|]. destruct (_ <? _) in E1; [discriminate E1|]. destruct (count_elems c fuel _); discriminate E1. }
        cbn [parse_elems] in E2. destruct (parseField c noP s) as [[a r]| |] eqn:F; cbn [bind] in E2; try discriminate E2.
        destruct (parse_elems c n r) as [l'| |] eqn:F2; cbn [bind] in E2; try discriminate E2. injection E2 as <-.
        apply (one_field c s a r Ha Ht Os) in F as (e & He & ->). pose proof He as (body & Eb & Hz & _). rewrite Eb in E1. rewrite (count_step c fuel body r Ha Ht Hz) in E1.
        destruct (count_elems c fuel r) as [m| |] eqn:C; cbn [bind] in E1; try discriminate E1. injection E1 as <-.
        assert (Ne : e <> []) by (rewrite Eb; apply tlv_ne). apply bytes_ok_app in Os as [_ Or].
        destruct (IH r m l' Or ltac:(rewrite app_length in L; destruct e; [congruence|cbn in L; lia]) C F2) as (es & Fs & ->). exists (e :: es). split; [constructor; auto|reflexivity]. }
    eapply G; [exact Os| |exact E1|exact E2]. lia.
  - intros (es & F & ->). exists (List.length l). assert (G : forall fuel, (List.length (List.concat es) <= fuel)%nat -> count_elems c fuel (List.concat es) = Ret (List.length l) /\ parse_elems c (List.length l) (List.concat es) = Ret l).
    { induction F as [|a e l es He F IH]; intros fuel L; [split; [destruct fuel; reflexivity|reflexivity]|]. cbn [List.concat List.length] in *. pose proof Os as O2. apply bytes_ok_app in O2 as [_ O2]. pose proof He as (body & Eb & Hz & _).
      assert (Ne : e <> []) by (rewrite Eb; apply tlv_ne). rewrite app_length in L. destruct fuel as [|fuel]; [destruct e; [congruence|cbn in L; lia]|].
      destruct (IH O2 fuel ltac:(destruct e; [congruence|cbn in L; lia])) as [I1 I2]. split.
      - rewrite Eb. rewrite (count_step c fuel body _ Ha Ht Hz), I1. reflexivity.
      - cbn [parse_elems]. rewrite (proj2 (one_field c _ a (List.concat es) Ha Ht Os)) by eauto. cbn [bind]. rewrite I2. reflexivity. }
    apply G. lia.
Qed.
Lemma ap_iff a e : bytes_ok e -> (one cAP a e <-> exists p b, ap_Prime a = Some p /\ a = mkAP (Some p) (ap_Exp a) (ap_Coeff a) /\ b = a /\ exists x y ea eb ec ig, ap_Exp a = Some x /\ ap_Coeff a = Some y /\ number p ea /\ number x eb /\ number y ec /\ element 48 (ea ++ eb ++ ec ++ ig) e).
Proof.
  intros Oe. unfold one. cbn [c_comp c_tag c_parse cAP cStruct]. change (32 + TagSequence) with 48. split.
  - intros (body & -> & Hz & E). apply tlv_ok_inv in Oe. cbn [f_dec fcons fnil] in E.
    destruct (parseField cBig noP body) as [[v1 r1]| |] eqn:F1; cbn [bind] in E; try discriminate E.
    destruct (parseField cBig noP r1) as [[v2 r2]| |] eqn:F2; cbn [bind] in E; try discriminate E.
    destruct (parseField cBig noP r2) as [[v3 r3]| |] eqn:F3; cbn [bind] in E; try discriminate E. injection E as <-.
    apply (f_big _ _ _ Oe) in F1 as (p & ea & -> & Ha & ->). apply bytes_ok_app in Oe as [_ Oe]. apply (f_big _ _ _ Oe) in F2 as (x & eb & -> & Hb & ->). apply bytes_ok_app in Oe as [_ Oe].
    apply (f_big _ _ _ Oe) in F3 as (y & ec & -> & Hc & ->). eexists _, _. split; [reflexivity|]. split; [reflexivity|]. split; [reflexivity|]. exists x, y, ea, eb, ec, r3. unfold element at 1. auto 8.
  - intros (p & b & _ & Ea & _ & (x & y & ea & eb & ec & ig & E1 & E2 & Ha & Hb & Hc & [Hz ->])). exists (ea ++ eb ++ ec ++ ig). split; [reflexivity|]. split; [exact Hz|].
    apply tlv_ok_inv in Oe. cbn [f_dec fcons fnil]. rewrite (proj2 (f_big (ea ++ _) (Some p) (eb ++ ec ++ ig) Oe)) by eauto. apply bytes_ok_app in Oe as [_ Oe]. cbn [bind].
    rewrite (proj2 (f_big (eb ++ _) (Some x) (ec ++ ig) Oe)) by eauto. apply bytes_ok_app in Oe as [_ Oe]. cbn [bind].
    rewrite (proj2 (f_big (ec ++ _) (Some y) ig Oe)) by eauto. cbn [bind]. rewrite Ea, E1, E2. reflexivity.
Qed.
(** the list of primes at the end *)
Definition primes_of (v : option (list additionalPrime)) : list additionalPrime := match v with Some l => l | None => [] end.
Lemma adds_iff s l : bytes_ok s -> ((exists v r, parseField (cSeqOf false cAP) omitP s = Ret (v, r) /\ map ap_Prime (primes_of v) = map Some l) <-> other_primes l s).
Proof.
  intros Os. unfold other_primes. split.
  - intros (v & r & E & M). apply opt_field in E as [(-> & -> & Mi)|E]; try reflexivity; [| |exact Os].
    + left. split; [destruct l; [reflexivity|discriminate M]|exact Mi].
    + right. rewrite (field_exact (cSeqOf false cAP) s v r eq_refl ltac:(cbn; unfold TagSequence; lia) Os) in E. cbn [c_comp c_tag c_parse cSeqOf] in E. change (32 + TagSequence) with 48 in E.
      destruct E as (body & -> & Hz & E). apply bytes_ok_app in Os as [Ob _]. apply tlv_ok_inv in Ob.
      destruct (count_elems cAP _ body) as [n| |] eqn:C; cbn [bind] in E; try discriminate E. destruct (parse_elems cAP n body) as [l'| |] eqn:Pe; cbn [bind] in E; try discriminate E. injection E as <-.
      destruct (proj1 (elems_iff cAP l' eq_refl ltac:(cbn; unfold TagSequence; lia) body Ob)) as (es & F & ->); [eauto|]. cbn [primes_of] in M.
      exists es, (tlv 48 (List.concat es)), r. split; [|split; [split; [exact Hz|reflexivity]|reflexivity]]. clear - F M Ob. revert l M. induction F as [|a e l' es He F IH]; intros l M; destruct l as [|p l]; try discriminate M; constructor.
      * cbn [map] in M. injection M as M1 M2. cbn [List.concat] in Ob. apply bytes_ok_app in Ob as [Oe _]. apply (ap_iff a e Oe) in He as (p' & b & E1 & _ & _ & (x & y & ea & eb & ec & ig & _ & _ & Ha & Hb & Hc & He)).
        assert (p' = p) by congruence. subst p'. exists ea, x, eb, y, ec, ig. auto.
      * cbn [map] in M. injection M as _ M2. cbn [List.concat] in Ob. apply bytes_ok_app in Ob as [_ Ob]. apply IH; auto.
  - intros [(-> & M)|(es & e & ig & F & [Hz ->] & ->)].
    + exists None, s. split; [|reflexivity]. apply opt_field; try reflexivity; [exact Os|]. left. auto.
    + pose proof Os as Ob. apply bytes_ok_app in Ob as [Ob _]. apply tlv_ok_inv in Ob.
      assert (G : exists l', Forall2 (one cAP) l' es /\ map ap_Prime l' = map Some l).
      { clear - F Ob. induction F as [|p e l es He F IH]; [exists []; auto|]. cbn [List.concat] in Ob. apply bytes_ok_app in Ob as [Oe Ob]. destruct (IH Ob) as (l' & F' & M). destruct He as (a & x & b & y & c & ig & Ha & Hb & Hc & He).
        exists (mkAP (Some p) (Some x) (Some y) :: l'). split; [|cbn [map ap_Prime]; now rewrite M]. constructor; [|exact F']. apply (ap_iff _ e Oe). exists p, (mkAP (Some p) (Some x) (Some y)). cbn [ap_Prime ap_Exp ap_Coeff].
        split; [reflexivity|]. split; [reflexivity|]. split; [reflexivity|]. exists x, y, a, b, c, ig. auto 8. }
      destruct G as (l' & F' & M). exists (Some l'), ig. split; [|exact M]. apply opt_field; try reflexivity; [exact Os|]. right.
      rewrite (field_exact (cSeqOf false cAP) _ _ ig eq_refl ltac:(cbn; unfold TagSequence; lia) Os). cbn [c_comp c_tag c_parse cSeqOf]. change (32 + TagSequence) with 48. exists (List.concat es). split; [reflexivity|]. split; [exact Hz|].
      destruct (proj2 (elems_iff cAP l' eq_refl ltac:(cbn; unfold TagSequence; lia) (List.concat es) Ob)) as (n & C & Pe); [eauto|]. rewrite C. cbn [bind]. rewrite Pe. reflexivity.
Qed.
Lemma add_primes_iff l' ps : additional_primes l' = Ret ps <-> map ap_Prime l' = map Some ps /\ Forall (fun p => 0 < p) ps.
Proof.
  revert ps. induction l' as [|a l' IH]; intros ps; cbn [additional_primes map].
  - split; [intros [= <-]; split; [reflexivity|constructor]|]. intros [M _]. destruct ps; [reflexivity|discriminate M].
  - destruct (ap_Prime a) as [p|].
    + destruct (Z.leb_spec p 0).
      * split; [discriminate|]. intros [M F]. destruct ps as [|q ps]; [discriminate M|]. injection M as <- _. inversion F. lia.
      * destruct (additional_primes l') as [qs|er|] eqn:E; cbn [bind].
        -- split; [intros [= <-]|].
           ++ destruct (proj1 (IH qs) eq_refl) as [M F]. split; [cbn [map]; now rewrite M|constructor; auto].
           ++ intros [M F]. destruct ps as [|q ps]; [discriminate M|]. injection M as <- M. inversion F; subst. f_equal. f_equal. assert (K : Ret qs = Ret ps) by (apply IH; auto). congruence.
        -- split; [discriminate|]. intros [M F]. destruct ps as [|q ps]; [discriminate M|]. injection M as <- M. inversion F; subst. assert (K : @Err (list Z) er = Ret ps) by (apply IH; auto). discriminate K.
        -- split; [discriminate|]. intros [M F]. destruct ps as [|q ps]; [discriminate M|]. injection M as <- M. inversion F; subst. assert (K : @Panic (list Z) = Ret ps) by (apply IH; auto). discriminate K.
    + split; [discriminate|]. intros [M _]. destruct ps; discriminate M.
Qed.
Lemma fold_left_zprod l : fold_left Z.mul l 1 = zprod l. Proof. rewrite fold_mul. lia. Qed.
Theorem C147_private : forall der k, bytes_ok der -> (ParsePKCS1PrivateKey der = Ret k <-> pkcs1_private k der).
Proof.
  intros der k Od. unfold ParsePKCS1PrivateKey, pkcs1_private. split.
  - destruct (Unmarshal cP1 der) as [[v rest]|er|] eqn:U; [|destruct (ok _); [discriminate|]; destruct (ok _); discriminate|discriminate]. destruct rest; [|discriminate]. intros E.
    unfold Unmarshal in U. rewrite (field_exact cP1 der v [] eq_refl ltac:(cbn; unfold TagSequence; lia) Od) in U. cbn [c_tag c_comp c_parse cP1 cStruct] in U. change (32 + TagSequence) with 48 in U.
    destruct U as (body & Ed & Hz & U). rewrite app_nil_r in Ed. pose proof Od as Ob. rewrite Ed in Ob. apply tlv_ok_inv in Ob. cbn [f_dec fcons fnil] in U.
    destruct (parseField cInt noP body) as [[v0 s0]| |] eqn:F0; cbn [bind] in U; try discriminate U.
    destruct (parseField cBig noP s0) as [[v1 s1]| |] eqn:F1; cbn [bind] in U; try discriminate U.
    destruct (parseField cInt noP s1) as [[v2 s2]| |] eqn:F2; cbn [bind] in U; try discriminate U.
    destruct (parseField cBig noP s2) as [[v3 s3]| |] eqn:F3; cbn [bind] in U; try discriminate U.
    destruct (parseField cBig noP s3) as [[v4 s4]| |] eqn:F4; cbn [bind] in U; try discriminate U.
    destruct (parseField cBig noP s4) as [[v5 s5]| |] eqn:F5; cbn [bind] in U; try discriminate U.
    destruct (parseField cBig optP s5) as [[v6 s6]| |] eqn:F6; cbn [bind] in U; try discriminate U.
    destruct (parseField cBig optP s6) as [[v7 s7]| |] eqn:F7; cbn [bind] in U; try discriminate U.
    destruct (parseField cBig optP s7) as [[v8 s8]| |] eqn:F8; cbn [bind] in U; try discriminate U.
    destruct (parseField (cSeqOf false cAP) omitP s8) as [[v9 s9]| |] eqn:F9; cbn [bind] in U; try discriminate U. injection U as <-.
    cbn [p1_Version p1_N p1_E p1_D p1_P p1_Q p1_Add] in E.
    apply (f_num _ _ _ Ob) in F0 as (bv & Bv & -> & Rv). apply bytes_ok_app in Ob as [_ Ob].
    apply (f_big _ _ _ Ob) in F1 as (n & bn & -> & Bn & ->). apply bytes_ok_app in Ob as [_ Ob].
    apply (f_num _ _ _ Ob) in F2 as (be & Be & -> & Re). apply bytes_ok_app in Ob as [_ Ob].
    apply (f_big _ _ _ Ob) in F3 as (d & bd & -> & Bd & ->). apply bytes_ok_app in Ob as [_ Ob].
    apply (f_big _ _ _ Ob) in F4 as (p & bp & -> & Bp & ->). apply bytes_ok_app in Ob as [_ Ob].
    apply (f_big _ _ _ Ob) in F5 as (q & bq & -> & Bq & ->). apply bytes_ok_app in Ob as [_ Ob].
    assert (Suf : forall s r, bytes_ok s -> optional_number s r -> bytes_ok r) by (intros s r O [(-> & _)|(? & ? & _ & ->)]; [exact O|apply bytes_ok_app in O; tauto]).
    assert (O6 : optional_number s5 s6) by (apply (opt_num_iff s5 s6 Ob); eauto). pose proof (Suf _ _ Ob O6) as Ob6.
    assert (O7 : optional_number s6 s7) by (apply (opt_num_iff s6 s7 Ob6); eauto). pose proof (Suf _ _ Ob6 O7) as Ob7.
    assert (O8 : optional_number s7 s8) by (apply (opt_num_iff s7 s8 Ob7); eauto). pose proof (Suf _ _ Ob7 O8) as Ob8.
    destruct (Z.ltb_spec 1 v0); [discriminate E|]. destruct (_ || _) eqn:Bz in E; [discriminate E|]. bs E ps A. fold (primes_of v9) in A. apply add_primes_iff in A as [M _].
    cbv zeta in E. destruct (rsa_Validate _) eqn:V in E; [discriminate E|]. injection E as <-. apply rsa_Validate_spec in V as (V1 & V2 & V3 & V4). cbn [rsa_E rsa_Primes rsa_N rsa_D] in *.
    exists v0, n, v2, d, p, q, ps, bv, bn, be, bd, bp, bq, s5, s6, s7, s8. split; [reflexivity|]. repeat (split; [assumption|]). split; [lia|]. split; [split; [exact Hz|exact Ed]|].
    split; [exact O6|]. split; [exact O7|]. split; [exact O8|]. split; [apply (adds_iff s8 ps Ob8); eauto|]. split; [exact V1|]. split; [lia|]. split; [rewrite fold_left_zprod; exact V3|].
    clear - V2 V4. rewrite Forall_forall in *. auto.
  - intros (v & n & e & d & p & q & l & bv & bn & be & bd & bp & bq & s & s1 & s2 & s3 & -> & Bv & Bn & Be & Bd & Bp & Bq & Rv & [Hz Ed] & O1 & O2 & O3 & Ad & He & Hd & Hp & Hf).
    pose proof Od as Ob. rewrite Ed in Ob. apply tlv_ok_inv in Ob.
    assert (Suf : forall s r, bytes_ok s -> optional_number s r -> bytes_ok r) by (intros s0 r O [(-> & _)|(? & ? & _ & ->)]; [exact O|apply bytes_ok_app in O; tauto]).
    assert (U : exists dp dq qi v9, Unmarshal cP1 der = Ret (mkP1 v (Some n) e (Some d) (Some p) (Some q) dp dq qi v9, []) /\ map ap_Prime (primes_of v9) = map Some l).
    { assert (F0 : parseField cInt noP (bv ++ bn ++ be ++ bd ++ bp ++ bq ++ s) = Ret (v, bn ++ be ++ bd ++ bp ++ bq ++ s)) by (apply f_num; [exact Ob|]; exists bv; repeat split; try assumption; try apply Bv; lia). apply bytes_ok_app in Ob as [_ Ob].
      assert (F1 : parseField cBig noP (bn ++ be ++ bd ++ bp ++ bq ++ s) = Ret (Some n, be ++ bd ++ bp ++ bq ++ s)) by (apply f_big; [exact Ob|]; eauto). apply bytes_ok_app in Ob as [_ Ob].
      assert (F2 : parseField cInt noP (be ++ bd ++ bp ++ bq ++ s) = Ret (e, bd ++ bp ++ bq ++ s)) by (apply f_num; [exact Ob|]; exists be; split; [exact Be|split; [reflexivity|lia]]). apply bytes_ok_app in Ob as [_ Ob].
      assert (F3 : parseField cBig noP (bd ++ bp ++ bq ++ s) = Ret (Some d, bp ++ bq ++ s)) by (apply f_big; [exact Ob|]; eauto). apply bytes_ok_app in Ob as [_ Ob].
      assert (F4 : parseField cBig noP (bp ++ bq ++ s) = Ret (Some p, bq ++ s)) by (apply f_big; [exact Ob|]; eauto). apply bytes_ok_app in Ob as [_ Ob].
      assert (F5 : parseField cBig noP (bq ++ s) = Ret (Some q, s)) by (apply f_big; [exact Ob|]; eauto). apply bytes_ok_app in Ob as [_ Ob].
      pose proof (Suf _ _ Ob O1) as Ob1. pose proof (Suf _ _ Ob1 O2) as Ob2. pose proof (Suf _ _ Ob2 O3) as Ob3.
      apply (opt_num_iff s s1 Ob) in O1 as (dp & F6). apply (opt_num_iff s1 s2 Ob1) in O2 as (dq & F7). apply (opt_num_iff s2 s3 Ob2) in O3 as (qi & F8). apply (adds_iff s3 l Ob3) in Ad as (v9 & r & F9 & M).
      exists dp, dq, qi, v9. split; [|exact M]. unfold Unmarshal. rewrite (field_exact cP1 der _ [] eq_refl ltac:(cbn; unfold TagSequence; lia) Od). cbn [c_tag c_comp c_parse cP1 cStruct]. change (32 + TagSequence) with 48.
      eexists. split; [rewrite app_nil_r; exact Ed|]. split; [exact Hz|]. cbn [f_dec fcons fnil]. rewrite F0. cbn [bind]. rewrite F1. cbn [bind]. rewrite F2. cbn [bind]. rewrite F3. cbn [bind]. rewrite F4. cbn [bind]. rewrite F5. cbn [bind].
      rewrite F6. cbn [bind]. rewrite F7. cbn [bind]. rewrite F8. cbn [bind]. rewrite F9. reflexivity. }
    destruct U as (dp & dq & qi & v9 & U & M). rewrite U. cbn [p1_Version p1_N p1_E p1_D p1_P p1_Q p1_Add]. replace (1 <? v) with false by lia.
    rewrite fold_left_zprod in Hp. assert (Hf1 : Forall (fun r => 1 < r) (p :: q :: l)) by (eapply Forall_impl; [|exact Hf]; cbv beta; tauto). assert (Hf2 : Forall (fun r => (e * d) mod (r - 1) = 1) (p :: q :: l)) by (eapply Forall_impl; [|exact Hf]; cbv beta; tauto).
    pose proof (zprod_pos _ Hf1) as Hn. rewrite Hp in Hn. pose proof Hf1 as Hf3. inversion Hf3 as [|? ? P1 Hf4]; subst. inversion Hf4 as [|? ? P2 P3]; subst.
    replace ((zprod (p :: q :: l) <=? 0) || (d <=? 0) || (p <=? 0) || (q <=? 0)) with false by (set (z := zprod _) in *; clearbody z; lia).
    fold (primes_of v9). assert (A : additional_primes (primes_of v9) = Ret l) by (apply add_primes_iff; split; [exact M|eapply Forall_impl; [|exact P3]; cbv beta; lia]). rewrite A. cbn [bind]. cbv zeta.
    match goal with |- match rsa_Validate ?kk with _ => _ end = _ => assert (V : rsa_Validate kk = None) end.
    { apply rsa_Validate_spec. cbn [rsa_E rsa_Primes rsa_N rsa_D]. auto. }
    rewrite V. reflexivity.
Qed.
Print Assumptions C147_private.
(** 33 = 3 * 11, 7 * 3 = 1 modulo 2 and 10; no CRT values at all, and a version of -1 *)
Definition bare : bytes := [48; 18; 2; 1; 255; 2; 1; 33; 2; 1; 7; 2; 1; 3; 2; 1; 3; 2; 1; 11].
(** 759 = 3 * 11 * 23, two CRT values only, the third prime, and a byte after it *)
Definition three : bytes := [48; 39; 2; 1; 1; 2; 2; 2; 247; 2; 1; 7; 2; 1; 63; 2; 1; 3; 2; 1; 11; 2; 1; 1; 2; 1; 3; 48; 11; 48; 9; 2; 1; 23; 2; 1; 0; 2; 1; 0; 9].
Example C147_nonvacuous : pkcs1_public 33 7 [48; 7; 2; 1; 33; 2; 1; 7; 99] /\ ~ pkcs1_public 33 7 [48; 8; 2; 2; 0; 33; 2; 1; 7; 0] /\
  pkcs1_private (mkRsa 33 7 3 [3; 11]) bare /\ pkcs1_private (mkRsa 759 7 63 [3; 11; 23]) three /\ forall k, ~ pkcs1_private k (bare ++ [0]).
Proof.
  assert (B1 : bytes_ok bare) by (apply bytes_okb_spec; reflexivity). assert (B2 : bytes_ok (bare ++ [0])) by (apply bytes_okb_spec; reflexivity). assert (B3 : bytes_ok three) by (apply bytes_okb_spec; reflexivity).
  split; [apply C147_public; [apply bytes_okb_spec; reflexivity|vm_compute; reflexivity]|].
  split; [intros K; apply C147_public in K; [vm_compute in K; discriminate K|apply bytes_okb_spec; reflexivity]|].
  split; [apply C147_private; [exact B1|vm_compute; reflexivity]|].
  split; [apply C147_private; [exact B3|vm_compute; reflexivity]|].
  intros k K. apply C147_private in K; [vm_compute in K; discriminate K|exact B2].
Qed.
