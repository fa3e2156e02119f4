(** * Revocation lists and requests: encoding followed by decoding *)
From Coq Require Import String Permutation Sorted ZifyBool.
From Verif Require Import Base Words Utf8 ECModel SM3Model SM2Model CryptoByte Asn1 Asn1Proofs Asn1Safe KeysModel KeysProofs P12Enc X509Model X509Sig X509Build X509StrProofs X509ExtProofs X509CertProofs PropertiesX509Sig Pkcs7Proofs X509Crl.
Open Scope Z_scope.

(** ** times *)
(** a date and time of the calendar, in UTC, with a four-digit year *)
Definition valid_civil (t : civil) : Prop :=
  0 <= t_Year t <= 9999 /\ 1 <= t_Month t <= 12 /\ 1 <= t_Day t <= days_in (t_Month t) (t_Year t) /\
  0 <= t_Hour t < 24 /\ 0 <= t_Min t < 60 /\ 0 <= t_Sec t < 60 /\ t_Off t = 0.
Lemma two_rt v r : 0 <= v < 100 -> two (two_digits v ++ r) = Some (v, r).
Proof.
  intros H. unfold two_digits, two. cbn [app]. unfold digit.
  pose proof (Z.div_mod v 10 ltac:(lia)) as D. pose proof (Z.mod_pos_bound v 10 ltac:(lia)).
  assert (0 <= v / 10 < 10) by (split; [apply Z.div_pos; lia|apply Z.div_lt_upper_bound; lia]).
  rewrite (Z.mod_small (v / 10) 10) by lia.
  replace ((48 <=? 48 + v / 10) && (48 + v / 10 <=? 57)) with true by lia.
  replace ((48 <=? 48 + v mod 10) && (48 + v mod 10 <=? 57)) with true by lia. f_equal. f_equal. lia.
Qed.
Lemma days_bound m y : days_in m y <= 31. Proof. unfold days_in. destruct (m =? 2); [destruct (is_leap y)|destruct (_ || _)]; lia. Qed.
Lemma after_year_rt t y : valid_civil t -> y = t_Year t -> parse_after_year y true (time_common t) = Some t.
Proof.
  intros (Hy & Hm & Hd & Hh & Hi & Hs & Ho) ->. pose proof (days_bound (t_Month t) (t_Year t)). unfold parse_after_year, time_common.
  rewrite !two_rt by lia. cbn [zone]. change (90 =? 90) with true. cbn iota.
  replace ((1 <=? t_Month t) && (t_Month t <=? 12) && (1 <=? t_Day t) && (t_Day t <=? days_in (t_Month t) (t_Year t)) && (t_Hour t <? 24) && (t_Min t <? 60) && (t_Sec t <? 60)) with true by lia.
  destruct t; cbn in *. subst. reflexivity.
Qed.
Lemma after_year_short t y : valid_civil t -> parse_after_year y false (time_common t) = None.
Proof.
  intros (Hy & Hm & Hd & Hh & Hi & Hs & Ho). pose proof (days_bound (t_Month t) (t_Year t)). unfold parse_after_year, time_common.
  rewrite !two_rt by lia. unfold two_digits. cbn [app zone]. unfold two. cbn [digit]. unfold digit. change ((48 <=? 90) && (90 <=? 57)) with false.
  destruct (_ && _); reflexivity.
Qed.
(** the contents of the encoding *)
Definition time_body (t : civil) : bytes :=
  (if (t_Year t <? 1950) || (2050 <=? t_Year t) then two_digits (t_Year t / 100) ++ two_digits (t_Year t mod 100)
   else two_digits (if t_Year t <? 2000 then t_Year t - 1900 else t_Year t - 2000)) ++ time_common t.
Definition time_tag (t : civil) : Z := if (t_Year t <? 1950) || (2050 <=? t_Year t) then 24 else 23.
Lemma marshalTime_el t : 0 <= t_Year t <= 9999 -> marshalTime t = Ret (el 0 (time_tag t) false (time_body t)).
Proof.
  intros H. unfold marshalTime, time_tag, time_body, el. destruct ((t_Year t <? 1950) || (2050 <=? t_Year t)).
  - replace ((t_Year t <? 0) || (9999 <? t_Year t)) with false by lia. rewrite <- app_assoc. reflexivity.
  - reflexivity.
Qed.
Lemma marshalTime_inv t bs : marshalTime t = Ret bs -> 0 <= t_Year t <= 9999.
Proof.
  unfold marshalTime. destruct (Z.ltb_spec (t_Year t) 1950); destruct (Z.leb_spec 2050 (t_Year t)); cbn [orb]; try lia;
  (destruct ((t_Year t <? 0) || (9999 <? t_Year t)) eqn:E; [discriminate|]; lia).
Qed.
Lemma time_body_utc t : valid_civil t -> time_tag t = 23 -> parse_utc false (time_body t) = None /\ exists t', parse_utc true (time_body t) = Some t' /\
  (if 2050 <=? t_Year t' then mkCivil (t_Year t' - 100) (t_Month t') (t_Day t') (t_Hour t') (t_Min t') (t_Sec t') (t_Off t') else t') = t.
Proof.
  intros V Ht. assert (Hy : 1950 <= t_Year t < 2050) by (unfold time_tag in Ht; destruct ((t_Year t <? 1950) || (2050 <=? t_Year t)) eqn:E; lia).
  unfold time_body. replace ((t_Year t <? 1950) || (2050 <=? t_Year t)) with false by lia. unfold parse_utc.
  rewrite !two_rt by (destruct (Z.ltb_spec (t_Year t) 2000); lia). split; [now apply after_year_short|].
  destruct (Z.ltb_spec (t_Year t) 2000) as [L|L].
  - destruct (Z.leb_spec 69 (t_Year t - 1900)) as [M|M].
    + exists t. split; [apply after_year_rt; [exact V|lia]|]. replace (2050 <=? t_Year t) with false by lia. reflexivity.
    + set (t' := mkCivil (t_Year t + 100) (t_Month t) (t_Day t) (t_Hour t) (t_Min t) (t_Sec t) (t_Off t)).
      assert (D : days_in (t_Month t) (t_Year t + 100) = days_in (t_Month t) (t_Year t)).
      { unfold days_in. destruct (t_Month t =? 2); [|reflexivity]. unfold is_leap. 
        replace (t_Year t + 100) with (t_Year t + 25 * 4) by lia. rewrite Z.mod_add by lia. replace (t_Year t + 25 * 4) with (t_Year t + 1 * 100) by lia. rewrite Z.mod_add by lia.
        assert (t_Year t mod 100 <> 0). { replace (t_Year t) with ((t_Year t - 1900) + 19 * 100) by lia. rewrite Z.mod_add by lia. rewrite Z.mod_small by lia. lia. }
        replace (t_Year t mod 100 =? 0) with false by lia. reflexivity. }
      exists t'. split.
      * replace (time_common t) with (time_common t') by reflexivity. apply after_year_rt; [|unfold t'; cbn [t_Year]; lia].
        destruct V as (V1 & V2 & V3 & V4). unfold valid_civil, t'. cbn [t_Year t_Month t_Day t_Hour t_Min t_Sec t_Off]. rewrite D. split; [lia|]. split; [exact V2|]. split; [exact V3|exact V4].
      * unfold t'. cbn [t_Year t_Month t_Day t_Hour t_Min t_Sec t_Off]. replace (2050 <=? t_Year t + 100) with true by lia. destruct t; cbn in *. f_equal. lia.
  - exists t. replace (69 <=? t_Year t - 2000) with false by lia. split; [apply after_year_rt; [exact V|lia]|]. replace (2050 <=? t_Year t) with false by lia. reflexivity.
Qed.
Lemma time_body_gen t : valid_civil t -> time_tag t = 24 -> parse_generalized (time_body t) = Some t.
Proof.
  intros V Ht. unfold time_body. unfold time_tag in Ht. destruct ((t_Year t <? 1950) || (2050 <=? t_Year t)) eqn:E; [|lia]. unfold parse_generalized. rewrite <- app_assoc.
  destruct V as (V1 & V2). pose proof (Z.mod_pos_bound (t_Year t) 100 ltac:(lia)). pose proof (Z.div_mod (t_Year t) 100 ltac:(lia)).
  assert (0 <= t_Year t / 100 < 100) by (split; [apply Z.div_pos; lia|apply Z.div_lt_upper_bound; lia]).
  rewrite !two_rt by lia. apply after_year_rt; [split; assumption|lia].
Qed.
Lemma time_body_len t : zlen (time_body t) <= 15.
Proof. unfold time_body, time_common, two_digits. destruct (_ || _); unfold zlen; cbn [app List.length]; lia. Qed.
Lemma time_tag_cases t : time_tag t = 23 \/ time_tag t = 24. Proof. unfold time_tag. destruct (_ || _); auto. Qed.
(** the time read back: the fraction of a second is lost *)
Definition seconds (t : timeT) : timeT := mkTime (tm_civil t) 0.
Lemma asn1_time_rt t : valid_civil t -> time_tag t = 23 /\ asn1_UTCTime (time_body t) = Ret (mkTime t 0) \/ time_tag t = 24 /\ asn1_GeneralizedTime (time_body t) = Ret (mkTime t 0).
Proof.
  intros V. destruct (time_tag_cases t) as [E|E]; [left|right]; split; auto.
  - destruct (time_body_utc t V E) as (H1 & t' & H2 & H3). unfold asn1_UTCTime. rewrite H1, H2, H3. reflexivity.
  - unfold asn1_GeneralizedTime. rewrite (time_body_gen t V E). reflexivity.
Qed.
Lemma time_field p t tail : p_tag p = None -> p_exp p = false -> p_set p = false -> valid_civil (tm_civil t) ->
  parseField (timeCodec (el 0 (time_tag (tm_civil t)) false (time_body (tm_civil t)) ++ tail)) p (el 0 (time_tag (tm_civil t)) false (time_body (tm_civil t)) ++ tail) = Ret (seconds t, tail).
Proof.
  intros Ht Hx Hs V. set (c := tm_civil t) in *. pose proof (time_body_len c) as L. pose proof (zlen_nonneg (time_body c)).
  assert (H0 : parseTagAndLength (el 0 (time_tag c) false (time_body c) ++ tail) = Ret (mkTL 0 (time_tag c) (zlen (time_body c)) false, time_body c ++ tail)).
  { unfold el. rewrite <- app_assoc. apply hdr_parse; [lia|unfold maxInt32; destruct (time_tag_cases c); lia|lia]. }
  unfold timeCodec. rewrite H0. cbn [t_class t_tag]. change (0 =? ClassUniversal) with true. cbn [andb].
  unfold parseField. destruct (el 0 (time_tag c) false (time_body c) ++ tail) as [|b l] eqn:E. { exfalso. apply app_eq_nil in E as [E _]. exact (el_ne _ _ _ _ E). }
  rewrite H0, <- E. cbn [bind]. rewrite Hx. unfold el. rewrite <- app_assoc.
  destruct (asn1_time_rt c V) as [[T D]|[T D]]; rewrite T; cbn [Z.eqb Pos.eqb].
  - apply tail_ok; rewrite ?Hx, ?Ht, ?Hs; try reflexivity. intros full. cbn [c_parse cUTC cTimeAs]. exact D.
  - apply tail_ok; rewrite ?Hx, ?Ht, ?Hs; try reflexivity. intros full. cbn [c_parse cGeneralized cTimeAs]. exact D.
Qed.
Lemma frt_time {B} p t (fs : fcodec B) b b' : p_tag p = None -> p_exp p = false -> p_set p = false -> p_omit p = false -> p_def p = None ->
  p_opt p = false \/ c_iszero cUTC t = false -> valid_civil (tm_civil t) -> frt fs b b' -> frt (fconsTime p fs) (t, b) (seconds t, b').
Proof.
  intros Ht Hx Hs Hm Hd Ho V Hf bs E Hz. cbn [f_enc fconsTime fst snd] in E. apply bind_inv in E as (x & Ex & E). apply bind_inv in E as (y & Ey & E).
  assert (bs = x ++ y) by congruence. subst bs. clear E.
  assert (x = el 0 (time_tag (tm_civil t)) false (time_body (tm_civil t))).
  { unfold makeField in Ex. rewrite Hm, Hd in Ex. cbn [andb] in Ex. rewrite andb_false_r in Ex.
    replace (p_opt p && c_iszero cUTC t) with false in Ex by (destruct Ho as [-> | ->]; [reflexivity|symmetry; apply andb_false_r]).
    cbn [c_whole cUTC cTimeAs] in Ex. rewrite marshalTime_el in Ex by apply V. congruence. }
  subst x. rewrite zlen_app in Hz. pose proof (zlen_nonneg (el 0 (time_tag (tm_civil t)) false (time_body (tm_civil t)))).
  cbn [f_dec fconsTime]. rewrite time_field by assumption. cbn [bind]. rewrite (Hf y Ey) by lia. reflexivity.
Qed.
(** an optional time that is not there *)
Lemma frt_time_skip {B} (fs : fcodec B) b b' :
  (forall y, f_enc fs b = Ret y -> zlen y < 2 ^ 31 -> y = [] \/ exists t s1, parseTagAndLength y = Ret (t, s1) /\ t_tag t <> 23 /\ t_tag t <> 24) ->
  frt fs b b' -> frt (fconsTime optP fs) (timeZero, b) (timeZero, b').
Proof.
  intros Hn Hf bs E Hz. cbn [f_enc fconsTime fst snd] in E. change (makeField cUTC optP timeZero) with (Ret (@nil Z)) in E. cbn [bind app] in E.
  apply bind_inv in E as (y & Ey & E). assert (bs = y) by congruence. subst bs. clear E.
  cbn [f_dec fconsTime]. replace (parseField (timeCodec y) optP y) with (Ret (timeZero, y)); [cbn [bind]; rewrite (Hf y Ey Hz); reflexivity|].
  destruct (Hn y Ey Hz) as [->|(t & s1 & Ep & N1 & N2)]; [reflexivity|]. unfold timeCodec. rewrite Ep.
  replace ((t_class t =? ClassUniversal) && (t_tag t =? 24)) with false by lia. unfold parseField. destruct y as [|y0 yl]; [discriminate Ep|]. rewrite Ep. cbn [bind p_exp optP].
  unfold parseFieldTail. cbn [p_exp p_tag optP p_set c_any cUTC cTimeAs c_tag negb andb]. replace (t_tag t =? 23) with false by lia. rewrite orb_true_r. reflexivity.
Qed.
(** ** strings in interface{} values *)
Lemma parseAny_str s bs : bytes_ok s -> marshalString s = Ret bs -> exists tg, (tg = 19 \/ tg = 12) /\ bs = el 0 tg false s /\
  (forall n, parseAny (mkTL 0 tg n false) s = Ret (VStr s)) /\ parseASN1String tg s = Ret s.
Proof.
  intros Ho. unfold marshalString. destruct (forallb _ (runes s)) eqn:E.
  - intros E'. exists 19. split; [auto|]. split; [unfold el; change ClassUniversal with 0 in E'; congruence|].
    rewrite runes_forallb in E; [|exact Ho|intros r Hr; lia]. assert (F : forallb isPrintable s = true).
    { rewrite forallb_forall in E |- *. intros x Hx. specialize (E x Hx). unfold printable_strict in E. apply andb_prop in E as [_ E]. apply andb_prop in E as [E _]. apply andb_prop in E as [E _]. exact E. }
    assert (G : parseASN1String 19 s = Ret s). { unfold parseASN1String. change (19 =? T_T61String) with false. change (19 =? T_PrintableString) with true. cbn iota. rewrite F. reflexivity. }
    split; [|exact G]. intros n. unfold parseAny. cbn [t_comp t_class t_tag orb negb]. change (0 =? ClassUniversal) with true. cbn [negb orb Z.eqb Pos.eqb]. rewrite G. reflexivity.
  - destruct (utf8_valid s) eqn:E2; [|discriminate]. intros E'. exists 12. split; [auto|]. split; [unfold el; change ClassUniversal with 0 in E'; congruence|].
    assert (G : parseASN1String 12 s = Ret s). { unfold parseASN1String. change (12 =? T_T61String) with false. change (12 =? T_PrintableString) with false. change (12 =? T_UTF8String) with true. cbn iota. rewrite E2. reflexivity. }
    split; [|exact G]. intros n. unfold parseAny. cbn [t_comp t_class t_tag orb negb]. change (0 =? ClassUniversal) with true. cbn [negb orb Z.eqb Pos.eqb]. rewrite G. reflexivity.
Qed.
Lemma any_tail f t inner tail v : elem f t inner -> parseAny t inner = Ret v -> parseField cAny noP (f ++ tail) = Ret (v, tail).
Proof.
  intros [E Hl] Hv. unfold parseField. destruct f as [|b f]; [discriminate|]. cbn [app]. change (b :: f ++ tail) with ((b :: f) ++ tail).
  rewrite (ptl_app tail _ _ _ E). cbn [bind p_exp noP]. unfold parseFieldTail. cbn [p_exp p_tag noP c_any cAny negb andb orb].
  rewrite zlen_app, Hl. pose proof (zlen_nonneg tail). replace (t_len t + zlen tail <? t_len t) with false by lia.
  assert (Hn : Z.to_nat (t_len t) = List.length inner) by (rewrite <- Hl; unfold zlen; lia). rewrite (firstn_app_exact inner tail _ Hn), (skipn_app_exact inner tail _ Hn). cbn [c_parse cAny]. rewrite Hv. reflexivity.
Qed.
Lemma str_any_rt s : bytes_ok s -> field_rt cAny noP (VStr s) (VStr s).
Proof.
  intros Ho bs tail E Hz. change (marshalString s = Ret bs) in E. destruct (parseAny_str s bs Ho E) as (tg & Ht & -> & Hp & _).
  pose proof (el_len 0 tg false s). apply (any_tail _ (mkTL 0 tg (zlen s) false) s); [apply el_elem; [lia|destruct Ht; lia|lia]|apply Hp].
Qed.
Lemma bytes_any_rt b : field_rt cAny noP (VBytes b) (VBytes b).
Proof.
  intros bs tail E Hz. assert (bs = el 0 4 false b). { change (Ret (el 0 4 false b) = Ret bs) in E. congruence. } subst bs.
  pose proof (el_len 0 4 false b). apply (any_tail _ (mkTL 0 4 (zlen b) false) b); [apply el_elem; lia|reflexivity].
Qed.
Lemma atva_rt o v : oid_ok o -> field_rt cAny noP v v -> field_rt cATVa noP (mkATVa o v) (mkATVa o v).
Proof.
  intros Ho Hv. eapply (struct_to _ _ _ (mkATVa o v) (o, (v, tt))); [reflexivity|]. apply frt_cons; [now apply oid_rt_f|]. apply frt_cons; [exact Hv|apply frt_nil].
Qed.
(** ** SET OF: the elements come back in the order of their encodings *)
Lemma mapM_perm {A B} (f : A -> outcome B) l ys ys' : mapM f l = Ret ys -> Permutation ys ys' -> exists l', Permutation l l' /\ mapM f l' = Ret ys'.
Proof.
  intros E Hp. revert l E. induction Hp; intros l0 E.
  - exists l0. auto.
  - destruct l0 as [|a l0]; [discriminate|]. cbn [mapM] in E. apply bind_inv in E as (y & Ey & E). apply bind_inv in E as (r & Er & E).
    assert (y = x /\ r = l) as [-> ->] by (split; congruence). destruct (IHHp _ Er) as (l2 & P2 & E2). exists (a :: l2). split; [now constructor|]. cbn [mapM]. rewrite Ey, E2. reflexivity.
  - destruct l0 as [|a [|b l0]]; cbn [mapM] in E; [discriminate| |].
    + apply bind_inv in E as (y1 & _ & E). discriminate.
    + apply bind_inv in E as (y1 & E1 & E). apply bind_inv in E as (r & Er & E). apply bind_inv in Er as (y2 & E2 & Er). apply bind_inv in Er as (r' & Er' & Er).
      assert (r = y2 :: r') by congruence. subst r. assert (y1 = y /\ y2 = x /\ r' = l) as (-> & -> & ->) by (repeat split; congruence).
      exists (b :: a :: l0). split; [constructor|]. cbn [mapM]. rewrite E1, E2, Er'. reflexivity.
  - destruct (IHHp1 _ E) as (l2 & P2 & E2). destruct (IHHp2 _ E2) as (l3 & P3 & E3). exists l3. split; [eapply Permutation_trans; eauto|exact E3].
Qed.
Lemma set_rt {A} (c : codec A) l : (forall a, c_whole c a = None) -> 0 <= c_tag c <= 30 -> Forall (fun a => field_rt c noP a a) l ->
  exists l2, Permutation l l2 /\ field_rt (cSeqOf true c) noP (Some l) (Some l2).
Proof.
  intros Hw Ht HF. destruct (mapM (makeField c noP) l) as [es|e|] eqn:E.
  - destruct (mapM_perm _ _ _ (sort_bytes es) E (sort_perm es)) as (l2 & P2 & E2). exists l2. split; [exact P2|].
    apply make_rt; [reflexivity|reflexivity|cbn; unfold TagSet; lia|reflexivity|split; reflexivity|].
    intros body t full Eb Hz. cbn [c_body cSeqOf] in Eb. unfold seq_body in Eb. rewrite E in Eb. cbn [bind] in Eb.
    assert (Eb' : body = List.concat (sort_bytes es)).
    { change ((if p_set noP then TagSet else c_tag (cSeqOf true c)) =? TagSet) with true in Eb. cbn [andb] in Eb.
      destruct (Nat.ltb_spec 1 (List.length l)); [congruence|]. assert (body = List.concat es) by congruence. subst body. f_equal.
      pose proof (mapM_length _ _ _ E). destruct es as [|e [|? ?]]; [reflexivity|reflexivity|cbn in *; lia]. }
    assert (F2 : Forall2 (field_rt c noP) l2 l2). { apply (Permutation_Forall P2) in HF. clear - HF. induction HF; constructor; auto. }
    refine (seq_body_rt true c false l2 l2 Hw Ht (or_introl eq_refl) F2 body t full _ Hz).
    cbn [c_body cSeqOf]. unfold seq_body. rewrite E2. cbn [bind andb]. congruence.
  - exists l. split; [reflexivity|]. intros bs tail Eb. unfold makeField in Eb. cbn [p_omit noP p_opt andb c_whole cSeqOf p_set c_body] in Eb. unfold seq_body in Eb. rewrite E in Eb. discriminate Eb.
  - exists l. split; [reflexivity|]. intros bs tail Eb. unfold makeField in Eb. cbn [p_omit noP p_opt andb c_whole cSeqOf p_set c_body] in Eb. unfold seq_body in Eb. rewrite E in Eb. discriminate Eb.
Qed.
(** names *)
Definition name_ok (n : RDNSequence) : Prop := Forall (Forall (fun a => oid_ok (atv_Type a) /\ bytes_ok (atv_Value a))) n.
(** the same name: each RDN is a set *)
Definition same_name (n m : RDNSequence) : Prop := Forall2 (@Permutation ATV) n m.
Definition toAny (a : ATV) : ATVa := mkATVa (atv_Type a) (VStr (atv_Value a)).
Lemma rdn_rt rdn : Forall (fun a => oid_ok (atv_Type a) /\ bytes_ok (atv_Value a)) rdn ->
  exists rdn2, Permutation rdn rdn2 /\ field_rt (cSeqOf true cATVa) noP (Some (map toAny rdn)) (Some (map toAny rdn2)).
Proof.
  intros H. destruct (set_rt cATVa (map toAny rdn)) as (l2 & P2 & R2); [reflexivity|apply tag_small; reflexivity| |].
  - apply Forall_forall. intros a Ha. apply in_map_iff in Ha as (x & <- & Hx). rewrite Forall_forall in H. destruct (H x Hx) as [H1 H2]. apply atva_rt; [exact H1|now apply str_any_rt].
  - apply Permutation_sym in P2. apply Permutation_map_inv in P2 as (r & -> & Pr). exists r. split; [exact Pr|exact R2].
Qed.
Lemma name_rt n : name_ok n -> exists m, same_name n m /\ field_rt cRDNs noP (rdns_of n) (rdns_of m).
Proof.
  intros H. assert (E : exists m, same_name n m /\ Forall2 (field_rt (cSeqOf true cATVa) noP) (map (fun rdn => Some (map toAny rdn)) n) (map (fun rdn => Some (map toAny rdn)) m)).
  { induction H as [|r n Hr Hn (m & Sm & Rm)]; [exists []; split; constructor|]. destruct (rdn_rt r Hr) as (r2 & P2 & R2). exists (r2 :: m). split; [constructor; auto|constructor; auto]. }
  destruct E as (m & Sm & Rm). exists m. split; [exact Sm|]. unfold cRDNs, rdns_of.
  apply make_rt; [reflexivity|reflexivity|apply tag_small; reflexivity|reflexivity|split; reflexivity|]. apply seq_body_rt; [reflexivity|apply tag_small; reflexivity|left; reflexivity|exact Rm].
Qed.
(** ** extensions *)
Definition ext_ok (e : Extension) : Prop := oid_ok (x_Id e).
Lemma omitted_other {A} (c : codec A) p d s t s1 : setDefault c p = Some d -> p_tag p = None -> p_exp p = false -> c_any c = false ->
  parseTagAndLength s = Ret (t, s1) -> t_class t <> ClassUniversal \/ t_tag t <> (if p_set p then TagSet else c_tag c) -> parseField c p s = Ret (d, s).
Proof.
  intros Hd Ht Hx Ha E Hm. unfold parseField. destruct s as [|b s]; [discriminate|]. rewrite E. cbn [bind]. rewrite Hx. unfold parseFieldTail. rewrite Hx, Ht, Ha. cbn [negb andb].
  replace (negb (t_class t =? ClassUniversal) || negb (t_tag t =? (if p_set p then TagSet else c_tag c))) with true by lia. cbn [orb]. rewrite Hd. reflexivity.
Qed.
Lemma ext_rt e : ext_ok e -> field_rt cExt noP e e.
Proof.
  intros Ho. eapply (struct_to _ _ _ e (x_Id e, (x_Critical e, (Some (x_Value e), tt)))); [destruct e; reflexivity|].
  apply frt_cons; [now apply oid_rt_f|]. assert (T : frt (fcons noP cBytes fnil) (Some (x_Value e), tt) (Some (x_Value e), tt)) by (apply frt_cons; [apply bytes_rt|apply frt_nil]).
  destruct (x_Critical e).
  - apply frt_cons; [|exact T]. apply make_rt; [reflexivity|reflexivity|apply tag_small; reflexivity|reflexivity|split; reflexivity|]. apply bool_body_rt.
  - apply frt_cons_dep; [|exact T]. intros x y Ex Ey Hz. change (Ret (@nil Z) = Ret x) in Ex. assert (x = []) by congruence. subst x. cbn [app].
    cbn [f_enc fcons fst snd fnil] in Ey. change (makeField cBytes noP (Some (x_Value e))) with (Ret (el 0 4 false (x_Value e))) in Ey. cbn [bind] in Ey. rewrite app_nil_r in Ey.
    assert (y = el 0 4 false (x_Value e)) by congruence. subst y. pose proof (el_len 0 4 false (x_Value e)). pose proof (zlen_nonneg (x_Value e)). rewrite zlen_nil in Hz.
    refine (omitted_other cBool optP false _ (mkTL 0 4 (zlen (x_Value e)) false) (x_Value e) eq_refl eq_refl eq_refl eq_refl _ (or_intror _)); [|cbn; discriminate].
    apply hdr_parse; [lia|unfold maxInt32; lia|lia].
Qed.
Lemma exts_field p l : Forall ext_ok l -> params_ok p -> p_set p = false -> p_omit p = false -> p_def p = None -> field_rt (cSeqOf false cExt) p (Some l) (Some l).
Proof.
  intros H Hp Hs Hm Hd. apply make_rt; [exact Hp|reflexivity|apply tag_small; reflexivity|reflexivity| |].
  - split; [rewrite Hm; reflexivity|]. rewrite Hd. cbn [c_iszero cSeqOf]. apply andb_false_r.
  - rewrite Hs. apply seq_body_rt; [reflexivity|apply tag_small; reflexivity|left; reflexivity|]. induction H; constructor; auto. now apply ext_rt.
Qed.
(** a struct that keeps its own encoding *)
Lemma structRaw_rt {X A} (fs : fcodec X) (mk : option bytes -> X -> A) raw un a x' bs : sl (raw a) = [] -> frt fs (un a) x' -> makeField (cStructRaw fs mk raw un) noP a = Ret bs -> zlen bs < 2 ^ 31 ->
  field_rt (cStructRaw fs mk raw un) noP a (mk (Some bs) x').
Proof.
  intros Hr Hf E Hz bs' tail E' _. assert (bs' = bs) by congruence. subst bs'. clear E'.
  unfold makeField in E. cbn [p_omit noP p_opt andb c_whole cStructRaw p_set c_tag c_body p_tag c_comp] in E. rewrite Hr in E. apply bind_inv in E as (body & Eb & E).
  change (Ret (el 0 16 true body) = Ret bs) in E. assert (bs = el 0 16 true body) by congruence. subst bs. clear E. pose proof (el_len 0 16 true body). pose proof (zlen_nonneg body).
  assert (D : f_dec fs body = Ret x') by (apply Hf; [exact Eb|lia]).
  unfold parseField. destruct (el 0 16 true body ++ tail) as [|b0 l0] eqn:E0. { apply app_eq_nil in E0 as [E0 _]. exfalso. exact (el_ne _ _ _ _ E0). }
  rewrite <- E0. unfold el. rewrite <- app_assoc. rewrite hdr_parse by (unfold maxInt32; lia). cbn [bind p_exp noP].
  rewrite (tail_full (cStructRaw fs mk raw un) noP (hdr 0 16 true (zlen body)) (mkTL 0 16 (zlen body) true) body tail eq_refl eq_refl eq_refl eq_refl eq_refl).
  cbn [c_parse cStructRaw]. rewrite D. reflexivity.
Qed.
Lemma structRaw_to {X A} (fs : fcodec X) (mk : option bytes -> X -> A) raw un a x' bs a' : mk (Some bs) x' = a' -> sl (raw a) = [] -> frt fs (un a) x' -> makeField (cStructRaw fs mk raw un) noP a = Ret bs -> zlen bs < 2 ^ 31 ->
  field_rt (cStructRaw fs mk raw un) noP a a'.
Proof. intros <-. apply structRaw_rt. Qed.
(** the header of an encoded slice *)
Lemma seq_make {A} (c : codec A) p l x : makeField (cSeqOf false c) p (Some l) = Ret x -> p_tag p = None -> p_set p = false -> p_omit p = false -> p_def p = None -> exists b, x = el 0 16 true b.
Proof.
  intros E Ht Hs Hm Hd. unfold makeField in E. rewrite Hm, Hd, Hs, Ht in E. cbn [andb c_iszero cSeqOf] in E. rewrite !andb_false_r in E. cbn [c_whole cSeqOf] in E. apply bind_inv in E as (b & _ & E). exists b.
  change (Ret (el 0 16 true b) = Ret x) in E. congruence.
Qed.
Lemma seq_make_exp {A} (c : codec A) n l x : makeField (cSeqOf false c) (optExplicitP n) (Some l) = Ret x -> exists b, x = el 2 n true (el 0 16 true b).
Proof.
  intros E. unfold makeField in E. cbn [p_omit optExplicitP p_opt andb p_def c_iszero cSeqOf c_whole p_set] in E. apply bind_inv in E as (b & _ & E). exists b.
  change (Ret (el 2 n true (el 0 16 true b)) = Ret x) in E. congruence.
Qed.
Lemma el_hdr cls tag comp b : 0 <= cls <= 3 -> 0 <= tag <= 30 -> zlen (el cls tag comp b) < 2 ^ 31 -> forall tail, parseTagAndLength (el cls tag comp b ++ tail) = Ret (mkTL cls tag (zlen b) comp, b ++ tail).
Proof. intros Hc Ht Hz tail. pose proof (el_len cls tag comp b). pose proof (zlen_nonneg b). unfold el. rewrite <- app_assoc. apply hdr_parse; [lia|unfold maxInt32; lia|lia]. Qed.
(** revoked certificates *)
Definition exts_ok (l : option (list Extension)) : Prop := match l with Some l => Forall ext_ok l | None => True end.
Definition rev_ok (r : revoked) : Prop := rc_Serial r <> None /\ valid_civil (tm_civil (rc_Time r)) /\ exts_ok (rc_Extensions r).
Definition rev_read (r : revoked) : revoked := mkRev (rc_Serial r) (seconds (rc_Time r)) (rc_Extensions r).
Lemma rev_rt r : rev_ok r -> field_rt cRevoked noP r (rev_read r).
Proof.
  intros (Hs & Ht & He). eapply (struct_to _ _ _ r (rc_Serial r, (seconds (rc_Time r), (rc_Extensions r, tt)))); [reflexivity|].
  apply frt_cons. { destruct (rc_Serial r); [apply big_rt|congruence]. }
  apply frt_time; auto. destruct (rc_Extensions r) as [l|]; cbn [exts_ok] in He.
  - apply frt_cons; [|apply frt_nil]. apply exts_field; auto; reflexivity.
  - apply frt_skip_end; try reflexivity. apply frt_nil.
Qed.
Lemma revs_rt l : Forall rev_ok l -> field_rt (cSeqOf false cRevoked) optP (Some l) (Some (map rev_read l)).
Proof.
  intros H. apply make_rt; [reflexivity|reflexivity|apply tag_small; reflexivity|reflexivity|split; reflexivity|].
  apply seq_body_rt; [reflexivity|apply tag_small; reflexivity|left; reflexivity|]. induction H; cbn [map]; constructor; auto. now apply rev_rt.
Qed.
(** the fields after the two times *)
Definition tailF := fcons optP (cSeqOf false cRevoked) (fcons (optExplicitP 0) (cSeqOf false cExt) fnil).
Lemma exts_tail e : exts_ok e -> frt (fcons (optExplicitP 0) (cSeqOf false cExt) fnil) (e, tt) (e, tt).
Proof.
  intros H. destruct e as [l|]; cbn [exts_ok] in H.
  - apply frt_cons; [|apply frt_nil]. apply exts_field; auto; try reflexivity. cbn. unfold maxInt32. lia.
  - apply frt_skip_end; try reflexivity. apply frt_nil.
Qed.
Definition revs_ok (r : option (list revoked)) : Prop := match r with Some l => Forall rev_ok l | None => True end.
Lemma tail_rt r e : revs_ok r -> exts_ok e -> frt tailF (r, (e, tt)) (option_map (map rev_read) r, (e, tt)).
Proof.
  intros Hr He. unfold tailF. destruct r as [l|]; cbn [option_map revs_ok] in *.
  - apply frt_cons; [now apply revs_rt|now apply exts_tail].
  - destruct e as [l|].
    + apply frt_cons_dep; [|now apply exts_tail]. intros x y Ex Ey Hz. change (Ret (@nil Z) = Ret x) in Ex. assert (x = []) by congruence. subst x. cbn [app].
      cbn [f_enc fcons fst snd fnil] in Ey. apply bind_inv in Ey as (z & Ez & Ey). cbn [bind] in Ey. rewrite app_nil_r in Ey. assert (z = y) by congruence. subst z.
      destruct (seq_make_exp _ _ _ _ Ez) as (b & ->). rewrite zlen_nil in Hz.
      pose proof (el_hdr 2 0 true (el 0 16 true b) ltac:(lia) ltac:(lia) ltac:(lia) []) as H. rewrite !app_nil_r in H.
      refine (omitted_other (cSeqOf false cRevoked) optP None _ _ _ eq_refl eq_refl eq_refl eq_refl H (or_introl _)). cbn. discriminate.
    + apply frt_skip_end; try reflexivity. now apply exts_tail.
Qed.
(** ... do not start like a time *)
Lemma tail_start r e y : f_enc tailF (r, (e, tt)) = Ret y -> zlen y < 2 ^ 31 -> y = [] \/ exists t s1, parseTagAndLength y = Ret (t, s1) /\ t_tag t <> 23 /\ t_tag t <> 24.
Proof.
  intros E Hz. unfold tailF in E. cbn [f_enc fcons fst snd fnil] in E. apply bind_inv in E as (x & Ex & E). apply bind_inv in E as (z & Ez & E). apply bind_inv in Ez as (w & Ew & Ez). cbn [bind] in Ez. rewrite app_nil_r in Ez.
  assert (z = w) by congruence. subst z. assert (y = x ++ w) by congruence. subst y. rewrite zlen_app in Hz. pose proof (zlen_nonneg x). pose proof (zlen_nonneg w).
  destruct r as [l|].
  - right. destruct (seq_make _ _ _ _ Ex eq_refl eq_refl eq_refl eq_refl) as (b & ->). rewrite el_hdr by lia. eexists _, _. split; [reflexivity|]. cbn. split; discriminate.
  - change (Ret (@nil Z) = Ret x) in Ex. assert (x = []) by congruence. subst x. cbn [app]. destruct e as [l|].
    + right. destruct (seq_make_exp _ _ _ _ Ew) as (b & ->). pose proof (el_hdr 2 0 true (el 0 16 true b) ltac:(lia) ltac:(lia) ltac:(lia) []) as K. rewrite app_nil_r in K. rewrite K.
      eexists _, _. split; [reflexivity|]. cbn. split; discriminate.
    + left. change (Ret (@nil Z) = Ret w) in Ew. congruence.
Qed.
(** the list to be signed *)
Definition next_ok (t : timeT) : Prop := t = timeZero \/ (c_iszero cUTC t = false /\ valid_civil (tm_civil t)).
Definition tbs_read (raw : bytes) (ai' : AI) (m : RDNSequence) (t : tbsCRL) : tbsCRL :=
  mkTbsCRL (Some raw) (tl_Version t) ai' (rdns_of m) (seconds (tl_ThisUpdate t)) (seconds (tl_NextUpdate t)) (option_map (map rev_read) (tl_Revoked t)) (tl_Extensions t).
Lemma tbs_rt ai ai' n m this next r e bs : let t := mkTbsCRL None 1 ai (rdns_of n) this next r e in
  field_rt cAI noP ai ai' -> field_rt cRDNs noP (rdns_of n) (rdns_of m) -> valid_civil (tm_civil this) -> next_ok next -> revs_ok r -> exts_ok e ->
  Marshal cTbsCRL t = Ret bs -> zlen bs < 2 ^ 31 -> field_rt cTbsCRL noP t (tbs_read bs ai' m t).
Proof.
  intros t Ha Hn Ht Hx Hr He E Hz. unfold cTbsCRL.
  eapply (structRaw_to _ _ tl_Raw _ t (1, (ai', (rdns_of m, (seconds this, (seconds next, (option_map (map rev_read) r, (e, tt))))))) bs); [reflexivity|reflexivity| |exact E|exact Hz].
  unfold t. cbn [tl_Version tl_Signature tl_Issuer tl_ThisUpdate tl_NextUpdate tl_Revoked tl_Extensions].
  apply frt_cons. { apply make_rt; [reflexivity|reflexivity|apply tag_small; reflexivity|reflexivity|split; reflexivity|]. apply int_body_rt. lia. }
  apply frt_cons; [exact Ha|]. apply frt_cons; [exact Hn|]. apply frt_time; auto. fold tailF.
  destruct Hx as [->|[Hz0 Hv]].
  - apply frt_time_skip; [intros y Ey Hy; exact (tail_start r e y Ey Hy)|now apply tail_rt].
  - apply frt_time; auto. now apply tail_rt.
Qed.
(** algorithm identifiers chosen by the package *)
Definition ai_good (ai : AI) : Prop := exists ai', field_rt cAI noP ai ai' /\ getSignatureAlgorithmFromAI ai' = getSignatureAlgorithmFromAI ai.
Lemma ai_null o : oid_ok o -> oid_eqb o oidSignatureRSAPSS = false -> oid_eqb o oidSignatureEd25519 = false -> ai_good (mkAI o NullRawValue).
Proof.
  intros Ho Hp He. exists (mkAI o (rawOf (mkTL 0 5 0 false) [] [5; 0])). split; [apply cAI_rt; auto; apply frt_params; [reflexivity|reflexivity|vm_compute; auto]|].
  unfold getSignatureAlgorithmFromAI. cbn [ai_alg]. rewrite He, Hp. reflexivity.
Qed.
Lemma ai_none o : oid_ok o -> ai_good (mkAI o rawZero).
Proof. intros Ho. exists (mkAI o rawZero). split; [apply cAI_rt; auto; apply frt_params_zero|reflexivity]. Qed.
Lemma ai_pss arc len : arc = 1 /\ len = 32 \/ arc = 2 /\ len = 48 \/ arc = 3 /\ len = 64 -> ai_good (mkAI oidSignatureRSAPSS (mkRaw 0 0 false None (Some (pss_bytes arc len)))).
Proof.
  intros H. exists (mkAI oidSignatureRSAPSS (rawOf (mkTL 0 16 52 true) (skipn 2 (pss_bytes arc len)) (pss_bytes arc len))).
  split; [apply cAI_rt; [oidok|]; apply frt_params; [reflexivity|reflexivity|]|]; destruct H as [[-> ->]|[[-> ->]|[-> ->]]]; vm_compute; auto.
Qed.
Lemma details_good d : In d signatureAlgorithmDetails -> oid_ok (sd_oid d) /\
  (isRSAPSS (sd_algo d) = false -> sd_pub d = RSA -> oid_eqb (sd_oid d) oidSignatureRSAPSS = false /\ oid_eqb (sd_oid d) oidSignatureEd25519 = false) /\
  (isRSAPSS (sd_algo d) = true -> sd_oid d = oidSignatureRSAPSS /\ (sd_hash d = H_SHA256 \/ sd_hash d = H_SHA384 \/ sd_hash d = H_SHA512)).
Proof. intros H. cbn in H. repeat (destruct H as [<-|H]; [split; [oidok|split; intros; try discriminate; cbn; auto]|]). destruct H. Qed.
Lemma signing_good pub req h ai : signingParamsForPublicKey pub req = Ret (h, ai) -> ai_good ai.
Proof.
  unfold signingParamsForPublicKey. intros E. apply bind_inv in E as ([[pt hf] sa] & Ed & E).
  assert (D : ai_good sa /\ (ai_params sa = rawZero \/ ai_params sa = NullRawValue /\ pt = RSA)).
  { unfold defaultSigning in Ed. destruct pub as [n e|c x y|k|k| |]; try discriminate.
    - assert (sa = mkAI oidSignatureSHA256WithRSA NullRawValue /\ pt = RSA) as [-> ->] by (split; congruence). split; [apply ai_null; [oidok|reflexivity|reflexivity]|right; auto].
    - destruct (_ || _); [|destruct (c =? 384); [|destruct (c =? 521); [|discriminate]]].
      + assert (sa = mkAI oidSignatureECDSAWithSHA256 rawZero) as -> by congruence. split; [apply ai_none; oidok|auto].
      + assert (sa = mkAI oidSignatureECDSAWithSHA384 rawZero) as -> by congruence. split; [apply ai_none; oidok|auto].
      + assert (sa = mkAI oidSignatureECDSAWithSHA512 rawZero) as -> by congruence. split; [apply ai_none; oidok|auto].
    - destruct (_ =? _); [|discriminate]. assert (sa = mkAI oidSignatureSM2WithSM3 rawZero) as -> by congruence. split; [apply ai_none; oidok|auto].
    - assert (sa = mkAI oidSignatureEd25519 rawZero) as -> by congruence. split; [apply ai_none; oidok|auto]. }
  destruct D as [D1 D2]. destruct (req =? 0). { assert (ai = sa) by congruence. subst. exact D1. }
  destruct (find _ _) as [d|] eqn:F; [|discriminate]. apply find_some in F as [Fi Fa]. apply Z.eqb_eq in Fa. destruct (negb (pkAlgo_eqb (sd_pub d) pt)) eqn:Ep; [discriminate|].
  destruct (_ && _); [discriminate|]. assert (Ea : ai = mkAI (sd_oid d) (if isRSAPSS req then hashToPSSParameters (sd_hash d) else ai_params sa)) by congruence. subst ai. clear E.
  destruct (details_good d Fi) as (G1 & G2 & G3). rewrite Fa in *. destruct (isRSAPSS req) eqn:Er.
  - destruct (G3 eq_refl) as [-> [-> |[-> | ->]]]; apply ai_pss; auto.
  - destruct D2 as [-> |[-> ->]]; [now apply ai_none|]. apply negb_false_iff in Ep.
    assert (sd_pub d = RSA) by (destruct (sd_pub d); cbn in Ep; congruence). destruct (G2 eq_refl H) as [G4 G5]. now apply ai_null.
Qed.
Lemma bits_rt b : field_rt cBits noP (fullBits b) (fullBits b).
Proof.
  unfold fullBits. replace (zlen b * 8) with (8 * zlen b) by lia. apply make_rt; [reflexivity|reflexivity|apply tag_small; reflexivity|reflexivity|split; reflexivity|]. apply bits_body_rt.
Qed.
(** the signed list *)
Lemma list_rt t t' ai ai' sig : field_rt cTbsCRL noP t t' -> field_rt cAI noP ai ai' -> field_rt cCertList noP (mkCRL t ai (fullBits sig)) (mkCRL t' ai' (fullBits sig)).
Proof.
  intros Ht Ha. eapply (struct_to _ _ _ (mkCRL t ai (fullBits sig)) (t', (ai', (fullBits sig, tt)))); [reflexivity|].
  apply frt_cons; [exact Ht|]. apply frt_cons; [exact Ha|]. apply frt_cons; [apply bits_rt|apply frt_nil].
Qed.
Lemma list_len t ai sig tbs der : Marshal cTbsCRL t = Ret tbs -> Marshal cCertList (mkCRL t ai (fullBits sig)) = Ret der -> zlen tbs + zlen sig + 2 <= zlen der.
Proof.
  intros Et E. unfold Marshal, makeField in E. cbn [p_omit noP p_opt andb c_whole cCertList cStruct p_set c_tag c_body p_tag c_comp] in E. apply bind_inv in E as (body & Eb & E).
  change (Ret (el 0 16 true body) = Ret der) in E. assert (der = el 0 16 true body) by congruence. subst der. clear E. cbn [f_enc fcons fst snd fnil cl_TBS cl_Alg cl_Sig] in Eb.
  apply bind_inv in Eb as (x & Ex & Eb). apply bind_inv in Eb as (y & Ey & Eb). apply bind_inv in Ey as (z & Ez & Ey). apply bind_inv in Ey as (w & Ew & Ey). apply bind_inv in Ew as (v & Ev & Ew).
  assert (x = tbs) by (unfold Marshal in Et; congruence). subst x. assert (body = tbs ++ y) by congruence. assert (y = z ++ w) by congruence. cbn [bind] in Ew. rewrite app_nil_r in Ew. assert (w = v) by congruence. subst.
  change (Ret (el 0 3 false ((8 - Z.rem (zlen sig * 8) 8) mod 8 :: sig)) = Ret v) in Ev. assert (v = el 0 3 false ((8 - Z.rem (zlen sig * 8) 8) mod 8 :: sig)) by congruence. subst v.
  match goal with |- _ <= zlen (el 0 16 true ?x) => pose proof (el_len 0 16 true x) as L; rewrite !zlen_app in L end. pose proof (el_len 0 3 false ((8 - Z.rem (zlen sig * 8) 8) mod 8 :: sig)) as L2. rewrite zlen_cons in L2. pose proof (zlen_nonneg z). pose proof (zlen_nonneg tbs). lia.
Qed.
