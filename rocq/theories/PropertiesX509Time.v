(** * Property C110: the dates of certificates and revocation lists *)
From Coq Require Import String ZifyBool.
From Verif Require Import Base CryptoByte X509Model X509Crl PropertiesX509Str.
Open Scope Z_scope.

(** ** Specification.  A date and time in some zone: [t_Off] minutes east of Greenwich, so the instant is the one shown by the
    fields, taken as UTC, minus t_Off minutes. *)
Definition dec2 (n : Z) : bytes := [48 + n / 10; 48 + n mod 10].
Definition leap (y : Z) : Prop := y mod 4 = 0 /\ (y mod 100 <> 0 \/ y mod 400 = 0).
Inductive month_has (y : Z) : Z -> Z -> Prop :=
  | mh31 m : In m [1; 3; 5; 7; 8; 10; 12] -> month_has y m 31
  | mh30 m : In m [4; 6; 9; 11] -> month_has y m 30
  | mh28 : ~ leap y -> month_has y 2 28
  | mh29 : leap y -> month_has y 2 29.
(** Z for UTC, otherwise the sign and the offset; an offset of zero is written Z *)
Inductive zone_text : bytes -> Z -> Prop :=
  | zt_utc : zone_text (chars "Z") 0
  | zt_east h m : 0 <= h < 100 -> 0 <= m < 60 -> 60 * h + m <> 0 -> zone_text (chars "+" ++ dec2 h ++ dec2 m) (60 * h + m)
  | zt_west h m : 0 <= h < 100 -> 0 <= m < 60 -> 60 * h + m <> 0 -> zone_text (chars "-" ++ dec2 h ++ dec2 m) (- (60 * h + m)).
(** what follows the year; [secs] is the text of the seconds *)
Inductive date_text (secs : Z -> bytes) : bytes -> civil -> Prop :=
  | dt y mo d h mi se z off len : month_has y mo len -> 1 <= d <= len -> 0 <= h < 24 -> 0 <= mi < 60 -> 0 <= se < 60 -> zone_text z off ->
      date_text secs (dec2 mo ++ dec2 d ++ dec2 h ++ dec2 mi ++ secs se ++ z) (mkCivil y mo d h mi se off).
(** UTCTime: YYMMDDhhmm[ss] and a zone, for the years 1950 to 2049; without seconds they are zero *)
Definition utc_text (s : bytes) (t : civil) : Prop :=
  1950 <= t_Year t <= 2049 /\
  exists r, s = dec2 (t_Year t mod 100) ++ r /\ (date_text dec2 r t \/ date_text (fun _ => []) r t /\ t_Sec t = 0).
(** GeneralizedTime: YYYYMMDDhhmmss and a zone *)
Definition gen_text (s : bytes) (t : civil) : Prop :=
  0 <= t_Year t <= 9999 /\ exists r, s = dec2 (t_Year t / 100) ++ dec2 (t_Year t mod 100) ++ r /\ date_text dec2 r t.

(** ** Proofs *)
Lemma two_iff s n r : two s = Some (n, r) <-> s = dec2 n ++ r /\ 0 <= n < 100.
Proof.
  unfold dec2. split.
  - destruct s as [|a [|b s]]; try discriminate. cbn [two]. unfold digit. destruct ((48 <=? a) && (a <=? 57)) eqn:Ea; [|discriminate].
    destruct ((48 <=? b) && (b <=? 57)) eqn:Eb; [|discriminate]. intros [= <- <-].
    assert (D : (10 * (a - 48) + (b - 48)) / 10 = a - 48 /\ (10 * (a - 48) + (b - 48)) mod 10 = b - 48).
    { split; [symmetry; apply (Z.div_unique _ 10 (a - 48) (b - 48)); lia|symmetry; apply (Z.mod_unique _ 10 (a - 48) (b - 48)); lia]. }
    destruct D as [-> ->]. split; [|lia]. cbn [app]. repeat f_equal; lia.
  - intros [-> H]. cbn [app two]. unfold digit.
    assert (0 <= n / 10 < 10) by (split; [apply Z.div_pos; lia|apply Z.div_lt_upper_bound; lia]). pose proof (Z.mod_pos_bound n 10 ltac:(lia)). pose proof (Z.div_mod n 10 ltac:(lia)).
    replace ((48 <=? 48 + n / 10) && (48 + n / 10 <=? 57)) with true by lia. replace ((48 <=? 48 + n mod 10) && (48 + n mod 10 <=? 57)) with true by lia.
    do 2 f_equal. lia.
Qed.
Lemma two_rt n r : 0 <= n < 100 -> two (dec2 n ++ r) = Some (n, r).
Proof. intros H. apply two_iff. auto. Qed.
Lemma zone_cons2 c a r : zone (c :: a :: r) = match two (a :: r) with
      | Some (h, r) => match two r with
          | Some (m, []) => if (m <? 60) && negb (60 * h + m =? 0) then if c =? 43 then Some (60 * h + m) else if c =? 45 then Some (- (60 * h + m)) else None else None
          | _ => None end
      | None => None end.
Proof. reflexivity. Qed.
Lemma zone_iff s off : zone s = Some off <-> zone_text s off.
Proof.
  split.
  - destruct s as [|c [|a r]]; [discriminate| |].
    + cbn [zone]. destruct (Z.eqb_spec c 90); [|discriminate]. intros [= <-]. subst. exact zt_utc.
    + rewrite zone_cons2. destruct (two (a :: r)) as [[h r1]|] eqn:E1; [|discriminate]. destruct (two r1) as [[m [|? ?]]|] eqn:E2; try discriminate.
      apply two_iff in E1 as [E1 H1]. apply two_iff in E2 as [-> H2]. rewrite E1. destruct ((m <? 60) && negb (60 * h + m =? 0)) eqn:E3; [|discriminate].
      rewrite app_nil_r. destruct (Z.eqb_spec c 43) as [->|].
      * intros [= <-]. apply zt_east; lia.
      * destruct (Z.eqb_spec c 45) as [->|]; [|discriminate]. intros [= <-]. apply zt_west; lia.
  - assert (Z2 : forall c h m, 0 <= h < 100 -> 0 <= m < 60 -> 60 * h + m <> 0 ->
      zone (c :: dec2 h ++ dec2 m) = if c =? 43 then Some (60 * h + m) else if c =? 45 then Some (- (60 * h + m)) else None).
    { intros c h m Hh Hm Hn. transitivity (zone (c :: (48 + h / 10) :: (48 + h mod 10) :: dec2 m)); [reflexivity|]. rewrite zone_cons2.
      change ((48 + h / 10) :: (48 + h mod 10) :: dec2 m) with (dec2 h ++ dec2 m). rewrite two_rt by lia. rewrite <- (app_nil_r (dec2 m)), two_rt by lia.
      replace ((m <? 60) && negb (60 * h + m =? 0)) with true by lia. reflexivity. }
    intros H. destruct H as [|h m Hh Hm Hn|h m Hh Hm Hn]; [reflexivity| |].
    + change (chars "+" ++ dec2 h ++ dec2 m) with (43 :: dec2 h ++ dec2 m). now rewrite Z2.
    + change (chars "-" ++ dec2 h ++ dec2 m) with (45 :: dec2 h ++ dec2 m). now rewrite Z2.
Qed.
Lemma is_leap_iff y : is_leap y = true <-> leap y.
Proof. unfold is_leap, leap. lia. Qed.
Lemma month_iff y m len : 1 <= m <= 12 -> (month_has y m len <-> days_in m y = len).
Proof.
  intros Hm. assert (C : m = 1 \/ m = 2 \/ m = 3 \/ m = 4 \/ m = 5 \/ m = 6 \/ m = 7 \/ m = 8 \/ m = 9 \/ m = 10 \/ m = 11 \/ m = 12) by lia. pose proof (is_leap_iff y) as L. split.
  - intros H. destruct H as [m I|m I|N|N].
    + cbn in I. decompose [or] I; subst; try contradiction; reflexivity.
    + cbn in I. decompose [or] I; subst; try contradiction; reflexivity.
    + unfold days_in. cbn. destruct (is_leap y); [tauto|reflexivity].
    + unfold days_in. cbn. destruct (is_leap y); [reflexivity|]. exfalso. assert (false = true) by tauto. discriminate.
  - intros <-. unfold days_in. decompose [or] C; subst; cbn; try (apply mh31; cbn; tauto); try (apply mh30; cbn; tauto).
    destruct (is_leap y) eqn:E; [apply mh29; tauto|apply mh28]. intros Q. apply L in Q. discriminate.
Qed.
Lemma month_range y m len : month_has y m len -> 1 <= m <= 12 /\ len <= 31.
Proof. intros H. destruct H as [m I|m I|N|N]; cbn in *; lia. Qed.

Lemma after_year_iff y secs s t : parse_after_year y secs s = Some t <->
  t_Year t = y /\ (if secs then date_text dec2 s t else date_text (fun _ => []) s t /\ t_Sec t = 0).
Proof.
  split.
  - unfold parse_after_year. destruct (two s) as [[mo s1]|] eqn:E1; [|discriminate]. destruct (two s1) as [[d s2]|] eqn:E2; [|discriminate].
    destruct (two s2) as [[h s3]|] eqn:E3; [|discriminate]. destruct (two s3) as [[mi s4]|] eqn:E4; [|discriminate].
    apply two_iff in E1 as [-> H1]. apply two_iff in E2 as [-> H2]. apply two_iff in E3 as [-> H3]. apply two_iff in E4 as [-> H4].
    destruct secs.
    + destruct (two s4) as [[se s5]|] eqn:E5; [|discriminate]. apply two_iff in E5 as [-> H5]. destruct (zone s5) as [off|] eqn:Ez; [|discriminate].
      destruct ((1 <=? mo) && _ && _ && _ && _ && _ && _) eqn:C; [|discriminate]. intros [= <-]. cbn [t_Year]. split; [reflexivity|].
      apply (dt dec2 y mo d h mi se s5 off (days_in mo y)); try lia; [apply month_iff; lia|now apply zone_iff].
    + destruct (zone s4) as [off|] eqn:Ez; [|discriminate].
      destruct ((1 <=? mo) && _ && _ && _ && _ && _ && _) eqn:C; [|discriminate]. intros [= <-]. cbn [t_Year t_Sec]. split; [reflexivity|]. split; [|reflexivity].
      apply (dt (fun _ => []) y mo d h mi 0 s4 off (days_in mo y)); try lia; [apply month_iff; lia|now apply zone_iff].
  - intros [<- H]. unfold parse_after_year. destruct secs.
    + destruct H as [y mo d h mi se z off len M Hd Hh Hi Hs Hz]. cbn [t_Year]. destruct (month_range _ _ _ M) as [M1 M2]. apply month_iff in M; [|lia]. apply zone_iff in Hz.
      rewrite !two_rt by lia. rewrite Hz. replace ((1 <=? mo) && (mo <=? 12) && (1 <=? d) && (d <=? days_in mo y) && (h <? 24) && (mi <? 60) && (se <? 60)) with true by lia. reflexivity.
    + destruct H as [H H0]. destruct H as [y mo d h mi se z off len M Hd Hh Hi Hs Hz]. cbn [t_Year t_Sec] in *. subst se. destruct (month_range _ _ _ M) as [M1 M2]. apply month_iff in M; [|lia]. apply zone_iff in Hz.
      rewrite !two_rt by lia. cbn [app]. rewrite Hz. replace ((1 <=? mo) && (mo <=? 12) && (1 <=? d) && (d <=? days_in mo y) && (h <? 24) && (mi <? 60) && (0 <? 60)) with true by lia. reflexivity.
Qed.
(** the two forms of UTCTime exclude each other *)
Lemma forms_exclusive r t t' : date_text dec2 r t -> date_text (fun _ => []) r t' -> False.
Proof.
  intros H H'. assert (Lz : forall z o, zone_text z o -> List.length z = 1%nat \/ List.length z = 5%nat) by (intros z o Hz; destruct Hz; cbn; auto).
  destruct H as [y mo d h mi se z off len _ _ _ _ _ Hz]. remember (dec2 mo ++ dec2 d ++ dec2 h ++ dec2 mi ++ dec2 se ++ z) as r eqn:Er.
  destruct H' as [y' mo' d' h' mi' se' z' off' len' _ _ _ _ _ Hz']. apply (f_equal (@List.length Z)) in Er. rewrite !app_length in Er. cbn [List.length dec2] in Er.
  pose proof (Lz _ _ Hz). pose proof (Lz _ _ Hz'). lia.
Qed.
Definition window (t : civil) : civil := if 2050 <=? t_Year t then mkCivil (t_Year t - 100) (t_Month t) (t_Day t) (t_Hour t) (t_Min t) (t_Sec t) (t_Off t) else t.
Definition utc_value (s : bytes) : option civil := match parse_utc false s with Some t => Some t | None => parse_utc true s end.
Lemma leap_2000 y : 2050 <= y <= 2068 -> (leap y <-> leap (y - 100)).
Proof.
  intros H. unfold leap. assert (E : (y - 100) mod 4 = y mod 4) by (replace y with ((y - 100) + 25 * 4) at 2 by lia; now rewrite Z.mod_add by lia). rewrite E.
  assert (y mod 100 <> 0) by (replace y with ((y - 2000) + 20 * 100) by lia; rewrite Z.mod_add by lia; rewrite Z.mod_small by lia; lia).
  assert ((y - 100) mod 100 <> 0) by (replace (y - 100) with ((y - 2000) + 19 * 100) by lia; rewrite Z.mod_add by lia; rewrite Z.mod_small by lia; lia). tauto.
Qed.
Lemma month_shift y m len : 2050 <= y <= 2068 -> (month_has y m len <-> month_has (y - 100) m len).
Proof.
  intros H. pose proof (leap_2000 y H) as L. split; intros M; destruct M as [m I|m I|N|N]; [now apply mh31|now apply mh30|apply mh28; tauto|apply mh29; tauto|now apply mh31|now apply mh30|apply mh28; tauto|apply mh29; tauto].
Qed.
Definition with_year (y : Z) (t : civil) : civil := mkCivil y (t_Month t) (t_Day t) (t_Hour t) (t_Min t) (t_Sec t) (t_Off t).
Lemma text_shift f r t y : 2050 <= y <= 2068 -> t_Year t = y -> (date_text f r t <-> date_text f r (with_year (y - 100) t)).
Proof.
  intros H Hy. split; intros D.
  - destruct D as [y0 mo d h mi se z off len M Hd Hh Hi Hs Hz]. cbn [t_Year] in Hy. subst y0. unfold with_year. cbn [t_Month t_Day t_Hour t_Min t_Sec t_Off].
    apply (dt f (y - 100) mo d h mi se z off len); auto. now apply (proj1 (month_shift y mo len H)).
  - destruct t as [y0 mo d h mi se off]. cbn [t_Year] in Hy. subst y0. unfold with_year in D. cbn [t_Month t_Day t_Hour t_Min t_Sec t_Off] in D.
    inversion D as [y1 mo1 d1 h1 mi1 se1 z1 off1 len1 M Hd Hh Hi Hs Hz E1 E2]; subst. apply (dt f y mo d h mi se z1 off len1); auto. now apply (proj2 (month_shift y mo len1 H)).
Qed.
Lemma utc_iff s t : (exists t0, utc_value s = Some t0 /\ window t0 = t) <-> utc_text s t.
Proof.
  assert (Val : forall t0, utc_value s = Some t0 <->
    exists yy r, s = dec2 yy ++ r /\ 0 <= yy < 100 /\ t_Year t0 = (if 69 <=? yy then 1900 + yy else 2000 + yy) /\ (date_text dec2 r t0 \/ date_text (fun _ => []) r t0 /\ t_Sec t0 = 0)).
  { intros t0. unfold utc_value, parse_utc. split.
    - destruct (two s) as [[yy r]|] eqn:E; [|discriminate]. apply two_iff in E as [-> Hy]. intros H. exists yy, r. split; [auto|]. split; [auto|].
      destruct (parse_after_year _ false r) as [t1|] eqn:E1.
      + injection H as <-. apply after_year_iff in E1 as [E1 E2]. auto.
      + apply after_year_iff in H as [H1 H2]. auto.
    - intros (yy & r & -> & Hy & Ey & H). rewrite two_rt by lia. destruct H as [H|H].
      + destruct (parse_after_year _ false r) as [t1|] eqn:E1.
        * apply after_year_iff in E1 as [_ [E1 _]]. exfalso. exact (forms_exclusive _ _ _ H E1).
        * apply after_year_iff. auto.
      + assert (E1 : parse_after_year (if 69 <=? yy then 1900 + yy else 2000 + yy) false r = Some t0) by (apply after_year_iff; auto). now rewrite E1. }
  split.
  - intros (t0 & E & <-). apply Val in E as (yy & r & -> & Hy & Ey & H). unfold utc_text, window.
    destruct (Z.leb_spec 69 yy).
    + destruct (Z.leb_spec 2050 (t_Year t0)); [lia|]. split; [lia|]. exists r. split; [|exact H]. rewrite Ey. replace ((1900 + yy) mod 100) with yy; [reflexivity|]. apply (Z.mod_unique _ 100 19 yy); lia.
    + destruct (Z.leb_spec 2050 (t_Year t0)).
      * change (mkCivil (t_Year t0 - 100) (t_Month t0) (t_Day t0) (t_Hour t0) (t_Min t0) (t_Sec t0) (t_Off t0)) with (with_year (t_Year t0 - 100) t0).
        cbn [with_year t_Year t_Sec]. split; [lia|]. exists r. rewrite Ey. split.
        -- replace ((2000 + yy - 100) mod 100) with yy; [reflexivity|]. apply (Z.mod_unique _ 100 19 yy); lia.
        -- change (mkCivil (2000 + yy - 100) (t_Month t0) (t_Day t0) (t_Hour t0) (t_Min t0) (t_Sec t0) (t_Off t0)) with (with_year (2000 + yy - 100) t0).
           destruct H as [H|[H H']]; [left|right; split; [|exact H']]; apply (text_shift _ _ t0 (2000 + yy)); auto; lia.
      * split; [lia|]. exists r. split; [|exact H]. rewrite Ey. replace ((2000 + yy) mod 100) with yy; [reflexivity|]. apply (Z.mod_unique _ 100 20 yy); lia.
  - intros (Hy & r & -> & H). pose proof (Z.div_mod (t_Year t) 100 ltac:(lia)) as D. pose proof (Z.mod_pos_bound (t_Year t) 100 ltac:(lia)) as B. set (yy := t_Year t mod 100) in *.
    destruct (Z.leb_spec 1950 (t_Year t)); [|lia]. destruct (Z_lt_dec (t_Year t) 1969) as [L|L].
    + (* 1950..1968: read as 2050..2068 first *)
      assert (Eyy : yy = t_Year t - 1900) by lia.
      exists (with_year (t_Year t + 100) t). split.
      * apply Val. exists yy, r. split; [reflexivity|]. split; [lia|]. cbn [with_year t_Year t_Sec]. split; [destruct (Z.leb_spec 69 yy); lia|].
        assert (Ew : with_year (t_Year t + 100 - 100) (with_year (t_Year t + 100) t) = t).
        { unfold with_year. cbn [t_Month t_Day t_Hour t_Min t_Sec t_Off]. replace (t_Year t + 100 - 100) with (t_Year t) by lia. now destruct t. }
        destruct H as [H|[H H']]; [left|right; split; [|exact H']]; apply (text_shift _ _ (with_year (t_Year t + 100) t) (t_Year t + 100)); try lia; try reflexivity; rewrite Ew; exact H.
      * unfold window. cbn [with_year t_Year t_Month t_Day t_Hour t_Min t_Sec t_Off]. destruct (Z.leb_spec 2050 (t_Year t + 100)); [|lia]. replace (t_Year t + 100 - 100) with (t_Year t) by lia. now destruct t.
    + exists t. split.
      * apply Val. exists yy, r. split; [reflexivity|]. split; [lia|]. split; [|exact H]. destruct (Z.leb_spec 69 yy); lia.
      * unfold window. destruct (Z.leb_spec 2050 (t_Year t)); [lia|reflexivity].
Qed.
Lemma gen_iff s t : parse_generalized s = Some t <-> gen_text s t.
Proof.
  unfold parse_generalized, gen_text. split.
  - destruct (two s) as [[c r]|] eqn:E1; [|discriminate]. destruct (two r) as [[yy r']|] eqn:E2; [|discriminate].
    apply two_iff in E1 as [-> H1]. apply two_iff in E2 as [-> H2]. intros H. apply after_year_iff in H as [Hy H]. split; [lia|]. exists r'. rewrite Hy.
    replace ((100 * c + yy) / 100) with c by (apply (Z.div_unique _ 100 c yy); lia). replace ((100 * c + yy) mod 100) with yy by (apply (Z.mod_unique _ 100 c yy); lia). auto.
  - intros (Hy & r & -> & H). pose proof (Z.div_mod (t_Year t) 100 ltac:(lia)) as D. pose proof (Z.mod_pos_bound (t_Year t) 100 ltac:(lia)) as B.
    assert (0 <= t_Year t / 100 < 100) by (split; [apply Z.div_pos; lia|apply Z.div_lt_upper_bound; lia]). rewrite !two_rt by lia. apply after_year_iff. split; [lia|exact H].
Qed.

(** ** C110 *)
(** one date: a UTCTime or a GeneralizedTime, and exactly these texts *)
Definition time_element (e : bytes) (t : civil) : Prop :=
  exists s, zlen s <= max_content /\ (e = tlv T_UTCTime s /\ utc_text s t \/ e = tlv T_GeneralizedTime s /\ gen_text s t).
Lemma peek_tlv tag s r : peekTag tag (tlv tag s ++ r) = true.
Proof. unfold tlv. cbn. apply Z.eqb_refl. Qed.
Lemma parseTime_iff der t rest : bytes_ok der -> (parseTime der = Ret (t, rest) <-> exists e, der = e ++ rest /\ time_element e t).
Proof.
  intros Hb. unfold parseTime. split.
  - destruct (peekTag T_UTCTime der).
    + destruct (readASN1 T_UTCTime der) as [[s r]|] eqn:E; [|discriminate]. cbn [need bind]. apply readASN1_inv in E as (-> & _ & L); auto.
      fold (utc_value s). destruct (utc_value s) as [t0|] eqn:Ev; [|discriminate]. fold (window t0). intros [= <- <-]. exists (tlv T_UTCTime s). split; [auto|]. exists s. split; [auto|].
      left. split; [auto|]. apply utc_iff. eauto.
    + destruct (peekTag T_GeneralizedTime der); [|discriminate]. destruct (readASN1 T_GeneralizedTime der) as [[s r]|] eqn:E; [|discriminate].
      apply readASN1_inv in E as (-> & _ & L); auto. destruct (parse_generalized s) as [t0|] eqn:Ev; [|discriminate]. intros [= <- <-]. exists (tlv T_GeneralizedTime s). split; [auto|]. exists s. split; [auto|].
      right. split; [auto|]. now apply gen_iff.
  - intros (e & -> & s & L & [[-> H]|[-> H]]).
    + rewrite peek_tlv. rewrite readASN1_tlv by first [exact L|split; [unfold byte_ok, T_UTCTime; lia|vm_compute; discriminate]]. cbn [need bind]. fold (utc_value s). apply utc_iff in H as (t0 & -> & <-). reflexivity.
    + assert (Ef : peekTag T_UTCTime (tlv T_GeneralizedTime s ++ rest) = false) by reflexivity. rewrite Ef, peek_tlv.
      rewrite readASN1_tlv by first [exact L|split; [unfold byte_ok, T_GeneralizedTime; lia|vm_compute; discriminate]]. apply gen_iff in H. now rewrite H.
Qed.
(** the validity of a certificate: two dates, and whatever follows them is ignored; the order of the two is not checked *)
Theorem C110_validity : forall der nb na, bytes_ok der ->
  (parseValidity der = Ret (nb, na) <-> exists e1 e2 rest, der = e1 ++ e2 ++ rest /\ time_element e1 nb /\ time_element e2 na).
Proof.
  intros der nb na Hb. unfold parseValidity. split.
  - destruct (parseTime der) as [[t1 d1]| |] eqn:E1; cbn [bind]; try discriminate. apply parseTime_iff in E1 as (e1 & -> & T1); auto. apply bytes_ok_app in Hb as [_ Hb].
    destruct (parseTime d1) as [[t2 d2]| |] eqn:E2; cbn [bind]; try discriminate. apply parseTime_iff in E2 as (e2 & -> & T2); auto. intros [= <- <-]. exists e1, e2, d2. auto.
  - intros (e1 & e2 & rest & -> & T1 & T2). assert (E1 : parseTime (e1 ++ e2 ++ rest) = Ret (nb, e2 ++ rest)) by (apply parseTime_iff; eauto). rewrite E1. cbn [bind].
    apply bytes_ok_app in Hb as [_ Hb]. assert (E2 : parseTime (e2 ++ rest) = Ret (na, rest)) by (apply parseTime_iff; eauto). now rewrite E2.
Qed.
Print Assumptions C110_validity.
(** the dates of revocation lists and signing times, which encoding/asn1 reads *)
Theorem C110_asn1 : forall s t,
  (asn1_UTCTime s = Ret t <-> utc_text s (tm_civil t) /\ tm_ns t = 0) /\
  (asn1_GeneralizedTime s = Ret t <-> gen_text s (tm_civil t) /\ tm_ns t = 0).
Proof.
  intros s t. split.
  - unfold asn1_UTCTime. fold (utc_value s). rewrite <- utc_iff. destruct (utc_value s) as [t0|] eqn:E.
    + fold (window t0). split; [intros [= <-]; cbn [tm_civil tm_ns]; eauto|]. intros ((t1 & [= <-] & W) & N). destruct t. cbn in *. now subst.
    + split; [discriminate|]. intros ((t1 & Q & _) & _). discriminate Q.
  - unfold asn1_GeneralizedTime. rewrite <- gen_iff. destruct (parse_generalized s) as [t0|].
    + split; [intros [= <-]; cbn [tm_civil tm_ns]; auto|]. intros (Q & N). injection Q as Q. destruct t. cbn in *. now subst.
    + split; [discriminate|]. intros (Q & _). discriminate Q.
Qed.
Print Assumptions C110_asn1.
(** a text has one meaning *)
Theorem C110_function : forall s t t', (utc_text s t -> utc_text s t' -> t = t') /\ (gen_text s t -> gen_text s t' -> t = t').
Proof.
  intros s t t'. split; intros H H'.
  - apply utc_iff in H as (a & Ea & <-). apply utc_iff in H' as (b & Eb & <-). rewrite Ea in Eb. injection Eb as <-. reflexivity.
  - apply gen_iff in H. apply gen_iff in H'. congruence.
Qed.
Print Assumptions C110_function.
(** 2 January 2020, 03:04, five and a half hours east of Greenwich; a leap day in the years 1968 and 2000, not in 2100 *)
Example C110_instance :
  parseValidity (tlv 23 (chars "2001020304+0530") ++ tlv 24 (chars "21000228235959-0100") ++ [1; 2]) =
    Ret (mkCivil 2020 1 2 3 4 0 330, mkCivil 2100 2 28 23 59 59 (-60)) /\
  asn1_UTCTime (chars "680229000000Z") = Ret (mkTime (mkCivil 1968 2 29 0 0 0 0) 0) /\
  (exists e, asn1_GeneralizedTime (chars "21000229000000Z") = Err e) /\ (exists e, asn1_UTCTime (chars "200102030405+0000") = Err e).
Proof. split; [vm_compute; reflexivity|]. split; [vm_compute; reflexivity|]. split; eexists; vm_compute; reflexivity. Qed.
