(** * The order of times: fields against a count of nanoseconds *)
From Coq Require Import String ZifyBool.
From Verif Require Import Base X509Model X509Build X509Crl X509CrlProofs.
Open Scope Z_scope.

(** ** Specification: proleptic Gregorian calendar *)
Definition leap_years_before (y : Z) : Z := (y - 1) / 4 - (y - 1) / 100 + (y - 1) / 400.
Fixpoint sum_days (n : nat) (y : Z) : Z := match n with O => 0 | S k => sum_days k y + days_in (Z.of_nat n) y end.
(** days from an origin to a date *)
Definition day_number (y m d : Z) : Z := 365 * y + leap_years_before y + sum_days (Z.to_nat (m - 1)) y + d.
(** nanoseconds *)
Definition instant (t : timeT) : Z :=
  let c := tm_civil t in
  (((day_number (t_Year c) (t_Month c) (t_Day c) * 24 + t_Hour c) * 60 + t_Min c) * 60 + t_Sec c) * 1000000000 + tm_ns t.
Definition valid_time (t : timeT) : Prop := valid_civil (tm_civil t) /\ 0 <= tm_ns t < 1000000000.

(** ** Proofs *)
Lemma div_step y k : 0 < k -> y / k = (y - 1) / k + (if y mod k =? 0 then 1 else 0).
Proof.
  intros Hk. pose proof (Z.div_mod y k ltac:(lia)) as D. pose proof (Z.mod_pos_bound y k Hk) as B.
  destruct (Z.eqb_spec (y mod k) 0) as [E|E].
  - replace (y - 1) with ((y / k - 1) * k + (k - 1)) by lia. rewrite Z.div_add_l by lia. rewrite (Z.div_small (k - 1) k) by lia. lia.
  - replace (y - 1) with (y / k * k + (y mod k - 1)) by lia. rewrite Z.div_add_l by lia. rewrite (Z.div_small (y mod k - 1) k) by lia. lia.
Qed.
Lemma leap_step y : leap_years_before (y + 1) = leap_years_before y + (if is_leap y then 1 else 0).
Proof.
  unfold leap_years_before. replace (y + 1 - 1) with y by lia. rewrite (div_step y 4), (div_step y 100), (div_step y 400) by lia. unfold is_leap.
  assert (H1 : y mod 400 = 0 -> y mod 100 = 0). { intros E. apply Z.mod_divide; [lia|]. apply Z.mod_divide in E; [|lia]. destruct E as [q ->]. exists (q * 4). lia. }
  assert (H2 : y mod 100 = 0 -> y mod 4 = 0). { intros E. apply Z.mod_divide; [lia|]. apply Z.mod_divide in E; [|lia]. destruct E as [q ->]. exists (q * 25). lia. }
  destruct (Z.eqb_spec (y mod 4) 0); destruct (Z.eqb_spec (y mod 100) 0); destruct (Z.eqb_spec (y mod 400) 0); cbn [andb orb negb]; try lia.
Qed.
Lemma days_low m y : 28 <= days_in m y. Proof. unfold days_in. destruct (m =? 2); [destruct (is_leap y)|destruct (_ || _)]; lia. Qed.
Lemma sum_step n y : sum_days (S n) y = sum_days n y + days_in (Z.of_nat (S n)) y. Proof. reflexivity. Qed.
Lemma sum_mono n n' y : (n <= n')%nat -> sum_days n y <= sum_days n' y.
Proof. induction 1 as [|k H IH]; [lia|]. rewrite sum_step. pose proof (days_low (Z.of_nat (S k)) y). lia. Qed.
Lemma sum12 y : sum_days 12 y = 365 + (if is_leap y then 1 else 0). Proof. cbn [sum_days]. unfold days_in. cbn. destruct (is_leap y); reflexivity. Qed.
Lemma year_start y k : 0 <= k -> day_number y 1 1 <= day_number (y + k) 1 1.
Proof.
  intros H. revert k H. apply (natlike_ind (fun k => day_number y 1 1 <= day_number (y + k) 1 1)); [replace (y + 0) with y by lia; lia|].
  intros k Hk IH. eapply Z.le_trans; [exact IH|]. unfold day_number. change (Z.to_nat (1 - 1)) with 0%nat. cbn [sum_days]. replace (y + Z.succ k) with (y + k + 1) by lia. rewrite leap_step. destruct (is_leap (y + k)); lia.
Qed.
Lemma in_year y m d : 1 <= m <= 12 -> 1 <= d <= days_in m y -> day_number y 1 1 <= day_number y m d < day_number (y + 1) 1 1.
Proof.
  intros Hm Hd. unfold day_number. rewrite leap_step. change (Z.to_nat (1 - 1)) with 0%nat. cbn [sum_days].
  pose proof (sum_mono 0 (Z.to_nat (m - 1)) y ltac:(lia)) as L. cbn [sum_days] in L. pose proof (sum_mono (S (Z.to_nat (m - 1))) 12 y ltac:(lia)) as U. rewrite sum12, sum_step in U.
  replace (Z.of_nat (S (Z.to_nat (m - 1)))) with m in U by lia. lia.
Qed.
Lemma month_lt y m d m' d' : 1 <= m -> m < m' -> 1 <= d <= days_in m y -> 1 <= d' -> day_number y m d < day_number y m' d'.
Proof.
  intros Hm Hl Hd Hd'. unfold day_number. pose proof (sum_mono (S (Z.to_nat (m - 1))) (Z.to_nat (m' - 1)) y ltac:(lia)) as U. rewrite sum_step in U.
  replace (Z.of_nat (S (Z.to_nat (m - 1)))) with m in U by lia. lia.
Qed.
Lemma lex_lt_instant a b : valid_time a -> valid_time b -> lex_ltb (civil_list a) (civil_list b) = true -> instant a < instant b.
Proof.
  intros ((Hy & Hm & Hd & Hh & Hi & Hs & _) & Hn) ((Hy' & Hm' & Hd' & Hh' & Hi' & Hs' & _) & Hn'). destruct a as [[y m d h mi s off] n], b as [[y' m' d' h' mi' s' off'] n'].
  cbn [tm_civil tm_ns t_Year t_Month t_Day t_Hour t_Min t_Sec civil_list] in *. unfold instant. cbn [tm_civil tm_ns t_Year t_Month t_Day t_Hour t_Min t_Sec]. cbn [lex_ltb].
  intros H. unfold civil_list in H. cbn [tm_civil tm_ns t_Year t_Month t_Day t_Hour t_Min t_Sec lex_ltb] in H. assert (D : day_number y m d < day_number y' m' d' \/ y = y' /\ m = m' /\ d = d').
  { destruct (Z.lt_trichotomy y y') as [L|[->|L]]; [| |exfalso; lia].
    - left. pose proof (in_year y m d Hm Hd). pose proof (in_year y' m' d' Hm' Hd'). pose proof (year_start (y + 1) (y' - (y + 1)) ltac:(lia)) as K. replace (y + 1 + (y' - (y + 1))) with y' in K by lia. lia.
    - destruct (Z.lt_trichotomy m m') as [L|[->|L]]; [| |exfalso; lia].
      + left. apply month_lt; lia.
      + destruct (Z.lt_trichotomy d d') as [L|[->|L]]; [| |exfalso; lia]; [left; unfold day_number; lia|right; auto]. }
  destruct D as [D|(-> & -> & ->)].
  - set (A := day_number y m d) in *. set (B := day_number y' m' d') in *. clearbody A B. lia.
  - set (A := day_number y' m' d') in *. clearbody A. rewrite !Z.ltb_irrefl, !Z.eqb_refl in H. cbn [orb andb] in H. lia.
Qed.
Lemma lex_total a b : lex_ltb (civil_list a) (civil_list b) = false -> lex_ltb (civil_list b) (civil_list a) = false -> civil_list a = civil_list b.
Proof.
  unfold civil_list. cbn [lex_ltb]. intros H K.
  assert (t_Year (tm_civil a) = t_Year (tm_civil b)) as E1 by lia. rewrite E1 in *. rewrite Z.ltb_irrefl, Z.eqb_refl in *. cbn [orb andb] in *.
  assert (t_Month (tm_civil a) = t_Month (tm_civil b)) as E2 by lia. rewrite E2 in *. rewrite Z.ltb_irrefl, Z.eqb_refl in *. cbn [orb andb] in *.
  assert (t_Day (tm_civil a) = t_Day (tm_civil b)) as E3 by lia. rewrite E3 in *. rewrite Z.ltb_irrefl, Z.eqb_refl in *. cbn [orb andb] in *.
  assert (t_Hour (tm_civil a) = t_Hour (tm_civil b)) as E4 by lia. rewrite E4 in *. rewrite Z.ltb_irrefl, Z.eqb_refl in *. cbn [orb andb] in *.
  assert (t_Min (tm_civil a) = t_Min (tm_civil b)) as E5 by lia. rewrite E5 in *. rewrite Z.ltb_irrefl, Z.eqb_refl in *. cbn [orb andb] in *.
  assert (t_Sec (tm_civil a) = t_Sec (tm_civil b)) as E6 by lia. rewrite E6 in *. rewrite Z.ltb_irrefl, Z.eqb_refl in *. cbn [orb andb] in *.
  assert (tm_ns a = tm_ns b) as E7 by lia. rewrite E7. reflexivity.
Qed.
(** Before compares instants *)
Lemma Before_instant a b : valid_time a -> valid_time b -> time_Before a b = (instant a <? instant b).
Proof.
  intros Va Vb. unfold time_Before. destruct (lex_ltb (civil_list a) (civil_list b)) eqn:E.
  - pose proof (lex_lt_instant a b Va Vb E). lia.
  - destruct (lex_ltb (civil_list b) (civil_list a)) eqn:F.
    + pose proof (lex_lt_instant b a Vb Va F). lia.
    + pose proof (lex_total a b E F) as H. assert (instant a = instant b). { unfold civil_list in H. unfold instant. cbv zeta. injection H as -> -> -> -> -> -> ->. reflexivity. } lia.
Qed.
Example instant_epoch : instant (mkTime (mkCivil 1970 1 1 0 0 0 0) 0) - instant (mkTime (mkCivil 2000 3 1 0 0 0 0) 0) = - 951868800 * 1000000000. Proof. reflexivity. Qed.
