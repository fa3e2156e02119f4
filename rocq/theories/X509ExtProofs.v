(** * Round trips of the X.509 extensions *)
From Coq Require Import String ZifyBool ZifyNat.
From Verif Require Import Base Words Utf8 ECModel SM2Model CryptoByte Asn1 Asn1Proofs KeysModel KeysProofs P12Enc X509Model X509Sig X509Build X509Proofs X509StrProofs.
Open Scope Z_scope.

(** ** Elements *)
Lemma el_tlv cls tag (comp : bool) b : tag <= 30 -> zlen b <= 0xfffffffe -> el cls tag comp b = tlv (cls * 64 + (if comp then 32 else 0) + tag) b.
Proof. apply hdr_tlv. Qed.
Lemma el_read cls tag (comp : bool) b rest T : T = cls * 64 + (if comp then 32 else 0) + tag -> tag_ok T -> tag <= 30 -> zlen (el cls tag comp b) < 2 ^ 31 ->
  readASN1 T (el cls tag comp b ++ rest) = Some (b, rest).
Proof.
  intros -> Ht Hg Hz. pose proof (el_len cls tag comp b). rewrite el_tlv by lia. apply readASN1_tlv; auto. unfold max_content. lia.
Qed.
Lemma el_any cls tag (comp : bool) b rest : tag_ok (cls * 64 + (if comp then 32 else 0) + tag) -> tag <= 30 -> zlen (el cls tag comp b) < 2 ^ 31 ->
  readAny (el cls tag comp b ++ rest) = Some (cls * 64 + (if comp then 32 else 0) + tag, b, rest).
Proof.
  intros Ht Hg Hz. pose proof (el_len cls tag comp b). rewrite el_tlv by lia. unfold readAny. rewrite readAny_tlv; auto. unfold max_content. lia.
Qed.
Lemma el_elt cls tag (comp : bool) b rest T : T = cls * 64 + (if comp then 32 else 0) + tag -> tag_ok T -> tag <= 30 -> zlen (el cls tag comp b) < 2 ^ 31 ->
  readASN1Element T (el cls tag comp b ++ rest) = Some (el cls tag comp b, rest).
Proof.
  intros -> Ht Hg Hz. pose proof (el_len cls tag comp b). rewrite el_tlv by lia. unfold readASN1Element. rewrite readAny_tlv; auto; [|unfold max_content; lia].
  rewrite Z.eqb_refl. reflexivity.
Qed.
Lemma el_peek cls tag (comp : bool) b rest T : tag <= 30 -> peekTag T (el cls tag comp b ++ rest) = (cls * 64 + (if comp then 32 else 0) + tag =? T).
Proof. intros H. unfold el, hdr, appendTagAndLength. cbn [t_tag t_class t_comp]. replace (31 <=? tag) with false by lia. reflexivity. Qed.
Ltac tagok := split; [split; [vm_compute; discriminate|vm_compute; reflexivity]|vm_compute; discriminate].
Lemma tseq : tag_ok T_SEQUENCE. Proof. tagok. Qed.

(** ** the loop *)
Lemma many_es {A} (step : bytes -> outcome (A * bytes)) es vs :
  Forall2 (fun e v => e <> [] /\ forall rest, step (e ++ rest) = Ret (v, rest)) es vs -> many step (List.concat es) = Ret vs.
Proof.
  intros H. assert (E1 : List.concat es = flat_map fst (combine es vs)). { induction H; [reflexivity|]. cbn [List.concat combine flat_map fst]. now rewrite IHForall2. }
  assert (E2 : vs = map snd (combine es vs)). { clear E1. induction H; [reflexivity|]. cbn [combine map snd]. now rewrite <- IHForall2. }
  rewrite E1. rewrite E2 at 2. apply many_concat. intros [e v] Hin. clear E1 E2. induction H; [destruct Hin|]. destruct Hin as [[= -> ->]|Hin]; auto.
Qed.
Lemma Forall2_map_l {A B} (f : A -> B) (R : B -> A -> Prop) l : Forall (fun a => R (f a) a) l -> Forall2 R (map f l) l.
Proof. induction 1; constructor; auto. Qed.
Lemma Forall2_maps {A B C} (f : A -> B) (g : A -> C) (R : B -> C -> Prop) l : Forall (fun a => R (f a) (g a)) l -> Forall2 R (map f l) (map g l).
Proof. induction 1; constructor; auto. Qed.
Lemma concat_small es n : zlen (List.concat es) < n -> Forall (fun e : bytes => zlen e < n) es.
Proof.
  induction es as [|e es IH]; intros H; constructor; cbn [List.concat] in H; rewrite zlen_app in H; pose proof (zlen_nonneg e); pose proof (zlen_nonneg (List.concat es)); [lia|apply IH; lia].
Qed.
Lemma mapM_ret {A B} (f : A -> outcome B) (g : A -> B) l : Forall (fun a => f a = Ret (g a)) l -> mapM f l = Ret (map g l).
Proof. induction 1 as [|a l Ha _ IH]; [reflexivity|]. cbn [mapM map]. rewrite Ha. cbn [bind]. rewrite IH. reflexivity. Qed.
Lemma mapM_app {A B} (f : A -> outcome B) l m : mapM f (l ++ m) = (do x <- mapM f l; do y <- mapM f m; Ret (x ++ y)).
Proof.
  induction l as [|a l IH]; cbn [app mapM bind]; [destruct (mapM f m); reflexivity|]. destruct (f a); cbn [bind]; auto. rewrite IH. destruct (mapM f l); cbn [bind]; auto.
  destruct (mapM f m); reflexivity.
Qed.
Lemma mapM_Forall2 {A B} (f : A -> outcome B) l ys : mapM f l = Ret ys -> Forall2 (fun a b => f a = Ret b) l ys.
Proof.
  revert ys. induction l as [|a l IH]; intros ys; cbn [mapM]; [intros [= <-]; constructor|]. destruct (f a) as [b| |] eqn:E; cbn [bind]; try discriminate.
  destruct (mapM f l) as [bs| |]; cbn [bind]; try discriminate. intros [= <-]. constructor; auto.
Qed.

(** ** key usage *)
Lemma nth_bits8 b r : 0 <= r < 8 -> nth (Z.to_nat r) (bits8 b) false = Z.testbit b (7 - r).
Proof. intros H. assert (r = 0 \/ r = 1 \/ r = 2 \/ r = 3 \/ r = 4 \/ r = 5 \/ r = 6 \/ r = 7) as C by lia. unfold bits8. intuition; subst; reflexivity. Qed.
Lemma nth_bits s : forall q r, 0 <= q -> 0 <= r < 8 -> nth (Z.to_nat (8 * q + r)) (bits s) false = Z.testbit (nth (Z.to_nat q) s 0) (7 - r).
Proof.
  induction s as [|b s IH]; intros q r Hq Hr.
  - unfold bits. cbn [flat_map]. destruct (Z.to_nat q); destruct (Z.to_nat (8 * _ + r)); cbn [nth]; rewrite Z.bits_0; reflexivity.
  - unfold bits in *. cbn [flat_map]. destruct (Z.eq_dec q 0) as [->|N].
    + rewrite app_nth1 by (change (List.length (bits8 b)) with 8%nat; lia). change (8 * 0 + r) with r. rewrite nth_bits8 by lia. reflexivity.
    + rewrite app_nth2 by (change (List.length (bits8 b)) with 8%nat; lia). change (List.length (bits8 b)) with 8%nat.
      replace (Z.to_nat (8 * q + r) - 8)%nat with (Z.to_nat (8 * (q - 1) + r)) by lia. rewrite IH by lia.
      replace (Z.to_nat q) with (S (Z.to_nat (q - 1))) by lia. reflexivity.
Qed.
Lemma bit_at_bits s len i : 0 <= i -> trimmed (bits s) <= len <= 8 * zlen s -> bit_at (mkBits (Some s) len) i = Z.b2z (nth (Z.to_nat i) (bits s) false).
Proof.
  intros Hi Hl. unfold bit_at. cbn [bs_len bs_bytes sl]. pose proof (trimmed_spec (bits s)) as (A & B & C). rewrite bits_length in *.
  replace (i <? 0) with false by lia. cbn [orb]. destruct (Z.leb_spec len i) as [L|L].
  - destruct (Z.lt_ge_cases i (8 * zlen s)); [rewrite B by lia; reflexivity|]. rewrite nth_overflow; [reflexivity|].
    pose proof (bits_length s) as Z0. unfold zlen in Z0 at 1. lia.
  - replace (Z.to_nat i) with (Z.to_nat (8 * (i / 8) + i mod 8)) by (rewrite <- Z.div_mod by lia; reflexivity).
    pose proof (Z.mod_pos_bound i 8). rewrite nth_bits by (try apply Z.div_pos; lia).
    change 1 with (Z.ones 1). rewrite Z.land_ones by lia. change (2 ^ 1) with 2. rewrite <- Z.bit0_mod, Z.shiftr_spec by lia. rewrite Z.add_0_l. reflexivity.
Qed.
Lemma land_trim x : byte_ok x -> 0 < trimmed (bits8 x) -> Z.land x (2 ^ (8 - trimmed (bits8 x)) - 1) = 0.
Proof.
  intros Hx _. assert (E : (Z.land x (2 ^ (8 - trimmed (bits8 x)) - 1) =? 0) || (x =? 0) = true) by (revert x Hx; apply all_bytes; vm_compute; reflexivity).
  apply orb_true_iff in E as [E|E]; [apply Z.eqb_eq; exact E|]. apply Z.eqb_eq in E. subst. apply Z.land_0_l.
Qed.
(** a bit string in named-bit form (no zero byte at the end, except for a single byte) is read back with its bits *)
Lemma readBits_rt pre x rest : bytes_ok (pre ++ [x]) -> x <> 0 \/ pre = [] -> zlen pre < 1000 ->
  let s := pre ++ [x] in
  exists b len, Marshal cBits (mkBits (Some s) (asn1BitLength s)) = Ret b /\ zlen b < 1100 /\ trimmed (bits s) <= len <= 8 * zlen s /\
    readBitString (b ++ rest) = Some (mkBits (Some s) len, rest).
Proof.
  intros Hok Hx Hz. cbv zeta. remember (pre ++ [x]) as s eqn:Es. unfold asn1BitLength. rewrite bitlen_loop_spec. remember (trimmed (bits s)) as L eqn:EL.
  pose proof (trimmed_range (bits s)) as TR. rewrite bits_length, <- EL in TR.
  assert (Lz : zlen s = zlen pre + 1) by (subst s; rewrite zlen_app; reflexivity). pose proof (zlen_nonneg pre) as Zp.
  assert (EL' : L = if 0 <? trimmed (bits8 x) then 8 * zlen pre + trimmed (bits8 x) else trimmed (bits pre)).
  { subst L s. unfold bits. rewrite flat_map_app. cbn [flat_map]. rewrite app_nil_r, trimmed_app. fold (bits pre). rewrite bits_length. reflexivity. }
  assert (Bx : byte_ok x) by (subst s; apply bytes_ok_app in Hok as [_ Hok]; apply bytes_ok_cons in Hok; apply Hok).
  pose proof (trimmed_range (bits8 x)) as T8. change (zlen (bits8 x)) with 8 in T8.
  assert (X0 : x = 0 -> trimmed (bits8 x) = 0) by (intros ->; reflexivity).
  assert (X1 : x <> 0 -> 0 < trimmed (bits8 x)).
  { intros N. assert (E : (x =? 0) || (0 <? trimmed (bits8 x)) = true) by (revert x Bx Es Hok Hx EL' T8 X0 N; intros x Bx _ _ _ _ _ _ _; revert x Bx; apply all_bytes; vm_compute; reflexivity). lia. }
  remember ((8 - Z.rem L 8) mod 8) as pad eqn:Ep.
  assert (Hpad : 0 <= pad <= 7 /\ L <= 8 * zlen s - pad /\ Z.land x (2 ^ pad - 1) = 0).
  { rewrite Z.rem_mod_nonneg in Ep by lia. destruct (Z.ltb_spec 0 (trimmed (bits8 x))) as [P|P].
    - assert (pad = 8 - trimmed (bits8 x)).
      { rewrite Ep, EL', <- Zminus_mod_idemp_r. replace (8 * zlen pre + trimmed (bits8 x)) with (trimmed (bits8 x) + zlen pre * 8) by lia. rewrite Z.mod_add by lia. rewrite !Zminus_mod_idemp_r. apply Z.mod_small. lia. }
      split; [lia|]. split; [lia|]. rewrite H. apply land_trim; auto.
    - assert (x = 0) by lia. destruct Hx as [Hx|Hx]; [lia|]. subst pre. assert (L = 0) by (rewrite EL'; reflexivity).
      assert (pad = 0) by (rewrite Ep, H0; reflexivity). rewrite H1. split; [lia|]. split; [lia|]. apply Z.land_0_r. }
  destruct Hpad as (P1 & P2 & P3). exists (el 0 3 false (pad :: s)), (8 * zlen s - pad).
  assert (Zs : zlen (pad :: s) < 1002) by (rewrite zlen_cons; lia).
  split; [unfold Marshal, makeField; cbn [p_omit noP andb p_opt c_whole cBits prim p_set c_tag c_body p_tag c_comp]; unfold bits_body; cbn [bs_len bs_bytes bind]; rewrite <- Ep; reflexivity|].
  assert (Ze : zlen (el 0 3 false (pad :: s)) < 1100). { rewrite el_tlv by lia. pose proof (tlv_zlen (0 * 64 + 0 + 3) (pad :: s)). lia. }
  split; [exact Ze|]. split; [lia|]. unfold readBitString. rewrite (el_read 0 3 false (pad :: s) rest T_BIT_STRING); [|reflexivity|tagok|lia|lia].
  replace (7 <? pad) with false by lia. assert (NE : exists y t, s = y :: t) by (subst s; destruct pre; eexists _, _; reflexivity).
  assert (Ls : last s 0 = x) by (subst s; apply last_last). rewrite Ls, P3. destruct NE as (y & t & ->). reflexivity.
Qed.
Lemma fold_usage ku (f : Z -> Z) : (forall i, 0 <= i < 9 -> f i = Z.b2z (Z.testbit ku i)) ->
  fold_left (fun usage i => if f i =? 0 then usage else Z.lor usage (Z.shiftl 1 i)) [0; 1; 2; 3; 4; 5; 6; 7; 8] 0 = Z.land ku 511.
Proof.
  intros H. change 511 with (Z.ones 9). rewrite Z.land_ones by lia. remember (ku mod 2 ^ 9) as m eqn:Em.
  assert (Hm : 0 <= m < 512) by (subst; apply Z.mod_pos_bound; lia).
  assert (Hf : forall i, 0 <= i < 9 -> f i = Z.b2z (Z.testbit m i)) by (intros i Hi; subst m; rewrite Z.mod_pow2_bits_low by lia; auto).
  cbn [fold_left]. rewrite !Hf by lia. clear H Hf Em.
  assert (E : forallb (fun m => (fold_left (fun usage i => if Z.b2z (Z.testbit m i) =? 0 then usage else Z.lor usage (Z.shiftl 1 i)) [0; 1; 2; 3; 4; 5; 6; 7; 8] 0) =? m) (map Z.of_nat (seq 0 512)) = true) by (vm_compute; reflexivity).
  rewrite forallb_forall in E. specialize (E m). rewrite in_map_iff in E. apply Z.eqb_eq, E. exists (Z.to_nat m). split; [lia|]. apply in_seq. lia.
Qed.
Lemma rev_testbit b i : byte_ok b -> 0 <= i < 8 -> Z.testbit (reverseBitsInAByte b) i = Z.testbit b (7 - i).
Proof.
  intros Hb Hi.
  assert (E : forallb (fun i => Bool.eqb (Z.testbit (reverseBitsInAByte b) i) (Z.testbit b (7 - i))) [0; 1; 2; 3; 4; 5; 6; 7] = true) by (clear i Hi; revert b Hb; apply all_bytes; vm_compute; reflexivity).
  rewrite forallb_forall in E. apply eqb_prop, E. assert (i = 0 \/ i = 1 \/ i = 2 \/ i = 3 \/ i = 4 \/ i = 5 \/ i = 6 \/ i = 7) by lia. cbn [In]. intuition.
Qed.
Lemma rev_byte b : byte_ok b -> byte_ok (reverseBitsInAByte b) /\ (reverseBitsInAByte b = 0 -> b = 0).
Proof.
  intros Hb. assert (E : byte_okb (reverseBitsInAByte b) && ((b =? 0) || negb (reverseBitsInAByte b =? 0)) = true) by (revert b Hb; apply all_bytes; vm_compute; reflexivity).
  unfold byte_okb in E. unfold byte_ok. lia.
Qed.
Lemma mod256_ok n : byte_ok (n mod 256). Proof. apply Z.mod_pos_bound. lia. Qed.
Lemma mod256_bit n i : 0 <= i < 8 -> Z.testbit (n mod 256) i = Z.testbit n i.
Proof. intros H. change 256 with (2 ^ 8). apply Z.mod_pow2_bits_low. lia. Qed.
Lemma keyUsage_rt ku : exists v, marshalKeyUsage ku = Ret (mkExt oidExtensionKeyUsage true v) /\ zlen v < 1100 /\ parseKeyUsageExtension v = Ret (Z.land ku 511).
Proof.
  unfold marshalKeyUsage. remember (reverseBitsInAByte (ku mod 256)) as a0 eqn:E0. remember (reverseBitsInAByte (Z.shiftr ku 8 mod 256)) as a1 eqn:E1.
  destruct (rev_byte _ (mod256_ok ku)) as [B0 _]. destruct (rev_byte _ (mod256_ok (Z.shiftr ku 8))) as [B1 N1]. rewrite <- E0 in B0. rewrite <- E1 in B1, N1.
  assert (T0 : forall i, 0 <= i < 8 -> Z.testbit a0 (7 - i) = Z.testbit ku i).
  { intros i Hi. subst a0. rewrite rev_testbit by (try apply mod256_ok; lia). rewrite mod256_bit by lia. f_equal. lia. }
  assert (T1 : Z.testbit a1 7 = Z.testbit ku 8).
  { subst a1. rewrite rev_testbit by (try apply mod256_ok; lia). rewrite mod256_bit by lia. change (7 - 7) with 0. rewrite Z.shiftr_spec by lia. reflexivity. }
  destruct (Z.eqb_spec a1 0) as [Z1|Z1]; cbn [negb].
  - destruct (readBits_rt [] a0 []) as (b & len & M & Zb & Hl & R); [cbn [app]; repeat (apply Forall_cons; [assumption|]); apply Forall_nil|auto|vm_compute; reflexivity|]. cbn [app] in *. rewrite app_nil_r in R.
    rewrite M. cbn [bind]. exists b. split; [reflexivity|]. split; [lia|]. unfold parseKeyUsageExtension. rewrite R. cbn [need bind]. f_equal.
    apply fold_usage. intros i Hi. rewrite bit_at_bits by (try exact Hl; lia). f_equal.
    destruct (Z.eq_dec i 8) as [->|]; [change (nth (Z.to_nat 8) (bits [a0]) false) with false; rewrite <- T1, Z1; reflexivity|].
    pose proof (nth_bits [a0] 0 i ltac:(lia) ltac:(lia)) as NB. cbn [nth Z.to_nat] in NB. change (8 * 0 + i) with i in NB. rewrite NB. apply T0. lia.
  - destruct (readBits_rt [a0] a1 []) as (b & len & M & Zb & Hl & R); [cbn [app]; repeat (apply Forall_cons; [assumption|]); apply Forall_nil|auto|vm_compute; reflexivity|]. cbn [app] in *. rewrite app_nil_r in R.
    rewrite M. cbn [bind]. exists b. split; [reflexivity|]. split; [lia|]. unfold parseKeyUsageExtension. rewrite R. cbn [need bind]. f_equal.
    apply fold_usage. intros i Hi. rewrite bit_at_bits by (try exact Hl; lia). f_equal.
    destruct (Z.eq_dec i 8) as [->|]; [change (nth (Z.to_nat 8) (bits [a0; a1]) false) with (Z.testbit a1 7); exact T1|].
    pose proof (nth_bits [a0; a1] 0 i ltac:(lia) ltac:(lia)) as NB. cbn [nth Z.to_nat] in NB. change (8 * 0 + i) with i in NB. rewrite NB. apply T0. lia.
Qed.

(** ** basic constraints *)
Definition int64 (n : Z) : Prop := - 2 ^ 63 <= n < 2 ^ 63.
Lemma int64_len n : int64 n -> zlen (bigint_content n) <= 8.
Proof. intros H. pose proof (bigint_content_zlen n 8 ltac:(lia)) as B. unfold int64 in H. change (8 * 8 - 1) with 63 in B. specialize (B H). lia. Qed.
Lemma readInt64_el n rest : int64 n -> readInt64 (el 0 2 false (bigint_content n) ++ rest) = Some (n, rest).
Proof.
  intros H. pose proof (int64_len n H) as L. unfold readInt64. rewrite (el_read 0 2 false _ rest T_INTEGER); [|reflexivity|tagok|lia|].
  - destruct (bigint_content_roundtrip n) as [-> ->]. replace (zlen (bigint_content n) <=? 8) with true by lia. reflexivity.
  - rewrite el_tlv by lia. pose proof (tlv_zlen (0 * 64 + 0 + 2) (bigint_content n)). lia.
Qed.
Lemma readBool_el (b : bool) rest : readBool (el 0 1 false [if b then 255 else 0] ++ rest) = Some (b, rest).
Proof. unfold readBool. rewrite (el_read 0 1 false _ rest T_BOOLEAN); [|reflexivity|tagok|lia|destruct b; reflexivity]. destruct b; reflexivity. Qed.
Definition eff_mpl (mpl : Z) (zero : bool) : Z := if (mpl =? 0) && negb zero then -1 else mpl.
Lemma mk_bc_int n : makeField cInt (defaultP (-1)) n = Ret (if n =? -1 then [] else el 0 2 false (bigint_content n)).
Proof. unfold makeField. cbn [p_omit defaultP andb p_opt p_def c_isint cInt]. destruct (n =? -1); reflexivity. Qed.
Lemma mk_bc_bool b : makeField cBool optP b = Ret (if b then el 0 1 false [255] else []).
Proof. destruct b; reflexivity. Qed.
Lemma basicConstraints_rt isCA mpl zero : int64 mpl ->
  exists v, marshalBasicConstraints isCA mpl zero = Ret (mkExt oidExtensionBasicConstraints true v) /\ zlen v < 1100 /\ parseBasicConstraintsExtension v = Ret (isCA, eff_mpl mpl zero).
Proof.
  intros H. unfold marshalBasicConstraints. fold (eff_mpl mpl zero). remember (eff_mpl mpl zero) as m eqn:Em.
  assert (Hm : int64 m) by (subst m; unfold eff_mpl; destruct (_ && _); [split; reflexivity || lia|exact H]).
  remember ((if isCA then el 0 1 false [255] else []) ++ (if m =? -1 then [] else el 0 2 false (bigint_content m))) as body eqn:Eb.
  assert (M : Marshal cBC (isCA, m) = Ret (el 0 16 true body)).
  { apply (mk_struct _ _ _ (isCA, m)). rewrite Eb. apply f_cons; [apply mk_bc_bool|]. apply f_one. apply mk_bc_int. }
  rewrite M. exists (el 0 16 true body). split; [reflexivity|].
  assert (Zb : zlen body < 100).
  { pose proof (int64_len m Hm). rewrite Eb, zlen_app. assert (zlen (if isCA then el 0 1 false [255] else []) <= 3) by (destruct isCA; vm_compute; discriminate).
    assert (zlen (if m =? -1 then [] else el 0 2 false (bigint_content m)) <= 20); [|lia]. destruct (m =? -1); [vm_compute; discriminate|]. rewrite el_tlv by lia. pose proof (tlv_zlen (0 * 64 + 0 + 2) (bigint_content m)). lia. }
  assert (Ze : zlen (el 0 16 true body) < 1100). { rewrite el_tlv by lia. pose proof (tlv_zlen (0 * 64 + 32 + 16) body). lia. }
  split; [exact Ze|]. unfold parseBasicConstraintsExtension. rewrite <- (app_nil_r (el 0 16 true body)).
  rewrite (el_read 0 16 true body [] T_SEQUENCE); [|reflexivity|apply tseq|lia|lia]. unfold need at 1. cbn [bind].
  assert (S1 : (if peekTag T_BOOLEAN body then need (readBool body) "x509: invalid basic constraints b" else Ret (false, body))
               = Ret (isCA, if m =? -1 then [] else el 0 2 false (bigint_content m))).
  { rewrite Eb. destruct isCA.
    - rewrite (el_peek 0 1 false) by lia. change (0 * 64 + 0 + 1 =? T_BOOLEAN) with true. cbv iota. rewrite (readBool_el true). reflexivity.
    - cbn [app]. destruct (m =? -1); [reflexivity|]. rewrite <- (app_nil_r (el 0 2 false (bigint_content m))). rewrite (el_peek 0 2 false) by lia. reflexivity. }
  match goal with |- bind ?x _ = _ => replace x with (Ret (isCA, (if m =? -1 then [] else el 0 2 false (bigint_content m)) : bytes)) by (symmetry; exact S1) end.
  cbn [bind]. destruct (Z.eqb_spec m (-1)) as [->|N]; [reflexivity|].
  rewrite <- (app_nil_r (el 0 2 false (bigint_content m))). rewrite (el_peek 0 2 false) by lia. change (0 * 64 + 0 + 2 =? T_INTEGER) with true. cbv iota.
  rewrite readInt64_el by exact Hm. reflexivity.
Qed.

(** ** extended key usage *)
Lemma el_oid o : zlen (oid_bytes o) <= 0xfffffffe -> el 0 6 false (oid_bytes o) = oid_tlv o.
Proof. intros H. rewrite el_tlv by lia. reflexivity. Qed.
Lemma mk_oid_ok o : oid_ok o -> makeField cOID noP o = Ret (el 0 6 false (oid_bytes o)).
Proof. intros H. apply mk_oid. apply oid_body_ok. exact H. Qed.
Lemma readOID_el o rest : oid_ok o -> zlen (el 0 6 false (oid_bytes o)) < 2 ^ 31 -> readOID (el 0 6 false (oid_bytes o) ++ rest) = Some (o, rest).
Proof. intros H Hz. pose proof (el_len 0 6 false (oid_bytes o)). rewrite el_oid by lia. apply readOID_tlv; auto. unfold max_content. lia. Qed.
Lemma eku_table : Forall (fun p => oid_ok (snd p) /\ extKeyUsageFromOID (snd p) = Some (fst p) /\ oidFromExtKeyUsage (fst p) = Some (snd p)) extKeyUsageOIDs.
Proof. repeat (apply Forall_cons; [split; [repeat constructor; vm_compute; discriminate|split; reflexivity]|]). apply Forall_nil. Qed.
Lemma oidFrom_In u o : oidFromExtKeyUsage u = Some o -> In (u, o) extKeyUsageOIDs.
Proof.
  unfold oidFromExtKeyUsage. destruct (find _ _) as [[u' o']|] eqn:E; [|discriminate]. intros [= <-]. apply find_some in E as [E1 E2]. cbn [fst] in E2. apply Z.eqb_eq in E2. subst. exact E1.
Qed.
Lemma oidFrom_inv u o : oidFromExtKeyUsage u = Some o -> oid_ok o /\ extKeyUsageFromOID o = Some u.
Proof. intros H. apply oidFrom_In in H. pose proof eku_table as T. rewrite Forall_forall in T. destruct (T _ H) as (A & B & _). auto. Qed.
Lemma eku_rt known unknown e : Forall oid_ok unknown -> Forall (fun o => extKeyUsageFromOID o = None) unknown ->
  marshalExtKeyUsage known unknown = Ret e -> zlen (x_Value e) < 2 ^ 31 ->
  x_Id e = oidExtensionExtendedKeyUsage /\ x_Critical e = false /\ parseExtKeyUsageExtension (x_Value e) = Ret (known, unknown).
Proof.
  intros Hu Hn. unfold marshalExtKeyUsage. destruct (mapM _ known) as [oids| |] eqn:Em; cbn [bind]; try discriminate.
  apply mapM_Forall2 in Em.
  assert (Hk : Forall2 (fun u o => oidFromExtKeyUsage u = Some o) known oids).
  { clear - Em. induction Em as [|u o known oids H _ IH]; constructor; auto. destruct (oidFromExtKeyUsage u); congruence. }
  assert (Ho : Forall oid_ok oids). { clear Em. induction Hk as [|u o known oids H1 _ IH]; constructor; auto. apply (oidFrom_inv u o H1). }
  assert (Hall : Forall oid_ok (oids ++ unknown)) by (apply Forall_app; split; auto).
  unfold Marshal. rewrite (mk_seq cOID (oids ++ unknown) (map (fun o => el 0 6 false (oid_bytes o)) (oids ++ unknown))).
  2:{ apply mapM_ret. eapply Forall_impl; [|exact Hall]. apply mk_oid_ok. }
  cbn [bind]. intros [= <-]. cbn [x_Value x_Id x_Critical]. intros Hz. split; [reflexivity|]. split; [reflexivity|].
  unfold parseExtKeyUsageExtension. remember (List.concat (map (fun o => el 0 6 false (oid_bytes o)) (oids ++ unknown))) as body eqn:Eb.
  pose proof (el_len 0 16 true body). rewrite <- (app_nil_r (el 0 16 true body)).
  rewrite (el_read 0 16 true body [] T_SEQUENCE); [|reflexivity|apply tseq|lia|lia]. cbn [need bind].
  assert (SM : Forall (fun e : bytes => zlen e < 2 ^ 31) (map (fun o => el 0 6 false (oid_bytes o)) (oids ++ unknown))) by (apply concat_small; rewrite <- Eb; lia).
  rewrite Eb. rewrite (many_es _ _ (oids ++ unknown)).
  2:{ clear - Hall SM. apply Forall2_map_l. rewrite Forall_map in SM. rewrite Forall_forall in *. intros o Hin. split; [apply el_ne|].
      intros rest. rewrite readOID_el by auto. reflexivity. }
  cbn [bind]. rewrite !flat_map_app.
  assert (F1 : flat_map (fun o => match extKeyUsageFromOID o with Some u => [u] | None => [] end) oids = known /\
               flat_map (fun o => match extKeyUsageFromOID o with Some _ => [] | None => [o] end) oids = []).
  { clear - Hk. induction Hk as [|u o known oids H1 _ [I1 I2]]; [split; reflexivity|]. cbn [flat_map]. destruct (oidFrom_inv u o H1) as [_ ->]. rewrite I1, I2. split; reflexivity. }
  assert (F2 : flat_map (fun o => match extKeyUsageFromOID o with Some u => [u] | None => [] end) unknown = [] /\
               flat_map (fun o => match extKeyUsageFromOID o with Some _ => [] | None => [o] end) unknown = unknown).
  { clear - Hn. induction Hn as [|o unknown H1 _ [I1 I2]]; [split; reflexivity|]. cbn [flat_map]. rewrite H1, I1, I2. split; reflexivity. }
  destruct F1 as [-> ->]. destruct F2 as [-> ->]. rewrite app_nil_r. reflexivity.
Qed.

(** ** certificate policies *)
Lemma policies_rt l e : Forall oid_ok l -> marshalCertificatePolicies l = Ret e -> zlen (x_Value e) < 2 ^ 31 ->
  x_Id e = oidExtensionCertificatePolicies /\ x_Critical e = false /\ parseCertificatePoliciesExtension (x_Value e) = Ret l.
Proof.
  intros Hl. unfold marshalCertificatePolicies, Marshal.
  rewrite (mk_seq cPolicy l (map (fun o => el 0 16 true (el 0 6 false (oid_bytes o))) l)).
  2:{ apply mapM_ret. eapply Forall_impl; [|exact Hl]. intros o Ho. apply (mk_struct _ _ _ o). apply f_one. apply mk_oid_ok. exact Ho. }
  cbn [bind]. intros [= <-]. cbn [x_Value x_Id x_Critical]. intros Hz. split; [reflexivity|]. split; [reflexivity|].
  unfold parseCertificatePoliciesExtension. remember (List.concat (map (fun o => el 0 16 true (el 0 6 false (oid_bytes o))) l)) as body eqn:Eb.
  pose proof (el_len 0 16 true body). rewrite <- (app_nil_r (el 0 16 true body)).
  rewrite (el_read 0 16 true body [] T_SEQUENCE); [|reflexivity|apply tseq|lia|lia]. cbn [need bind].
  assert (SM : Forall (fun e : bytes => zlen e < 2 ^ 31) (map (fun o => el 0 16 true (el 0 6 false (oid_bytes o))) l)) by (apply concat_small; rewrite <- Eb; lia).
  rewrite Eb. apply many_es. clear - Hl SM. apply Forall2_map_l. rewrite Forall_map in SM. rewrite Forall_forall in *. intros o Hin. split; [apply el_ne|].
  intros rest. specialize (SM o Hin). cbv beta in SM. pose proof (el_len 0 16 true (el 0 6 false (oid_bytes o))).
  rewrite (el_read 0 16 true _ rest T_SEQUENCE); [|reflexivity|apply tseq|lia|lia]. cbn [need bind]. rewrite <- (app_nil_r (el 0 6 false (oid_bytes o))).
  rewrite readOID_el by (auto; lia). reflexivity.
Qed.

(** ** subject alternative names *)
Definition norm_ip (ip : bytes) : bytes := match IP_To4 ip with Some v4 => v4 | None => ip end.
Lemma mk_ctxRaw t b : makeField cRaw noP (ctxRaw t b) = Ret (el 2 t false b). Proof. reflexivity. Qed.
Lemma mapM_ia5 {A} t (f : A -> bytes) l rs : mapM (fun u => ia5Raw t (f u)) l = Ret rs -> rs = map (fun u => ctxRaw t (f u)) l /\ Forall (fun u => isIA5String (f u) = true) l.
Proof.
  intros E. apply mapM_Forall2 in E. induction E as [|u r l rs H _ [IH1 IH2]]; [split; [reflexivity|constructor]|]. unfold ia5Raw in H. destruct (isIA5String (f u)) eqn:E5; [|discriminate].
  injection H as <-. split; [cbn [map]; now f_equal|constructor; auto].
Qed.
Definition san_ok (net : netlib) (u : urlT) : Prop :=
  url_Parse net (u_String u) = Some u /\ (u_Host u = [] \/ exists ls, domainToReverseLabels (u_Host u) = Some ls).
Definition san_step (net : netlib) (der : bytes) : outcome (genName * bytes) :=
  do (tag, san, r) <- need (readAny der) "x509: invalid subject alternative name"; do g <- sanCallback net (Z.lxor tag 0x80) san; Ret (g, r).
Lemma san_entry net t b g rest : 0 <= t <= 30 -> sanCallback net t b = Ret g -> zlen (el 2 t false b) < 2 ^ 31 -> san_step net (el 2 t false b ++ rest) = Ret (g, rest).
Proof.
  intros Ht Hg Hz. unfold san_step. rewrite (el_any 2 t false b rest); [|split; [unfold byte_ok; lia|]|lia|lia].
  2:{ assert (L : Z.land (2 * 64 + 0 + t) 0x1f = t); [|lia]. change 0x1f with (Z.ones 5). rewrite Z.land_ones by lia. change (2 * 64 + 0 + t) with (4 * 2 ^ 5 + t). rewrite Z.add_comm, Z.mod_add by lia. apply Z.mod_small. lia. }
  cbn [need bind]. assert (X : Z.lxor (2 * 64 + 0 + t) 0x80 = t).
  { change (2 * 64 + 0 + t) with (128 + t). assert (E : forallb (fun t => Z.lxor (128 + t) 128 =? t) (map Z.of_nat (seq 0 31)) = true) by (vm_compute; reflexivity).
    rewrite forallb_forall in E. specialize (E t). rewrite in_map_iff in E. apply Z.eqb_eq, E. exists (Z.to_nat t). split; [lia|]. apply in_seq. lia. }
  rewrite X, Hg. reflexivity.
Qed.
Lemma norm_ip_len ip : (List.length ip = 4 \/ List.length ip = 16)%nat -> (List.length (norm_ip ip) = 4 \/ List.length (norm_ip ip) = 16)%nat.
Proof.
  intros H. unfold norm_ip, IP_To4. destruct (Nat.eqb_spec (List.length ip) 4); [auto|]. destruct (Nat.eqb_spec (List.length ip) 16); cbn [andb]; [|auto].
  destruct (bytes_eqb _ _); [|auto]. left. rewrite skipn_length. lia.
Qed.
Lemma flat_map_single {A B C} (f : A -> B) (h : A -> C) (g : B -> list C) l : (forall a, g (f a) = [h a]) -> flat_map g (map f l) = map h l.
Proof. intros H. induction l; [reflexivity|]. cbn [map flat_map]. rewrite H, IHl. reflexivity. Qed.
Lemma flat_map_none {A B C} (f : A -> B) (g : B -> list C) l : (forall a, g (f a) = []) -> flat_map g (map f l) = [].
Proof. intros H. induction l; [reflexivity|]. cbn [map flat_map]. rewrite H, IHl. reflexivity. Qed.
Lemma collect_all d e i (u : list urlT) : collect_san (map GNdns d ++ map GNemail e ++ map (fun ip => GNip (norm_ip ip)) i ++ map GNuri u) = mkSANs d e (map norm_ip i) u.
Proof.
  unfold collect_san. rewrite !flat_map_app. f_equal.
  - rewrite (flat_map_single GNdns (fun x => x)), map_id by reflexivity. rewrite !flat_map_none by reflexivity. now rewrite !app_nil_r.
  - rewrite (flat_map_none GNdns) by reflexivity. rewrite (flat_map_single GNemail (fun x => x)), map_id by reflexivity. rewrite !flat_map_none by reflexivity. now rewrite !app_nil_r.
  - rewrite (flat_map_none GNdns), (flat_map_none GNemail), (flat_map_none GNuri) by reflexivity. rewrite (flat_map_single (fun ip => GNip (norm_ip ip)) norm_ip) by reflexivity. now rewrite app_nil_r.
  - rewrite (flat_map_none GNdns), (flat_map_none GNemail), (flat_map_none (fun ip => GNip (norm_ip ip))) by reflexivity. rewrite (flat_map_single GNuri (fun x => x)), map_id by reflexivity. reflexivity.
Qed.
Lemma sans_rt net d e i u v : Forall (fun ip => (List.length ip = 4 \/ List.length ip = 16)%nat) i -> Forall (san_ok net) u ->
  marshalSANs d e i u = Ret v -> zlen v < 2 ^ 31 -> parseSANExtension net v = Ret (mkSANs d e (map norm_ip i) u).
Proof.
  intros Hi Hu. unfold marshalSANs.
  destruct (mapM (ia5Raw nameTypeDNS) d) as [rd| |] eqn:Ed; cbn [bind]; try discriminate. apply (mapM_ia5 nameTypeDNS (fun x => x)) in Ed as [-> Hd].
  destruct (mapM (ia5Raw nameTypeEmail) e) as [re| |] eqn:Ee; cbn [bind]; try discriminate. apply (mapM_ia5 nameTypeEmail (fun x => x)) in Ee as [-> He].
  destruct (mapM (fun u => ia5Raw nameTypeURI (u_String u)) u) as [ru| |] eqn:Eu; cbn [bind]; try discriminate. apply (mapM_ia5 nameTypeURI u_String) in Eu as [-> Hui].
  change (map (fun ip => ctxRaw nameTypeIP match IP_To4 ip with Some v4 => v4 | None => ip end) i) with (map (fun ip => ctxRaw nameTypeIP (norm_ip ip)) i).
  unfold Marshal. remember (map (fun x => el 2 2 false x) d ++ map (fun x => el 2 1 false x) e ++ map (fun ip => el 2 7 false (norm_ip ip)) i ++ map (fun x => el 2 6 false (u_String x)) u) as es eqn:Ees.
  rewrite (mk_seq cRaw _ es).
  2:{ rewrite !mapM_app. rewrite (mapM_ret _ (fun r => el 2 2 false (sl (rv_bytes r))) (map _ d)), (mapM_ret _ (fun r => el 2 1 false (sl (rv_bytes r))) (map _ e)), (mapM_ret _ (fun r => el 2 7 false (sl (rv_bytes r))) (map _ i)), (mapM_ret _ (fun r => el 2 6 false (sl (rv_bytes r))) (map _ u));
      try (apply Forall_map, Forall_forall; intros; apply mk_ctxRaw). cbn [bind]. rewrite !map_map. cbn [sl ctxRaw rv_bytes]. rewrite Ees. reflexivity. }
  intros [= <-] Hz. unfold parseSANExtension, forEachSAN. remember (List.concat es) as body eqn:Eb.
  pose proof (el_len 0 16 true body). rewrite <- (app_nil_r (el 0 16 true body)).
  rewrite (el_read 0 16 true body [] T_SEQUENCE); [|reflexivity|apply tseq|lia|lia]. cbn [need bind]. fold (san_step net).
  assert (SM : Forall (fun e : bytes => zlen e < 2 ^ 31) es) by (apply concat_small; rewrite <- Eb; lia).
  rewrite Eb, (many_es _ es (map GNdns d ++ map GNemail e ++ map (fun ip => GNip (norm_ip ip)) i ++ map GNuri u)).
  - cbn [bind]. rewrite collect_all. reflexivity.
  - rewrite Ees in SM |- *. apply Forall_app in SM as [S1 SM]. apply Forall_app in SM as [S2 SM]. apply Forall_app in SM as [S3 S4]. rewrite Forall_map in S1, S2, S3, S4.
    repeat apply Forall2_app; apply Forall2_maps; rewrite Forall_forall in *; intros x Hx; (split; [apply el_ne|]); intros rest; apply san_entry; auto; try lia; try (apply S1 || apply S2 || apply S3 || apply S4; exact Hx).
    + unfold sanCallback. change (2 =? nameTypeEmail) with false. change (2 =? nameTypeDNS) with true. cbv iota. rewrite (Hd x Hx). reflexivity.
    + unfold sanCallback. change (1 =? nameTypeEmail) with true. cbv iota. rewrite (He x Hx). reflexivity.
    + unfold sanCallback. change (7 =? nameTypeEmail) with false. change (7 =? nameTypeDNS) with false. change (7 =? nameTypeURI) with false. change (7 =? nameTypeIP) with true. cbv iota.
      destruct (norm_ip_len x (Hi x Hx)) as [-> | ->]; reflexivity.
    + unfold sanCallback. change (6 =? nameTypeEmail) with false. change (6 =? nameTypeDNS) with false. change (6 =? nameTypeURI) with true. cbv iota. rewrite (Hui x Hx). cbn [negb].
      destruct (Hu x Hx) as [-> [Hh|(ls & Hl)]]; [rewrite Hh; reflexivity|rewrite Hl, andb_false_r; reflexivity].
Qed.

(** ** key identifiers *)
Lemma ski_rt id v rest : Marshal cBytes (Some id) = Ret v -> zlen v < 2 ^ 31 -> readASN1 T_OCTET_STRING (v ++ rest) = Some (id, rest).
Proof. unfold Marshal. rewrite mk_bytes. intros [= <-] Hz. apply el_read; [reflexivity|tagok|lia|exact Hz]. Qed.
Lemma aki_rt id v : Marshal cAuthKeyId (Some id) = Ret v -> zlen v < 2 ^ 31 -> parseAKI v = Ret (Some id).
Proof.
  unfold Marshal, cAuthKeyId. rewrite (mk_struct _ _ _ (Some id) (el 2 0 false id)) by (apply f_one; apply mk_bytes_imp). intros [= <-] Hz. pose proof (el_len 0 16 true (el 2 0 false id)).
  unfold parseAKI. rewrite <- (app_nil_r (el 0 16 true _)). rewrite (el_read 0 16 true _ [] T_SEQUENCE); [|reflexivity|apply tseq|lia|lia]. cbn [need bind].
  rewrite <- (app_nil_r (el 2 0 false id)). rewrite (el_peek 2 0 false) by lia. change (2 * 64 + 0 + 0 =? ctx 0) with true. cbv iota.
  rewrite (el_read 2 0 false id [] (ctx 0)); [|reflexivity|tagok|lia|lia]. reflexivity.
Qed.

(** ** authority information access *)
Lemma aia_rt ocsp iss v : marshalAIA ocsp iss = Ret v -> zlen v < 2 ^ 31 -> parseAIA v = Ret (ocsp, iss).
Proof.
  unfold marshalAIA, Marshal.
  remember (fun n => el 0 16 true (el 0 6 false (oid_bytes oidAuthorityInfoAccessOcsp) ++ el 2 6 false n)) as f1 eqn:F1.
  remember (fun n => el 0 16 true (el 0 6 false (oid_bytes oidAuthorityInfoAccessIssuers) ++ el 2 6 false n)) as f2 eqn:F2.
  assert (OK1 : oid_ok oidAuthorityInfoAccessOcsp) by oidok. assert (OK2 : oid_ok oidAuthorityInfoAccessIssuers) by oidok.
  rewrite (mk_seq cAIA _ (map f1 ocsp ++ map f2 iss)).
  2:{ rewrite mapM_app. rewrite (mapM_ret _ (fun r => f1 (sl (rv_bytes (snd r)))) (map _ ocsp)), (mapM_ret _ (fun r => f2 (sl (rv_bytes (snd r)))) (map _ iss)).
      - cbn [bind]. rewrite !map_map. reflexivity.
      - rewrite F2. apply Forall_map, Forall_forall. intros n _. apply (mk_struct _ _ _ (oidAuthorityInfoAccessIssuers, ctxRaw 6 n)). apply f_cons; [apply mk_oid_ok; auto|]. apply f_one. apply mk_ctxRaw.
      - rewrite F1. apply Forall_map, Forall_forall. intros n _. apply (mk_struct _ _ _ (oidAuthorityInfoAccessOcsp, ctxRaw 6 n)). apply f_cons; [apply mk_oid_ok; auto|]. apply f_one. apply mk_ctxRaw. }
  intros [= <-] Hz. remember (List.concat (map f1 ocsp ++ map f2 iss)) as body eqn:Eb. pose proof (el_len 0 16 true body).
  unfold parseAIA. rewrite <- (app_nil_r (el 0 16 true _)). rewrite (el_read 0 16 true _ [] T_SEQUENCE); [|reflexivity|apply tseq|lia|lia]. cbn [need bind].
  assert (SM : Forall (fun e : bytes => zlen e < 2 ^ 31) (map f1 ocsp ++ map f2 iss)) by (apply concat_small; rewrite <- Eb; lia). apply Forall_app in SM as [S1 S2]. rewrite Forall_map in S1, S2.
  assert (ST : forall o n rest, oid_ok o -> zlen (el 0 16 true (el 0 6 false (oid_bytes o) ++ el 2 6 false n)) < 2 ^ 31 ->
     parseAIAEntry (el 0 16 true (el 0 6 false (oid_bytes o) ++ el 2 6 false n) ++ rest) =
     Ret (if oid_eqb o oidAuthorityInfoAccessOcsp then ([n], []) else if oid_eqb o oidAuthorityInfoAccessIssuers then ([], [n]) else ([], []), rest)).
  { clear. intros o n rest Ho Hz. pose proof (el_len 0 16 true (el 0 6 false (oid_bytes o) ++ el 2 6 false n)) as L. rewrite zlen_app in L. pose proof (zlen_nonneg (el 0 6 false (oid_bytes o))). pose proof (zlen_nonneg (el 2 6 false n)).
    unfold parseAIAEntry. rewrite (el_read 0 16 true _ rest T_SEQUENCE); [|reflexivity|apply tseq|lia|lia]. cbn [need bind].
    rewrite readOID_el by (auto; lia). cbn [need bind]. rewrite <- (app_nil_r (el 2 6 false n)). rewrite (el_peek 2 6 false) by lia. change (2 * 64 + 0 + 6 =? ctx 6) with true. cbn [negb].
    rewrite (el_read 2 6 false n [] (ctx 6)); [|reflexivity|tagok|lia|lia]. reflexivity. }
  rewrite Eb, (many_es _ _ (map (fun n => ([n], [])) ocsp ++ map (fun n => ([], [n])) iss)).
  - cbn [bind]. rewrite !map_app, !map_map, !concat_app. cbn [fst snd]. do 2 f_equal.
    + replace (List.concat (map (fun _ : bytes => []) iss)) with (@nil bytes) by (clear; induction iss; auto). rewrite app_nil_r. clear. induction ocsp; [reflexivity|]. cbn [map List.concat app]. now f_equal.
    + replace (List.concat (map (fun _ : bytes => []) ocsp)) with (@nil bytes) by (clear; induction ocsp; auto). cbn [app]. clear. induction iss; [reflexivity|]. cbn [map List.concat app]. now f_equal.
  - apply Forall2_app; apply Forall2_maps; rewrite Forall_forall in *; intros n Hn.
    + specialize (S1 n Hn). rewrite F1 in *. split; [apply el_ne|]. intros rest. apply (ST oidAuthorityInfoAccessOcsp); auto.
    + specialize (S2 n Hn). rewrite F2 in *. split; [apply el_ne|]. intros rest. apply (ST oidAuthorityInfoAccessIssuers); auto.
Qed.

(** ** CRL distribution points *)
Lemma mk_dp n : makeField cDP noP (mkDP (Some [ctxRaw 6 n]) (mkBits None 0) rawZero) = Ret (el 0 16 true (el 2 0 true (el 2 0 true (el 2 6 false n)))).
Proof. unfold makeField. cbn. rewrite !app_nil_r. reflexivity. Qed.
Lemma crldp_rt names v : marshalCRLDP names = Ret v -> zlen v < 2 ^ 31 -> parseCRLDP v = Ret names.
Proof.
  unfold marshalCRLDP, Marshal. remember (fun n => el 0 16 true (el 2 0 true (el 2 0 true (el 2 6 false n)))) as f eqn:Ef.
  rewrite (mk_seq cDP _ (map f names)).
  2:{ rewrite (mapM_ret _ (fun d => match dp_Name d with Some [r] => f (sl (rv_bytes r)) | _ => [] end)); [rewrite map_map; reflexivity|]. rewrite Ef. apply Forall_map, Forall_forall. intros n _. apply mk_dp. }
  intros [= <-] Hz. remember (List.concat (map f names)) as body eqn:Eb. pose proof (el_len 0 16 true body).
  unfold parseCRLDP. rewrite <- (app_nil_r (el 0 16 true _)). rewrite (el_read 0 16 true _ [] T_SEQUENCE); [|reflexivity|apply tseq|lia|lia]. cbn [need bind].
  assert (SM : Forall (fun e : bytes => zlen e < 2 ^ 31) (map f names)) by (apply concat_small; rewrite <- Eb; lia). rewrite Forall_map in SM.
  rewrite Eb, (many_es _ _ (map (fun n => [n]) names)).
  - cbn [bind]. f_equal. clear. induction names; [reflexivity|]. cbn [map List.concat app]. now f_equal.
  - apply Forall2_maps. rewrite Forall_forall in *. intros n Hn. specialize (SM n Hn). rewrite Ef in *. split; [apply el_ne|]. intros rest.
    pose proof (el_len 0 16 true (el 2 0 true (el 2 0 true (el 2 6 false n)))). pose proof (el_len 2 0 true (el 2 0 true (el 2 6 false n))). pose proof (el_len 2 0 true (el 2 6 false n)).
    unfold parseDP. rewrite (el_read 0 16 true _ rest T_SEQUENCE); [|reflexivity|apply tseq|lia|lia]. cbn [need bind].
    unfold readOptional. rewrite <- (app_nil_r (el 2 0 true (el 2 0 true (el 2 6 false n)))). rewrite (el_peek 2 0 true) by lia. change (2 * 64 + 32 + 0 =? ctxc 0) with true. cbv iota.
    rewrite (el_read 2 0 true _ [] (ctxc 0)); [|reflexivity|tagok|lia|lia]. cbn [need bind negb].
    rewrite <- (app_nil_r (el 2 0 true (el 2 6 false n))). rewrite (el_read 2 0 true _ [] (ctxc 0)); [|reflexivity|tagok|lia|lia]. cbn [need bind].
    remember (el 2 6 false n) as en eqn:En. assert (Le : exists k, List.length en = S k) by (subst en; pose proof (el_ne 2 6 false n) as NE; destruct (el 2 6 false n); [congruence|eexists; reflexivity]).
    destruct Le as [k ->]. cbn [dp_uris]. rewrite <- (app_nil_r en). rewrite En at 1. rewrite (el_peek 2 6 false) by lia. change (2 * 64 + 0 + 6 =? ctx 6) with true. cbn [negb].
    subst en. rewrite (el_read 2 6 false n [] (ctx 6)); [|reflexivity|tagok|lia|lia]. cbn [need bind]. destruct k; reflexivity.
Qed.
