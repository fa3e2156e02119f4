(** * encoding/asn1: what Marshal writes Unmarshal reads back; headers are canonical *)
From Verif Require Import Base Words CryptoByte Asn1.
From Coq Require Import ZifyBool ZifyNat.
Ltac Zify.zify_post_hook ::= Z.div_mod_to_equations.

Definition maxInt32 : Z := 2147483647.
Lemma pow128_pos n : 0 <= n -> 0 < 128 ^ n. Proof. intros; apply Z.pow_pos_nonneg; lia. Qed.
Lemma pow128_S n : 128 ^ Z.of_nat (S n) = 128 * 128 ^ Z.of_nat n.
Proof. rewrite Nat2Z.inj_succ, Z.pow_succ_r by lia. reflexivity. Qed.
(** *** base 128 *)
Lemma base128_loop_digits r n : 0 <= n <= maxInt32 -> forall l shifted,
  (l + shifted <= 5)%nat -> (l > 0)%nat ->
  (shifted = 0%nat -> (l > 1)%nat -> n / 128 ^ Z.of_nat (l - 1) mod 128 <> 0) ->
  base128_loop (base128_digits l n ++ r) shifted (n / 128 ^ Z.of_nat l) = Ret (n, r).
Proof.
  intros Hn. induction l as [|l IH]; intros shifted Hl Hp Hz; [lia|]. cbn [base128_digits app base128_loop].
  replace (shifted =? 5)%nat with false by lia.
  set (d := (n / 128 ^ Z.of_nat l) mod 128). assert (Hd : 0 <= d < 128) by (apply Z.mod_pos_bound; lia).
  assert (Hacc : n / 128 ^ Z.of_nat (S l) * 128 + d = n / 128 ^ Z.of_nat l).
  { rewrite pow128_S. rewrite (Z.mul_comm 128), <- Z.div_div by (pose proof (pow128_pos (Z.of_nat l)); lia).
    unfold d. pose proof (Z.div_mod (n / 128 ^ Z.of_nat l) 128 ltac:(lia)). lia. }
  destruct (Nat.eqb_spec l 0) as [->|Hl0].
  - rewrite Z.add_0_r. replace ((shifted =? 0)%nat && (d =? 128)) with false by lia.
    rewrite (Z.mod_small d) by lia. cbn [base128_digits app]. rewrite Hacc. change (128 ^ Z.of_nat 0) with 1. rewrite Z.div_1_r.
    replace (d <? 128) with true by lia. replace (2147483647 <? n) with false by (unfold maxInt32 in Hn; lia). reflexivity.
  - assert (Hnz : shifted = 0%nat -> d <> 0). { intros S0. specialize (Hz S0 ltac:(lia)). replace (S l - 1)%nat with l in Hz by lia. exact Hz. }
    replace ((shifted =? 0)%nat && (d + 128 =? 128)) with false by (destruct shifted; cbn; [specialize (Hnz eq_refl); lia|reflexivity]).
    replace ((d + 128) mod 128) with d. 2:{ rewrite <- (Z.mul_1_l 128) at 1. rewrite Z.mod_add by lia. symmetry. apply Z.mod_small. lia. }
    replace (d + 128 <? 128) with false by lia. rewrite Hacc. apply IH; lia.
Qed.
Lemma base128_length_spec n : 0 < n -> (base128_length n > 0)%nat /\ 128 ^ (Z.of_nat (base128_length n) - 1) <= n < 128 ^ Z.of_nat (base128_length n).
Proof.
  intros Hn. unfold base128_length. replace (n =? 0) with false by lia. pose proof (Z.log2_nonneg n) as L0.
  pose proof (Z.log2_spec n Hn) as [L1 L2]. set (k := Z.log2 n) in *. assert (Hk : 0 <= k / 7) by (apply Z.div_pos; lia).
  rewrite Z2Nat.id by lia. split; [lia|]. change 128 with (2 ^ 7). rewrite <- !Z.pow_mul_r by lia. split.
  - eapply Z.le_trans; [|exact L1]. apply Z.pow_le_mono_r; lia.
  - eapply Z.lt_le_trans; [exact L2|]. apply Z.pow_le_mono_r; lia.
Qed.
Lemma base128_roundtrip n r : 0 <= n <= maxInt32 -> parseBase128Int (appendBase128Int n ++ r) = Ret (n, r).
Proof.
  intros Hn. unfold parseBase128Int, appendBase128Int. destruct (Z.eq_dec n 0) as [->|Hne].
  - reflexivity.
  - destruct (base128_length_spec n ltac:(lia)) as (Hp & Lo & Hi). set (l := base128_length n) in *.
    replace 0 with (n / 128 ^ Z.of_nat l) by (apply Z.div_small; lia).
    assert (Hl : (l <= 5)%nat).
    { destruct (Nat.le_gt_cases l 5); auto. exfalso. assert (128 ^ 5 <= 128 ^ (Z.of_nat l - 1)) by (apply Z.pow_le_mono_r; lia).
      unfold maxInt32 in Hn. change (128 ^ 5) with 34359738368 in *. lia. }
    apply base128_loop_digits; [exact Hn|lia|lia|]. intros _ Hl1. replace (Z.of_nat (l - 1)) with (Z.of_nat l - 1) by lia.
    pose proof (pow128_pos (Z.of_nat l - 1) ltac:(lia)) as P.
    assert (1 <= n / 128 ^ (Z.of_nat l - 1)) by (apply Z.div_le_lower_bound; lia).
    assert (n / 128 ^ (Z.of_nat l - 1) < 128).
    { apply Z.div_lt_upper_bound; [lia|]. rewrite Z.mul_comm, <- Z.pow_succ_r by lia. replace (Z.succ (Z.of_nat l - 1)) with (Z.of_nat l) by lia. lia. }
    rewrite Z.mod_small by lia. lia.
Qed.
Lemma base128_digits_ok l n : bytes_ok (base128_digits l n).
Proof.
  induction l as [|l IH]; cbn [base128_digits]; [constructor|]. apply bytes_ok_cons. split; auto. unfold byte_ok.
  pose proof (Z.mod_pos_bound (n / 128 ^ Z.of_nat l) 128 ltac:(lia)). destruct (l =? 0)%nat; lia.
Qed.
Lemma appendBase128_ok n : bytes_ok (appendBase128Int n). Proof. apply base128_digits_ok. Qed.
Lemma appendBase128_ne n r : appendBase128Int n ++ r <> [].
Proof.
  unfold appendBase128Int. assert (H : (base128_length n > 0)%nat) by (unfold base128_length; destruct (n =? 0); [lia|]; pose proof (Z.log2_nonneg n); lia).
  destruct (base128_length n); [lia|]. discriminate.
Qed.
(** *** lengths *)
Lemma len_loop_be r : forall l acc, bytes_ok l -> 0 <= acc -> (acc = 0 -> match l with b :: _ => b <> 0 | [] => True end) ->
  acc * 256 ^ zlen l + be_to_Z l < 2 ^ 31 ->
  len_loop (List.length l) (l ++ r) acc = Ret (acc * 256 ^ zlen l + be_to_Z l, r).
Proof.
  induction l as [|b l IH]; intros acc Ho Ha Hz Hb; cbn [List.length len_loop app].
  - rewrite zlen_nil, be_to_Z_nil. change (256 ^ 0) with 1. replace (acc * 1 + 0) with acc by lia. reflexivity.
  - apply bytes_ok_cons in Ho as [B Ho]. unfold byte_ok in B. pose proof (be_to_Z_bound l Ho) as Bd. rewrite be_to_Z_cons in *. rewrite zlen_cons in *.
    pose proof (zlen_nonneg l) as Zl. rewrite Z.add_comm, Z.pow_add_r in Hb by lia. rewrite (Z.add_comm 1), Z.pow_add_r by lia.
    change (256 ^ 1) with 256 in *. pose proof (pow256_pos (zlen l) Zl) as P.
    assert (acc < 2 ^ 23). { change (2 ^ 31) with (256 * 2 ^ 23) in Hb. nia. }
    replace (2 ^ 23 <=? acc) with false by lia.
    assert (acc * 256 + b <> 0). { destruct (Z.eq_dec acc 0) as [->|]; [specialize (Hz eq_refl); cbn in Hz; lia|lia]. }
    replace (acc * 256 + b =? 0) with false by lia. rewrite IH; auto; try lia.
    do 2 f_equal. ring.
Qed.
Lemma hdr_parse cls tag comp len r : 0 <= cls <= 3 -> 0 <= tag <= maxInt32 -> 0 <= len < 2 ^ 31 ->
  parseTagAndLength (hdr cls tag comp len ++ r) = Ret (mkTL cls tag len comp, r).
Proof.
  intros Hc Ht Hl. unfold hdr, appendTagAndLength. cbn [t_class t_comp t_tag t_len].
  set (k := if comp then 32 else 0). assert (Hk : k = 0 \/ k = 32) by (unfold k; destruct comp; auto).
  rewrite <- app_assoc. set (L := if 128 <=? len then _ else _).
  assert (F : forall tg r', (match L ++ r' with
      | [] => Err "truncated tag or length"
      | b :: r => if b <? 128 then Ret (mkTL cls tg b comp, r)
          else let numBytes := b - 128 in
            if numBytes =? 0 then Err "indefinite length found (not DER)" else
            do (l, r) <- len_loop (Z.to_nat numBytes) r 0;
            if l <? 128 then Err "non-minimal length" else Ret (mkTL cls tg l comp, r) end) = Ret (mkTL cls tg len comp, r')).
  { intros tg r'. unfold L. destruct (Z.leb_spec 128 len).
    - cbn [app]. pose proof (nbytes_spec len ltac:(lia)) as [N1 N2]. assert (nbytes len > 0)%nat.
      { destruct (nbytes len) eqn:E; [|lia]. cbn in N2. lia. }
      replace (128 + Z.of_nat (nbytes len) <? 128) with false by lia. replace (128 + Z.of_nat (nbytes len) - 128) with (Z.of_nat (nbytes len)) by lia.
      replace (Z.of_nat (nbytes len) =? 0) with false by lia. cbv zeta. rewrite Nat2Z.id.
      assert (E : len_loop (nbytes len) (Z_to_be (nbytes len) len ++ r') 0 = Ret (len, r')).
      { rewrite <- (Z_to_be_length (nbytes len) len) at 1. rewrite len_loop_be.
        - rewrite be_to_Z_to_be_small by lia. reflexivity.
        - apply Z_to_be_ok.
        - lia.
        - intros _. change (Z_to_be (nbytes len) len) with (Z_to_be (nbytes len) len). pose proof (big_bytes_head len ltac:(lia)) as (b & l & Eb & Nz & _).
          unfold big_bytes in Eb. rewrite Z.abs_eq in Eb by lia. rewrite Eb. exact Nz.
        - rewrite be_to_Z_to_be_small by lia. lia. }
      rewrite E. cbn [bind]. replace (len <? 128) with false by lia. reflexivity.
    - cbn [app]. replace (len <? 128) with true by lia. reflexivity. }
  clearbody L. unfold parseTagAndLength.
  destruct (Z.leb_spec 31 tag).
  - cbn [app]. assert (E1 : (cls * 64 + k + 31) / 64 = cls) by lia. assert (E2 : ((cls * 64 + k + 31) / 32) mod 2 =? 1 = comp) by (unfold k in *; destruct comp; lia).
    assert (E3 : (cls * 64 + k + 31) mod 32 = 31) by lia. rewrite E1, E2, E3. cbn [Z.eqb Pos.eqb].
    rewrite base128_roundtrip by lia. cbn [bind]. replace (tag <? 31) with false by lia. cbn [bind]. apply F.
  - cbn [app]. assert (E1 : (cls * 64 + k + tag) / 64 = cls) by lia. assert (E2 : ((cls * 64 + k + tag) / 32) mod 2 =? 1 = comp) by (unfold k in *; destruct comp; lia).
    assert (E3 : (cls * 64 + k + tag) mod 32 = tag) by lia. rewrite E1, E2, E3. replace (tag =? 31) with false by lia. cbn [bind]. apply F.
Qed.
(** *** the header parser only looks at the header *)
Lemma base128_loop_app tl s : forall sh acc v r, base128_loop s sh acc = Ret (v, r) -> base128_loop (s ++ tl) sh acc = Ret (v, r ++ tl).
Proof.
  induction s as [|b s IH]; intros sh acc v r; cbn [base128_loop app]; [discriminate|].
  destruct (sh =? 5)%nat; [discriminate|]. destruct (_ && _); [discriminate|]. destruct (b <? 128).
  - destruct (_ <? _); [discriminate|]. intros [= <- <-]. reflexivity.
  - apply IH.
Qed.
Lemma len_loop_app tl n : forall s acc v r, len_loop n s acc = Ret (v, r) -> len_loop n (s ++ tl) acc = Ret (v, r ++ tl).
Proof.
  induction n as [|n IH]; intros s acc v r; cbn [len_loop]; [intros [= <- <-]; reflexivity|].
  destruct s as [|b s]; cbn [app]; [discriminate|]. destruct (_ <=? _); [discriminate|]. destruct (_ =? 0); [discriminate|]. apply IH.
Qed.
Lemma ptl_app tl s t r : parseTagAndLength s = Ret (t, r) -> parseTagAndLength (s ++ tl) = Ret (t, r ++ tl).
Proof.
  unfold parseTagAndLength. destruct s as [|b s]; [discriminate|]. cbn [app].
  set (F := fun (tr : Z * bytes) => let '(tag, r) := tr in match r with
      | [] => Err "truncated tag or length"
      | b0 :: r0 => if b0 <? 128 then Ret (mkTL (b / 64) tag b0 ((b / 32) mod 2 =? 1), r0)
          else let numBytes := b0 - 128 in
            if numBytes =? 0 then Err "indefinite length found (not DER)" else
            do (l, r1) <- len_loop (Z.to_nat numBytes) r0 0;
            if l <? 128 then Err "non-minimal length" else Ret (mkTL (b / 64) tag l ((b / 32) mod 2 =? 1), r1) end).
  assert (HF : forall tg r', F (tg, r') = Ret (t, r) -> F (tg, r' ++ tl) = Ret (t, r ++ tl)).
  { intros tg r'. unfold F. destruct r' as [|b0 r']; [discriminate|]. cbn [app]. destruct (b0 <? 128); [intros [= <- <-]; reflexivity|].
    cbv zeta. destruct (_ =? 0); [discriminate|]. destruct (len_loop _ r' 0) as [[l r1]| |] eqn:E; cbn [bind]; try discriminate.
    rewrite (len_loop_app tl _ _ _ _ _ E). cbn [bind]. destruct (l <? 128); [discriminate|]. intros [= <- <-]. reflexivity. }
  change (bind (if b mod 32 =? 31 then do (tg, r0) <- parseBase128Int s; if tg <? 31 then Err "non-minimal tag" else Ret (tg, r0) else Ret (b mod 32, s)) F = Ret (t, r) ->
    bind (if b mod 32 =? 31 then do (tg, r0) <- parseBase128Int (s ++ tl); if tg <? 31 then Err "non-minimal tag" else Ret (tg, r0) else Ret (b mod 32, s ++ tl)) F = Ret (t, r ++ tl)).
  destruct (b mod 32 =? 31); cbn [bind]; [|apply HF].
  unfold parseBase128Int. destruct (base128_loop s 0 0) as [[tg r0]| |] eqn:E; cbn [bind]; try discriminate.
  rewrite (base128_loop_app tl _ _ _ _ _ E). cbn [bind]. destruct (tg <? 31); cbn [bind]; [discriminate|]. apply HF.
Qed.
(** *** and it accepts only what appendTagAndLength writes *)
Lemma base128_loop_inv s : forall sh acc v r, bytes_ok s -> 0 <= acc -> base128_loop s sh acc = Ret (v, r) ->
  exists l, (l > 0)%nat /\ s = base128_digits l v ++ r /\ v / 128 ^ Z.of_nat l = acc /\ 0 <= v <= maxInt32 /\
    (sh = 0%nat -> (l > 1)%nat -> match s with b :: _ => b <> 128 | [] => True end).
Proof.
  induction s as [|b s IH]; intros sh acc v r Ho Ha; cbn [base128_loop]; [discriminate|]. apply bytes_ok_cons in Ho as [B Ho]. unfold byte_ok in B.
  destruct (sh =? 5)%nat; [discriminate|]. destruct ((sh =? 0)%nat && (b =? 128)) eqn:E80; [discriminate|].
  destruct (Z.ltb_spec b 128) as [Hb|Hb].
  - rewrite (Z.mod_small b) by lia. destruct (Z.ltb_spec 2147483647 (acc * 128 + b)); [discriminate|]. intros [= <- <-].
    exists 1%nat. cbn [base128_digits app Nat.eqb]. change (128 ^ Z.of_nat 0) with 1. change (128 ^ Z.of_nat 1) with 128.
    split; [lia|]. split; [f_equal; rewrite Z.div_1_r; lia|]. split; [lia|]. split; [unfold maxInt32; lia|]. intros; lia.
  - intros E. apply IH in E; auto; [|lia]. destruct E as (l & Hl & -> & Hv & Hm & _).
    assert (Eb : b mod 128 = b - 128) by lia. rewrite Eb in Hv.
    exists (S l). cbn [base128_digits app]. replace (l =? 0)%nat with false by lia. split; [lia|].
    split; [f_equal; rewrite Hv; lia|]. split.
    { rewrite pow128_S, (Z.mul_comm 128), <- Z.div_div by (pose proof (pow128_pos (Z.of_nat l)); lia). rewrite Hv. lia. }
    split; [exact Hm|]. intros -> _. cbn in E80. lia.
Qed.
Lemma parseBase128_inv s v r : bytes_ok s -> parseBase128Int s = Ret (v, r) -> s = appendBase128Int v ++ r /\ 0 <= v <= maxInt32.
Proof.
  intros Ho E. apply base128_loop_inv in E; auto; [|lia]. destruct E as (l & Hl & -> & Hv & Hm & Hz). split; [|exact Hm].
  f_equal. unfold appendBase128Int. f_equal.
  assert (Hv' : v < 128 ^ Z.of_nat l). { pose proof (pow128_pos (Z.of_nat l) ltac:(lia)). apply Z.div_small_iff in Hv; lia. }
  destruct (Nat.eq_dec l 1) as [->|Hl1].
  - change (128 ^ Z.of_nat 1) with 128 in Hv'. unfold base128_length. destruct (Z.eqb_spec v 0); auto.
    assert (Z.log2 v <= Z.log2 127) by (apply Z.log2_le_mono; lia). change (Z.log2 127) with 6 in *. pose proof (Z.log2_nonneg v). lia.
  - specialize (Hz eq_refl ltac:(lia)). destruct l as [|l]; [lia|]. cbn [base128_digits app] in Hz. replace (l =? 0)%nat with false in Hz by lia.
    assert (Hd : v / 128 ^ Z.of_nat l < 128). { apply Z.div_lt_upper_bound; [apply pow128_pos; lia|]. rewrite pow128_S in Hv'. lia. }
    pose proof (Z.div_pos v (128 ^ Z.of_nat l) ltac:(lia) (pow128_pos (Z.of_nat l) ltac:(lia))) as Hp.
    rewrite Z.mod_small in Hz by lia.
    assert (Lo : 128 ^ Z.of_nat l <= v). { destruct (Z_lt_le_dec v (128 ^ Z.of_nat l)); auto. rewrite Z.div_small in Hz by lia. lia. }
    assert (Hv0 : 0 < v) by (pose proof (pow128_pos (Z.of_nat l)); lia).
    destruct (base128_length_spec v Hv0) as (Hp' & L1 & L2). set (m := base128_length v) in *.
    assert (Z.of_nat m - 1 < Z.of_nat (S l)) by (apply (Z.pow_lt_mono_r_iff 128); lia).
    assert (Z.of_nat l < Z.of_nat m) by (apply (Z.pow_lt_mono_r_iff 128); lia). lia.
Qed.
Lemma len_loop_inv n : forall s acc v r, bytes_ok s -> 0 <= acc -> len_loop n s acc = Ret (v, r) ->
  exists l, s = l ++ r /\ List.length l = n /\ v = acc * 256 ^ zlen l + be_to_Z l /\ ((n > 0)%nat -> v < 2 ^ 31) /\
    (acc = 0 -> match l with b :: _ => b <> 0 | [] => True end).
Proof.
  induction n as [|n IH]; intros s acc v r Ho Ha; cbn [len_loop].
  - intros [= <- <-]. exists []. rewrite zlen_nil, be_to_Z_nil. change (256 ^ 0) with 1. repeat split; auto; lia.
  - destruct s as [|b s]; [discriminate|]. apply bytes_ok_cons in Ho as [B Ho]. unfold byte_ok in B.
    destruct (Z.leb_spec (2 ^ 23) acc); [discriminate|]. destruct (Z.eqb_spec (acc * 256 + b) 0); [discriminate|].
    intros E. pose proof E as E'. apply IH in E; auto; [|lia]. destruct E as (l & -> & Hl & Hv & Hm & _).
    exists (b :: l). split; [reflexivity|]. split; [cbn [List.length]; lia|]. split.
    { rewrite Hv, be_to_Z_cons, zlen_cons, Z.pow_add_r by (pose proof (zlen_nonneg l); lia). ring. }
    split; [|intros ->; lia]. intros _. destruct n as [|n]; [|apply Hm; lia]. cbn [len_loop] in E'. injection E' as <- _. change (2 ^ 31) with (256 * 2 ^ 23). lia.
Qed.
Lemma ptl_inv s t r : bytes_ok s -> parseTagAndLength s = Ret (t, r) ->
  s = appendTagAndLength t ++ r /\ 0 <= t_class t <= 3 /\ 0 <= t_tag t <= maxInt32 /\ 0 <= t_len t < 2 ^ 31.
Proof.
  unfold parseTagAndLength. destruct s as [|b s]; [discriminate|]. intros Ho. apply bytes_ok_cons in Ho as [B Ho]. unfold byte_ok in B.
  set (cls := b / 64). set (comp := (b / 32) mod 2 =? 1).
  assert (F : forall tg r', bytes_ok r' -> match r' with
      | [] => Err "truncated tag or length"
      | b0 :: r0 => if b0 <? 128 then Ret (mkTL cls tg b0 comp, r0)
          else let numBytes := b0 - 128 in
            if numBytes =? 0 then Err "indefinite length found (not DER)" else
            do (l, r1) <- len_loop (Z.to_nat numBytes) r0 0;
            if l <? 128 then Err "non-minimal length" else Ret (mkTL cls tg l comp, r1) end = Ret (t, r) ->
      exists len, t = mkTL cls tg len comp /\ 0 <= len < 2 ^ 31 /\
        r' = (if 128 <=? len then (128 + Z.of_nat (nbytes len)) :: Z_to_be (nbytes len) len else [len]) ++ r).
  { intros tg r' Hr'. destruct r' as [|b0 r']; [discriminate|]. apply bytes_ok_cons in Hr' as [B0 Hr']. unfold byte_ok in B0.
    destruct (Z.ltb_spec b0 128).
    - intros [= <- <-]. exists b0. replace (128 <=? b0) with false by lia. repeat split; auto; lia.
    - cbv zeta. destruct (Z.eqb_spec (b0 - 128) 0); [discriminate|]. destruct (len_loop _ r' 0) as [[l r1]| |] eqn:E; cbn [bind]; try discriminate.
      apply len_loop_inv in E; auto; [|lia]. destruct E as (lb & -> & Hl & Hv & Hm & Hz). destruct (Z.ltb_spec l 128); [discriminate|].
      intros [= <- <-]. exists l. split; [reflexivity|]. split; [split; [lia|apply Hm; lia]|].
      rewrite Z.mul_0_l, Z.add_0_l in Hv. apply bytes_ok_app in Hr' as [Hlb _]. specialize (Hz eq_refl).
      destruct lb as [|x lb]; [cbn in Hl; lia|]. assert (En : nbytes l = List.length (x :: lb)) by (rewrite Hv; rewrite be_head_nonzero by auto; reflexivity).
      replace (128 <=? l) with true by lia. rewrite En, Hv, Z_to_be_be_to_Z by auto. cbn [app]. f_equal. lia. }
  destruct (Z.eqb_spec (b mod 32) 31) as [E31|E31]; cbn [bind].
  - destruct (parseBase128Int s) as [[tg r0]| |] eqn:E; cbn [bind]; try discriminate. apply parseBase128_inv in E as [-> Htg]; auto.
    destruct (Z.ltb_spec tg 31); cbn [bind]; [discriminate|]. intros E. apply bytes_ok_app in Ho as [_ Ho]. apply F in E; auto.
    destruct E as (len & -> & Hlen & ->). unfold appendTagAndLength. cbn [t_class t_comp t_tag t_len]. replace (31 <=? tg) with true by lia.
    split; [|unfold cls; repeat split; lia]. rewrite <- app_assoc. cbn [app]. f_equal. unfold cls, comp. destruct (Z.eqb_spec ((b / 32) mod 2) 1); lia.
  - intros E. apply F in E; auto. destruct E as (len & -> & Hlen & ->). unfold appendTagAndLength. cbn [t_class t_comp t_tag t_len].
    replace (31 <=? b mod 32) with false by lia. split; [|unfold cls, maxInt32; repeat split; lia]. cbn [app]. f_equal. unfold cls, comp. destruct (Z.eqb_spec ((b / 32) mod 2) 1); lia.
Qed.

(** *** fields *)
Lemma hdr_ne cls tag comp len r : exists b l, hdr cls tag comp len ++ r = b :: l.
Proof. unfold hdr, appendTagAndLength. destruct (31 <=? _); cbn [app]; eauto. Qed.
Lemma hdr_zlen cls tag comp len : 2 <= zlen (hdr cls tag comp len).
Proof.
  unfold hdr, appendTagAndLength. cbn [t_class t_comp t_tag t_len]. rewrite zlen_app.
  assert (A : 1 <= zlen (if 31 <=? tag then (cls * 64 + (if comp then 32 else 0) + 31) :: appendBase128Int tag else [cls * 64 + (if comp then 32 else 0) + tag])).
  { destruct (31 <=? tag); rewrite zlen_cons; pose proof (zlen_nonneg (appendBase128Int tag)); try lia. rewrite zlen_nil. lia. }
  assert (B : 1 <= zlen (if 128 <=? len then (128 + Z.of_nat (nbytes len)) :: Z_to_be (nbytes len) len else [len])).
  { destruct (128 <=? len); rewrite zlen_cons; pose proof (zlen_nonneg (Z_to_be (nbytes len) len)); try lia. rewrite zlen_nil. lia. }
  lia.
Qed.
(** contents of [c] with value [a] are read back as [a'] *)
Definition body_rt {A} (c : codec A) (set : bool) (a a' : A) : Prop :=
  forall body t full, c_body c set a = Ret body -> zlen body < 2 ^ 31 -> c_parse c t full body = Ret a'.
(** a present field [a] written with [p] is read back as [a'] whatever follows *)
Definition field_rt {A} (c : codec A) (p : params) (a a' : A) : Prop :=
  forall bs tail, makeField c p a = Ret bs -> zlen bs < 2 ^ 31 -> parseField c p (bs ++ tail) = Ret (a', tail).
Definition params_ok (p : params) : Prop :=
  (match p_tag p with Some n => 0 <= n <= maxInt32 | None => p_exp p = false end).
Definition present {A} (c : codec A) (p : params) (a : A) : Prop :=
  p_omit p && c_len0 c a = false /\
  p_opt p && match p_def p with Some d => c_isint c d a | None => c_iszero c a end = false.
Lemma present_make {A} (c : codec A) p a : present c p a -> c_whole c a = None -> makeField c p a =
      if p_set p && negb (c_tag c =? TagSequence) then Err "non sequence tagged as set" else
      let tag := if p_set p then TagSet else c_tag c in
      do body <- c_body c (tag =? TagSet) a;
      match p_tag p with
      | Some n =>
          if p_exp p then
            let inner := hdr ClassUniversal tag (c_comp c) (zlen body) ++ body in
            Ret (hdr ClassContext n true (zlen inner) ++ inner)
          else Ret (hdr ClassContext n (c_comp c) (zlen body) ++ body)
      | None => Ret (hdr ClassUniversal tag (c_comp c) (zlen body) ++ body)
      end.
Proof.
  intros [P1 P2] W. unfold makeField. rewrite P1, W. destruct (p_opt p); cbn [andb] in *; auto.
  destruct (p_def p); rewrite P2; reflexivity.
Qed.
(** the header of a field's element, for the mismatch rule of optional fields *)
Lemma tail_ok {A} (c : codec A) p pre (t : tagLen) body tail a' :
  c_any c = false ->
  t_class t = match p_exp p, p_tag p with false, Some _ => ClassContext | _, _ => ClassUniversal end ->
  t_tag t = match p_exp p, p_tag p with false, Some n => n | _, _ => if p_set p then TagSet else c_tag c end ->
  t_comp t = c_comp c -> t_len t = zlen body ->
  (forall full, c_parse c t full body = Ret a') ->
  parseFieldTail c p (pre ++ body ++ tail) t (body ++ tail) = Ret (a', tail).
Proof.
  intros Hany Hc Ht Hk Hl Hp. unfold parseFieldTail. rewrite Hany, Hk, Bool.eqb_reflx.
  assert (E : match p_exp p, p_tag p with false, Some n => (false, ClassContext, n) | _, _ => (false, ClassUniversal, if p_set p then TagSet else c_tag c) end
     = (false, t_class t, t_tag t)).
  { rewrite Hc, Ht. destruct (p_exp p), (p_tag p); reflexivity. }
  rewrite E. rewrite !Z.eqb_refl. cbn [negb andb orb].
  rewrite Hl, zlen_app. replace (zlen body + zlen tail <? zlen body) with false by (pose proof (zlen_nonneg tail); lia).
  assert (F1 : firstn (Z.to_nat (zlen body)) (body ++ tail) = body) by (apply firstn_app_exact; unfold zlen; lia).
  assert (F2 : skipn (Z.to_nat (zlen body)) (body ++ tail) = tail) by (apply skipn_app_exact; unfold zlen; lia).
  rewrite F1, F2. rewrite Hp. reflexivity.
Qed.
Lemma make_rt {A} (c : codec A) p a a' : params_ok p -> c_any c = false -> 0 <= c_tag c <= 30 -> c_whole c a = None -> present c p a ->
  body_rt c ((if p_set p then TagSet else c_tag c) =? TagSet) a a' -> field_rt c p a a'.
Proof.
  intros Hp Hany Htag Hw Hpr Hb bs tail E Hz. rewrite present_make in E by auto.
  destruct (p_set p && negb (c_tag c =? TagSequence)) eqn:Eset; [discriminate|]. cbv zeta in E.
  set (tag := if p_set p then TagSet else c_tag c) in *. assert (Ht : 0 <= tag <= maxInt32) by (unfold tag, TagSet, maxInt32; destruct (p_set p); lia).
  destruct (c_body c (tag =? TagSet) a) as [body| |] eqn:Eb; cbn [bind] in E; try discriminate.
  pose proof (zlen_nonneg body) as Zb.
  assert (HB : zlen body < 2 ^ 31 -> forall t full, c_parse c t full body = Ret a') by (intros; apply Hb; auto).
  destruct (p_tag p) as [n|] eqn:Etag.
  - unfold params_ok in Hp. rewrite Etag in Hp. destruct (p_exp p) eqn:Ex.
    + set (inner := hdr ClassUniversal tag (c_comp c) (zlen body) ++ body) in *.
      assert (bs = hdr ClassContext n true (zlen inner) ++ inner) by congruence. subst bs. clear E.
      rewrite (zlen_app (hdr ClassContext n true (zlen inner))) in Hz. pose proof (hdr_zlen ClassContext n true (zlen inner)). pose proof (zlen_nonneg inner).
      assert (Ei : zlen inner = zlen (hdr ClassUniversal tag (c_comp c) (zlen body)) + zlen body) by apply zlen_app.
      pose proof (hdr_zlen ClassUniversal tag (c_comp c) (zlen body)).
      assert (Hin : zlen body < 2 ^ 31) by lia. assert (Hi0 : 0 < zlen inner) by lia.
      assert (Ea : (hdr ClassContext n true (zlen inner) ++ inner) ++ tail =
         hdr ClassContext n true (zlen inner) ++ hdr ClassUniversal tag (c_comp c) (zlen body) ++ body ++ tail) by (unfold inner; rewrite <- !app_assoc; reflexivity).
      rewrite Ea. clear Ea. clearbody inner. set (li := zlen inner) in *. clearbody li.
      unfold parseField. destruct (hdr_ne ClassContext n true li (hdr ClassUniversal tag (c_comp c) (zlen body) ++ body ++ tail)) as (x & l & Ex').
      rewrite Ex' at 1. rewrite hdr_parse by (unfold ClassContext; lia). cbn [bind]. rewrite Ex.
      destruct (hdr_ne ClassUniversal tag (c_comp c) (zlen body) (body ++ tail)) as (y & l' & Ey).
      rewrite Ey at 1. cbn [t_class t_tag t_len t_comp]. rewrite Etag, !Z.eqb_refl. cbn [andb]. rewrite orb_true_r. rewrite Hany.
      replace (0 <? li) with true by lia. rewrite hdr_parse by (unfold ClassUniversal; lia). cbn [bind].
      rewrite app_assoc. apply tail_ok; rewrite ?Ex, ?Etag; auto.
    + assert (bs = hdr ClassContext n (c_comp c) (zlen body) ++ body) by congruence. subst bs. clear E.
      rewrite zlen_app in Hz. pose proof (hdr_zlen ClassContext n (c_comp c) (zlen body)).
      unfold parseField. rewrite <- app_assoc. destruct (hdr_ne ClassContext n (c_comp c) (zlen body) (body ++ tail)) as (x & l & Ex').
      rewrite Ex' at 1. rewrite hdr_parse by (unfold ClassContext; lia). cbn [bind]. rewrite Ex.
      apply tail_ok; rewrite ?Ex, ?Etag; auto. apply HB. lia.
  - unfold params_ok in Hp. rewrite Etag in Hp.
    assert (bs = hdr ClassUniversal tag (c_comp c) (zlen body) ++ body) by congruence. subst bs. clear E.
    rewrite zlen_app in Hz. pose proof (hdr_zlen ClassUniversal tag (c_comp c) (zlen body)).
    unfold parseField. rewrite <- app_assoc. destruct (hdr_ne ClassUniversal tag (c_comp c) (zlen body) (body ++ tail)) as (x & l & Ex').
    rewrite Ex' at 1. rewrite hdr_parse by (unfold ClassUniversal; lia). cbn [bind]. rewrite Hp.
    apply tail_ok; rewrite ?Hp, ?Etag; auto. apply HB. lia.
Qed.
(** an omitted optional field at the end of the input *)
Lemma omitted_end {A} (c : codec A) p d : setDefault c p = Some d -> parseField c p [] = Ret (d, []).
Proof. intros H. unfold parseField. rewrite H. reflexivity. Qed.
(** an omitted optional field followed by an element with another class or tag *)
Lemma omitted_mismatch {A} (c : codec A) p d s t s1 : setDefault c p = Some d -> params_ok p -> parseTagAndLength s = Ret (t, s1) -> s1 <> [] ->
  (match p_tag p with
   | Some n => (t_class t <> ClassContext \/ t_tag t <> n)
   | None => c_any c = false /\ (t_class t <> ClassUniversal \/ t_tag t <> (if p_set p then TagSet else c_tag c)) end) ->
  parseField c p s = Ret (d, s).
Proof.
  intros Hd Hp E Hs1 Hm. unfold parseField. destruct s as [|b s]; [discriminate|]. rewrite E. cbn [bind]. unfold params_ok in Hp.
  destruct (p_tag p) as [n|] eqn:Et.
  - destruct (p_exp p) eqn:Ex.
    + destruct s1 as [|y s1]; [congruence|]. replace ((t_class t =? ClassContext) && (t_tag t =? n)) with false by (unfold ClassContext in *; lia).
      cbn [andb]. rewrite Hd. reflexivity.
    + unfold parseFieldTail. rewrite Ex, Et. replace (negb (t_class t =? ClassContext) || negb (t_tag t =? n)) with true by (unfold ClassContext in *; lia).
      cbn [negb andb orb]. rewrite Hd. reflexivity.
  - rewrite Hp. destruct Hm as [Ha Hm]. unfold parseFieldTail. rewrite Hp, Et, Ha. cbn [negb andb].
    replace (negb (t_class t =? ClassUniversal) || negb (t_tag t =? (if p_set p then TagSet else c_tag c))) with true by (unfold ClassUniversal in *; lia).
    cbn [orb]. rewrite Hd. reflexivity.
Qed.
Lemma make_omitted {A} (c : codec A) p a : present c p a \/ makeField c p a = Ret [].
Proof.
  unfold present, makeField. destruct (p_omit p && c_len0 c a); [right; reflexivity|]. destruct (p_opt p); cbn [andb]; [|auto].
  destruct (p_def p); [destruct (c_isint c z a) | destruct (c_iszero c a)]; auto.
Qed.

(** *** primitive types *)
Lemma int_body_rt set n : - 2 ^ 63 <= n < 2 ^ 63 -> body_rt cInt set n n.
Proof.
  intros Hn body t full E _. cbn in E. injection E as <-. cbn. unfold int_parse. destruct (bigint_content_roundtrip n) as [A B].
  rewrite A, B. cbn [negb]. pose proof (bigint_content_zlen n 8 ltac:(lia) ltac:(lia)). replace (8 <? zlen (bigint_content n)) with false by lia. reflexivity.
Qed.
Lemma big_body_rt set n : body_rt cBig set (Some n) (Some n).
Proof. intros body t full E _. cbn in E. injection E as <-. cbn. destruct (bigint_content_roundtrip n) as [A B]. rewrite A, B. reflexivity. Qed.
Lemma bool_body_rt set b : body_rt cBool set b b.
Proof. intros body t full E _. cbn in E. injection E as <-. destruct b; reflexivity. Qed.
Lemma bytes_body_rt set b : body_rt cBytes set b (Some (sl b)).
Proof. intros body t full E _. cbn in E. injection E as <-. reflexivity. Qed.
(** OIDs the encoder accepts and the decoder's limits *)
Definition oid_ok (o : oid) : Prop :=
  match o with
  | a :: b :: rest => 0 <= a <= 2 /\ 0 <= b /\ (a < 2 -> b < 40) /\ a * 40 + b <= maxInt32 /\ Forall (fun x => 0 <= x <= maxInt32) rest
  | _ => False
  end.
Lemma oid_loop_rt l : Forall (fun x => 0 <= x <= maxInt32) l -> forall fuel, (List.length (flat_map appendBase128Int l) <= fuel)%nat ->
  oid_loop fuel (flat_map appendBase128Int l) = Ret l.
Proof.
  induction 1 as [|x l Hx Hl IH]; intros fuel Hf; cbn [flat_map] in *.
  - destruct fuel; reflexivity.
  - pose proof (appendBase128_ne x (flat_map appendBase128Int l)) as Ne.
    destruct (appendBase128Int x ++ flat_map appendBase128Int l) as [|b r] eqn:E; [congruence|].
    destruct fuel as [|fuel]; [cbn in Hf; lia|]. cbn [oid_loop]. rewrite <- E. rewrite base128_roundtrip by lia. cbn [bind].
    rewrite IH; [reflexivity|]. assert (List.length (b :: r) = List.length (appendBase128Int x) + List.length (flat_map appendBase128Int l))%nat by (rewrite <- E, app_length; reflexivity).
    pose proof (appendBase128_ne x []) as Ne'. rewrite app_nil_r in Ne'. destruct (appendBase128Int x); [congruence|]. cbn [List.length] in *. lia.
Qed.
Lemma oid_rt o b : oid_ok o -> oid_body o = Ret b -> oid_parse b = Ret o.
Proof.
  destruct o as [|a [|c rest]]; cbn [oid_ok]; try tauto. intros (Ha & Hc & Hc' & Hm & Hr). unfold oid_body.
  replace ((2 <? a) || (a <? 2) && (40 <=? c)) with false by lia. intros E.
  assert (b = appendBase128Int (a * 40 + c) ++ flat_map appendBase128Int rest) by (cbn [flat_map] in E; congruence). subst b. clear E.
  unfold oid_parse. pose proof (appendBase128_ne (a * 40 + c) (flat_map appendBase128Int rest)) as Ne.
  destruct (appendBase128Int (a * 40 + c) ++ flat_map appendBase128Int rest) eqn:E; [congruence|]. rewrite <- E.
  rewrite base128_roundtrip by lia. cbn [bind]. rewrite oid_loop_rt by auto. cbn [bind].
  destruct (Z.ltb_spec (a * 40 + c) 80).
  - assert (a < 2) by lia. do 2 f_equal; [lia|]. f_equal. lia.
  - assert (a = 2) by lia. subst a. do 2 f_equal. f_equal. lia.
Qed.
Lemma oid_body_rt set o : oid_ok o -> body_rt cOID set o o.
Proof. intros Ho body t full E _. cbn in *. apply oid_rt; auto. Qed.
Lemma oid_eqb_spec a b : oid_eqb a b = true <-> a = b. Proof. apply bytes_eqb_spec. Qed.
(** BIT STRING whose length is a whole number of bytes *)
Lemma bits_body_rt set b : body_rt cBits set (mkBits (Some b) (8 * zlen b)) (mkBits (Some b) (8 * zlen b)).
Proof.
  intros body t full E _. cbn [c_body cBits prim] in E. unfold bits_body in E. cbn [bs_len bs_bytes] in E.
  replace (Z.rem (8 * zlen b) 8) with 0 in E by (rewrite Z.mul_comm; symmetry; apply Z.rem_mul; lia). change ((8 - 0) mod 8) with 0 in E. injection E as <-.
  cbn [c_parse cBits prim]. unfold bits_parse. change (2 ^ 0 - 1) with 0. rewrite Z.land_0_r. change (7 <? 0) with false. change (0 <? 0) with false.
  rewrite andb_false_r. change (0 =? 0) with true. cbn [orb negb]. replace (zlen b * 8 - 0) with (8 * zlen b) by lia. reflexivity.
Qed.

(** *** complete elements *)
Definition elem (f : bytes) (t : tagLen) (inner : bytes) : Prop := parseTagAndLength f = Ret (t, inner) /\ zlen inner = t_len t.
Lemma hdr_elem cls tag comp b : 0 <= cls <= 3 -> 0 <= tag <= maxInt32 -> zlen b < 2 ^ 31 ->
  elem (hdr cls tag comp (zlen b) ++ b) (mkTL cls tag (zlen b) comp) b.
Proof. intros. split; [apply hdr_parse; auto; pose proof (zlen_nonneg b); lia|reflexivity]. Qed.
Lemma elem_nonempty f t i : elem f t i -> f <> [].
Proof. intros [E _] ->. discriminate E. Qed.
Lemma raw_tail p f t inner tail : p_tag p = None \/ p_exp p = true -> zlen inner = t_len t ->
  parseTagAndLength f = Ret (t, inner) -> parseFieldTail cRaw p (f ++ tail) t (inner ++ tail) =
  Ret (mkRaw (t_class t) (t_tag t) (t_comp t) (Some inner) (Some f), tail).
Proof.
  intros Hp Hl E. unfold parseFieldTail.
  assert (X : match p_exp p, p_tag p with false, Some n => (false, ClassContext, n) | _, _ => (c_any cRaw, ClassUniversal, if p_set p then TagSet else c_tag cRaw) end
     = (true, ClassUniversal, if p_set p then TagSet else c_tag cRaw)).
  { destruct Hp as [-> | ->]; [destruct (p_exp p)|]; reflexivity. }
  rewrite X. cbn [negb andb orb c_any cRaw].
  rewrite <- Hl, zlen_app. replace (zlen inner + zlen tail <? zlen inner) with false by (pose proof (zlen_nonneg tail); lia).
  assert (F1 : firstn (Z.to_nat (zlen inner)) (inner ++ tail) = inner) by (apply firstn_app_exact; unfold zlen; lia).
  assert (F2 : skipn (Z.to_nat (zlen inner)) (inner ++ tail) = tail) by (apply skipn_app_exact; unfold zlen; lia).
  rewrite F1, F2. rewrite app_length. rewrite Nat.add_sub. rewrite firstn_app_exact by reflexivity. reflexivity.
Qed.
Lemma raw_parse p f t inner tail : p_tag p = None -> p_exp p = false -> elem f t inner ->
  parseField cRaw p (f ++ tail) = Ret (mkRaw (t_class t) (t_tag t) (t_comp t) (Some inner) (Some f), tail).
Proof.
  intros Ht Hx [E Hl]. unfold parseField. destruct f as [|b f]; [discriminate|]. cbn [app]. change (b :: f ++ tail) with ((b :: f) ++ tail).
  rewrite (ptl_app tail _ _ _ E). cbn [bind]. rewrite Hx. apply raw_tail; auto.
Qed.
Lemma raw_parse_explicit p n f t inner tail : p_tag p = Some n -> p_exp p = true -> elem f t inner -> t_class t = ClassContext -> t_tag t = n ->
  t_comp t = true -> inner ++ tail <> [] ->
  parseField cRaw p (f ++ tail) = Ret (mkRaw (t_class t) (t_tag t) (t_comp t) (Some inner) (Some f), tail).
Proof.
  intros Ht Hx [E Hl] Hc Hn Hk Hne. unfold parseField. destruct f as [|b f]; [discriminate|]. cbn [app]. change (b :: f ++ tail) with ((b :: f) ++ tail).
  rewrite (ptl_app tail _ _ _ E). cbn [bind]. rewrite Hx, Ht. destruct (inner ++ tail) as [|y l] eqn:Ey; [congruence|]. rewrite <- Ey.
  rewrite Hc, Hn, Hk, !Z.eqb_refl, orb_true_r. cbn [andb c_any cRaw]. rewrite <- Hc at 1. rewrite <- Hn at 1. rewrite <- Hk. apply raw_tail; auto.
Qed.
(** every value of a non-RawValue type marshals to one element of its universal tag *)
Lemma make_elem {A} (c : codec A) a bs : c_whole c a = None -> 0 <= c_tag c <= 30 -> makeField c noP a = Ret bs -> zlen bs < 2 ^ 31 ->
  exists body, c_body c (c_tag c =? TagSet) a = Ret body /\ bs = hdr ClassUniversal (c_tag c) (c_comp c) (zlen body) ++ body /\
    elem bs (mkTL ClassUniversal (c_tag c) (zlen body) (c_comp c)) body.
Proof.
  intros Hw Ht E Hz. rewrite present_make in E by (try split; auto). cbn [p_set noP andb p_tag] in E.
  destruct (c_body c (c_tag c =? TagSet) a) as [body| |] eqn:Eb; cbn [bind] in E; try discriminate. exists body. split; [reflexivity|].
  assert (bs = hdr ClassUniversal (c_tag c) (c_comp c) (zlen body) ++ body) by congruence. subst bs. split; [reflexivity|].
  rewrite zlen_app in Hz. pose proof (hdr_zlen ClassUniversal (c_tag c) (c_comp c) (zlen body)).
  apply hdr_elem; unfold ClassUniversal, maxInt32; lia.
Qed.

(** *** structs *)
Definition frt {X} (fs : fcodec X) (x x' : X) : Prop :=
  forall bs, f_enc fs x = Ret bs -> zlen bs < 2 ^ 31 -> f_dec fs bs = Ret x'.
Lemma frt_nil x : frt fnil x tt. Proof. intros bs _ _. reflexivity. Qed.
Lemma frt_cons {A B} p (c : codec A) (fs : fcodec B) a a' b b' : field_rt c p a a' -> frt fs b b' -> frt (fcons p c fs) (a, b) (a', b').
Proof.
  intros Ha Hb bs. cbn [f_enc fcons fst snd]. destruct (makeField c p a) as [x| |] eqn:E1; cbn [bind]; try discriminate.
  destruct (f_enc fs b) as [y| |] eqn:E2; cbn [bind]; try discriminate. intros E Hz. assert (bs = x ++ y) by congruence. subst bs. rewrite zlen_app in Hz.
  pose proof (zlen_nonneg x). pose proof (zlen_nonneg y).
  cbn [f_dec fcons]. rewrite (Ha x y E1) by lia. cbn [bind]. rewrite (Hb y E2) by lia. reflexivity.
Qed.
(** a field whose reading depends on what follows *)
Lemma frt_cons_dep {A B} p (c : codec A) (fs : fcodec B) a a' b b' :
  (forall x y, makeField c p a = Ret x -> f_enc fs b = Ret y -> zlen x + zlen y < 2 ^ 31 -> parseField c p (x ++ y) = Ret (a', y)) ->
  frt fs b b' -> frt (fcons p c fs) (a, b) (a', b').
Proof.
  intros Ha Hb bs. cbn [f_enc fcons fst snd]. destruct (makeField c p a) as [x| |] eqn:E1; cbn [bind]; try discriminate.
  destruct (f_enc fs b) as [y| |] eqn:E2; cbn [bind]; try discriminate. intros E Hz. assert (bs = x ++ y) by congruence. subst bs. rewrite zlen_app in Hz.
  pose proof (zlen_nonneg x). pose proof (zlen_nonneg y).
  cbn [f_dec fcons]. rewrite (Ha x y eq_refl eq_refl Hz). cbn [bind]. rewrite (Hb y E2) by lia. reflexivity.
Qed.
Lemma frt_skip_end {A B} p (c : codec A) (fs : fcodec B) a d b b' : makeField c p a = Ret [] -> setDefault c p = Some d -> f_enc fs b = Ret [] ->
  frt fs b b' -> frt (fcons p c fs) (a, b) (d, b').
Proof.
  intros Ha Hd Hb Hf. apply frt_cons_dep; auto. intros x y Ex Ey _. rewrite Ha in Ex. rewrite Hb in Ey. injection Ex as <-. injection Ey as <-.
  cbn [app]. apply omitted_end; auto.
Qed.
Lemma frt_skip {A B} p (c : codec A) (fs : fcodec B) a d b b' : makeField c p a = Ret [] -> setDefault c p = Some d -> params_ok p ->
  (forall y, f_enc fs b = Ret y -> zlen y < 2 ^ 31 -> exists t s1, parseTagAndLength y = Ret (t, s1) /\ s1 <> [] /\
    match p_tag p with
    | Some n => (t_class t <> ClassContext \/ t_tag t <> n)
    | None => c_any c = false /\ (t_class t <> ClassUniversal \/ t_tag t <> (if p_set p then TagSet else c_tag c)) end) ->
  frt fs b b' -> frt (fcons p c fs) (a, b) (d, b').
Proof.
  intros Ha Hd Hp Hm Hf. apply frt_cons_dep; auto. intros x y Ex Ey Hz. rewrite Ha in Ex. injection Ex as <-. cbn [app].
  destruct (Hm y Ey ltac:(cbn in Hz; pose proof (zlen_nonneg (@nil Z)); lia)) as (t & s1 & E & Hs & Hc). eapply omitted_mismatch; eauto.
Qed.
Lemma struct_body_rt {X A} (fs : fcodec X) (mk : X -> A) un set a x' : frt fs (un a) x' -> body_rt (cStruct fs mk un) set a (mk x').
Proof. intros H body t full E Hz. cbn in *. rewrite (H body E Hz). reflexivity. Qed.

(** *** slices *)
Lemma count_elems_concat {A} (c : codec A) es : Forall (fun f => exists t i, elem f t i /\ (c_any c = true \/ (t_class t = ClassUniversal /\ t_comp t = c_comp c /\ t_tag t = c_tag c))) es ->
  forall fuel, (List.length (List.concat es) <= fuel)%nat -> count_elems c fuel (List.concat es) = Ret (List.length es).
Proof.
  induction 1 as [|f es (t & i & El & Hc) Hes IH]; intros fuel Hf; cbn [List.concat List.length] in *.
  - destruct fuel; reflexivity.
  - pose proof (elem_nonempty _ _ _ El) as Ne. destruct El as [E Hl]. destruct f as [|b f]; [congruence|]. rewrite app_length in Hf. cbn [List.length] in Hf.
    destruct fuel as [|fuel]; [lia|]. cbn [count_elems app]. change (b :: f ++ List.concat es) with ((b :: f) ++ List.concat es).
    rewrite (ptl_app _ _ _ _ E). cbn [bind].
    replace (negb (c_any c) && (negb (t_class t =? ClassUniversal) || negb (Bool.eqb (t_comp t) (c_comp c)) || negb (t_tag t =? c_tag c))) with false.
    2:{ destruct Hc as [->|(-> & -> & ->)]; [reflexivity|]. rewrite !Z.eqb_refl, Bool.eqb_reflx. cbn. rewrite andb_false_r. reflexivity. }
    rewrite <- Hl, zlen_app. replace (zlen i + zlen (List.concat es) <? zlen i) with false by (pose proof (zlen_nonneg (List.concat es)); lia).
    rewrite skipn_app_exact by (unfold zlen; lia). rewrite IH by lia. reflexivity.
Qed.
Lemma parse_elems_concat {A} (c : codec A) : forall l l' es, Forall2 (field_rt c noP) l l' -> mapM (makeField c noP) l = Ret es ->
  zlen (List.concat es) < 2 ^ 31 -> parse_elems c (List.length es) (List.concat es) = Ret l'.
Proof.
  intros l l' es H. revert es. induction H as [|a a' l l' Ha Hl IH]; intros es; cbn [mapM].
  - intros [= <-] _. reflexivity.
  - destruct (makeField c noP a) as [x| |] eqn:Ex; cbn [bind]; try discriminate. destruct (mapM (makeField c noP) l) as [ys| |] eqn:Ey; cbn [bind]; try discriminate.
    intros [= <-]. cbn [List.concat List.length parse_elems]. rewrite zlen_app. intros Hz. pose proof (zlen_nonneg x). pose proof (zlen_nonneg (List.concat ys)).
    rewrite (Ha x (List.concat ys) Ex) by lia. cbn [bind]. rewrite (IH ys eq_refl) by lia. reflexivity.
Qed.
Lemma mapM_length {A B} (f : A -> outcome B) l ys : mapM f l = Ret ys -> List.length ys = List.length l.
Proof.
  revert ys. induction l as [|x l IH]; intros ys; cbn [mapM]; [intros [= <-]; reflexivity|].
  destruct (f x); cbn [bind]; try discriminate. destruct (mapM f l); cbn [bind]; try discriminate. intros [= <-]. cbn [List.length]. f_equal. apply IH. reflexivity.
Qed.
Lemma mapM_elems {A} (c : codec A) l es : (forall a, c_whole c a = None) -> 0 <= c_tag c <= 30 -> mapM (makeField c noP) l = Ret es ->
  zlen (List.concat es) < 2 ^ 31 ->
  Forall (fun f => exists t i, elem f t i /\ (c_any c = true \/ (t_class t = ClassUniversal /\ t_comp t = c_comp c /\ t_tag t = c_tag c))) es.
Proof.
  intros Hw Ht. revert es. induction l as [|a l IH]; intros es; cbn [mapM]; [intros [= <-]; constructor|].
  destruct (makeField c noP a) as [x| |] eqn:Ex; cbn [bind]; try discriminate. destruct (mapM (makeField c noP) l) as [ys| |] eqn:Ey; cbn [bind]; try discriminate.
  intros [= <-]. cbn [List.concat]. rewrite zlen_app. intros Hz. pose proof (zlen_nonneg x). pose proof (zlen_nonneg (List.concat ys)). constructor.
  - destruct (make_elem c a x (Hw a) Ht Ex ltac:(lia)) as (body & _ & _ & El). eexists _, _. split; [exact El|]. right. auto.
  - apply IH; auto. lia.
Qed.
Lemma seq_body_rt {A} isSET (c : codec A) set l l' : (forall a, c_whole c a = None) -> 0 <= c_tag c <= 30 ->
  (set = false \/ (List.length l <= 1)%nat) -> Forall2 (field_rt c noP) l l' ->
  body_rt (cSeqOf isSET c) set (Some l) (Some l').
Proof.
  intros Hw Ht Hs HF body t full. cbn [c_body c_parse cSeqOf]. unfold seq_body. destruct (mapM (makeField c noP) l) as [es| |] eqn:E; cbn [bind]; try discriminate.
  replace (set && (1 <? List.length l)%nat) with false by (destruct Hs as [->|?]; [reflexivity|]; replace (1 <? List.length l)%nat with false by lia; rewrite andb_false_r; reflexivity).
  intros Eb Hz. assert (body = List.concat es) by congruence. subst body.
  rewrite (count_elems_concat c es) by (auto; eapply mapM_elems; eauto). cbn [bind].
  rewrite (parse_elems_concat c l l' es) by auto. reflexivity.
Qed.

(** *** inversion: what a successful parse has read *)
Lemma base128_loop_suffix s : forall sh acc v r, base128_loop s sh acc = Ret (v, r) -> exists pre, s = pre ++ r.
Proof.
  induction s as [|b s IH]; intros sh acc v r; cbn [base128_loop]; [discriminate|].
  destruct (sh =? 5)%nat; [discriminate|]. destruct (_ && _); [discriminate|]. destruct (b <? 128).
  - destruct (_ <? _); [discriminate|]. intros [= <- <-]. exists [b]. reflexivity.
  - intros E. apply IH in E as [pre ->]. exists (b :: pre). reflexivity.
Qed.
Lemma len_loop_suffix n : forall s acc v r, len_loop n s acc = Ret (v, r) -> exists pre, s = pre ++ r.
Proof.
  induction n as [|n IH]; intros s acc v r; cbn [len_loop]; [intros [= <- <-]; exists []; reflexivity|].
  destruct s as [|b s]; [discriminate|]. destruct (_ <=? _); [discriminate|]. destruct (_ =? 0); [discriminate|].
  intros E. apply IH in E as [pre ->]. exists (b :: pre). reflexivity.
Qed.
Lemma ptl_suffix s t r : parseTagAndLength s = Ret (t, r) -> exists pre, s = pre ++ r /\ pre <> [].
Proof.
  unfold parseTagAndLength. destruct s as [|b s]; [discriminate|].
  set (F := fun (tr : Z * bytes) => let '(tag, r) := tr in match r with
      | [] => Err "truncated tag or length"
      | b0 :: r0 => if b0 <? 128 then Ret (mkTL (b / 64) tag b0 ((b / 32) mod 2 =? 1), r0)
          else let numBytes := b0 - 128 in
            if numBytes =? 0 then Err "indefinite length found (not DER)" else
            do (l, r1) <- len_loop (Z.to_nat numBytes) r0 0;
            if l <? 128 then Err "non-minimal length" else Ret (mkTL (b / 64) tag l ((b / 32) mod 2 =? 1), r1) end).
  assert (HF : forall tg r', F (tg, r') = Ret (t, r) -> exists pre, r' = pre ++ r).
  { intros tg r'. unfold F. destruct r' as [|b0 r']; [discriminate|]. destruct (b0 <? 128); [intros [= <- <-]; exists [b0]; reflexivity|].
    cbv zeta. destruct (_ =? 0); [discriminate|]. destruct (len_loop _ r' 0) as [[l r1]| |] eqn:E; cbn [bind]; try discriminate.
    destruct (_ <? _); [discriminate|]. intros [= <- <-]. apply len_loop_suffix in E as [pre ->]. exists (b0 :: pre). reflexivity. }
  cbv zeta. change (bind (if b mod 32 =? 31 then do (tg, r0) <- parseBase128Int s; if tg <? 31 then Err "non-minimal tag" else Ret (tg, r0) else Ret (b mod 32, s)) F = Ret (t, r) -> exists pre, b :: s = pre ++ r /\ pre <> []).
  destruct (b mod 32 =? 31).
  - destruct (parseBase128Int s) as [[tg r0]| |] eqn:E; cbn [bind]; try discriminate. destruct (tg <? 31); cbn [bind]; [discriminate|].
    intros H. apply HF in H as [pre ->]. apply base128_loop_suffix in E as [pre' ->]. exists (b :: pre' ++ pre). cbn [app]. rewrite <- app_assoc. split; [reflexivity|discriminate].
  - cbn [bind]. intros H. apply HF in H as [pre ->]. exists (b :: pre). split; [reflexivity|discriminate].
Qed.
(** a parsed element: [full] = header bytes and contents [inner] *)
Definition field_read {A} (c : codec A) (s : bytes) (a : A) (r : bytes) : Prop :=
  exists t pre inner, s = pre ++ inner ++ r /\ pre <> [] /\ zlen inner = t_len t /\ c_parse c t (pre ++ inner) inner = Ret a.
Lemma parseFieldTail_inv {A} (c : codec A) p s0 t s1 a r : (exists pre, s0 = pre ++ s1 /\ pre <> []) -> 0 <= t_len t ->
  parseFieldTail c p s0 t s1 = Ret (a, r) -> (setDefault c p = Some a /\ r = s0) \/ field_read c s0 a r.
Proof.
  intros (pre & -> & Hne) Hl. unfold parseFieldTail. destruct (match p_exp p, p_tag p with false, Some n => _ | _, _ => _ end) as [[anyCT eclass] etag].
  destruct (_ || _).
  - destruct (setDefault c p); [|discriminate]. intros [= <- <-]. auto.
  - destruct (Z.ltb_spec (zlen s1) (t_len t)); [discriminate|].
    destruct (c_parse c t _ _) as [x| |] eqn:E; cbn [bind]; try discriminate. intros [= <- <-]. right.
    exists t, pre, (firstn (Z.to_nat (t_len t)) s1). rewrite firstn_skipn. repeat split; auto.
    + unfold zlen in *. rewrite firstn_length. lia.
    + rewrite <- E. f_equal. rewrite app_length, skipn_length.
      replace (List.length pre + List.length s1 - (List.length s1 - Z.to_nat (t_len t)))%nat with (List.length pre + Z.to_nat (t_len t))%nat by (unfold zlen in *; lia).
      rewrite firstn_app_2. reflexivity.
Qed.
Lemma len_loop_nonneg n : forall s acc v r, 0 <= acc -> bytes_ok s -> len_loop n s acc = Ret (v, r) -> 0 <= v.
Proof.
  induction n as [|n IH]; intros s acc v r Ha Ho; cbn [len_loop]; [intros [= <- <-]; auto|].
  destruct s as [|b s]; [discriminate|]. apply bytes_ok_cons in Ho as [B Ho]. unfold byte_ok in B.
  destruct (_ <=? _); [discriminate|]. destruct (_ =? 0); [discriminate|]. apply IH; auto. lia.
Qed.
Lemma parseField_inv {A} (c : codec A) p s a r : bytes_ok s -> parseField c p s = Ret (a, r) -> (setDefault c p = Some a /\ r = s) \/ field_read c s a r.
Proof.
  intros Ho. unfold parseField. destruct s as [|b s].
  { destruct (setDefault c p); [|discriminate]. intros [= <- <-]. auto. }
  destruct (parseTagAndLength (b :: s)) as [[t s1]| |] eqn:E; cbn [bind]; try discriminate.
  pose proof (ptl_suffix _ _ _ E) as (pre & Ep & Np). pose proof (ptl_inv _ _ _ Ho E) as (_ & _ & _ & Hl).
  destruct (p_exp p).
  - destruct s1 as [|y s1]; [discriminate|]. destruct (_ && _).
    + destruct (c_any c). { apply parseFieldTail_inv; [eauto|lia]. }
      destruct (0 <? t_len t); [|discriminate]. destruct (parseTagAndLength (y :: s1)) as [[t' s2]| |] eqn:E2; cbn [bind]; try discriminate.
      assert (Ho1 : bytes_ok (y :: s1)). { unfold bytes_ok in Ho. rewrite Ep in Ho. apply Forall_app in Ho. tauto. }
      pose proof (ptl_suffix _ _ _ E2) as (pre2 & Ep2 & Np2). pose proof (ptl_inv _ _ _ Ho1 E2) as (_ & _ & _ & Hl2).
      apply parseFieldTail_inv; [|lia]. exists (pre ++ pre2). rewrite <- app_assoc, <- Ep2, <- Ep. split; auto. destruct pre; [congruence|discriminate].
    + destruct (setDefault c p); [|discriminate]. intros [= <- <-]. auto.
  - apply parseFieldTail_inv; [eauto|lia].
Qed.
(** parsing is a function of the element alone: appended bytes only lengthen the rest *)
Lemma parseFieldTail_app {A} (c : codec A) p s0 t s1 a r tl : (exists pre, s0 = pre ++ s1) -> 0 <= t_len t -> setDefault c p = None ->
  parseFieldTail c p s0 t s1 = Ret (a, r) -> parseFieldTail c p (s0 ++ tl) t (s1 ++ tl) = Ret (a, r ++ tl).
Proof.
  intros (pre & ->) Hl Hd. unfold parseFieldTail. destruct (match p_exp p, p_tag p with false, Some n => _ | _, _ => _ end) as [[anyCT eclass] etag].
  rewrite Hd. destruct (_ || _); [discriminate|].
  destruct (Z.ltb_spec (zlen s1) (t_len t)) as [|Hz]; [discriminate|]. rewrite zlen_app. pose proof (zlen_nonneg tl).
  replace (zlen s1 + zlen tl <? t_len t) with false by lia.
  set (n := Z.to_nat (t_len t)). assert (Hn : (n <= List.length s1)%nat) by (unfold n, zlen in *; lia).
  rewrite (firstn_app n s1 tl), (skipn_app n s1 tl). replace (n - List.length s1)%nat with 0%nat by lia. rewrite firstn_O, app_nil_r.
  change (skipn 0 tl) with tl.
  assert (F : firstn (List.length ((pre ++ s1) ++ tl) - List.length (skipn n s1 ++ tl)) ((pre ++ s1) ++ tl) = firstn (List.length (pre ++ s1) - List.length (skipn n s1)) (pre ++ s1)).
  { rewrite !app_length, skipn_length. replace (List.length pre + List.length s1 + List.length tl - (List.length s1 - n + List.length tl))%nat with (List.length pre + n)%nat by lia.
    replace (List.length pre + List.length s1 - (List.length s1 - n))%nat with (List.length pre + n)%nat by lia.
    rewrite <- app_assoc, !firstn_app_2, firstn_app. replace (n - List.length s1)%nat with 0%nat by lia. rewrite firstn_O, app_nil_r. reflexivity. }
  rewrite F. destruct (c_parse c t _ _); cbn [bind]; try discriminate. intros [= <- <-]. reflexivity.
Qed.
Lemma Unmarshal_app {A} (c : codec A) s a r tl : bytes_ok s -> Unmarshal c s = Ret (a, r) -> Unmarshal c (s ++ tl) = Ret (a, r ++ tl).
Proof.
  intros Ho. unfold Unmarshal, parseField. destruct s as [|b s]; [discriminate|]. cbn [app]. change (b :: s ++ tl) with ((b :: s) ++ tl).
  destruct (parseTagAndLength (b :: s)) as [[t s1]| |] eqn:E; cbn [bind]; try discriminate.
  rewrite (ptl_app tl _ _ _ E). cbn [bind p_exp noP].
  pose proof (ptl_suffix _ _ _ E) as (pre & Ep & Np). pose proof (ptl_inv _ _ _ Ho E) as (_ & _ & _ & Hl).
  apply parseFieldTail_app; [eauto|lia|reflexivity].
Qed.
Lemma Unmarshal_inv {A} (c : codec A) s a r : bytes_ok s -> Unmarshal c s = Ret (a, r) -> field_read c s a r.
Proof. intros Ho E. apply parseField_inv in E; auto. destruct E as [[E _]|E]; [discriminate|exact E]. Qed.
(** bytes read by a parse are bytes of the input *)
Lemma field_read_ok {A} (c : codec A) s a r : bytes_ok s -> field_read c s a r ->
  bytes_ok r /\ exists t full inner, bytes_ok inner /\ bytes_ok full /\ zlen inner = t_len t /\ c_parse c t full inner = Ret a.
Proof.
  intros Ho (t & pre & inner & -> & _ & Hz & E). unfold bytes_ok in *. apply Forall_app in Ho as [H1 H2]. apply Forall_app in H2 as [H2 H3].
  split; auto. exists t, (pre ++ inner), inner. repeat split; auto. apply Forall_app; auto.
Qed.
Lemma parseField_rest_ok {A} (c : codec A) p s a r : bytes_ok s -> parseField c p s = Ret (a, r) -> bytes_ok r.
Proof. intros Ho E. apply parseField_inv in E; auto. destruct E as [[_ ->]|E]; auto. eapply field_read_ok; eauto. Qed.
Lemma parse_cBytes_ok p s a r : bytes_ok s -> parseField cBytes p s = Ret (a, r) -> bytes_ok (sl a).
Proof.
  intros Ho E. apply parseField_inv in E; auto. destruct E as [[E _]|E].
  - unfold setDefault in E. destruct (p_opt p); [|discriminate]. destruct (p_def p); cbn in E; injection E as <-; constructor.
  - apply field_read_ok in E as (_ & t & full & inner & Hi & _ & _ & E); auto. cbn in E. injection E as <-. exact Hi.
Qed.
(** *** sizes and whole-struct reads *)
Lemma hdr_zlen_upper cls tag comp len : tag <= 30 -> 0 <= len < 2 ^ 32 -> zlen (hdr cls tag comp len) <= 6.
Proof.
  intros Ht Hl. unfold hdr, appendTagAndLength. cbn [t_class t_comp t_tag t_len]. replace (31 <=? tag) with false by lia.
  rewrite zlen_app. change (zlen [cls * 64 + (if comp then 32 else 0) + tag]) with 1. destruct (Z.leb_spec 128 len).
  - rewrite zlen_cons, Z_to_be_zlen. pose proof (nbytes_le len 4 ltac:(change (256 ^ Z.of_nat 4) with (2 ^ 32); lia)). lia.
  - change (zlen [len]) with 1. lia.
Qed.
Lemma tail_full {A} (c : codec A) p pre (t : tagLen) body tail :
  c_any c = false ->
  t_class t = match p_exp p, p_tag p with false, Some _ => ClassContext | _, _ => ClassUniversal end ->
  t_tag t = match p_exp p, p_tag p with false, Some n => n | _, _ => if p_set p then TagSet else c_tag c end ->
  t_comp t = c_comp c -> t_len t = zlen body ->
  parseFieldTail c p (pre ++ body ++ tail) t (body ++ tail) = do a <- c_parse c t (pre ++ body) body; Ret (a, tail).
Proof.
  intros Hany Hc Ht Hk Hl. unfold parseFieldTail. rewrite Hany, Hk, Bool.eqb_reflx.
  assert (X : exists b, (match p_exp p, p_tag p with false, Some n => (false, ClassContext, n) | _, _ => (false, ClassUniversal, if p_set p then TagSet else c_tag c) end)
     = (b, t_class t, t_tag t)).
  { rewrite Hc, Ht. destruct (p_exp p), (p_tag p); eexists; reflexivity. }
  destruct X as [b0 ->]. rewrite !Z.eqb_refl. cbn [negb orb]. rewrite !andb_false_r. cbn [orb].
  rewrite Hl, zlen_app. replace (zlen body + zlen tail <? zlen body) with false by (pose proof (zlen_nonneg tail); lia).
  assert (F1 : firstn (Z.to_nat (zlen body)) (body ++ tail) = body) by (apply firstn_app_exact; unfold zlen; lia).
  assert (F2 : skipn (Z.to_nat (zlen body)) (body ++ tail) = tail) by (apply skipn_app_exact; unfold zlen; lia).
  rewrite F1, F2. rewrite app_assoc, (app_length (pre ++ body) tail), Nat.add_sub, firstn_app_exact by reflexivity. reflexivity.
Qed.
(** reading back one element with universal tag *)
Lemma Unmarshal_hdr {A} (c : codec A) body tail : c_any c = false -> 0 <= c_tag c <= 30 -> zlen body < 2 ^ 31 ->
  Unmarshal c (hdr ClassUniversal (c_tag c) (c_comp c) (zlen body) ++ body ++ tail) =
  do a <- c_parse c (mkTL ClassUniversal (c_tag c) (zlen body) (c_comp c)) (hdr ClassUniversal (c_tag c) (c_comp c) (zlen body) ++ body) body; Ret (a, tail).
Proof.
  intros Hany Ht Hz. pose proof (zlen_nonneg body). unfold Unmarshal, parseField.
  destruct (hdr_ne ClassUniversal (c_tag c) (c_comp c) (zlen body) (body ++ tail)) as (x & l & Ex'). rewrite Ex' at 1.
  rewrite hdr_parse by (unfold ClassUniversal, maxInt32; lia). cbn [bind p_exp noP]. apply tail_full; auto.
Qed.

(** the encodings of encoding/asn1 and of cryptobyte agree *)
Lemma nbytes_unique n k : 0 < n -> (1 <= k)%nat -> 256 ^ (Z.of_nat k - 1) <= n < 256 ^ Z.of_nat k -> nbytes n = k.
Proof.
  intros Hn Hk [A B]. pose proof (nbytes_spec n ltac:(lia)) as [C D].
  destruct (Nat.lt_trichotomy (nbytes n) k) as [L|[E|L]]; [exfalso|exact E|exfalso].
  - assert (256 ^ Z.of_nat (nbytes n) <= 256 ^ (Z.of_nat k - 1)) by (apply Z.pow_le_mono_r; lia). lia.
  - assert (256 ^ Z.of_nat k <= 256 ^ (Z.of_nat (nbytes n) - 1)) by (apply Z.pow_le_mono_r; lia). lia.
Qed.
Lemma hdr_tlv cls tag comp (c : bytes) : tag <= 30 -> zlen c <= 0xfffffffe ->
  hdr cls tag comp (zlen c) ++ c = tlv (cls * 64 + (if comp then 32 else 0) + tag) c.
Proof.
  intros Ht Hz. pose proof (zlen_nonneg c). unfold hdr, appendTagAndLength, tlv. cbn [t_class t_tag t_len t_comp].
  replace (31 <=? tag) with false by lia. cbn [app]. f_equal. f_equal.
  destruct (der_len_cases (zlen c) ltac:(lia)) as [[L ->]|(k & Hk & -> & B & L)].
  - replace (128 <=? zlen c) with false by lia. reflexivity.
  - replace (128 <=? zlen c) with true by lia. rewrite (nbytes_unique (zlen c) k) by lia. reflexivity.
Qed.
