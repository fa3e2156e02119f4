(** * Facts about the X.509 parser and writer *)
From Coq Require Import String ZifyBool ZifyNat.
From Verif Require Import Base Words Utf8 BMPModel ECModel SM2Model CryptoByte Asn1 Asn1Proofs KeysModel KeysProofs X509Model X509Sig X509Build.
Open Scope Z_scope.

(** ** The loop combinator *)
Lemma many_fuel_enough {A} (step : bytes -> outcome (A * bytes)) :
  (forall s a r, step s = Ret (a, r) -> (List.length r < List.length s)%nat) ->
  forall n m s, (List.length s <= n)%nat -> (List.length s <= m)%nat -> many_fuel step n s = many_fuel step m s.
Proof.
  intros Hs. induction n as [|n IH]; intros m s Hn Hm.
  - destruct s; [destruct m; reflexivity|cbn in Hn; lia].
  - destruct s as [|b s]; [destruct m; reflexivity|]. destruct m as [|m]; [cbn in Hm; lia|]. cbn [many_fuel].
    destruct (step (b :: s)) as [[a r]| |] eqn:E; cbn [bind]; auto. apply Hs in E. cbn [List.length] in *.
    rewrite (IH m r) by lia. reflexivity.
Qed.
(** unfolding of the loop *)
Lemma many_nil {A} (step : bytes -> outcome (A * bytes)) : many step [] = Ret []. Proof. reflexivity. Qed.
Lemma many_step {A} (step : bytes -> outcome (A * bytes)) s :
  (forall s a r, step s = Ret (a, r) -> (List.length r < List.length s)%nat) -> s <> [] ->
  many step s = (do (a, r) <- step s; do l <- many step r; Ret (a :: l)).
Proof.
  intros Hs Hn. unfold many at 1. destruct s as [|b s]; [congruence|]. cbn [List.length many_fuel].
  destruct (step (b :: s)) as [[a r]| |] eqn:E; cbn [bind]; auto. apply Hs in E. cbn [List.length] in E.
  rewrite (many_fuel_enough step Hs _ (List.length r) r) by lia. reflexivity.
Qed.
(** reading back a concatenation of elements *)
Lemma many_concat {A B} (step : bytes -> outcome (A * bytes)) (enc : B -> bytes) (val : B -> A) (l : list B) :
  (forall b, In b l -> enc b <> [] /\ forall rest, step (enc b ++ rest) = Ret (val b, rest)) ->
  many step (flat_map enc l) = Ret (map val l).
Proof.
  unfold many. intros H. assert (G : forall fuel, (List.length (flat_map enc l) <= fuel)%nat -> many_fuel step fuel (flat_map enc l) = Ret (map val l)).
  { induction l as [|b l IH]; intros fuel Hf; cbn [flat_map map] in *; [destruct fuel; reflexivity|].
    destruct (H b (or_introl eq_refl)) as [Hne Hst]. rewrite app_length in Hf. destruct (enc b ++ flat_map enc l) as [|x s] eqn:Es; [destruct (enc b); [congruence|discriminate]|].
    destruct fuel as [|fuel]; [destruct (enc b); [congruence|cbn in Hf; lia]|].
    cbn [many_fuel]. rewrite <- Es, Hst. cbn [bind]. rewrite IH; [reflexivity| |].
    - intros b' Hb'. apply H. right. exact Hb'.
    - destruct (enc b); [congruence|]. cbn [List.length] in Hf. lia. }
  apply G. lia.
Qed.
(** inversion: the input is the concatenation of what the steps consumed *)
Lemma many_inv {A} (step : bytes -> outcome (A * bytes)) (R : A -> bytes -> Prop) (ok : bytes -> Prop) :
  (forall s a r, ok s -> step s = Ret (a, r) -> exists e, s = e ++ r /\ e <> [] /\ R a e /\ ok r) ->
  forall s l, ok s -> many step s = Ret l -> exists es, s = List.concat es /\ Forall2 R l es.
Proof.
  intros Hs s. unfold many. generalize (List.length s) as fuel. intros fuel. revert s.
  induction fuel as [|fuel IH]; intros s l Ho E.
  - destruct s; [|discriminate]. injection E as <-. exists []. split; auto.
  - destruct s as [|b s]; [injection E as <-; exists []; split; auto|]. cbn [many_fuel] in E.
    destruct (step (b :: s)) as [[a r]| |] eqn:Es; try discriminate. cbn [bind] in E.
    destruct (many_fuel step fuel r) as [l'| |] eqn:El; try discriminate. cbn [bind] in E. injection E as <-.
    destruct (Hs _ _ _ Ho Es) as (e & Ee & _ & HR & Hr). destruct (IH r l' Hr El) as (es & -> & HF).
    exists (e :: es). cbn [List.concat]. split; auto.
Qed.
Lemma many_no_panic {A} (step : bytes -> outcome (A * bytes)) (ok : bytes -> Prop) :
  (forall s, ok s -> step s <> Panic) -> (forall s a r, ok s -> step s = Ret (a, r) -> ok r /\ (List.length r < List.length s)%nat) ->
  forall s, ok s -> many step s <> Panic.
Proof.
  intros Hp Hs s. unfold many. assert (G : forall fuel s, (List.length s <= fuel)%nat -> ok s -> many_fuel step fuel s <> Panic).
  { induction fuel as [|fuel IH]; intros t Ht Ho; (destruct t as [|b t]; [discriminate|]); [cbn in Ht; lia|]. cbn [many_fuel].
    destruct (step (b :: t)) as [[a r]| |] eqn:E; cbn [bind]; try discriminate; [|exfalso; eapply Hp; eauto].
    destruct (Hs _ _ _ Ho E) as [Hr Hl]. cbn [List.length] in *. specialize (IH r ltac:(lia) Hr).
    destruct (many_fuel step fuel r); cbn [bind]; try discriminate. congruence. }
  apply G. lia.
Qed.

(** ** OIDs: the two readers agree *)
Lemma base128_big s : bytes_ok s -> forall i acc v r, 2 ^ 24 <= acc -> base128_loop s i acc <> Ret (v, r).
Proof.
  induction 1 as [|b s B Ho IH]; intros i acc v r Ha; cbn [base128_loop]; [discriminate|].
  destruct (i =? 5)%nat; [discriminate|]. destruct ((i =? 0)%nat && (b =? 128)); [discriminate|]. cbv zeta.
  assert (0 <= b mod 128) by (apply Z.mod_pos_bound; lia).
  destruct (b <? 128); [|apply IH; lia]. replace (2147483647 <? acc * 128 + b mod 128) with true by lia. discriminate.
Qed.
Lemma cb_base128_eq s : bytes_ok s -> forall i acc, 0 <= acc -> forall v r,
  (cb_base128 s i acc = Some (v, r) <-> base128_loop s i acc = Ret (v, r)).
Proof.
  induction 1 as [|b s B Ho IH]; intros i acc Ha v r; [split; discriminate|].
  destruct (Z_le_gt_dec (2 ^ 24) acc) as [H|H].
  - pose proof (base128_big (b :: s) ltac:(constructor; auto) i acc v r H) as N. split; [|intros E; contradiction].
    cbn [cb_base128]. destruct (i =? 5)%nat; [discriminate|]. replace (2 ^ 24 <=? acc) with true by lia. discriminate.
  - cbn [cb_base128 base128_loop]. destruct (i =? 5)%nat; [split; discriminate|].
    replace (2 ^ 24 <=? acc) with false by lia.
    destruct ((i =? 0)%nat && (b =? 128)); [split; discriminate|]. cbv zeta.
    assert (0 <= b mod 128 < 128) by (apply Z.mod_pos_bound; lia).
    destruct (b <? 128); [|apply IH; lia]. replace (2147483647 <? acc * 128 + b mod 128) with false by lia. split; intros [= <- <-]; reflexivity.
Qed.
Lemma base128_loop_ok s : forall i acc v r, bytes_ok s -> base128_loop s i acc = Ret (v, r) -> bytes_ok r /\ (List.length r < List.length s)%nat.
Proof.
  induction s as [|b s IH]; intros i acc v r Ho; cbn [base128_loop]; [discriminate|]. apply bytes_ok_cons in Ho as [_ Ho].
  destruct (i =? 5)%nat; [discriminate|]. destruct ((i =? 0)%nat && (b =? 128)); [discriminate|]. cbv zeta. destruct (b <? 128).
  - destruct (_ <? _); [discriminate|]. intros [= _ <-]. split; [auto|]. cbn [List.length]. lia.
  - intros E. apply IH in E; auto. destruct E as [A B]. split; auto. cbn [List.length]. lia.
Qed.
Lemma cb_oid_rest_eq fuel : forall s l, bytes_ok s -> (cb_oid_rest fuel s = Some l <-> oid_loop fuel s = Ret l).
Proof.
  induction fuel as [|fuel IH]; intros s l Ho; cbn [cb_oid_rest oid_loop]; [split; intros [= <-]; reflexivity|].
  destruct s as [|b s]; [split; intros [= <-]; reflexivity|]. unfold parseBase128Int.
  destruct (base128_loop (b :: s) 0 0) as [[v r]| |] eqn:E; cbn [bind].
  - pose proof (proj2 (cb_base128_eq (b :: s) Ho 0%nat 0 ltac:(lia) v r) E) as ->. apply base128_loop_ok in E as [Hr _]; auto.
    destruct (oid_loop fuel r) as [l'| |] eqn:El; cbn [bind].
    + apply (IH r l' Hr) in El as ->. split; intros [= <-]; reflexivity.
    + destruct (cb_oid_rest fuel r) as [l'|] eqn:El'; [|split; discriminate]. apply (IH r l' Hr) in El'. congruence.
    + destruct (cb_oid_rest fuel r) as [l'|] eqn:El'; [|split; discriminate]. apply (IH r l' Hr) in El'. congruence.
  - destruct (cb_base128 (b :: s) 0 0) as [[v r]|] eqn:E'; [|split; discriminate]. apply (cb_base128_eq (b :: s) Ho 0%nat 0 ltac:(lia)) in E'. congruence.
  - destruct (cb_base128 (b :: s) 0 0) as [[v r]|] eqn:E'; [|split; discriminate]. apply (cb_base128_eq (b :: s) Ho 0%nat 0 ltac:(lia)) in E'. congruence.
Qed.
Lemma cb_oid_eq c o : bytes_ok c -> (cb_oid c = Some o <-> oid_parse c = Ret o).
Proof.
  intros Ho. unfold cb_oid, oid_parse. destruct c as [|b c]; [split; discriminate|]. unfold parseBase128Int.
  destruct (base128_loop (b :: c) 0 0) as [[v r]| |] eqn:E; cbn [bind].
  - pose proof (proj2 (cb_base128_eq (b :: c) Ho 0%nat 0 ltac:(lia) v r) E) as ->. apply base128_loop_ok in E as [Hr _]; auto.
    destruct (oid_loop (List.length r) r) as [l'| |] eqn:El; cbn [bind].
    + apply (cb_oid_rest_eq _ r l' Hr) in El as ->. split; intros [= <-]; reflexivity.
    + destruct (cb_oid_rest _ r) as [l'|] eqn:El'; [|split; discriminate]. apply (cb_oid_rest_eq _ r l' Hr) in El'. congruence.
    + destruct (cb_oid_rest _ r) as [l'|] eqn:El'; [|split; discriminate]. apply (cb_oid_rest_eq _ r l' Hr) in El'. congruence.
  - destruct (cb_base128 (b :: c) 0 0) as [[v r]|] eqn:E'; [|split; discriminate]. apply (cb_base128_eq (b :: c) Ho 0%nat 0 ltac:(lia)) in E'. congruence.
  - destruct (cb_base128 (b :: c) 0 0) as [[v r]|] eqn:E'; [|split; discriminate]. apply (cb_base128_eq (b :: c) Ho 0%nat 0 ltac:(lia)) in E'. congruence.
Qed.
(** the contents octets of a valid OID *)
Definition oid_bytes (o : oid) : bytes := match o with a :: b :: rest => flat_map appendBase128Int (a * 40 + b :: rest) | _ => [] end.
Lemma oid_body_ok o : oid_ok o -> oid_body o = Ret (oid_bytes o).
Proof.
  destruct o as [|a [|b rest]]; cbn [oid_ok]; try tauto. intros (Ha & Hb & Hc & _). unfold oid_body, oid_bytes.
  replace ((2 <? a) || (a <? 2) && (40 <=? b)) with false by lia. reflexivity.
Qed.
Lemma flat_append_ok l : bytes_ok (flat_map appendBase128Int l).
Proof. induction l; cbn [flat_map]; [constructor|]. apply bytes_ok_app. split; auto. apply appendBase128_ok. Qed.
Lemma oid_bytes_ok o : bytes_ok (oid_bytes o).
Proof. destruct o as [|a [|b rest]]; try constructor. unfold oid_bytes. apply flat_append_ok. Qed.
Lemma cb_oid_rt o : oid_ok o -> cb_oid (oid_bytes o) = Some o.
Proof. intros H. apply cb_oid_eq; [apply oid_bytes_ok|]. apply oid_rt; auto. apply oid_body_ok. exact H. Qed.
(** decoding is canonical *)
Lemma oid_loop_inv fuel : forall s l, bytes_ok s -> (List.length s <= fuel)%nat -> oid_loop fuel s = Ret l ->
  s = flat_map appendBase128Int l /\ Forall (fun x => 0 <= x <= maxInt32) l.
Proof.
  induction fuel as [|fuel IH]; intros s l Ho Hf; cbn [oid_loop].
  - intros [= <-]. destruct s; [|cbn in Hf; lia]. split; auto.
  - destruct s as [|b s]; [intros [= <-]; split; auto|].
    destruct (parseBase128Int (b :: s)) as [[v r]| |] eqn:E; cbn [bind]; try discriminate.
    destruct (oid_loop fuel r) as [l'| |] eqn:El; cbn [bind]; try discriminate. intros [= <-].
    pose proof (base128_loop_ok _ _ _ _ _ Ho E) as [Hr Hl]. cbn [List.length] in *.
    destruct (IH r l' Hr ltac:(lia) El) as [-> HF]. apply parseBase128_inv in E; auto. destruct E as [-> Hv]. cbn [flat_map]. split; auto.
Qed.
Lemma oid_parse_inv c o : bytes_ok c -> oid_parse c = Ret o -> c = oid_bytes o /\ oid_ok o.
Proof.
  intros Ho. unfold oid_parse. destruct c as [|b c]; [discriminate|].
  destruct (parseBase128Int (b :: c)) as [[v r]| |] eqn:E; cbn [bind]; try discriminate.
  destruct (oid_loop (List.length r) r) as [l| |] eqn:El; cbn [bind]; try discriminate. intros [= <-].
  pose proof (base128_loop_ok _ _ _ _ _ Ho E) as [Hr _]. apply oid_loop_inv in El as [-> HF]; auto.
  apply parseBase128_inv in E as [-> Hv]; auto. unfold maxInt32 in *.
  destruct (Z.ltb_spec v 80).
  - assert (v / 40 * 40 + v mod 40 = v) as Ev by (pose proof (Z.div_mod v 40); lia). cbn [oid_bytes oid_ok flat_map]. rewrite Ev. unfold maxInt32.
    split; [reflexivity|]. pose proof (Z.mod_pos_bound v 40). assert (0 <= v / 40 <= 1) by (split; [apply Z.div_pos|apply Z.lt_succ_r, Z.div_lt_upper_bound]; lia).
    repeat split; try lia. exact HF.
  - cbn [oid_bytes oid_ok flat_map]. replace (2 * 40 + (v - 80)) with v by lia. unfold maxInt32. split; [reflexivity|]. repeat split; try lia. exact HF.
Qed.
(** readOID reads exactly the encodings of valid OIDs *)
Definition oid_tlv (o : oid) : bytes := tlv T_OID (oid_bytes o).
Lemma readOID_tlv o rest : oid_ok o -> zlen (oid_bytes o) <= max_content -> readOID (oid_tlv o ++ rest) = Some (o, rest).
Proof. intros H Hz. unfold readOID, oid_tlv. rewrite readASN1_tlv; auto; [|now compute]. rewrite cb_oid_rt by auto. reflexivity. Qed.
Lemma readOID_inv s o rest : bytes_ok s -> readOID s = Some (o, rest) -> s = oid_tlv o ++ rest /\ oid_ok o /\ zlen (oid_bytes o) <= max_content.
Proof.
  intros Hs. unfold readOID. destruct (readASN1 T_OID s) as [[c r]|] eqn:E; [|discriminate]. apply readASN1_inv in E as (-> & _ & Hz); auto.
  assert (Hc : bytes_ok c). { apply bytes_ok_app in Hs as [Hs _]. unfold tlv in Hs. apply bytes_ok_cons in Hs as [_ Hs]. apply bytes_ok_app in Hs. tauto. }
  destruct (cb_oid c) as [o'|] eqn:Eo; [|discriminate]. intros [= <- <-]. apply cb_oid_eq in Eo; auto. apply oid_parse_inv in Eo as [-> Hok]; auto.
Qed.
Lemma Marshal_oid o : oid_ok o -> zlen (oid_bytes o) <= 0xfffffffe -> Marshal cOID o = Ret (oid_tlv o).
Proof.
  intros H Hz. unfold Marshal, makeField. cbn [p_omit noP andb p_opt c_whole cOID prim p_set c_tag c_body p_tag c_comp]. rewrite oid_body_ok by auto. cbn [bind].
  rewrite hdr_tlv by (unfold TagOID; lia). reflexivity.
Qed.
