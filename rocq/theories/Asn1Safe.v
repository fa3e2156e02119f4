(** * Panic freedom of the encoding/asn1 decoder model, and byte ranges of decoded values *)
From Verif Require Import Base CryptoByte Asn1 Asn1Proofs.
Open Scope Z_scope.

Lemma bind_np {A B} (x : outcome A) (f : A -> outcome B) : x <> Panic -> (forall a, x = Ret a -> f a <> Panic) -> bind x f <> Panic.
Proof. destruct x; cbn [bind]; auto; discriminate. Qed.
Lemma base128_np s : forall sh acc, base128_loop s sh acc <> Panic.
Proof.
  induction s as [|b s IH]; intros sh acc; cbn [base128_loop]; [discriminate|].
  destruct (sh =? 5)%nat; [discriminate|]. destruct (_ && _); [discriminate|]. cbv zeta. destruct (b <? 128); [|apply IH]. destruct (_ <? _); discriminate.
Qed.
Lemma len_loop_np n : forall s acc, len_loop n s acc <> Panic.
Proof.
  induction n as [|n IH]; intros [|b s] acc; cbn [len_loop]; try discriminate. destruct (_ <=? _); [discriminate|]. cbv zeta.
  destruct (_ =? 0); [discriminate|apply IH].
Qed.
Lemma ptl_np s : parseTagAndLength s <> Panic.
Proof.
  unfold parseTagAndLength. destruct s as [|b r]; [discriminate|]. apply bind_np.
  { destruct (_ =? 31); [|discriminate]. apply bind_np; [apply base128_np|]. intros [tg r'] _. destruct (tg <? 31); discriminate. }
  intros [tag r'] _. destruct r' as [|l r']; [discriminate|].
  destruct (l <? 128); [discriminate|]. destruct (_ =? 0); [discriminate|]. apply bind_np; [apply len_loop_np|]. intros [v r''] _. destruct (v <? 128); discriminate.
Qed.
(** the decoder of [c] never panics *)
Definition np {A} (c : codec A) : Prop := forall t f i, c_parse c t f i <> Panic.
Definition fnp {X} (fs : fcodec X) : Prop := forall s, f_dec fs s <> Panic.
Lemma np_tail {A} (c : codec A) p s t s1 : np c -> parseFieldTail c p s t s1 <> Panic.
Proof.
  intros N. unfold parseFieldTail. destruct (match p_exp p, p_tag p with false, Some n => _ | _, _ => _ end) as [[x y] z].
  destruct (_ || _); [destruct (setDefault c p); discriminate|]. destruct (_ <? _); [discriminate|]. apply bind_np; [apply N|discriminate].
Qed.
Lemma np_field {A} (c : codec A) p s : np c -> parseField c p s <> Panic.
Proof.
  intros N. unfold parseField. destruct s as [|b s]; [destruct (setDefault c p); discriminate|].
  apply bind_np; [apply ptl_np|]. intros [t s1] _. destruct (p_exp p); [|now apply np_tail].
  destruct s1; [discriminate|]. destruct (_ && _); [|destruct (setDefault c p); discriminate].
  destruct (c_any c); [now apply np_tail|]. destruct (_ <? _); [|discriminate]. apply bind_np; [apply ptl_np|]. intros [t' s2] _. now apply np_tail.
Qed.
Lemma np_unmarshal {A} (c : codec A) s : np c -> Unmarshal c s <> Panic. Proof. apply np_field. Qed.
Lemma np_int : np cInt. Proof. intros t f i. cbn. unfold int_parse. destruct (negb _); [discriminate|]. destruct (_ <? _); discriminate. Qed.
Lemma np_big : np cBig. Proof. intros t f i. cbn. destruct (checkASN1Integer i); discriminate. Qed.
Lemma np_bool : np cBool. Proof. intros t f [|x [|? ?]]; cbn; try discriminate. destruct (x =? 0); [discriminate|]. destruct (x =? 255); discriminate. Qed.
Lemma np_bytes : np cBytes. Proof. intros t f i. discriminate. Qed.
Lemma oid_loop_np n : forall s, oid_loop n s <> Panic.
Proof.
  induction n as [|n IH]; intros s; cbn [oid_loop]; [discriminate|]. destruct s; [discriminate|].
  apply bind_np; [apply base128_np|]. intros [v r] _. apply bind_np; [apply IH|discriminate].
Qed.
Lemma np_oid : np cOID.
Proof.
  intros t f i. cbn. unfold oid_parse. destruct i; [discriminate|]. apply bind_np; [apply base128_np|]. intros [v r] _.
  apply bind_np; [apply oid_loop_np|discriminate].
Qed.
Lemma np_bits : np cBits. Proof. intros t f i. cbn. unfold bits_parse. destruct i; [discriminate|]. destruct (_ || _); discriminate. Qed.
Lemma np_raw : np cRaw. Proof. intros t f i. discriminate. Qed.
Lemma fnp_nil : fnp fnil. Proof. intros s. discriminate. Qed.
Lemma fnp_cons {A B} p (c : codec A) (fs : fcodec B) : np c -> fnp fs -> fnp (fcons p c fs).
Proof.
  intros N F s. cbn. apply bind_np; [now apply np_field|]. intros [a r] _. apply bind_np; [apply F|discriminate].
Qed.
Lemma np_struct {X A} (fs : fcodec X) (mk : X -> A) un : fnp fs -> np (cStruct fs mk un).
Proof. intros F t f i. cbn. apply bind_np; [apply F|discriminate]. Qed.
Lemma np_structRaw {X A} (fs : fcodec X) (mk : option bytes -> X -> A) raw un : fnp fs -> np (cStructRaw fs mk raw un).
Proof. intros F t f i. cbn. apply bind_np; [apply F|discriminate]. Qed.
Lemma count_np {A} (c : codec A) n : forall s, count_elems c n s <> Panic.
Proof.
  induction n as [|n IH]; intros s; cbn [count_elems]; [discriminate|]. destruct s; [discriminate|].
  apply bind_np; [apply ptl_np|]. intros [t r] _. destruct (_ && _); [discriminate|]. destruct (_ <? _); [discriminate|].
  apply bind_np; [apply IH|discriminate].
Qed.
Lemma elems_np {A} (c : codec A) : np c -> forall n s, parse_elems c n s <> Panic.
Proof.
  intros N. induction n as [|n IH]; intros s; cbn [parse_elems]; [discriminate|].
  apply bind_np; [now apply np_field|]. intros [a r] _. apply bind_np; [apply IH|discriminate].
Qed.
Lemma np_seq {A} b (c : codec A) : np c -> np (cSeqOf b c).
Proof.
  intros N t f i. cbn. apply bind_np; [apply count_np|]. intros n _. apply bind_np; [now apply elems_np|discriminate].
Qed.

(** values decoded from byte strings satisfy [Q] *)
Definition vok {A} (c : codec A) (Q : A -> Prop) : Prop :=
  Q (c_zero c) /\ (forall d a, c_int c d = Some a -> Q a) /\
  forall t f i a, bytes_ok f -> bytes_ok i -> c_parse c t f i = Ret a -> Q a.
Lemma vok_field {A} (c : codec A) Q p s a r : vok c Q -> bytes_ok s -> parseField c p s = Ret (a, r) -> Q a /\ bytes_ok r.
Proof.
  intros (Z0 & I & V) Ho E. split; [|eapply parseField_rest_ok; eauto]. apply parseField_inv in E; auto. destruct E as [[E _]|E].
  - unfold setDefault in E. destruct (p_opt p); [|discriminate]. destruct (p_def p) as [d|].
    + destruct (c_int c d) eqn:Ei; injection E as <-; [exact (I _ _ Ei)|exact Z0].
    + injection E as <-. auto.
  - apply field_read_ok in E as (_ & t & full & inner & Hi & Hf & _ & E); auto. exact (V _ _ _ _ Hf Hi E).
Qed.
Lemma vok_true {A} (c : codec A) : vok c (fun _ => True). Proof. repeat split. Qed.
Definition raw_ok (r : rawValue) : Prop := bytes_ok (sl (rv_bytes r)) /\ bytes_ok (sl (rv_full r)).
Lemma vok_raw : vok cRaw raw_ok.
Proof.
  split; [split; constructor|]. split; [discriminate|]. intros t f i a Hf Hi E. cbn in E. injection E as <-. split; auto.
Qed.
Lemma vok_bytes : vok cBytes (fun b => bytes_ok (sl b)).
Proof. split; [constructor|]. split; [discriminate|]. intros t f i a Hf Hi E. cbn in E. injection E as <-. auto. Qed.
Lemma vok_bits : vok cBits (fun b => bytes_ok (sl (bs_bytes b))).
Proof.
  split; [constructor|]. split; [discriminate|]. intros t f i a Hf Hi E. cbn in E. unfold bits_parse in E.
  destruct i as [|pad i]; [discriminate E|]. destruct (_ || _); [discriminate E|]. injection E as <-. cbn. apply bytes_ok_cons in Hi. tauto.
Qed.
Definition fok {X} (fs : fcodec X) (Q : X -> Prop) : Prop := Q (f_zero fs) /\ forall s x, bytes_ok s -> f_dec fs s = Ret x -> Q x.
Lemma fok_nil : fok fnil (fun _ => True). Proof. split; auto. Qed.
Lemma fok_cons {A B} p (c : codec A) (fs : fcodec B) Q R : vok c Q -> fok fs R -> fok (fcons p c fs) (fun x => Q (fst x) /\ R (snd x)).
Proof.
  intros V (Z0 & F). split; [cbn; split; auto; apply V|]. intros s x Ho E. cbn in E.
  destruct (parseField c p s) as [[a r]| |] eqn:E1; cbn [bind] in E; try discriminate E.
  destruct (f_dec fs r) as [b| |] eqn:E2; cbn [bind] in E; try discriminate E. injection E as <-.
  eapply vok_field in E1 as [? ?]; [|exact V|exact Ho]. cbn. split; eauto.
Qed.
Lemma vok_struct {X A} (fs : fcodec X) (mk : X -> A) un Q (R : A -> Prop) : fok fs Q -> (forall x, Q x -> R (mk x)) -> vok (cStruct fs mk un) R.
Proof.
  intros (Z0 & F) M. split; [cbn; auto|]. split; [discriminate|]. intros t f i a Hf Hi E. cbn in E.
  destruct (f_dec fs i) as [b| |] eqn:E2; cbn [bind] in E; try discriminate E. injection E as <-. eauto.
Qed.
Lemma vok_seq {A} b (c : codec A) Q : vok c Q -> vok (cSeqOf b c) (fun l => Forall Q (match l with Some l => l | None => [] end)).
Proof.
  intros V. split; [constructor|]. split; [discriminate|]. intros t f i a Hf Hi E. cbn in E.
  destruct (count_elems c _ i) as [n| |]; cbn [bind] in E; try discriminate E.
  destruct (parse_elems c n i) as [l| |] eqn:E2; cbn [bind] in E; try discriminate E. injection E as <-.
  revert i l Hi E2. induction n as [|n IH]; intros i l Hi E2; cbn [parse_elems] in E2; [injection E2 as <-; constructor|].
  destruct (parseField c noP i) as [[x r]| |] eqn:E3; cbn [bind] in E2; try discriminate E2.
  destruct (parse_elems c n r) as [l'| |] eqn:E4; cbn [bind] in E2; try discriminate E2. injection E2 as <-.
  eapply vok_field in E3 as [? ?]; eauto.
Qed.
Lemma vok_unmarshal {A} (c : codec A) Q s a r : vok c Q -> bytes_ok s -> Unmarshal c s = Ret (a, r) -> Q a.
Proof. intros V Ho E. eapply vok_field in E; eauto. tauto. Qed.

(** bytes written by the encoder *)
Lemma hdr_bytes_ok cls tag comp n : 0 <= cls <= 3 -> 0 <= tag <= maxInt32 -> 0 <= n < 2 ^ 32 -> bytes_ok (hdr cls tag comp n).
Proof.
  intros Hc Ht Hn. unfold hdr, appendTagAndLength. cbn [t_class t_comp t_tag t_len]. apply bytes_ok_app. split.
  - destruct (Z.leb_spec 31 tag).
    + apply bytes_ok_cons. split; [unfold byte_ok; destruct comp; lia|apply appendBase128_ok].
    + repeat constructor; unfold byte_ok; destruct comp; lia.
  - destruct (Z.leb_spec 128 n); [|repeat constructor; unfold byte_ok; lia]. apply bytes_ok_cons. split; [|apply Z_to_be_ok].
    assert (nbytes n <= 4)%nat; [|unfold byte_ok; lia]. unfold nbytes. replace (n =? 0) with false by (symmetry; apply Z.eqb_neq; lia).
    assert (Z.log2 n < 32) by (apply Z.log2_lt_pow2; lia). assert (0 <= Z.log2 n) by apply Z.log2_nonneg.
    assert (Z.log2 n / 8 < 4) by (apply Z.div_lt_upper_bound; lia). lia.
Qed.
Definition eok {A} (c : codec A) (Q : A -> Prop) : Prop :=
  (forall set a b, Q a -> c_body c set a = Ret b -> zlen b < 2 ^ 32 -> bytes_ok b) /\
  (forall a b, Q a -> c_whole c a = Some (Ret b) -> zlen b < 2 ^ 32 -> bytes_ok b) /\ (0 <= c_tag c <= 30 \/ forall a, c_whole c a <> None).
Lemma eok_make {A} (c : codec A) Q p a bs : eok c Q -> params_ok p -> Q a -> makeField c p a = Ret bs -> zlen bs < 2 ^ 32 -> bytes_ok bs.
Proof.
  intros (B & W & T) Hp Ha E Hz. unfold makeField in E.
  destruct (p_omit p && c_len0 c a). { assert (bs = []) by congruence. subst. constructor. }
  destruct (p_opt p && _). { assert (bs = []) by congruence. subst. constructor. }
  destruct (p_opt p && _). { assert (bs = []) by congruence. subst. constructor. }
  destruct (c_whole c a) as [r|] eqn:Ew. { subst r. eapply W; eauto. }
  destruct T as [T|T]; [|now apply T in Ew]. destruct (p_set p && _); [discriminate E|]. cbv zeta in E.
  set (tag := if p_set p then TagSet else c_tag c) in *. assert (Ht : 0 <= tag <= maxInt32) by (unfold tag, TagSet, maxInt32; destruct (p_set p); lia).
  destruct (c_body c (tag =? TagSet) a) as [body| |] eqn:Eb; cbn [bind] in E; try discriminate E. pose proof (zlen_nonneg body).
  assert (F : zlen body < 2 ^ 32 -> bytes_ok body) by (intros; eapply B; eauto).
  unfold params_ok in Hp. destruct (p_tag p) as [n|].
  - destruct (p_exp p).
    + set (inner := hdr ClassUniversal tag (c_comp c) (zlen body) ++ body) in *. assert (Hi : zlen body <= zlen inner) by (unfold inner; rewrite zlen_app; pose proof (hdr_zlen ClassUniversal tag (c_comp c) (zlen body)); lia).
      assert (bs = hdr ClassContext n true (zlen inner) ++ inner) by congruence. subst bs. rewrite zlen_app in Hz. pose proof (hdr_zlen ClassContext n true (zlen inner)).
      apply bytes_ok_app. split; [apply hdr_bytes_ok; unfold ClassContext; lia|]. apply bytes_ok_app. split; [apply hdr_bytes_ok; unfold ClassUniversal; lia|apply F; lia].
    + assert (bs = hdr ClassContext n (c_comp c) (zlen body) ++ body) by congruence. subst bs. rewrite zlen_app in Hz. pose proof (hdr_zlen ClassContext n (c_comp c) (zlen body)).
      apply bytes_ok_app. split; [apply hdr_bytes_ok; unfold ClassContext; lia|apply F; lia].
  - assert (bs = hdr ClassUniversal tag (c_comp c) (zlen body) ++ body) by congruence. subst bs. rewrite zlen_app in Hz. pose proof (hdr_zlen ClassUniversal tag (c_comp c) (zlen body)).
    apply bytes_ok_app. split; [apply hdr_bytes_ok; unfold ClassUniversal; lia|apply F; lia].
Qed.
Lemma tag_small {A} (c : codec A) : (0 <=? c_tag c) && (c_tag c <=? 30) = true -> 0 <= c_tag c <= 30. Proof. lia. Qed.
Lemma eok_int : eok cInt (fun _ => True).
Proof. split; [|split; [discriminate|left; apply tag_small; reflexivity]]. intros set a b _ E _. assert (b = bigint_content a) by (cbn in E; congruence). subst. apply bigint_content_spec. Qed.
Lemma eok_big : eok cBig (fun _ => True).
Proof.
  split; [|split; [discriminate|left; apply tag_small; reflexivity]]. intros set [a|] b _ E _; [|discriminate E]. assert (b = bigint_content a) by (cbn in E; congruence). subst. apply bigint_content_spec.
Qed.
Lemma eok_bytes : eok cBytes (fun b => bytes_ok (sl b)).
Proof. split; [|split; [discriminate|left; apply tag_small; reflexivity]]. intros set a b Ha E _. change (Ret (sl a) = Ret b) in E. assert (b = sl a) by congruence. subst. exact Ha. Qed.
Lemma eok_oid : eok cOID (fun _ => True).
Proof.
  split; [|split; [discriminate|left; apply tag_small; reflexivity]]. intros set a b _ E _. cbn [c_body cOID prim] in E. unfold oid_body in E. destruct a as [|x [|y a]]; try discriminate E.
  destruct (_ || _); [discriminate E|]. assert (b = flat_map appendBase128Int (x * 40 + y :: a)) by congruence. subst b. generalize (x * 40 + y :: a). clear.
  induction l as [|z l IH]; cbn [flat_map]; [constructor|]. apply bytes_ok_app. split; [apply appendBase128_ok|exact IH].
Qed.
Lemma eok_bits : eok cBits (fun b => bytes_ok (sl (bs_bytes b))).
Proof.
  split; [|split; [discriminate|left; apply tag_small; reflexivity]]. intros set a b Ha E _. change (Ret ((8 - Z.rem (bs_len a) 8) mod 8 :: sl (bs_bytes a)) = Ret b) in E.
  assert (b = (8 - Z.rem (bs_len a) 8) mod 8 :: sl (bs_bytes a)) by congruence. subst b. apply bytes_ok_cons. split; auto.
  unfold byte_ok. pose proof (Z.mod_pos_bound (8 - Z.rem (bs_len a) 8) 8). lia.
Qed.
Lemma eok_raw : eok cRaw (fun r => raw_ok r /\ 0 <= rv_class r <= 3 /\ 0 <= rv_tag r <= maxInt32).
Proof.
  split; [discriminate|]. split; [|right; discriminate]. intros a b ((H1 & H2) & Hc & Ht) E Hz. assert (E' : raw_whole a = Ret b) by (cbn in E; congruence). clear E.
  unfold raw_whole in E'. destruct (sl (rv_full a)) as [|x f] eqn:Ef.
  - assert (b = hdr (rv_class a) (rv_tag a) (rv_comp a) (zlen (sl (rv_bytes a))) ++ sl (rv_bytes a)) by congruence. subst b. rewrite zlen_app in Hz.
    pose proof (hdr_zlen (rv_class a) (rv_tag a) (rv_comp a) (zlen (sl (rv_bytes a)))). pose proof (zlen_nonneg (sl (rv_bytes a))).
    apply bytes_ok_app. split; auto. apply hdr_bytes_ok; auto. lia.
  - assert (b = x :: f) by congruence. subst b. exact H2.
Qed.
Definition feok {X} (fs : fcodec X) (Q : X -> Prop) : Prop := forall x b, Q x -> f_enc fs x = Ret b -> zlen b < 2 ^ 32 -> bytes_ok b.
Lemma feok_nil : feok fnil (fun _ => True). Proof. intros x b _ E _. assert (b = []) by (cbn in E; congruence). subst. constructor. Qed.
Lemma feok_cons {A B} p (c : codec A) (fs : fcodec B) Q R : params_ok p -> eok c Q -> feok fs R -> feok (fcons p c fs) (fun x => Q (fst x) /\ R (snd x)).
Proof.
  intros Hp C F [a b'] bs [Qa Rb] E Hz. cbn [f_enc fcons fst snd] in *.
  destruct (makeField c p a) as [x| |] eqn:E1; cbn [bind] in E; try discriminate E. destruct (f_enc fs b') as [y| |] eqn:E2; cbn [bind] in E; try discriminate E.
  assert (bs = x ++ y) by congruence. subst bs. rewrite zlen_app in Hz. pose proof (zlen_nonneg x). pose proof (zlen_nonneg y).
  apply bytes_ok_app. split; [eapply eok_make; eauto; lia|eapply F; eauto; lia].
Qed.
Lemma eok_struct {X A} (fs : fcodec X) (mk : X -> A) un Q (R : A -> Prop) : feok fs Q -> (forall a, R a -> Q (un a)) -> eok (cStruct fs mk un) R.
Proof.
  intros F M. split; [|split; [discriminate|left; apply tag_small; reflexivity]]. intros set a b Ha E Hz. cbn [c_body cStruct] in E. eapply F; eauto.
Qed.
