(** * The certificate parser does not panic *)
From Coq Require Import String ZifyBool ZifyNat.
From Verif Require Import Base Words Utf8 BMPModel ECModel SM2Model CryptoByte Asn1 Asn1Proofs Asn1Safe KeysModel KeysProofs P12Enc X509Model X509Sig X509Build X509Proofs X509ExtProofs X509CertProofs.
Open Scope Z_scope.

(** progress of the readers *)
Definition prog (s c r : bytes) : Prop := bytes_ok c /\ bytes_ok r /\ (List.length r < List.length s)%nat.
Lemma tlv_prog T s c r : bytes_ok s -> s = tlv T c ++ r -> prog s c r.
Proof. intros Hs ->. apply tlv_bytes in Hs as [H1 H2]. split; [auto|]. split; [auto|]. rewrite app_length. unfold tlv. cbn [List.length]. lia. Qed.
Lemma readASN1_prog T s c r : bytes_ok s -> readASN1 T s = Some (c, r) -> prog s c r.
Proof. intros Hs E. apply readASN1_inv in E as [E _]; auto. eapply tlv_prog; eauto. Qed.
Lemma readAny_prog s t c r : bytes_ok s -> readAny s = Some (t, c, r) -> prog s c r.
Proof. intros Hs. unfold readAny. destruct (readAnyElt s) as [[[[t' e] c'] r']|] eqn:E; [|discriminate]. intros [= <- <- <-]. apply readAny_inv in E as [E _]; auto. eapply tlv_prog; eauto. Qed.
Lemma readOID_prog s o r : bytes_ok s -> readOID s = Some (o, r) -> bytes_ok r /\ (List.length r < List.length s)%nat.
Proof. intros Hs E. apply readOID_inv in E as (E & _); auto. unfold oid_tlv in E. apply (tlv_prog _ s _ r) in E; auto. destruct E as (_ & ? & ?). auto. Qed.
Lemma readOptional_prog T s p c r : bytes_ok s -> readOptional T s = Some (p, c, r) -> bytes_ok c /\ bytes_ok r.
Proof.
  intros Hs. unfold readOptional. destruct (peekTag T s); [destruct (readASN1 T s) as [[c' r']|] eqn:E; [|discriminate]; intros [= <- <- <-]; apply readASN1_prog in E as (? & ? & _); auto|].
  intros [= <- <- <-]. split; [constructor|auto].
Qed.
Lemma skipOptional_prog T s r : bytes_ok s -> skipOptional T s = Some r -> bytes_ok r.
Proof. intros Hs. unfold skipOptional. destruct (peekTag T s); [destruct (readASN1 T s) as [[c' r']|] eqn:E; [|discriminate]; intros [= <-]; apply readASN1_prog in E as (? & ? & _); auto|]. intros [= <-]. auto. Qed.
Lemma need_np {A} (o : option A) e : need o e <> Panic. Proof. destruct o; discriminate. Qed.

(** a step that never panics and makes progress *)
Definition safe_step {A} (step : bytes -> outcome (A * bytes)) : Prop :=
  (forall s, bytes_ok s -> step s <> Panic) /\ (forall s a r, bytes_ok s -> step s = Ret (a, r) -> bytes_ok r /\ (List.length r < List.length s)%nat).
Lemma many_safe {A} (step : bytes -> outcome (A * bytes)) s : safe_step step -> bytes_ok s -> many step s <> Panic.
Proof. intros [H1 H2]. apply many_no_panic; auto. Qed.
Ltac np := repeat (apply bind_np; [try apply need_np|intros ? ?; match goal with H : need _ _ = Ret _ |- _ => apply need_inv in H | _ => idtac end; repeat match goal with p : _ * _ |- _ => destruct p end]); try discriminate.
Lemma parseASN1String_np tag v : parseASN1String tag v <> Panic.
Proof. unfold parseASN1String. repeat match goal with |- context [if ?b then _ else _] => destruct b end; discriminate. Qed.
Ltac pull E x H := apply bind_inv in E; destruct E as (x & H & E); try apply need_inv in H.
Lemma safe_ATV : safe_step parseATV.
Proof.
  split.
  - intros s Hs. unfold parseATV. apply bind_np; [apply need_np|]. intros [a r] H1. apply bind_np; [apply need_np|]. intros [ty x] H2. apply bind_np; [apply need_np|]. intros [[tag raw] y] H3.
    pose proof (parseASN1String_np tag raw). destruct (parseASN1String tag raw); congruence || discriminate.
  - intros s a r Hs E. unfold parseATV in E. pull E p H1. destruct p as [a1 r1]. apply readASN1_prog in H1 as (B1 & B2 & B3); auto. pull E p H2. destruct p. pull E p H3. destruct p as [[tag raw] y].
    destruct (parseASN1String tag raw); try discriminate E. injection E as <- <-. auto.
Qed.
Lemma safe_RDN : safe_step parseRDN.
Proof.
  split.
  - intros s Hs. unfold parseRDN. apply bind_np; [apply need_np|]. intros [set r] H1. apply need_inv in H1. apply readASN1_prog in H1 as (B1 & B2 & B3); auto. apply bind_np; [apply many_safe; [apply safe_ATV|auto]|]. discriminate.
  - intros s a r Hs E. unfold parseRDN in E. pull E p H1. destruct p as [a1 r1]. apply readASN1_prog in H1 as (B1 & B2 & B3); auto. pull E p H2. injection E as <- <-. auto.
Qed.
Lemma parseName_np s : bytes_ok s -> parseName s <> Panic.
Proof. intros Hs. unfold parseName. apply bind_np; [apply need_np|]. intros [c r] H1. apply need_inv in H1. apply readASN1_prog in H1 as (B1 & B2 & B3); auto. apply many_safe; [apply safe_RDN|auto]. Qed.
Lemma parseAI_np s : parseAI s <> Panic.
Proof. unfold parseAI. apply bind_np; [apply need_np|]. intros [o d] _. destruct d; [discriminate|]. apply bind_np; [apply need_np|]. intros [[? ?] ?] _. discriminate. Qed.
Lemma parseTime_np s : parseTime s <> Panic.
Proof.
  unfold parseTime. destruct (peekTag T_UTCTime s).
  - apply bind_np; [apply need_np|]. intros [c r] _. destruct (match parse_utc false c with Some t => Some t | None => parse_utc true c end); discriminate.
  - destruct (peekTag _ s); [|discriminate]. destruct (readASN1 _ s) as [[c r]|]; [|discriminate]. destruct (parse_generalized c); discriminate.
Qed.
Lemma parseValidity_np s : parseValidity s <> Panic.
Proof. unfold parseValidity. apply bind_np; [apply parseTime_np|]. intros [a b] _. apply bind_np; [apply parseTime_np|]. intros [? ?] _. discriminate. Qed.
Lemma parseExtension_np s : parseExtension s <> Panic.
Proof.
  unfold parseExtension. apply bind_np; [apply need_np|]. intros [id d] _. apply bind_np; [destruct (peekTag _ d); [apply need_np|discriminate]|]. intros [c d'] _. apply bind_np; [apply need_np|]. intros [? ?] _. discriminate.
Qed.
Lemma safe_extStep : safe_step parseExtStep.
Proof.
  split.
  - intros s Hs. unfold parseExtStep. apply bind_np; [apply need_np|]. intros [e r] _. apply bind_np; [apply parseExtension_np|]. discriminate.
  - intros s a r Hs E. unfold parseExtStep in E. pull E p H1. destruct p as [a1 r1]. apply readASN1_prog in H1 as (B1 & B2 & B3); auto. pull E p H2. injection E as <- <-. auto.
Qed.
Lemma sanCallback_np net tag b : sanCallback net tag b <> Panic.
Proof. unfold sanCallback. repeat match goal with |- context [if ?b then _ else _] => destruct b | |- context [match url_Parse ?a ?b with _ => _ end] => destruct (url_Parse a b) end; discriminate. Qed.
Lemma parseSAN_np net s : bytes_ok s -> parseSANExtension net s <> Panic.
Proof.
  intros Hs. unfold parseSANExtension. apply bind_np; [|discriminate]. unfold forEachSAN. apply bind_np; [apply need_np|]. intros [c r] H1. apply need_inv in H1. apply readASN1_prog in H1 as (B1 & B2 & B3); auto.
  apply many_safe; auto. clear. split.
  - intros s Hs. apply bind_np; [apply need_np|]. intros [[t san] r] _. apply bind_np; [apply sanCallback_np|]. discriminate.
  - intros s a r Hs E. pull E p H1. destruct p as [[t san] r1]. apply readAny_prog in H1 as (B1 & B2 & B3); auto. pull E p H2. injection E as <- <-. auto.
Qed.
Lemma parseEKU_np s : bytes_ok s -> parseExtKeyUsageExtension s <> Panic.
Proof.
  intros Hs. unfold parseExtKeyUsageExtension. apply bind_np; [apply need_np|]. intros [c r] H1. apply need_inv in H1. apply readASN1_prog in H1 as (B1 & B2 & B3); auto. apply bind_np; [|discriminate].
  apply many_safe; auto. split; [intros; apply need_np|]. intros t a r0 Ht E. apply need_inv in E. apply readOID_prog in E; auto.
Qed.
Lemma parsePolicies_np s : bytes_ok s -> parseCertificatePoliciesExtension s <> Panic.
Proof.
  intros Hs. unfold parseCertificatePoliciesExtension. apply bind_np; [apply need_np|]. intros [c r] H1. apply need_inv in H1. apply readASN1_prog in H1 as (B1 & B2 & B3); auto.
  apply many_safe; auto. split.
  - intros t _. apply bind_np; [apply need_np|]. intros [? ?] _. apply bind_np; [apply need_np|]. intros [? ?] _. discriminate.
  - intros t a r0 Ht E. pull E p H1. destruct p as [a1 r1]. apply readASN1_prog in H1 as (C1 & C2 & C3); auto. pull E p H2. destruct p. injection E as <- <-. auto.
Qed.
Lemma safe_subtree net : safe_step (parseSubtree net).
Proof.
  split.
  - intros s Hs. unfold parseSubtree. apply bind_np; [apply need_np|]. intros [seq r] _. apply bind_np; [apply need_np|]. intros [[t v] x] _. apply bind_np; [|discriminate].
    repeat match goal with |- context [if ?b then _ else _] => destruct b | |- context [match parseRFC2821Mailbox ?a with _ => _ end] => destruct (parseRFC2821Mailbox a) | _ => cbv zeta end; discriminate.
  - intros s a r Hs E. unfold parseSubtree in E. pull E p H1. destruct p as [a1 r1]. apply readASN1_prog in H1 as (C1 & C2 & C3); auto. pull E p H2. destruct p as [[t v] x]. pull E p H3. injection E as <- <-. auto.
Qed.
Lemma parseNC_np net s : bytes_ok s -> parseNameConstraintsExtension net s <> Panic.
Proof.
  intros Hs. unfold parseNameConstraintsExtension. cbv zeta. apply bind_np; [apply need_np|]. intros [top outer] H1. apply need_inv in H1. apply readASN1_prog in H1 as (B1 & B2 & B3); auto. destruct outer; [|discriminate].
  apply bind_np; [apply need_np|]. intros [[hp pm] top1] H2. apply need_inv in H2. apply readOptional_prog in H2 as [C1 C2]; auto.
  apply bind_np; [apply need_np|]. intros [[hx ex] top2] H3. apply need_inv in H3. apply readOptional_prog in H3 as [D1 D2]; auto. destruct top2; [|discriminate]. destruct (_ || _); [discriminate|].
  apply bind_np; [apply many_safe; [apply safe_subtree|auto]|]. intros. apply bind_np; [apply many_safe; [apply safe_subtree|auto]|]. discriminate.
Qed.
Lemma dp_uris_np : forall fuel s, bytes_ok s -> (List.length s <= fuel)%nat -> dp_uris fuel s <> Panic.
Proof.
  induction fuel as [|fuel IH]; intros s Hs Hl; cbn [dp_uris].
  - destruct s; [discriminate|cbn in Hl; lia].
  - destruct (negb _); [discriminate|]. apply bind_np; [apply need_np|]. intros [u r] H1. apply need_inv in H1. apply readASN1_prog in H1 as (B1 & B2 & B3); auto. apply bind_np; [apply IH; auto; lia|]. discriminate.
Qed.
Lemma safe_DP : safe_step parseDP.
Proof.
  split.
  - intros s Hs. unfold parseDP. cbv zeta. apply bind_np; [apply need_np|]. intros [dp r] H1. apply need_inv in H1. apply readASN1_prog in H1 as (B1 & B2 & B3); auto.
    apply bind_np; [apply need_np|]. intros [[pr c] r2] H2. apply need_inv in H2. apply readOptional_prog in H2 as [C1 C2]; auto. destruct pr; cbn [negb]; [|discriminate].
    apply bind_np; [apply need_np|]. intros [d r3] H3. apply need_inv in H3. apply readASN1_prog in H3 as (D1 & D2 & D3); auto. apply bind_np; [apply dp_uris_np; auto|]. discriminate.
  - intros s a r Hs E. unfold parseDP in E. cbv zeta in E. pull E p H1. destruct p as [a1 r1]. apply readASN1_prog in H1 as (C1 & C2 & C3); auto. pull E p H2. destruct p as [[pr c] r2]. destruct pr; cbn [negb] in E.
    + pull E p H3. destruct p. pull E p H4. injection E as <- <-. auto.
    + injection E as <- <-. auto.
Qed.
Lemma parseCRLDP_np s : bytes_ok s -> parseCRLDP s <> Panic.
Proof.
  intros Hs. unfold parseCRLDP. apply bind_np; [apply need_np|]. intros [c r] H1. apply need_inv in H1. apply readASN1_prog in H1 as (B1 & B2 & B3); auto. apply bind_np; [apply many_safe; [apply safe_DP|auto]|]. discriminate.
Qed.
Lemma parseAKI_np s : parseAKI s <> Panic.
Proof. unfold parseAKI. apply bind_np; [apply need_np|]. intros [c r] _. destruct (peekTag _ c); [|discriminate]. apply bind_np; [apply need_np|]. intros [? ?] _. discriminate. Qed.
Lemma safe_AIA : safe_step parseAIAEntry.
Proof.
  split.
  - intros s Hs. unfold parseAIAEntry. cbv zeta. apply bind_np; [apply need_np|]. intros [c r] _. apply bind_np; [apply need_np|]. intros [m d] _. destruct (negb _); [discriminate|]. apply bind_np; [apply need_np|]. intros [? ?] _. discriminate.
  - intros s a r Hs E. unfold parseAIAEntry in E. cbv zeta in E. pull E p H1. destruct p as [a1 r1]. apply readASN1_prog in H1 as (C1 & C2 & C3); auto. pull E p H2. destruct p as [m d]. destruct (negb _).
    + injection E as <- <-. auto.
    + pull E p H3. destruct p as [l x]. assert (r1 = r) by congruence. subst. auto.
Qed.
Lemma parseAIA_np s : bytes_ok s -> parseAIA s <> Panic.
Proof. intros Hs. unfold parseAIA. apply bind_np; [apply need_np|]. intros [c r] H1. apply need_inv in H1. apply readASN1_prog in H1 as (B1 & B2 & B3); auto. apply bind_np; [apply many_safe; [apply safe_AIA|auto]|]. discriminate. Qed.
Lemma parseKU_np s : parseKeyUsageExtension s <> Panic.
Proof. unfold parseKeyUsageExtension. apply bind_np; [apply need_np|]. intros [? ?] _. discriminate. Qed.
Lemma parseBC_np s : parseBasicConstraintsExtension s <> Panic.
Proof.
  unfold parseBasicConstraintsExtension. apply bind_np; [apply need_np|]. intros [c r] _. apply bind_np; [destruct (peekTag _ _); [apply need_np|discriminate]|]. intros [? ?] _.
  apply bind_np; [destruct (peekTag _ _); [apply need_np|discriminate]|]. intros [? ?] _. discriminate.
Qed.
Lemma processExtension_np net i e : bytes_ok (x_Value e) -> processExtension net i e <> Panic.
Proof.
  intros Hv. unfold processExtension. cbv zeta.
  repeat match goal with |- context [if ?b then _ else _] => lazymatch b with context [san_DNS _] => fail | _ => destruct b end end; try discriminate;
  (apply bind_np; [auto using parseKU_np, parseBC_np, parseSAN_np, parseNC_np, parseCRLDP_np, parseAKI_np, parseEKU_np, need_np, parsePolicies_np, parseAIA_np|]); intros; repeat match goal with p : _ * _ |- _ => destruct p end; try discriminate.
Qed.
Lemma processExtensions_np net l : Forall (fun e => bytes_ok (x_Value e)) l -> forall i, processExtensions net i l <> Panic.
Proof.
  induction 1 as [|e l He _ IH]; intros i; cbn [processExtensions]; [discriminate|]. apply bind_np; [apply processExtension_np; auto|]. intros [i' u] _. apply IH.
Qed.
Lemma exts_bytes s l : bytes_ok s -> many parseExtStep s = Ret l -> Forall (fun e => bytes_ok (x_Value e)) l.
Proof.
  intros Hs E. assert (G : exists es, s = List.concat es /\ Forall2 (fun (e : Extension) (_ : bytes) => bytes_ok (x_Value e)) l es).
  { eapply many_inv; [|exact Hs|exact E]. clear. intros s a r Hs E. unfold parseExtStep in E. pull E p H1. destruct p as [c r1]. assert (H1' := H1). apply readASN1_prog in H1' as (C1 & C2 & _); auto. apply readASN1_inv in H1 as [H1 _]; auto.
    pull E ext H2. injection E as <- <-. exists (tlv T_SEQUENCE c). split; [exact H1|]. split; [unfold tlv; discriminate|]. split; [|exact C2].
    unfold parseExtension in H2. pull H2 p H3. destruct p as [id d]. apply readOID_prog in H3 as [D1 _]; auto. pull H2 p H4. destruct p as [cr d'].
    assert (D2 : bytes_ok d').
    { destruct (peekTag T_BOOLEAN d); [|injection H4 as <- <-; exact D1]. apply need_inv in H4. unfold readBool in H4. destruct (readASN1 T_BOOLEAN d) as [[b r']|] eqn:E4; [|discriminate H4]. apply readASN1_prog in E4 as (_ & E4 & _); auto.
      assert (r' = d'); [|subst; auto]. repeat match type of H4 with match ?x with _ => _ end = _ => destruct x; try discriminate H4 end; congruence. }
    pull H2 p H5. destruct p as [v d'']. apply readASN1_prog in H5 as (F1 & _); auto. injection H2 as <-. exact F1. }
  destruct G as (es & _ & G). clear - G. induction G; constructor; auto.
Qed.
Lemma parseTail_np net v s : bytes_ok s -> parseTail net v s <> Panic.
Proof.
  intros Hs. unfold parseTail. destruct (1 <? v); [|discriminate]. apply bind_np; [apply need_np|]. intros t1 H1. apply need_inv in H1. apply skipOptional_prog in H1; auto.
  apply bind_np; [apply need_np|]. intros t2 H2. apply need_inv in H2. apply skipOptional_prog in H2; auto. destruct (v =? 3); [|discriminate].
  apply bind_np; [apply need_np|]. intros [[p e] r] H3. apply need_inv in H3. apply readOptional_prog in H3 as [C1 C2]; auto. destruct p; [|discriminate].
  apply bind_np; [apply need_np|]. intros [e' r'] H4. apply need_inv in H4. apply readASN1_prog in H4 as (D1 & _); auto. apply bind_np; [apply many_safe; [apply safe_extStep|auto]|]. intros l Hl.
  apply bind_np; [apply processExtensions_np; eapply exts_bytes; eauto|]. discriminate.
Qed.
Lemma curve_named o id : namedCurveFromOID o = Some id -> curve_of id <> None.
Proof. unfold namedCurveFromOID. repeat match goal with |- context [if ?b then _ else _] => destruct b end; intros [= <-]; discriminate. Qed.
Lemma parsePublicKey_np a k : parsePublicKey a k <> Panic.
Proof.
  unfold parsePublicKey. cbv zeta. destruct a; repeat match goal with
  | |- context [match curve_of ?id with _ => _ end] => destruct (curve_of id) eqn:?
  | |- context [match ?x with _ => _ end] => destruct x eqn:?
  end; try discriminate. exfalso. eapply curve_named; eauto.
Qed.
Theorem parseCertificate_np net der : bytes_ok der -> parseCertificate net der <> Panic.
Proof.
  intros Hd. unfold parseCertificate.
  apply bind_np; [apply need_np|]. intros [raw rest] H1. apply need_inv in H1. apply readASN1Element_inv in H1 as (c0 & -> & E0 & _ & Z0); [|exact Hd]. rewrite E0 in Hd. apply tlv_bytes in Hd as [B0 _].
  apply bind_np; [apply need_np|]. intros [input r2] H2. apply need_inv in H2. rewrite <- (app_nil_r (tlv T_SEQUENCE c0)) in H2. rewrite readASN1_tlv in H2 by (auto using tseq). injection H2 as <- <-.
  apply bind_np; [apply need_np|]. intros [rawTBS inp] H3. apply need_inv in H3. apply readASN1Element_inv in H3 as (tbs & -> & E3 & _ & Z3); [|exact B0]. rewrite E3 in B0. apply tlv_bytes in B0 as [B3 B3'].
  apply bind_np; [apply need_np|]. intros [tbs' r4] H4. apply need_inv in H4. rewrite <- (app_nil_r (tlv T_SEQUENCE tbs)) in H4. rewrite readASN1_tlv in H4 by (auto using tseq). injection H4 as <- <-.
  apply bind_np; [apply need_np|]. intros [v t5] H5. apply need_inv in H5. apply readOptionalInt_inv in H5 as (ver & Hv & E5); [|exact B3]. assert (B5 : bytes_ok t5) by (rewrite E5 in B3; apply bytes_ok_app in B3; tauto).
  destruct (v <? 0); [discriminate|]. cbv zeta. destruct (3 <? _); [discriminate|].
  apply bind_np; [apply need_np|]. intros [serial t6] H6. apply need_inv in H6. apply readBigInt_inv in H6 as [E6 Z6]; [|exact B5]. assert (B6 : bytes_ok t6) by (rewrite E6 in B5; apply tlv_bytes in B5; tauto).
  apply bind_np; [apply need_np|]. intros [ai t7] H7. apply need_inv in H7. apply readASN1_prog in H7 as (_ & B7 & _); [|exact B6].
  apply bind_np; [apply need_np|]. intros [ai' sigField] H8. apply need_inv in H8. destruct (negb _); [discriminate|].
  apply bind_np; [apply parseAI_np|]. intros sigAI _. apply bind_np; [apply need_np|]. intros [issuer t10] H10. apply need_inv in H10. apply readASN1Element_inv in H10 as (ic & Ei & E10 & _ & Z10); [|exact B7].
  assert (B10 : bytes_ok issuer /\ bytes_ok t10) by (subst issuer; rewrite E10 in B7; apply bytes_ok_app in B7; exact B7). destruct B10 as [B10' B10].
  apply bind_np; [apply parseName_np; exact B10'|]. intros issuerN _.
  apply bind_np; [apply need_np|]. intros [validity t12] H12. apply need_inv in H12. apply readASN1_prog in H12 as (_ & B12 & _); [|exact B10].
  apply bind_np; [apply parseValidity_np|]. intros [nb na] _. apply bind_np; [apply need_np|]. intros [subject t14] H14. apply need_inv in H14. apply readASN1Element_inv in H14 as (sc & Es & E14 & _ & Z14); [|exact B12].
  assert (B14 : bytes_ok subject /\ bytes_ok t14) by (subst subject; rewrite E14 in B12; apply bytes_ok_app in B12; exact B12). destruct B14 as [B14' B14].
  apply bind_np; [apply parseName_np; exact B14'|]. intros subjectN _.
  apply bind_np; [apply need_np|]. intros [rawSPKI t16] H16. apply need_inv in H16. apply readASN1Element_inv in H16 as (kc & Ek & E16 & _ & Z16); [|exact B14].
  assert (B16 : bytes_ok t16) by (rewrite E16 in B14; apply tlv_bytes in B14; tauto).
  apply bind_np; [apply need_np|]. intros [spki r17] _. apply bind_np; [apply need_np|]. intros [pkAlg pkKey] _. apply bind_np; [apply parseAI_np|]. intros pkAI _. cbv zeta.
  apply bind_np; [apply need_np|]. intros [spk r20] _. apply bind_np; [apply parsePublicKey_np|]. intros pub _. apply bind_np; [apply parseTail_np; exact B16|]. intros [exts info] _.
  apply bind_np; [apply need_np|]. intros [signature r23] _. discriminate.
Qed.
