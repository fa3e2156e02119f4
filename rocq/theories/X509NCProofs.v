(** * Round trip of name constraints, and of all the extensions together *)
From Coq Require Import String ZifyBool ZifyNat.
From Verif Require Import Base Words Utf8 ECModel SM2Model CryptoByte Asn1 Asn1Proofs KeysModel KeysProofs P12Enc X509Model X509Sig X509Build X509Proofs X509StrProofs X509ExtProofs.
Open Scope Z_scope.

(** ** name constraints *)
Definition norm_net (n : IPNet) : IPNet := mkIPNet (IP_Mask (ipn_IP n) (ipn_Mask n)) (ipn_Mask n).
Definition norm_nc (c : constraints) : constraints := mkNC (nc_DNS c) (map norm_net (nc_IP c)) (nc_Email c) (nc_URI c).
Definition net_ok (n : IPNet) : Prop :=
  (List.length (ipn_Mask n) = 4 \/ List.length (ipn_Mask n) = 16)%nat /\ List.length (IP_Mask (ipn_IP n) (ipn_Mask n)) = List.length (ipn_Mask n) /\ isValidIPMask (ipn_Mask n) = true.
Definition email_constraint_ok (s : bytes) : Prop :=
  if existsb (Z.eqb 64) s then exists m, parseRFC2821Mailbox s = Some m else labels_ok (trim_dot s) = true.
Definition nc_ok (net : netlib) (c : constraints) : Prop :=
  Forall (fun s => labels_ok (trim_dot s) = true) (nc_DNS c) /\ Forall net_ok (nc_IP c) /\ Forall email_constraint_ok (nc_Email c) /\
  Forall (fun s => net_ParseIP net s = false /\ labels_ok (trim_dot s) = true) (nc_URI c).
Definition st (tag : Z) (v : bytes) : bytes := tlv T_SEQUENCE (tlv (ctx tag) v).
Lemma subtree_inv tag v b : subtree tag v = Ret b -> b = st tag v /\ zlen (tlv (ctx tag) v) <= 0xfffffffe /\ zlen v <= 0xfffffffe.
Proof.
  unfold subtree. destruct (addASN1 (ctx tag) v) as [x| |] eqn:E; cbn [bind]; try discriminate. apply addASN1_inv in E as [-> H]. intros E. apply addASN1_inv in E as [-> H']. auto.
Qed.
Lemma st_ne tag v : st tag v <> []. Proof. discriminate. Qed.
(** reading one subtree *)
Lemma zlen_tlv_lt tag c n : zlen (tlv tag c) < n -> zlen c < n.
Proof. unfold tlv. rewrite zlen_cons, zlen_app. pose proof (zlen_nonneg (match der_len (zlen c) with Some l => l | None => [] end)). lia. Qed.
Lemma st_read net tag v rest : tag_ok (ctx tag) -> zlen (st tag v) < 2 ^ 31 ->
  parseSubtree net (st tag v ++ rest) = (do (seq, r) <- Ret (tlv (ctx tag) v, rest); do (t, value, _) <- Ret (ctx tag, v, @nil Z);
    do c <- (if t =? ctx 2 then
       if negb (isIA5String value) then Err "x509: invalid constraint value: " else
       if labels_ok (trim_dot value) then Ret (NCdns value) else Err "x509: failed to parse dnsName constraint"
     else if t =? ctx 7 then
       let n := List.length value in
       if (n =? 8)%nat || (n =? 32)%nat then
         let h := (n / 2)%nat in
         if isValidIPMask (skipn h value) then Ret (NCip (mkIPNet (firstn h value) (skipn h value)))
         else Err "x509: IP constraint contained invalid mask"
       else Err "x509: IP constraint contained value of length "
     else if t =? ctx 1 then
       if negb (isIA5String value) then Err "x509: invalid constraint value: " else
       if existsb (Z.eqb 64) value then
         match parseRFC2821Mailbox value with Some _ => Ret (NCemail value) | None => Err "x509: failed to parse rfc822Name constraint" end
       else if labels_ok (trim_dot value) then Ret (NCemail value) else Err "x509: failed to parse rfc822Name constraint"
     else if t =? ctx 6 then
       if negb (isIA5String value) then Err "x509: invalid constraint value: " else
       if net_ParseIP net value then Err "x509: failed to parse URI constraint: cannot be IP address" else
       if labels_ok (trim_dot value) then Ret (NCuri value) else Err "x509: failed to parse URI constraint"
     else Ret NCother); Ret (c, r)).
Proof.
  intros Ht Hz. unfold parseSubtree, st in *. pose proof (zlen_tlv_lt _ _ _ Hz) as Z1. pose proof (zlen_tlv_lt _ _ _ Z1) as Z2.
  rewrite readASN1_tlv; [|apply tseq|unfold max_content; lia]. cbn [need]. cbn [bind].
  rewrite <- (app_nil_r (tlv (ctx tag) v)). unfold readAny. rewrite readAny_tlv; [|exact Ht|unfold max_content; lia]. cbn [need bind]. reflexivity.
Qed.
Lemma ia5_subtrees {A} tag (f : A -> bytes) l bs : mapM (fun a => ia5Subtree tag (f a)) l = Ret bs -> bs = map (fun a => st tag (f a)) l /\ Forall (fun a => isIA5String (f a) = true) l.
Proof.
  intros E. apply mapM_Forall2 in E. induction E as [|a b l bs H _ [I1 I2]]; [split; [reflexivity|constructor]|]. unfold ia5Subtree in H. destruct (isIA5String (f a)) eqn:E5; [|discriminate].
  apply subtree_inv in H as (-> & _). split; [cbn [map]; now f_equal|constructor; auto].
Qed.
Lemma subtrees {A} tag (f : A -> bytes) l bs : mapM (fun a => subtree tag (f a)) l = Ret bs -> bs = map (fun a => st tag (f a)) l.
Proof.
  intros E. apply mapM_Forall2 in E. induction E as [|a b l bs H _ I1]; [reflexivity|]. apply subtree_inv in H as (-> & _). cbn [map]. now f_equal.
Qed.
Definition nc_values (c : constraints) : list constraint :=
  map NCdns (nc_DNS c) ++ map (fun n => NCip (norm_net n)) (nc_IP c) ++ map NCemail (nc_Email c) ++ map NCuri (nc_URI c).
Lemma collect_values c : collect_nc (nc_values c) = norm_nc c /\ has_other (nc_values c) = false.
Proof.
  split.
  - unfold collect_nc, nc_values, norm_nc. rewrite !flat_map_app. f_equal.
    + rewrite (flat_map_single NCdns (fun x => x)), map_id by reflexivity. rewrite !flat_map_none by reflexivity. now rewrite !app_nil_r.
    + rewrite (flat_map_none NCdns), (flat_map_none NCemail), (flat_map_none NCuri) by reflexivity. rewrite (flat_map_single (fun ip => NCip (norm_net ip)) norm_net) by reflexivity. now rewrite app_nil_r.
    + rewrite (flat_map_none NCdns), (flat_map_none NCuri), (flat_map_none (fun ip => NCip (norm_net ip))) by reflexivity. rewrite (flat_map_single NCemail (fun x => x)), map_id by reflexivity. now rewrite app_nil_r.
    + rewrite (flat_map_none NCdns), (flat_map_none NCemail), (flat_map_none (fun ip => NCip (norm_net ip))) by reflexivity. rewrite (flat_map_single NCuri (fun x => x)), map_id by reflexivity. reflexivity.
  - unfold has_other, nc_values. rewrite !existsb_app.
    assert (G : forall A (f : A -> constraint) l, (forall a, match f a with NCother => true | _ => false end = false) -> existsb (fun c => match c with NCother => true | _ => false end) (map f l) = false).
    { intros A f l H. induction l; [reflexivity|]. cbn [map existsb]. rewrite H. exact IHl. }
    rewrite !G by reflexivity. reflexivity.
Qed.
Lemma serialise_rt net c b : nc_ok net c -> serialiseConstraints c = Ret b -> zlen b < 2 ^ 31 ->
  many (parseSubtree net) b = Ret (nc_values c) /\ (b = [] <-> nc_empty c = true).
Proof.
  intros (H1 & H2 & H3 & H4). unfold serialiseConstraints.
  destruct (mapM (ia5Subtree 2) (nc_DNS c)) as [d| |] eqn:Ed; cbn [bind]; try discriminate. apply (ia5_subtrees 2 (fun x => x)) in Ed as [-> I1].
  destruct (mapM (fun n => subtree 7 (ipAndMask n)) (nc_IP c)) as [i| |] eqn:Ei; cbn [bind]; try discriminate. apply (subtrees 7 ipAndMask) in Ei as ->.
  destruct (mapM (ia5Subtree 1) (nc_Email c)) as [e| |] eqn:Ee; cbn [bind]; try discriminate. apply (ia5_subtrees 1 (fun x => x)) in Ee as [-> I3].
  destruct (mapM (ia5Subtree 6) (nc_URI c)) as [u| |] eqn:Eu; cbn [bind]; try discriminate. apply (ia5_subtrees 6 (fun x => x)) in Eu as [-> I4].
  intros E Hz. assert (Eb : b = List.concat (map (fun a => st 2 a) (nc_DNS c) ++ map (fun n => st 7 (ipAndMask n)) (nc_IP c) ++ map (fun a => st 1 a) (nc_Email c) ++ map (fun a => st 6 a) (nc_URI c))) by congruence.
  clear E. split.
  - rewrite Eb in Hz. apply concat_small in Hz. rewrite Eb. apply many_es. unfold nc_values.
    apply Forall_app in Hz as [S1 Hz]. apply Forall_app in Hz as [S2 Hz]. apply Forall_app in Hz as [S3 S4]. rewrite Forall_map in S1, S2, S3, S4.
    repeat apply Forall2_app; apply Forall2_maps; rewrite Forall_forall in *; intros x Hx; (split; [apply st_ne|]); intros rest.
    + rewrite st_read by (try tagok; apply (S1 x Hx)). cbn [bind]. change (ctx 2 =? ctx 2) with true. cbv iota. rewrite (I1 x Hx), (H1 x Hx). reflexivity.
    + rewrite st_read by (try tagok; apply (S2 x Hx)). cbn [bind]. change (ctx 7 =? ctx 2) with false. change (ctx 7 =? ctx 7) with true. cbv iota zeta.
      destruct (H2 x Hx) as (L & LM & V). unfold ipAndMask. rewrite app_length, LM.
      assert (Hh : ((List.length (ipn_Mask x) + List.length (ipn_Mask x)) / 2 = List.length (IP_Mask (ipn_IP x) (ipn_Mask x)))%nat) by (rewrite LM; destruct L as [-> | ->]; reflexivity).
      rewrite Hh, firstn_app_exact, skipn_app_exact, V by reflexivity. destruct L as [-> | ->]; reflexivity.
    + rewrite st_read by (try tagok; apply (S3 x Hx)). cbn [bind]. change (ctx 1 =? ctx 2) with false. change (ctx 1 =? ctx 7) with false. change (ctx 1 =? ctx 1) with true. cbv iota. rewrite (I3 x Hx). cbn [negb].
      specialize (H3 x Hx). unfold email_constraint_ok in H3. destruct (existsb (Z.eqb 64) x); [destruct H3 as [m ->]; reflexivity|rewrite H3; reflexivity].
    + rewrite st_read by (try tagok; apply (S4 x Hx)). cbn [bind]. change (ctx 6 =? ctx 2) with false. change (ctx 6 =? ctx 7) with false. change (ctx 6 =? ctx 1) with false. change (ctx 6 =? ctx 6) with true. cbv iota.
      destruct (H4 x Hx) as [-> ->]. rewrite (I4 x Hx). reflexivity.
  - subst b. unfold nc_empty. destruct (nc_DNS c); [|split; discriminate]. destruct (nc_IP c); [|split; [discriminate|cbn; discriminate]].
    destruct (nc_Email c); [|split; [discriminate|cbn; discriminate]]. destruct (nc_URI c); [|split; [discriminate|cbn; discriminate]]. split; reflexivity.
Qed.
Lemma nc_rt net p x v : nc_ok net p -> nc_ok net x -> nc_empty p && nc_empty x = false -> marshalNC p x = Ret v -> zlen v < 2 ^ 31 ->
  parseNameConstraintsExtension net v = Ret (norm_nc p, norm_nc x, false).
Proof.
  intros Hp Hx Hne. unfold marshalNC. destruct (serialiseConstraints p) as [bp| |] eqn:Ep; cbn [bind]; try discriminate.
  destruct (serialiseConstraints x) as [bx| |] eqn:Ex; cbn [bind]; try discriminate.
  destruct (match bp with [] => Ret [] | _ => addASN1 (ctxc 0) bp end) as [a| |] eqn:Ea; cbn [bind]; try discriminate.
  destruct (match bx with [] => Ret [] | _ => addASN1 (ctxc 1) bx end) as [b| |] eqn:Eb; cbn [bind]; try discriminate.
  intros E Hz. apply addASN1_inv in E as [-> Hab]. pose proof (zlen_tlv_lt _ _ _ Hz) as Zab. rewrite zlen_app in Zab. pose proof (zlen_nonneg a). pose proof (zlen_nonneg b).
  assert (Fa : a = match bp with [] => [] | _ => tlv (ctxc 0) bp end) by (destruct bp; [congruence|apply addASN1_inv in Ea; apply Ea]).
  assert (Fb : b = match bx with [] => [] | _ => tlv (ctxc 1) bx end) by (destruct bx; [congruence|apply addASN1_inv in Eb; apply Eb]).
  assert (Zp : zlen bp < 2 ^ 31) by (destruct bp; [reflexivity|]; apply (zlen_tlv_lt (ctxc 0)); rewrite <- Fa; lia).
  assert (Zx : zlen bx < 2 ^ 31) by (destruct bx; [reflexivity|]; apply (zlen_tlv_lt (ctxc 1)); rewrite <- Fb; lia).
  destruct (serialise_rt net p bp Hp Ep Zp) as [Mp Np]. destruct (serialise_rt net x bx Hx Ex Zx) as [Mx Nx].
  destruct (collect_values p) as [Cp Op]. destruct (collect_values x) as [Cx Ox].
  unfold parseNameConstraintsExtension. rewrite <- (app_nil_r (tlv T_SEQUENCE (a ++ b))). rewrite readASN1_tlv; [|apply tseq|rewrite zlen_app; unfold max_content; lia]. cbn [need bind].
  assert (R1 : readOptional (ctxc 0) (a ++ b) = Some (match bp with [] => false | _ => true end, bp, b)).
  { unfold readOptional. rewrite Fa. destruct bp as [|y bp].
    - cbn [app]. rewrite Fb. destruct bx; reflexivity.
    - change (peekTag (ctxc 0) (tlv (ctxc 0) (y :: bp) ++ b)) with true. cbv iota. rewrite readASN1_tlv; [reflexivity|tagok|unfold max_content; lia]. }
  assert (R2 : readOptional (ctxc 1) b = Some (match bx with [] => false | _ => true end, bx, [])).
  { unfold readOptional. rewrite Fb. destruct bx as [|y bx]; [reflexivity|]. change (peekTag (ctxc 1) (tlv (ctxc 1) (y :: bx))) with true. cbv iota. rewrite <- (app_nil_r (tlv (ctxc 1) (y :: bx))). rewrite readASN1_tlv; [reflexivity|tagok|unfold max_content; lia]. }
  rewrite R1. cbn [need bind]. rewrite R2. cbn [need bind].
  replace (negb match bp with [] => false | _ => true end && negb match bx with [] => false | _ => true end || (List.length bp =? 0)%nat && (List.length bx =? 0)%nat) with false.
  2:{ destruct bp; [|reflexivity]. destruct bx; [|reflexivity]. rewrite (proj1 Np eq_refl), (proj1 Nx eq_refl) in Hne. discriminate. }
  rewrite Mp. cbn [bind]. rewrite Mx. cbn [bind]. rewrite Cp, Cx, Op, Ox. reflexivity.
Qed.
