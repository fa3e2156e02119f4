(** * C73, C87, C88: the extensions of a certificate as a whole *)
From Coq Require Import String Ascii ZifyBool ZifyNat.
From Verif Require Import Base Words Utf8 BMPModel ECModel SM2Model CryptoByte Asn1 Asn1Proofs KeysModel KeysProofs P12Enc X509Model X509Sig X509Build X509Proofs X509StrProofs PropertiesX509Str X509ExtProofs X509NCProofs PropertiesX509Ext.
Open Scope Z_scope.

(** ** Specification *)
(** the extensions the parser interprets *)
Definition interpreted : list oid :=
  [[2; 5; 29; 14]; [2; 5; 29; 15]; [2; 5; 29; 17]; [2; 5; 29; 19]; [2; 5; 29; 30]; [2; 5; 29; 31]; [2; 5; 29; 32]; [2; 5; 29; 35]; [2; 5; 29; 37];
   [1; 3; 6; 1; 5; 5; 7; 1; 1]].
(** an extension of which something was not understood: another one, a subject alternative name without any name of a known
    kind, or name constraints with a subtree of an unknown kind *)
Definition not_understood (net : netlib) (e : Extension) : Prop :=
  ~ In (x_Id e) interpreted \/
  (x_Id e = [2; 5; 29; 17] /\ parseSANExtension net (x_Value e) = Ret (mkSANs [] [] [] [])) \/
  (x_Id e = [2; 5; 29; 30] /\ exists p x, parseNameConstraintsExtension net (x_Value e) = Ret (p, x, true)).
(** [sub P l m]: m consists of the elements of l that satisfy P, in order *)
Inductive sub {A} (P : A -> Prop) : list A -> list A -> Prop :=
| sub_nil : sub P [] []
| sub_keep a l m : P a -> sub P l m -> sub P (a :: l) (a :: m)
| sub_drop a l m : ~ P a -> sub P l m -> sub P (a :: l) m.

(** ** C73 *)
Lemma oid_eqb_spec a b : oid_eqb a b = true <-> a = b. Proof. apply bytes_eqb_spec. Qed.
Lemma ext_unhandled net i e i' (u : bool) : processExtension net i e = Ret (i', u) ->
  i_Unhandled i' = i_Unhandled i /\ (u = true <-> not_understood net e).
Proof.
  unfold processExtension, not_understood. remember (x_Id e) as id eqn:Eid.
  destruct ((List.length id =? 4)%nat && (nth 0 id 0 =? 2) && (nth 1 id 0 =? 5) && (nth 2 id 0 =? 29)) eqn:C.
  - destruct id as [|a [|b [|c [|n [|? ?]]]]]; try (exfalso; cbn [List.length Nat.eqb andb] in C; congruence). cbn [List.length Nat.eqb andb nth] in *.
    apply andb_true_iff in C as [C C3]. apply andb_true_iff in C as [C1 C2]. apply Z.eqb_eq in C1, C2, C3. subst a b c.
    repeat match goal with
    | |- (if n =? ?k then _ else _) = _ -> _ => destruct (Z.eqb_spec n k)
    end; intros E;
    repeat match goal with
    | H : bind ?m _ = Ret _ |- _ => destruct m as [?| |] eqn:?; cbn [bind] in H; try discriminate H
    | H : (let '(_, _) := ?p in _) = Ret _ |- _ => destruct p
    end;
    try match goal with H : Ret _ = Ret _ |- _ => injection H as E1 E2; subst i' u end;
    (split; [try (match goal with |- context [match ?k with Some _ => _ | None => _ end] => destruct k end); destruct i; reflexivity|]).
    all: try (subst n; split; [discriminate|]; intros [N|[(N & _)|(N & _)]]; [exfalso; apply N; cbn [In interpreted]; tauto|discriminate N|discriminate N]).
    + (* SAN *) subst n. match goal with H : parseSANExtension _ _ = Ret ?s |- _ => rename H into HS; destruct s as [sd se si su] end. cbn [san_DNS san_Email san_IP san_URI]. split.
      * intros H. right; left. split; [reflexivity|]. destruct sd, se, si, su; cbn in H; try discriminate H. reflexivity.
      * intros [N|[(_ & H)|(N & _)]]; [exfalso; apply N; cbn [In interpreted]; tauto| |discriminate N]. injection H as -> -> -> ->. reflexivity.
    + (* name constraints *) subst n. match goal with H : parseNameConstraintsExtension _ _ = Ret _ |- _ => rename H into HN end. split.
      * intros ->. right; right. split; [reflexivity|]. eauto.
      * intros [N|[(N & _)|(_ & p' & x' & H)]]; [exfalso; apply N; cbn [In interpreted]; tauto|discriminate N|]. congruence.
    + split; [intros _; left|reflexivity]. cbn [In interpreted]. intuition congruence.
  - destruct (oid_eqb id oidExtensionAuthorityInfoAccess) eqn:A.
    + apply oid_eqb_spec in A. subst id. intros E. rewrite A in *. destruct (parseAIA _) as [[o1 o2]| |]; cbn [bind] in E; try discriminate E. injection E as E1 E2; subst i' u. split; [destruct i; reflexivity|].
      split; [discriminate|]. intros [N|[(N & _)|(N & _)]]; [exfalso; apply N; cbn [In interpreted]; unfold oidExtensionAuthorityInfoAccess; tauto|discriminate N|discriminate N].
    + intros E. injection E as E1 E2; subst i' u. split; [reflexivity|]. split; [intros _; left|reflexivity]. intros N. cbn [In interpreted] in N.
      repeat destruct N as [N|N]; try (rewrite <- N in C; discriminate C). * rewrite <- N in A. discriminate A. * exact N.
Qed.
Lemma exts_unhandled net l : forall i i', processExtensions net i l = Ret i' ->
  exists m, sub (fun e => x_Critical e = true /\ not_understood net e) l m /\ i_Unhandled i' = i_Unhandled i ++ map x_Id m.
Proof.
  induction l as [|e l IH]; intros i i' E; cbn [processExtensions] in E.
  - injection E as <-. exists []. split; [constructor|]. cbn [map]. now rewrite app_nil_r.
  - destruct (processExtension net i e) as [[i1 u]| |] eqn:E1; cbn [bind] in E; try discriminate E. apply ext_unhandled in E1 as [U1 U2].
    apply IH in E as (m & S & U). destruct (x_Critical e) eqn:C; cbn [andb] in U; [destruct u|].
    + exists (e :: m). split; [constructor; [split; [exact C|apply U2; reflexivity]|exact S]|]. rewrite U. cbn [map]. destruct i1. cbn in *. subst. now rewrite <- app_assoc.
    + exists m. split; [apply sub_drop; [|exact S]; intros [_ N]; apply U2 in N; discriminate|]. rewrite U, U1. reflexivity.
    + exists m. split; [apply sub_drop; [|exact S]; intros [N _]; congruence|]. rewrite U, U1. reflexivity.
Qed.
Theorem C73_unhandled : forall net l i, processExtensions net info0 l = Ret i ->
  exists m, sub (fun e => x_Critical e = true /\ not_understood net e) l m /\ i_Unhandled i = map x_Id m.
Proof. intros net l i E. apply exts_unhandled in E. exact E. Qed.
Print Assumptions C73_unhandled.
