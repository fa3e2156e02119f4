(** * Go strings: UTF-8 and UTF-16 (unicode/utf8, unicode/utf16 of the Go standard library)
    A Go string is a byte string; ranging over it decodes UTF-8, each invalid byte giving U+FFFD. *)
From Verif Require Import Base.
From Coq Require Import ZifyBool ZifyNat.
Ltac Zify.zify_post_hook ::= Z.div_mod_to_equations.

Definition rune_error : Z := 0xFFFD.
(** a Unicode scalar value *)
Definition scalar (r : Z) : Prop := 0 <= r < 0xD800 \/ 0xE000 <= r <= 0x10FFFF.
Definition scalarb (r : Z) : bool := ((0 <=? r) && (r <? 0xD800)) || ((0xE000 <=? r) && (r <=? 0x10FFFF)).
Lemma scalarb_spec r : scalarb r = true <-> scalar r. Proof. unfold scalarb, scalar. lia. Qed.

(** utf8.EncodeRune / string(rune): invalid runes encode as U+FFFD *)
Definition utf8_rune (r : Z) : bytes :=
  let r := if scalarb r then r else rune_error in
  if r <? 0x80 then [r]
  else if r <? 0x800 then [0xC0 + r / 64; 0x80 + r mod 64]
  else if r <? 0x10000 then [0xE0 + r / 4096; 0x80 + r / 64 mod 64; 0x80 + r mod 64]
  else [0xF0 + r / 262144; 0x80 + r / 4096 mod 64; 0x80 + r / 64 mod 64; 0x80 + r mod 64].
(** string([]rune) *)
Definition utf8_encode (rs : list Z) : bytes := flat_map utf8_rune rs.

Definition cont (b : Z) : bool := (0x80 <=? b) && (b <=? 0xBF).
(** the range allowed for the second byte, by first byte (utf8's acceptRanges) *)
Definition second_ok (b0 b1 : Z) : bool :=
  if b0 =? 0xE0 then (0xA0 <=? b1) && (b1 <=? 0xBF)
  else if b0 =? 0xED then (0x80 <=? b1) && (b1 <=? 0x9F)
  else if b0 =? 0xF0 then (0x90 <=? b1) && (b1 <=? 0xBF)
  else if b0 =? 0xF4 then (0x80 <=? b1) && (b1 <=? 0x8F)
  else cont b1.
(** utf8.DecodeRune on a non-empty string: the rune and the number of bytes consumed *)
Definition decode_rune (b0 : Z) (tl : bytes) : Z * nat :=
  if b0 <? 0x80 then (b0, 1%nat)
  else if b0 <? 0xC2 then (rune_error, 1%nat)
  else if b0 <? 0xE0 then
    match tl with b1 :: _ => if second_ok b0 b1 then ((b0 - 0xC0) * 64 + (b1 - 0x80), 2%nat) else (rune_error, 1%nat)
    | _ => (rune_error, 1%nat) end
  else if b0 <? 0xF0 then
    match tl with b1 :: b2 :: _ =>
      if second_ok b0 b1 && cont b2 then ((b0 - 0xE0) * 4096 + (b1 - 0x80) * 64 + (b2 - 0x80), 3%nat) else (rune_error, 1%nat)
    | _ => (rune_error, 1%nat) end
  else if b0 <? 0xF5 then
    match tl with b1 :: b2 :: b3 :: _ =>
      if second_ok b0 b1 && cont b2 && cont b3 then
        ((b0 - 0xF0) * 262144 + (b1 - 0x80) * 4096 + (b2 - 0x80) * 64 + (b3 - 0x80), 4%nat) else (rune_error, 1%nat)
    | _ => (rune_error, 1%nat) end
  else (rune_error, 1%nat).
Fixpoint runes_fuel (fuel : nat) (s : bytes) : list Z :=
  match fuel, s with
  | S f, b0 :: tl => let '(r, n) := decode_rune b0 tl in r :: runes_fuel f (skipn (n - 1) tl)
  | _, _ => []
  end.
(** the runes "for _, r := range s" visits *)
Definition runes (s : bytes) : list Z := runes_fuel (List.length s) s.
(** utf8.Valid *)
Definition utf8_valid (s : bytes) : bool := bytes_eqb (utf8_encode (runes s)) s.

Lemma decode_rune_size b0 tl : (1 <= snd (decode_rune b0 tl) <= S (List.length tl))%nat.
Proof.
  unfold decode_rune.
  repeat match goal with
  | |- context[if ?c then _ else _] => destruct c
  | |- context[match ?l with [] => _ | _ => _ end] => destruct l
  end; cbn; lia.
Qed.
Lemma runes_fuel_eq f : forall f' s, (List.length s <= f)%nat -> (List.length s <= f')%nat -> runes_fuel f s = runes_fuel f' s.
Proof.
  induction f as [|f IH]; intros [|f'] [|b0 tl] H H'; cbn [List.length] in *; try lia; try reflexivity.
  cbn [runes_fuel]. pose proof (decode_rune_size b0 tl) as Hs. destruct (decode_rune b0 tl) as [r n]. cbn [snd] in Hs.
  f_equal. apply IH; rewrite skipn_length; lia.
Qed.
Lemma runes_cons b0 tl : runes (b0 :: tl) = fst (decode_rune b0 tl) :: runes (skipn (snd (decode_rune b0 tl) - 1) tl).
Proof.
  unfold runes. cbn [List.length runes_fuel]. destruct (decode_rune b0 tl) as [r n] eqn:E. cbn [fst snd]. f_equal.
  apply runes_fuel_eq; rewrite skipn_length; lia.
Qed.
(** decoding an encoded scalar value *)
Lemma utf8_rune_decode r rest : scalar r -> exists b0 tl, utf8_rune r = b0 :: tl /\
  decode_rune b0 (tl ++ rest) = (r, S (List.length tl)).
Proof.
  intros Hr. pose proof (proj2 (scalarb_spec r) Hr) as Hb. unfold utf8_rune. rewrite Hb. clear Hb.
  unfold scalar in Hr. unfold decode_rune, second_ok, cont.
  destruct (Z.ltb_spec r 0x80); [|destruct (Z.ltb_spec r 0x800); [|destruct (Z.ltb_spec r 0x10000)]];
    (eexists; eexists; split; [reflexivity|]; cbn [app List.length]);
    repeat match goal with
    | |- context[if ?a <? ?b then _ else _] => destruct (Z.ltb_spec a b); [try (exfalso; lia)|try (exfalso; lia)]
    end; 
    repeat match goal with
    | |- context[if ?a =? ?b then _ else _] => destruct (Z.eqb_spec a b)
    end;
    try match goal with |- (if ?c then _ else _) = _ => assert (Hc : c = true) by lia; rewrite Hc end;
    f_equal; lia.
Qed.
Theorem runes_utf8_encode rs : Forall scalar rs -> runes (utf8_encode rs) = rs.
Proof.
  induction rs as [|r rs IH]; intros H; [reflexivity|]. inversion H as [|? ? Hr Hrs]; subst.
  unfold utf8_encode in *. cbn [flat_map].
  destruct (utf8_rune_decode r (flat_map utf8_rune rs) Hr) as (b0 & tl & E & D). rewrite E. cbn [app].
  rewrite runes_cons, D. cbn [fst snd]. rewrite Nat.sub_succ, Nat.sub_0_r.
  rewrite skipn_app, Nat.sub_diag, skipn_all2 by auto. cbn [app skipn]. rewrite IH by auto. reflexivity.
Qed.
(** every rune of a byte string is a scalar value *)
Lemma decode_rune_scalar b0 tl : 0 <= b0 < 256 -> bytes_ok tl -> scalar (fst (decode_rune b0 tl)).
Proof.
  intros H0 Hok. unfold decode_rune, second_ok, cont.
  assert (E : scalar rune_error) by (unfold scalar, rune_error; lia).
  destruct (Z.ltb_spec b0 0x80); [unfold scalar; cbn; lia|]. destruct (Z.ltb_spec b0 0xC2); [exact E|].
  destruct (Z.ltb_spec b0 0xE0).
  { destruct tl as [|b1 tl]; [exact E|]. repeat match goal with |- context[if ?a =? ?b then _ else _] => destruct (Z.eqb_spec a b); [lia|] end.
    destruct (_ && _) eqn:C; [|exact E]. unfold scalar. cbn [fst]. lia. }
  destruct (Z.ltb_spec b0 0xF0).
  { destruct tl as [|b1 [|b2 tl]]; try exact E. 
    destruct (Z.eqb_spec b0 0xE0); [|destruct (Z.eqb_spec b0 0xED); [|repeat match goal with |- context[if ?a =? ?b then _ else _] => destruct (Z.eqb_spec a b); [lia|] end]];
    (match goal with |- context[if ?c then _ else _] => destruct c eqn:C end; [|exact E]; unfold scalar; cbn [fst]; lia). }
  destruct (Z.ltb_spec b0 0xF5); [|exact E].
  destruct tl as [|b1 [|b2 [|b3 tl]]]; try exact E.
  do 2 (match goal with |- context[if ?a =? ?b then _ else _] => destruct (Z.eqb_spec a b); [lia|] end).
  destruct (Z.eqb_spec b0 0xF0); [|destruct (Z.eqb_spec b0 0xF4)];
    (match goal with |- context[if ?c then _ else _] => destruct c eqn:C end; [|exact E]; unfold scalar; cbn [fst]; lia).
Qed.
Theorem runes_scalar s : bytes_ok s -> Forall scalar (runes s).
Proof.
  unfold runes. generalize (List.length s) as f. intros f. revert s. induction f as [|f IH]; intros [|b0 tl] H; cbn [runes_fuel]; auto.
  apply bytes_ok_cons in H. destruct H as [H0 H]. pose proof (decode_rune_scalar b0 tl H0 H) as HS.
  destruct (decode_rune b0 tl) as [r n]. constructor; auto.
Qed.
(** a string is valid UTF-8 exactly if it is the encoding of some sequence of scalar values *)
Theorem utf8_valid_iff s : bytes_ok s -> utf8_valid s = true <-> exists rs, Forall scalar rs /\ s = utf8_encode rs.
Proof.
  intros Hs. unfold utf8_valid. rewrite bytes_eqb_spec. split.
  - intros E. exists (runes s). split; [apply runes_scalar; auto|auto].
  - intros (rs & H & ->). rewrite runes_utf8_encode by auto. reflexivity.
Qed.

(** utf16.EncodeRune's first result is U+FFFD exactly when no surrogate pair is needed *)
Definition utf16_EncodeRune (r : Z) : Z * Z :=
  if (r <? 0x10000) || (0x10FFFF <? r) then (0xFFFD, 0xFFFD)
  else let r := r - 0x10000 in (0xD800 + r / 1024 mod 1024, 0xDC00 + r mod 1024).
(** utf16.Decode *)
Fixpoint utf16_Decode (s : list Z) : list Z :=
  match s with
  | [] => []
  | r :: tl =>
      if (r <? 0xD800) || (0xE000 <=? r) then r :: utf16_Decode tl
      else match tl with
           | r2 :: tl2 => if (r <? 0xDC00) && (0xDC00 <=? r2) && (r2 <? 0xE000)
                          then ((r - 0xD800) * 1024 + (r2 - 0xDC00) + 0x10000) :: utf16_Decode tl2
                          else rune_error :: utf16_Decode tl
           | [] => rune_error :: utf16_Decode tl
           end
  end.
