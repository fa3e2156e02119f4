(** * Model of pkcs12/bmp-string.go *)
From Verif Require Import Base Utf8.
From Coq Require Import ZifyBool ZifyNat.
Ltac Zify.zify_post_hook ::= Z.div_mod_to_equations.

(** bmp-string.go:23-28: the loop; byte(r/256) truncates to 8 bits (r is at most 0xFFFF there) *)
Fixpoint bmp_loop (rs : list Z) : outcome bytes :=
  match rs with
  | [] => Ret []
  | r :: rs' =>
      if negb (fst (utf16_EncodeRune r) =? 0xFFFD) then Err "string contains characters that cannot be encoded in UCS-2"
      else do ret <- bmp_loop rs'; Ret (r / 256 mod 256 :: r mod 256 :: ret)
  end.
(** bmp-string.go:13-31 *)
Definition bmpString (s : bytes) : outcome bytes :=
  do ret <- bmp_loop (runes s); Ret (ret ++ [0; 0]).

(** bmp-string.go:43-47 *)
Fixpoint units (b : bytes) : list Z :=
  match b with
  | b0 :: b1 :: b' => ((b0 * 256) mod 65536 + b1) mod 65536 :: units b'
  | _ => []
  end.
(** bmp-string.go:38-41 *)
Definition strip_terminator (b : bytes) : bytes :=
  let l := List.length b in
  if (2 <=? l)%nat && (nth (l - 1) b 0 =? 0) && (nth (l - 2) b 0 =? 0) then firstn (l - 2) b else b.
(** bmp-string.go:33-50 *)
Definition decodeBMPString (b : bytes) : outcome bytes :=
  if negb (zlen b mod 2 =? 0) then Err "odd-length BMP string"
  else Ret (utf8_encode (utf16_Decode (units (strip_terminator b)))).

(** ** proofs *)
Lemma bmp_loop_spec rs : Forall scalar rs ->
  (Forall (fun r => r <= 0xFFFF) rs -> bmp_loop rs = Ret (flat_map (fun r => Z_to_be 2 r) rs)) /\
  (Exists (fun r => 0xFFFF < r) rs -> exists e, bmp_loop rs = Err e).
Proof.
  induction rs as [|r rs IH]; intros H; [split; [reflexivity|intros X; inversion X]|].
  inversion H as [|? ? Hr Hrs]; subst. destruct (IH Hrs) as [I1 I2]. clear IH. cbn [bmp_loop].
  unfold utf16_EncodeRune. unfold scalar in Hr.
  destruct (Z.le_gt_cases r 0xFFFF) as [L|L].
  - assert ((r <? 65536) || (1114111 <? r) = true) as -> by lia. cbn [fst]. change (negb (65533 =? 65533)) with false. cbn iota.
    split.
    + intros F. inversion F; subst. rewrite I1 by auto. cbn [bind flat_map Z_to_be app]. reflexivity.
    + intros X. inversion X; subst; [lia|]. destruct (I2 H1) as [e ->]. exists e. reflexivity.
  - assert ((r <? 65536) || (1114111 <? r) = false) as -> by lia. cbn [fst].
    assert (negb (55296 + (r - 65536) / 1024 mod 1024 =? 65533) = true) as -> by lia.
    split; [intros F; inversion F; lia|]. intros _. eexists; reflexivity.
Qed.
Lemma units_be rs tl : Forall (fun r => 0 <= r <= 0xFFFF) rs -> units (flat_map (fun r => Z_to_be 2 r) rs ++ tl) = rs ++ units tl.
Proof.
  induction rs as [|r rs IH]; intros H; [reflexivity|]. inversion H; subst. cbn [flat_map]. rewrite <- app_assoc.
  change (Z_to_be 2 r) with [r / 256 mod 256; r mod 256]. cbn [app units].
  rewrite IH by auto. f_equal. lia.
Qed.
Lemma utf16_Decode_bmp rs : Forall scalar rs -> Forall (fun r => r <= 0xFFFF) rs -> utf16_Decode rs = rs.
Proof.
  induction rs as [|r rs IH]; intros H L; [reflexivity|]. inversion H; inversion L; subst. cbn [utf16_Decode].
  assert ((r <? 55296) || (57344 <=? r) = true) as -> by (unfold scalar in *; lia). rewrite IH; auto.
Qed.
Lemma strip_terminated b : strip_terminator (b ++ [0; 0]) = b.
Proof.
  unfold strip_terminator. rewrite app_length. cbn [List.length].
  rewrite !app_nth2 by lia. replace (List.length b + 2 - 1 - List.length b)%nat with 1%nat by lia.
  replace (List.length b + 2 - 2 - List.length b)%nat with 0%nat by lia. cbn [nth].
  rewrite (proj2 (Nat.leb_le _ _)) by lia. cbn [andb Z.eqb]. apply firstn_app_exact. lia.
Qed.
Lemma flat_be2_length rs : List.length (flat_map (fun r => Z_to_be 2 r) rs) = (2 * List.length rs)%nat.
Proof. induction rs; cbn [flat_map]; [reflexivity|]. rewrite app_length, Z_to_be_length, IHrs. cbn [List.length]. lia. Qed.
Lemma bmpString_ok s b : bmpString s = Ret b -> bytes_ok b.
Proof.
  unfold bmpString. assert (forall rs b, bmp_loop rs = Ret b -> bytes_ok b) as HL.
  { clear. induction rs as [|r rs IH]; intros b; cbn [bmp_loop]; [intros [= <-]; auto|]. destruct (negb _); [discriminate|].
    destruct (bmp_loop rs); cbn [bind]; try discriminate. intros [= <-].
    apply bytes_ok_cons. split; [unfold byte_ok; lia|]. apply bytes_ok_cons. split; [unfold byte_ok; lia|]. apply IH. reflexivity. }
  destruct (bmp_loop (runes s)) eqn:E; cbn [bind]; try discriminate. intros [= <-].
  apply bytes_ok_app. split; [eauto|]. repeat constructor; unfold byte_ok; lia.
Qed.
