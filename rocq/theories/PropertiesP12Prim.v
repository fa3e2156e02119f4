(** * Properties C34-C37 (package pkcs12: BMP strings, RC2, key derivation) *)
From Verif Require Import Base Utf8 BMPModel RC2Spec RC2Model RC2Proofs PbkdfSpec PbkdfModel PbkdfProofs.
From Coq Require Import ZifyBool ZifyNat.
Ltac Zify.zify_post_hook ::= Z.div_mod_to_equations.

(** ** C34.  [runes s] are the code points "range s" visits; for valid UTF-8 they are the characters *)
Theorem C34_encode : forall s, bytes_ok s ->
  (Forall (fun r => r <= 0xFFFF) (runes s) ->
     bmpString s = Ret (flat_map (fun r => Z_to_be 2 r) (runes s) ++ [0; 0])) /\
  (~ Forall (fun r => r <= 0xFFFF) (runes s) -> exists e, bmpString s = Err e).
Proof.
  intros s Hs. destruct (bmp_loop_spec (runes s) (runes_scalar s Hs)) as [A B]. unfold bmpString. split; intros H.
  - rewrite A by auto. reflexivity.
  - assert (X : Exists (fun r => 0xFFFF < r) (runes s)).
    { apply neg_Forall_Exists_neg in H; [|intros x; destruct (Z_le_gt_dec x 65535); auto].
      rewrite Exists_exists in *. destruct H as (x & I & N). exists x. split; auto. lia. }
    destruct (B X) as [e ->]. exists e. reflexivity.
Qed.
Print Assumptions C34_encode.
Theorem C34_length : forall s b, bytes_ok s -> bmpString s = Ret b -> zlen b = 2 * zlen (runes s) + 2.
Proof.
  intros s b Hs E. destruct (C34_encode s Hs) as [A B].
  destruct (Forall_dec (fun r => r <= 65535) (fun x => Z_le_dec x 65535) (runes s)) as [F|F].
  - rewrite (A F) in E. injection E as <-. unfold zlen. rewrite app_length, flat_be2_length. cbn [List.length]. lia.
  - destruct (B F) as [e E']. rewrite E' in E. discriminate E.
Qed.
Print Assumptions C34_length.
(** decoding inverts encoding on every valid UTF-8 string without characters above U+FFFF *)
Theorem C34_roundtrip : forall s b, bytes_ok s -> utf8_valid s = true -> bmpString s = Ret b -> decodeBMPString b = Ret s.
Proof.
  intros s b Hs Hv E. destruct (C34_encode s Hs) as [A B].
  destruct (Forall_dec (fun r => r <= 65535) (fun x => Z_le_dec x 65535) (runes s)) as [F|F].
  2:{ destruct (B F) as [e E']. rewrite E' in E. discriminate E. }
  rewrite (A F) in E. assert (Eb : b = flat_map (fun r => Z_to_be 2 r) (runes s) ++ [0; 0]) by congruence. subst b. unfold decodeBMPString.
  assert (Ev : zlen (flat_map (fun r => Z_to_be 2 r) (runes s) ++ [0; 0]) mod 2 = 0).
  { unfold zlen. rewrite app_length, flat_be2_length. cbn [List.length]. lia. }
  rewrite Ev. cbn [Z.eqb negb]. rewrite strip_terminated.
  pose proof (runes_scalar s Hs) as Sc.
  assert (U : units (flat_map (fun r => Z_to_be 2 r) (runes s)) = runes s).
  { pose proof (units_be (runes s) []) as U. rewrite app_nil_r in U. cbn [units] in U. rewrite app_nil_r in U. apply U.
    rewrite Forall_forall in *. intros x Hx. specialize (Sc x Hx). specialize (F x Hx). unfold scalar in Sc. lia. }
  rewrite U, utf16_Decode_bmp by auto. f_equal. unfold utf8_valid in Hv. apply bytes_eqb_spec in Hv. exact Hv.
Qed.
Print Assumptions C34_roundtrip.
(** what decoding does to any sequence of BMP characters: one trailing U+0000 is a terminator, without it
    nothing is removed *)
Theorem C34_decode_terminator : forall rs, Forall (fun r => 0 <= r <= 0xFFFF /\ ~ (0xD800 <= r <= 0xDFFF)) rs ->
  decodeBMPString (flat_map (fun r => Z_to_be 2 r) rs ++ [0; 0]) = Ret (utf8_encode rs) /\
  (last rs 1 <> 0 -> decodeBMPString (flat_map (fun r => Z_to_be 2 r) rs) = Ret (utf8_encode rs)).
Proof.
  intros rs H. assert (Sc : Forall scalar rs) by (eapply Forall_impl; [|exact H]; unfold scalar; cbv beta; lia).
  assert (B : Forall (fun r => 0 <= r <= 0xFFFF) rs) by (eapply Forall_impl; [|exact H]; cbv beta; lia).
  assert (B' : Forall (fun r => r <= 0xFFFF) rs) by (eapply Forall_impl; [|exact H]; cbv beta; lia).
  assert (U : units (flat_map (fun r => Z_to_be 2 r) rs) = rs).
  { pose proof (units_be rs [] B) as U. rewrite app_nil_r in U. cbn [units] in U. rewrite app_nil_r in U. exact U. }
  pose proof (flat_be2_length rs) as L. unfold decodeBMPString. split.
  - assert (Ev : zlen (flat_map (fun r => Z_to_be 2 r) rs ++ [0; 0]) mod 2 = 0) by (unfold zlen; rewrite app_length, L; cbn [List.length]; lia).
    rewrite Ev. cbn [Z.eqb negb]. rewrite strip_terminated, U, utf16_Decode_bmp by auto. reflexivity.
  - intros Hl. assert (Ev : zlen (flat_map (fun r => Z_to_be 2 r) rs) mod 2 = 0) by (unfold zlen; rewrite L; lia).
    rewrite Ev. cbn [Z.eqb negb].
    assert (St : strip_terminator (flat_map (fun r => Z_to_be 2 r) rs) = flat_map (fun r => Z_to_be 2 r) rs).
    { destruct rs as [|r0 rs0] using rev_ind; [reflexivity|]. rewrite last_last in Hl. apply Forall_app in B as [_ B]. inversion B as [|? ? B0 _]; subst. clear IHrs0.
      rewrite flat_map_app. cbn [flat_map]. rewrite app_nil_r. change (Z_to_be 2 r0) with [r0 / 256 mod 256; r0 mod 256].
      set (a := flat_map (fun r => Z_to_be 2 r) rs0). unfold strip_terminator. rewrite app_length. cbn [List.length].
      rewrite !app_nth2 by lia. replace (List.length a + 2 - 1 - List.length a)%nat with 1%nat by lia. replace (List.length a + 2 - 2 - List.length a)%nat with 0%nat by lia. cbn [nth].
      destruct ((2 <=? List.length a + 2)%nat && (r0 mod 256 =? 0) && (r0 / 256 mod 256 =? 0)) eqn:E; [|reflexivity]. exfalso. lia. }
    rewrite St, U, utf16_Decode_bmp by auto. reflexivity.
Qed.
Print Assumptions C34_decode_terminator.
Theorem C34_decode_total : forall b, (exists s, decodeBMPString b = Ret s) <-> (zlen b mod 2 = 0).
Proof.
  intros b. unfold decodeBMPString. destruct (Z.eqb_spec (zlen b mod 2) 0); cbn [negb]; split; intros H; auto.
  - eauto.
  - destruct H as [s H]. discriminate H.
  - lia.
Qed.
Print Assumptions C34_decode_total.
Theorem C34_encode_injective : forall s s' b, bytes_ok s -> bytes_ok s' -> utf8_valid s = true -> utf8_valid s' = true ->
  bmpString s = Ret b -> bmpString s' = Ret b -> s = s'.
Proof.
  intros s s' b H H' V V' E E'. apply C34_roundtrip in E; auto. apply C34_roundtrip in E'; auto. congruence.
Qed.
Print Assumptions C34_encode_injective.
(** "é字" in UTF-8, and a character outside the BMP *)
Example C34_instance : utf8_valid [0xC3; 0xA9; 0xE5; 0xAD; 0x97] = true /\
  bmpString [0xC3; 0xA9; 0xE5; 0xAD; 0x97] = Ret [0; 0xE9; 0x5B; 0x57; 0; 0] /\
  is_err (bmpString [0xF0; 0x9F; 0x98; 0x80]) = true.
Proof. repeat split; reflexivity. Qed.

(** ** C35.  For every key New accepts (and in fact every schedule) and every 8-byte block *)
Theorem C35_decrypt_encrypt : forall key t1 c b, rc2_New key t1 = Ret c -> bytes_ok b -> zlen b = 8 ->
  exists e, rc2_Encrypt c b = Ret e /\ bytes_ok e /\ zlen e = 8 /\ rc2_Decrypt c e = Ret b.
Proof. intros key t1 c b _ Hb Hl. unfold zlen in *. destruct (rc2_dec_enc c b Hb ltac:(lia)) as (e & A & B & C & D). exists e. repeat split; auto. lia. Qed.
Print Assumptions C35_decrypt_encrypt.
Theorem C35_encrypt_decrypt : forall key t1 c b, rc2_New key t1 = Ret c -> bytes_ok b -> zlen b = 8 ->
  exists d, rc2_Decrypt c b = Ret d /\ bytes_ok d /\ zlen d = 8 /\ rc2_Encrypt c d = Ret b.
Proof. intros key t1 c b _ Hb Hl. unfold zlen in *. destruct (rc2_enc_dec c b Hb ltac:(lia)) as (e & A & B & C & D). exists e. repeat split; auto. lia. Qed.
Print Assumptions C35_encrypt_decrypt.
(** hence a permutation of the blocks *)
Theorem C35_permutation : forall key t1 c, rc2_New key t1 = Ret c ->
  (forall b b', bytes_ok b -> bytes_ok b' -> zlen b = 8 -> zlen b' = 8 -> rc2_Encrypt c b = rc2_Encrypt c b' -> b = b') /\
  (forall e, bytes_ok e -> zlen e = 8 -> exists b, bytes_ok b /\ zlen b = 8 /\ rc2_Encrypt c b = Ret e).
Proof.
  intros key t1 c E. split.
  - intros b b' H H' L L' Q. destruct (C35_decrypt_encrypt key t1 c b E H L) as (e & A & _ & _ & D).
    destruct (C35_decrypt_encrypt key t1 c b' E H' L') as (e' & A' & _ & _ & D'). assert (e = e') by congruence. subst e'. congruence.
  - intros e H L. destruct (C35_encrypt_decrypt key t1 c e E H L) as (b & _ & B & C & D). eauto.
Qed.
Print Assumptions C35_permutation.

(** ** C36 *)
Theorem C36_key_schedule : forall key t1, bytes_ok key -> 1 <= zlen key <= 128 -> 1 <= t1 <= 1024 ->
  exists K, rc2_New key t1 = Ret K /\ forall K', key_schedule key t1 K' <-> K' = K.
Proof.
  intros key t1 Hb Hk H1. destruct (expandKey_schedule key t1 Hb Hk H1) as (K & E & S). exists K. split; [exact E|].
  intros K'. split; [|intros ->; exact S]. intros S'. apply (schedule_unique key t1); auto; lia.
Qed.
Print Assumptions C36_key_schedule.
Theorem C36_encrypt : forall key t1 K b, bytes_ok key -> 1 <= zlen key <= 128 -> 1 <= t1 <= 1024 -> bytes_ok b -> zlen b = 8 ->
  key_schedule key t1 K -> exists c, rc2_New key t1 = Ret c /\ rc2_Encrypt c b = Ret (rc2_block K b).
Proof.
  intros key t1 K b Hb Hk H1 Bb Bl S. destruct (C36_key_schedule key t1 Hb Hk H1) as (K' & E & U). exists K'. split; auto.
  apply U in S. subst. apply rc2_Encrypt_spec; auto. unfold zlen in Bl. lia.
Qed.
Print Assumptions C36_encrypt.
(** what New does outside the RFC's ranges *)
Theorem C36_bad_lengths_panic : forall key t1, bytes_ok key -> zlen key <= 128 -> 0 <= t1 ->
  (zlen key = 0 \/ t1 = 0 \/ 1024 < t1) -> rc2_New key t1 = Panic.
Proof. exact expandKey_panics. Qed.
Print Assumptions C36_bad_lengths_panic.
(** RFC 2268 section 5 test vectors *)
Definition rc2_run (key : bytes) (t1 : Z) (b : bytes) : outcome bytes := do c <- rc2_New key t1; rc2_Encrypt c b.
Example C36_vectors :
  rc2_run [0;0;0;0;0;0;0;0] 63 [0;0;0;0;0;0;0;0] = Ret [0xeb;0xb7;0x73;0xf9;0x93;0x27;0x8e;0xff] /\
  rc2_run [0xff;0xff;0xff;0xff;0xff;0xff;0xff;0xff] 64 [0xff;0xff;0xff;0xff;0xff;0xff;0xff;0xff] = Ret [0x27;0x8b;0x27;0xe4;0x2e;0x2f;0x0d;0x49] /\
  rc2_run [0x88] 64 [0;0;0;0;0;0;0;0] = Ret [0x61;0xa8;0xa2;0x44;0xad;0xac;0xcc;0xf0].
Proof. vm_compute. auto. Qed.

(** ** C37.  [H] is any function with 20-byte results (the code passes SHA-1) *)
Theorem C37_pbkdf : forall (H : bytes -> bytes), (forall x, zlen (H x) = 20) -> (forall x, bytes_ok (H x)) ->
  forall salt password r ID size, bytes_ok salt -> bytes_ok password -> 1 <= r -> 0 <= size ->
  pbkdf H 20 64 salt password r ID size = Ret (kdf H 20 64 salt password (Z.to_nat r) ID (Z.to_nat size)).
Proof.
  intros H HL HO salt pwd r ID size Hs Hp Hr Hz.
  assert (HL' : forall x, List.length (H x) = 20%nat) by (intros x; specialize (HL x); unfold zlen in HL; lia).
  rewrite <- (Z.max_l r 1) at 2 by lia. exact (pbkdf_kdf H HL' HO 64 ltac:(lia) salt pwd r ID Hs Hp size Hz).
Qed.
Print Assumptions C37_pbkdf.
(** iteration counts below 1 (they come unchecked from the file) behave like 1 *)
Theorem C37_low_count : forall (H : bytes -> bytes), (forall x, zlen (H x) = 20) -> (forall x, bytes_ok (H x)) ->
  forall salt password r ID size, bytes_ok salt -> bytes_ok password -> r < 1 -> 0 <= size ->
  pbkdf H 20 64 salt password r ID size = pbkdf H 20 64 salt password 1 ID size.
Proof.
  intros H HL HO salt pwd r ID size Hs Hp Hr Hz.
  assert (HL' : forall x, List.length (H x) = 20%nat) by (intros x; specialize (HL x); unfold zlen in HL; lia).
  rewrite (C37_pbkdf H HL HO _ _ 1) by (auto; lia).
  replace 1%Z with (Z.max r 1) at 1 by lia. exact (pbkdf_kdf H HL' HO 64 ltac:(lia) salt pwd r ID Hs Hp size Hz).
Qed.
Print Assumptions C37_low_count.
Theorem C37_length : forall (H : bytes -> bytes), (forall x, zlen (H x) = 20) -> (forall x, bytes_ok (H x)) ->
  forall salt password r ID size, bytes_ok salt -> bytes_ok password ->
  if size <? 0 then pbkdf H 20 64 salt password r ID size = Panic
  else exists k, pbkdf H 20 64 salt password r ID size = Ret k /\ zlen k = size.
Proof.
  intros H HL HO salt pwd r ID size Hs Hp. assert (HL' : forall x, List.length (H x) = 20%nat) by (intros x; specialize (HL x); unfold zlen in HL; lia).
  destruct (Z.ltb_spec size 0).
  - unfold pbkdf. replace (size <? 0) with true by lia. reflexivity.
  - eexists. split; [exact (pbkdf_kdf H HL' HO 64 ltac:(lia) salt pwd r ID Hs Hp size ltac:(lia))|].
    unfold zlen. rewrite kdf_length; auto; lia.
Qed.
Print Assumptions C37_length.
(** a hash-like function for which two output blocks and a carry across the block occur *)
Definition toy_hash (x : bytes) : bytes := Z_to_be 20 (be_to_Z x + 2 ^ 160 - 1).
Example C37_instance :
  (forall x, zlen (toy_hash x) = 20) /\ (forall x, bytes_ok (toy_hash x)) /\
  pbkdf toy_hash 20 64 [255; 254] [0; 65; 0; 0] 2 1 24 =
    Ret (kdf toy_hash 20 64 [255; 254] [0; 65; 0; 0] 2 1 24) /\
  zlen (kdf toy_hash 20 64 [255; 254] [0; 65; 0; 0] 2 1 24) = 24.
Proof.
  assert (A : forall x, zlen (toy_hash x) = 20) by (intros; apply Z_to_be_zlen).
  assert (B : forall x, bytes_ok (toy_hash x)) by (intros; apply Z_to_be_ok).
  repeat split; auto.
Qed.
