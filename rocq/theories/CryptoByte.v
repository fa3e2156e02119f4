(** * Model of golang.org/x/crypto v0.18.0 cryptobyte (asn1.go, builder.go, string.go): the ASN.1
    reader (String) and writer (Builder) used by sm2.go:202-225 and all of x509/parser.go.
    The library is not part of /repo; go.mod pins it.  The reader advances a string: a read
    function returns the value and the rest, or None (Go: false). *)
From Verif Require Import Base Words.
From Coq Require Import ZifyBool ZifyNat.

Definition T_BOOLEAN : Z := 1.
Definition T_INTEGER : Z := 2.
Definition T_BIT_STRING : Z := 3.
Definition T_OCTET_STRING : Z := 4.
Definition T_NULL : Z := 5.
Definition T_OID : Z := 6.
Definition T_ENUM : Z := 10.
Definition T_UTF8String : Z := 12.
Definition T_SEQUENCE : Z := 48.
Definition T_SET : Z := 49.
Definition T_PrintableString : Z := 19.
Definition T_T61String : Z := 20.
Definition T_IA5String : Z := 22.
Definition T_UTCTime : Z := 23.
Definition T_GeneralizedTime : Z := 24.

(** ** Reader *)
(** string.go readUnsigned (uint32 arithmetic; at most 4 bytes are read) *)
Definition readUnsigned (l : bytes) : Z := be_to_Z l mod 2 ^ 32.

(** asn1.go readASN1: one element; returns tag, whole element (header included), content, rest *)
Definition readAnyElt (s : bytes) : option (Z * bytes * bytes * bytes) :=
  match s with
  | tag :: lenByte :: _ =>
      if Z.land tag 0x1f =? 0x1f then None else
      let hl :=
        if Z.land lenByte 0x80 =? 0 then Some (lenByte + 2, 2)
        else
          let lenLen := Z.land lenByte 0x7f in
          if (lenLen =? 0) || (4 <? lenLen) || (zlen s <? 2 + lenLen) then None else
          let len32 := readUnsigned (firstn (Z.to_nat lenLen) (skipn 2 s)) in
          if len32 <? 128 then None else
          if Z.shiftr len32 ((lenLen - 1) * 8) =? 0 then None else
          let headerLen := 2 + lenLen in
          if (headerLen + len32) mod 2 ^ 32 <? len32 then None else
          Some (headerLen + len32, headerLen) in
      match hl with
      | None => None
      | Some (length, headerLen) =>
          if zlen s <? length then None else
          let elt := firstn (Z.to_nat length) s in
          Some (tag, elt, skipn (Z.to_nat headerLen) elt, skipn (Z.to_nat length) s)
      end
  | _ => None
  end.

(** ReadAnyASN1: content *)
Definition readAny (s : bytes) : option (Z * bytes * bytes) :=
  match readAnyElt s with Some (t, _, c, r) => Some (t, c, r) | None => None end.
(** ReadASN1(out, tag) *)
Definition readASN1 (tag : Z) (s : bytes) : option (bytes * bytes) :=
  match readAnyElt s with
  | Some (t, _, c, r) => if t =? tag then Some (c, r) else None
  | None => None
  end.
(** ReadASN1Element(out, tag): header included *)
Definition readASN1Element (tag : Z) (s : bytes) : option (bytes * bytes) :=
  match readAnyElt s with
  | Some (t, e, _, r) => if t =? tag then Some (e, r) else None
  | None => None
  end.
(** PeekASN1Tag *)
Definition peekTag (tag : Z) (s : bytes) : bool := match s with t :: _ => t =? tag | [] => false end.
(** ReadOptionalASN1: (present, content, rest) *)
Definition readOptional (tag : Z) (s : bytes) : option (bool * bytes * bytes) :=
  if peekTag tag s then match readASN1 tag s with Some (c, r) => Some (true, c, r) | None => None end
  else Some (false, [], s).
(** SkipOptionalASN1 *)
Definition skipOptional (tag : Z) (s : bytes) : option bytes :=
  if peekTag tag s then match readASN1 tag s with Some (_, r) => Some r | None => None end else Some s.

(** asn1.go checkASN1Integer *)
Definition checkASN1Integer (c : bytes) : bool :=
  match c with
  | [] => false
  | [_] => true
  | b0 :: b1 :: _ =>
      negb (((b0 =? 0) && (Z.land b1 0x80 =? 0)) || ((b0 =? 0xff) && (Z.land b1 0x80 =? 0x80)))
  end.
(** asn1.go readASN1BigInt (ReadASN1Integer into *big.Int); ^b on a byte is 255 - b *)
Definition bigint_of_content (c : bytes) : Z :=
  match c with
  | b0 :: _ => if Z.land b0 0x80 =? 0x80 then - (be_to_Z (map (fun b => 255 - b) c) + 1) else be_to_Z c
  | [] => 0
  end.
Definition readBigInt (s : bytes) : option (Z * bytes) :=
  match readASN1 T_INTEGER s with
  | Some (c, r) => if checkASN1Integer c then Some (bigint_of_content c, r) else None
  | None => None
  end.
(** asn1.go readASN1Int64: at most 8 bytes; shifting each byte in and sign-extending is the
    two's complement value *)
Definition readInt64 (s : bytes) : option (Z * bytes) :=
  match readASN1 T_INTEGER s with
  | Some (c, r) => if checkASN1Integer c && (zlen c <=? 8) then Some (bigint_of_content c, r) else None
  | None => None
  end.
(** ReadASN1Boolean: exactly one content byte, 0 or 0xff *)
Definition readBool (s : bytes) : option (bool * bytes) :=
  match readASN1 T_BOOLEAN s with
  | Some ([b], r) => if b =? 0 then Some (false, r) else if b =? 0xff then Some (true, r) else None
  | _ => None
  end.

(** ** Writer *)
(** builder.go flushChild: the DER length octets; None when the child is longer than 0xfffffffe *)
Definition der_len (n : Z) : option bytes :=
  if 0xfffffffe <? n then None
  else if 0xffffff <? n then Some (Z.lor 0x80 4 :: Z_to_be 4 n)
  else if 0xffff <? n then Some (Z.lor 0x80 3 :: Z_to_be 3 n)
  else if 0xff <? n then Some (Z.lor 0x80 2 :: Z_to_be 2 n)
  else if 0x7f <? n then Some (Z.lor 0x80 1 :: Z_to_be 1 n)
  else Some [n].
(** builder.go AddASN1(tag, f) where f wrote [content] *)
Definition addASN1 (tag : Z) (content : bytes) : outcome bytes :=
  if Z.land tag 0x1f =? 0x1f then Err "cryptobyte: high-tag number identifier octects not supported" else
  match der_len (zlen content) with
  | Some l => Ret (tag :: l ++ content)
  | None => Err "pending ASN.1 child too long"
  end.
(** builder.go AddASN1BigInt: the content octets *)
Definition bigint_content (n : Z) : bytes :=
  if n <? 0 then
    let bytes := map (fun b => Z.lxor b 0xff) (big_bytes (- n - 1)) in
    match bytes with
    | [] => 0xff :: bytes
    | b0 :: _ => if Z.land b0 0x80 =? 0 then 0xff :: bytes else bytes
    end
  else if n =? 0 then [0]
  else
    let bytes := big_bytes n in
    match bytes with
    | b0 :: _ => if negb (Z.land b0 0x80 =? 0) then 0 :: bytes else bytes
    | [] => bytes (* unreachable: n > 0 *)
    end.
Definition addBigInt (n : Z) : outcome bytes := addASN1 T_INTEGER (bigint_content n).

(** ** Facts *)
(** the DER element with a given tag and content *)
Definition tlv (tag : Z) (c : bytes) : bytes :=
  tag :: match der_len (zlen c) with Some l => l | None => [] end ++ c.
(** tags the library supports, and contents whose whole element stays below 2^32 bytes (longer
    ones are refused by the reader) *)
Definition tag_ok (t : Z) : Prop := byte_ok t /\ Z.land t 0x1f <> 0x1f.
Definition max_content : Z := 2 ^ 32 - 7.

Lemma land80 b : byte_ok b -> Z.land b 0x80 = if b <? 128 then 0 else 128.
Proof.
  intros H. assert (Hb : forall n, (n < 256)%nat -> Z.land (Z.of_nat n) 128 = if Z.of_nat n <? 128 then 0 else 128).
  { intros n Hn. do 256 (destruct n as [|n]; [reflexivity|]). lia. }
  specialize (Hb (Z.to_nat b)). rewrite Z2Nat.id in Hb by (destruct H; lia).
  apply Hb. destruct H; lia.
Qed.
Lemma land7f b : byte_ok b -> 128 <= b -> Z.land b 0x7f = b - 128.
Proof.
  intros H H1. change 0x7f with (Z.ones 7). rewrite Z.land_ones by lia. change (2 ^ 7) with 128.
  destruct H. symmetry. apply (Z.mod_unique b 128 1); lia.
Qed.
Lemma lxor_ff b : byte_ok b -> Z.lxor b 0xff = 255 - b.
Proof.
  intros H. assert (Hb : forall n, (n < 256)%nat -> Z.lxor (Z.of_nat n) 255 = 255 - Z.of_nat n).
  { intros n Hn. do 256 (destruct n as [|n]; [reflexivity|]). lia. }
  specialize (Hb (Z.to_nat b)). rewrite Z2Nat.id in Hb by (destruct H; lia).
  apply Hb. destruct H; lia.
Qed.

Lemma der_len_cases n : 0 <= n <= 0xfffffffe ->
  (n < 128 /\ der_len n = Some [n]) \/
  exists k, (1 <= k <= 4)%nat /\ der_len n = Some (128 + Z.of_nat k :: Z_to_be k n) /\
    256 ^ (Z.of_nat k - 1) <= n < 256 ^ Z.of_nat k /\ 128 <= n.
Proof.
  intros H. unfold der_len. rewrite (proj2 (Z.ltb_ge _ _)) by lia.
  destruct (Z.ltb_spec 0xffffff n). { right. exists 4%nat. split; [lia|]. split; [reflexivity|]. cbn. lia. }
  destruct (Z.ltb_spec 0xffff n). { right. exists 3%nat. split; [lia|]. split; [reflexivity|]. cbn. lia. }
  destruct (Z.ltb_spec 0xff n). { right. exists 2%nat. split; [lia|]. split; [reflexivity|]. cbn. lia. }
  destruct (Z.ltb_spec 0x7f n). { right. exists 1%nat. split; [lia|]. split; [reflexivity|]. cbn. lia. }
  left. split; [lia|reflexivity].
Qed.
Lemma firstn_len_app {A} (l r : list A) : firstn (List.length l) (l ++ r) = l.
Proof. apply firstn_app_exact. reflexivity. Qed.
Lemma skipn_len_app {A} (l r : list A) : skipn (List.length l) (l ++ r) = r.
Proof. apply skipn_app_exact. reflexivity. Qed.

Lemma tlv_zlen_small tag c : zlen c < 128 -> zlen (tlv tag c) = 2 + zlen c.
Proof.
  intros H. pose proof (zlen_nonneg c). unfold tlv.
  destruct (der_len_cases (zlen c) ltac:(lia)) as [[_ ->]|(k & Hk & -> & B & B')]; [|lia].
  rewrite zlen_cons, zlen_app, zlen_cons, zlen_nil. lia.
Qed.

Lemma readAny_tlv tag c rest : tag_ok tag -> zlen c <= max_content ->
  readAnyElt (tlv tag c ++ rest) = Some (tag, tlv tag c, c, rest).
Proof.
  intros [Ht Htag] Hc. pose proof (zlen_nonneg c) as H0. unfold max_content in Hc.
  unfold tlv.
  destruct (der_len_cases (zlen c) ltac:(lia)) as [[Hs ->]|(k & Hk & -> & B & B')].
  - cbn [app]. unfold readAnyElt. rewrite (proj2 (Z.eqb_neq _ _) Htag).
    rewrite land80 by (split; lia). rewrite (proj2 (Z.ltb_lt _ _)) by lia.
    rewrite Z.eqb_refl. rewrite !zlen_cons, zlen_app.
    rewrite (proj2 (Z.ltb_ge _ _)) by (pose proof (zlen_nonneg rest); lia).
    replace (Z.to_nat (zlen c + 2)) with (List.length (tag :: zlen c :: c)) by (cbn [List.length]; unfold zlen; lia).
    change (tag :: zlen c :: c ++ rest) with ((tag :: zlen c :: c) ++ rest).
    rewrite firstn_len_app, skipn_len_app. reflexivity.
  - set (LB := Z_to_be k (zlen c)).
    assert (HLB : List.length LB = k) by apply Z_to_be_length.
    change ((tag :: (128 + Z.of_nat k :: LB) ++ c) ++ rest) with (tag :: (128 + Z.of_nat k) :: ((LB ++ c) ++ rest)).
    unfold readAnyElt. rewrite (proj2 (Z.eqb_neq _ _) Htag).
    rewrite land80 by (split; lia). rewrite (proj2 (Z.ltb_ge _ _)) by lia.
    change (128 =? 0) with false. cbv iota.
    rewrite land7f by (try split; lia). replace (128 + Z.of_nat k - 128) with (Z.of_nat k) by lia.
    cbv zeta.
    rewrite (proj2 (Z.eqb_neq (Z.of_nat k) 0)) by lia. rewrite (proj2 (Z.ltb_ge 4 _)) by lia.
    rewrite !zlen_cons, !zlen_app. pose proof (zlen_nonneg rest).
    assert (HzLB : zlen LB = Z.of_nat k) by apply Z_to_be_zlen.
    rewrite HzLB.
    rewrite (proj2 (Z.ltb_ge (1 + _) _)) by lia. cbn [orb skipn].
    rewrite Nat2Z.id. rewrite <- app_assoc. rewrite firstn_app_exact by auto.
    assert (HvLB : be_to_Z LB = zlen c) by (apply be_to_Z_to_be_small; lia).
    unfold readUnsigned. rewrite HvLB. rewrite (Z.mod_small (zlen c)) by lia.
    rewrite (proj2 (Z.ltb_ge (zlen c) _)) by lia.
    assert (Z.shiftr (zlen c) ((Z.of_nat k - 1) * 8) =? 0 = false) as ->.
    { apply Z.eqb_neq. rewrite Z.shiftr_div_pow2 by lia.
      replace (2 ^ ((Z.of_nat k - 1) * 8)) with (256 ^ (Z.of_nat k - 1)).
      2:{ change 256 with (2 ^ 8). rewrite <- Z.pow_mul_r by lia. f_equal; lia. }
      pose proof (pow256_pos (Z.of_nat k - 1) ltac:(lia)).
      pose proof (Z.div_le_mono _ _ (256 ^ (Z.of_nat k - 1)) ltac:(lia) (proj1 B)) as D.
      rewrite Z.div_same in D by lia. lia. }
    rewrite (Z.mod_small (_ + zlen c)) by lia. rewrite (proj2 (Z.ltb_ge (_ + zlen c) (zlen c))) by lia.
    cbv iota beta zeta. rewrite (proj2 (Z.ltb_ge _ _)) by lia.
    replace (Z.to_nat (2 + Z.of_nat k + zlen c)) with (List.length (tag :: (128 + Z.of_nat k) :: LB ++ c))
      by (cbn [List.length]; rewrite app_length; unfold zlen in *; lia).
    change (tag :: 128 + Z.of_nat k :: LB ++ c ++ rest) with (tag :: 128 + Z.of_nat k :: (LB ++ (c ++ rest))).
    rewrite (app_assoc LB c rest).
    change (tag :: 128 + Z.of_nat k :: (LB ++ c) ++ rest) with ((tag :: 128 + Z.of_nat k :: LB ++ c) ++ rest).
    rewrite firstn_len_app, skipn_len_app.
    f_equal. f_equal. f_equal.
    replace (Z.to_nat (2 + Z.of_nat k)) with (S (S k)) by lia. cbn [skipn].
    apply skipn_app_exact; auto.
Qed.

Lemma skipn_skipn {A} n m (l : list A) : skipn n (skipn m l) = skipn (m + n) l.
Proof. revert l; induction m; intros l; [reflexivity|]. destruct l; cbn [skipn Nat.add]; [apply skipn_nil|auto]. Qed.
Lemma firstn_le_length {A} n (l : list A) : (n <= List.length l)%nat -> List.length (firstn n l) = n.
Proof. intros. rewrite firstn_length. lia. Qed.

Lemma readAny_inv s tag elt c rest : bytes_ok s -> readAnyElt s = Some (tag, elt, c, rest) ->
  s = tlv tag c ++ rest /\ elt = tlv tag c /\ tag_ok tag /\ zlen c <= max_content.
Proof.
  intros Hs. unfold readAnyElt. destruct s as [|t [|lb s]]; try discriminate.
  apply bytes_ok_cons in Hs. destruct Hs as [Ht Hs]. apply bytes_ok_cons in Hs. destruct Hs as [Hlb Hs].
  destruct (Z.eqb_spec (Z.land t 31) 31) as [|Htag]; [discriminate|].
  rewrite land80 by auto. unfold max_content.
  destruct (Z.ltb_spec lb 128) as [Hlt|Hge].
  - cbn [Z.eqb]. rewrite !zlen_cons. destruct (Z.ltb_spec (1 + (1 + zlen s)) (lb + 2)) as [|Hlen]; [discriminate|].
    destruct Hlb as [Hlb0 _].
    replace (Z.to_nat (lb + 2)) with (S (S (Z.to_nat lb))) by lia.
    change (Z.to_nat 2) with 2%nat. cbn [firstn skipn].
    intros [= <- <- <- <-].
    assert (Hz : zlen (firstn (Z.to_nat lb) s) = lb).
    { unfold zlen in *. rewrite firstn_le_length; lia. }
    unfold tlv. rewrite Hz.
    destruct (der_len_cases lb ltac:(lia)) as [[_ ->]|(k & _ & _ & _ & ?)]; [|lia].
    cbn [app]. rewrite firstn_skipn. repeat split; auto; destruct Ht; lia.
  - change (128 =? 0) with false. cbv iota zeta.
    rewrite land7f by auto. remember (lb - 128) as k eqn:Ek.
    destruct (Z.eqb_spec k 0) as [|Hk0]; [discriminate|].
    destruct (Z.ltb_spec 4 k) as [|Hk4]; [discriminate|].
    rewrite !zlen_cons. destruct (Z.ltb_spec (1 + (1 + zlen s)) (2 + k)) as [|Hlen]; [discriminate|].
    cbn [orb skipn]. set (LB := firstn (Z.to_nat k) s).
    assert (HLB : List.length LB = Z.to_nat k). { unfold LB. rewrite firstn_le_length; auto. unfold zlen in Hlen. lia. }
    assert (HLBok : bytes_ok LB) by (apply bytes_ok_firstn; auto).
    pose proof (be_to_Z_bound LB HLBok) as HB.
    assert (HzLB : zlen LB = k) by (unfold zlen; lia). rewrite HzLB in HB.
    assert (256 ^ k <= 256 ^ 4) by (apply Z.pow_le_mono_r; lia). change (256 ^ 4) with (2 ^ 32) in *.
    unfold readUnsigned. rewrite Z.mod_small by lia.
    set (len := be_to_Z LB) in *.
    destruct (Z.ltb_spec len 128) as [|H128]; [discriminate|].
    destruct (Z.eqb_spec (Z.shiftr len ((k - 1) * 8)) 0) as [|Hsh]; [discriminate|].
    destruct (Z.ltb_spec ((2 + k + len) mod 2 ^ 32) len) as [|Hov]; [discriminate|].
    destruct (Z.ltb_spec (1 + (1 + zlen s)) (2 + k + len)) as [|Hlen2]; [discriminate|].
    assert (Hov2 : 2 + k + len < 2 ^ 32).
    { destruct (Z.lt_ge_cases (2 + k + len) (2 ^ 32)) as [|Hg]; auto. exfalso.
      rewrite <- (Z.mod_unique (2 + k + len) (2 ^ 32) 1 (2 + k + len - 2 ^ 32)) in Hov; lia. }
    replace (Z.to_nat (2 + k + len)) with (S (S (Z.to_nat k + Z.to_nat len))) by lia.
    replace (Z.to_nat (2 + k)) with (S (S (Z.to_nat k))) by lia.
    cbn [firstn skipn].
    intros [= <- <- <- <-].
    assert (Hsplit : s = LB ++ skipn (Z.to_nat k) s) by (symmetry; apply firstn_skipn).
    assert (E1 : firstn (Z.to_nat k + Z.to_nat len) s = LB ++ firstn (Z.to_nat len) (skipn (Z.to_nat k) s)).
    { rewrite Hsplit at 1. rewrite firstn_app, HLB.
      rewrite (firstn_all2 LB) by lia. f_equal. f_equal. lia. }
    rewrite E1.
    rewrite (skipn_app_exact LB) by lia.
    set (c := firstn (Z.to_nat len) (skipn (Z.to_nat k) s)).
    assert (Hc : zlen c = len).
    { unfold c, zlen. rewrite firstn_le_length; [lia|]. rewrite skipn_length. unfold zlen in *. lia. }
    assert (Hpow : 256 ^ (k - 1) <= len).
    { rewrite Z.shiftr_div_pow2 in Hsh by lia.
      replace (2 ^ ((k - 1) * 8)) with (256 ^ (k - 1)) in Hsh.
      2:{ change 256 with (2 ^ 8). rewrite <- Z.pow_mul_r by lia. f_equal; lia. }
      destruct (Z.lt_ge_cases len (256 ^ (k - 1))); [|lia]. rewrite Z.div_small in Hsh; lia. }
    assert (Htlv : tlv t c = t :: lb :: LB ++ c).
    { unfold tlv. rewrite Hc. destruct (der_len_cases len ltac:(lia)) as [[? _]|(k' & Hk' & -> & B & _)]; [lia|].
      assert (Hkk : k' = Z.to_nat k).
      { assert (nbytes len = k') by (apply nbytes_eq; lia).
        assert (nbytes len = Z.to_nat k) by (apply nbytes_eq; [lia|rewrite !Z2Nat.id by lia; split; [exact Hpow|apply HB]]). lia. }
      subst k'. rewrite Z2Nat.id by lia. replace (128 + k) with lb by lia.
      replace (Z_to_be (Z.to_nat k) len) with LB; [reflexivity|].
      rewrite <- HLB. symmetry. apply Z_to_be_be_to_Z. auto. }
    assert (Hmax : len <= 2 ^ 32 - 7).
    { destruct (Z.eq_dec k 4); [lia|]. assert (256 ^ k <= 256 ^ 3) by (apply Z.pow_le_mono_r; lia).
      change (256 ^ 3) with (2 ^ 24) in *. lia. }
    rewrite Htlv. split; [|split; [reflexivity|split; [split; auto|lia]]].
    cbn [app]. f_equal. f_equal. rewrite <- app_assoc. rewrite Hsplit at 1. f_equal.
    unfold c. rewrite <- (firstn_skipn (Z.to_nat len) (skipn (Z.to_nat k) s)) at 1. f_equal.
    rewrite skipn_skipn. reflexivity.
Qed.

Lemma readASN1_tlv tag c rest : tag_ok tag -> zlen c <= max_content ->
  readASN1 tag (tlv tag c ++ rest) = Some (c, rest).
Proof. intros. unfold readASN1. rewrite readAny_tlv by auto. now rewrite Z.eqb_refl. Qed.
Lemma readASN1_inv tag s c rest : bytes_ok s -> readASN1 tag s = Some (c, rest) ->
  s = tlv tag c ++ rest /\ tag_ok tag /\ zlen c <= max_content.
Proof.
  intros Hs. unfold readASN1. destruct (readAnyElt s) as [[[[t e] c'] r]|] eqn:E; [|discriminate].
  apply readAny_inv in E; auto. destruct E as (E1 & _ & E2 & E3).
  destruct (Z.eqb_spec t tag); [|discriminate]. intros [= <- <-]. subst. auto.
Qed.
Lemma addASN1_tlv tag c : tag_ok tag -> zlen c <= 0xfffffffe -> addASN1 tag c = Ret (tlv tag c).
Proof.
  intros [_ H] Hc. unfold addASN1, tlv. rewrite (proj2 (Z.eqb_neq _ _) H).
  pose proof (zlen_nonneg c).
  destruct (der_len_cases (zlen c) ltac:(lia)) as [[_ ->]|(k & _ & -> & _)]; reflexivity.
Qed.
Lemma addASN1_inv tag c s : addASN1 tag c = Ret s -> s = tlv tag c /\ zlen c <= 0xfffffffe.
Proof.
  unfold addASN1, tlv. destruct (_ =? _); [discriminate|].
  destruct (der_len (zlen c)) eqn:E; [|discriminate]. intros [= <-]. split; [reflexivity|].
  unfold der_len in E. destruct (Z.ltb_spec 0xfffffffe (zlen c)); [discriminate|lia].
Qed.
Lemma tlv_ok tag c : byte_ok tag -> bytes_ok c -> bytes_ok (tlv tag c).
Proof.
  intros Ht Hc. unfold tlv. apply bytes_ok_cons; split; auto. apply bytes_ok_app; split; auto.
  unfold der_len. pose proof (zlen_nonneg c).
  destruct (Z.ltb_spec 0xfffffffe (zlen c)); [auto|].
  destruct (Z.ltb_spec 0xffffff (zlen c)); [apply bytes_ok_cons; split; [now compute|auto]|].
  destruct (Z.ltb_spec 0xffff (zlen c)); [apply bytes_ok_cons; split; [now compute|auto]|].
  destruct (Z.ltb_spec 0xff (zlen c)); [apply bytes_ok_cons; split; [now compute|auto]|].
  destruct (Z.ltb_spec 0x7f (zlen c)); [apply bytes_ok_cons; split; [now compute|auto]|].
  apply bytes_ok_cons; split; [split; lia|auto].
Qed.
Lemma tlv_zlen tag c : zlen c <= 0xfffffffe -> zlen c + 2 <= zlen (tlv tag c) <= zlen c + 6.
Proof.
  intros H. pose proof (zlen_nonneg c). unfold tlv. 
  destruct (der_len_cases (zlen c) ltac:(lia)) as [[_ ->]|(k & Hk & -> & _)];
    rewrite zlen_cons, zlen_app, zlen_cons, ?zlen_nil, ?Z_to_be_zlen; lia.
Qed.
(** DER elements are prefix-free: the first element and the rest are determined *)
Lemma tlv_inj t c r t' c' r' : tag_ok t -> tag_ok t' -> zlen c <= max_content -> zlen c' <= max_content ->
  tlv t c ++ r = tlv t' c' ++ r' -> t = t' /\ c = c' /\ r = r'.
Proof.
  intros H1 H2 H3 H4 E. pose proof (readAny_tlv t c r H1 H3) as A. rewrite E in A.
  rewrite (readAny_tlv t' c' r' H2 H4) in A. inversion A; auto.
Qed.

(** ** INTEGER contents: minimal two's complement *)
(** two's complement value of a non-empty byte string *)
Definition twos (c : bytes) : Z :=
  match c with
  | b0 :: _ => if b0 <? 128 then be_to_Z c else be_to_Z c - 256 ^ zlen c
  | [] => 0
  end.
Lemma be_to_Z_compl c : bytes_ok c -> be_to_Z (map (fun b => 255 - b) c) = 256 ^ zlen c - 1 - be_to_Z c.
Proof.
  induction c as [|x c IH]; intros H; [reflexivity|].
  apply bytes_ok_cons in H. destruct H as [Hx Hc]. cbn [map]. rewrite !be_to_Z_cons, IH by auto.
  rewrite zlen_cons. replace (zlen (map (fun b => 255 - b) c)) with (zlen c) by (unfold zlen; now rewrite map_length).
  rewrite Z.pow_add_r by (try lia; apply zlen_nonneg). change (256 ^ 1) with 256. ring.
Qed.
Lemma compl_ok c : bytes_ok c -> bytes_ok (map (fun b => 255 - b) c).
Proof.
  induction c; intros H; cbn [map]; auto. apply bytes_ok_cons in H. destruct H as [[? ?] ?].
  apply bytes_ok_cons; split; [split; lia|auto].
Qed.
Lemma bigint_of_content_twos c : bytes_ok c -> bigint_of_content c = twos c.
Proof.
  intros H. unfold bigint_of_content, twos. destruct c as [|b0 c]; [reflexivity|].
  rewrite land80 by (apply bytes_ok_cons in H; tauto).
  destruct (b0 <? 128); [reflexivity|]. cbn [Z.eqb Pos.eqb].
  rewrite be_to_Z_compl by auto. lia.
Qed.
Lemma twos_bounds c : bytes_ok c -> c <> [] -> - 256 ^ zlen c <= 2 * twos c < 256 ^ zlen c.
Proof.
  intros H Hne. destruct c as [|b0 c]; [congruence|]. unfold twos.
  pose proof H as H'. apply bytes_ok_cons in H'. destruct H' as [[? ?] Hc].
  rewrite be_to_Z_cons, zlen_cons. rewrite Z.pow_add_r by (try lia; apply zlen_nonneg). change (256 ^ 1) with 256.
  pose proof (be_to_Z_bound c Hc). destruct (Z.ltb_spec b0 128); nia.
Qed.
(** minimality: a longer-than-one-byte content is outside the range of one byte less *)
Lemma twos_minimal c : bytes_ok c -> checkASN1Integer c = true -> (2 <= List.length c)%nat ->
  2 * twos c < - 256 ^ (zlen c - 1) \/ 256 ^ (zlen c - 1) <= 2 * twos c.
Proof.
  intros H Hck Hl. destruct c as [|b0 [|b1 c]]; cbn in Hl; try lia.
  pose proof H as H'. apply bytes_ok_cons in H'. destruct H' as [Hb0 H'].
  apply bytes_ok_cons in H'. destruct H' as [Hb1 Hc].
  unfold checkASN1Integer in Hck. rewrite land80 in Hck by auto.
  unfold twos. rewrite !be_to_Z_cons, !zlen_cons.
  replace (1 + (1 + zlen c) - 1) with (1 + zlen c) by lia.
  rewrite !Z.pow_add_r by (pose proof (zlen_nonneg c); lia). change (256 ^ 1) with 256.
  pose proof (be_to_Z_bound c Hc). pose proof (pow256_pos (zlen c) (zlen_nonneg c)).
  destruct Hb0 as [? ?], Hb1 as [? ?].
  set (M := 256 ^ zlen c) in *. set (v := be_to_Z c) in *.
  destruct (Z.ltb_spec b0 128).
  - right. destruct (Z.eqb_spec b0 0) as [->|].
    + destruct (Z.ltb_spec b1 128); [discriminate|]. nia.
    + nia.
  - left. destruct (Z.eqb_spec b0 255) as [->|].
    + destruct (Z.ltb_spec b1 128); [nia|]. cbn in Hck. discriminate.
    + nia.
Qed.
Lemma twos_inj c c' : bytes_ok c -> bytes_ok c' -> checkASN1Integer c = true -> checkASN1Integer c' = true ->
  twos c = twos c' -> c = c'.
Proof.
  intros H H' K K' E.
  assert (N : c <> []) by (intros ->; discriminate). assert (N' : c' <> []) by (intros ->; discriminate).
  pose proof (twos_bounds c H N). pose proof (twos_bounds c' H' N').
  assert (L : forall a b : bytes, bytes_ok a -> bytes_ok b -> a <> [] -> checkASN1Integer b = true ->
     twos a = twos b -> (List.length b <= List.length a)%nat).
  { intros a b Ha Hb Na Kb Eab. destruct (Nat.le_gt_cases (List.length b) (List.length a)); auto.
    assert (List.length a <> 0%nat) by (destruct a; [congruence|cbn; lia]).
    pose proof (twos_minimal b Hb Kb ltac:(lia)) as M. pose proof (twos_bounds a Ha Na) as B.
    assert (256 ^ zlen a <= 256 ^ (zlen b - 1)) by (apply Z.pow_le_mono_r; unfold zlen; lia). lia. }
  assert (Hl : List.length c = List.length c').
  { pose proof (L c c' H H' N K' E). pose proof (L c' c H' H N' K (eq_sym E)). lia. }
  apply be_to_Z_inj; auto.
  assert (Hz : zlen c = zlen c') by (unfold zlen; lia).
  unfold twos in E. destruct c as [|b0 c0]; [congruence|]. destruct c' as [|b0' c0']; [congruence|].
  pose proof (be_to_Z_bound _ H) as B. pose proof (be_to_Z_bound _ H') as B'. rewrite Hz in *.
  destruct (b0 <? 128), (b0' <? 128); lia.
Qed.
Lemma Z_to_be_nonnil n z : (0 < n)%nat -> Z_to_be n z <> [].
Proof. intros H E. pose proof (Z_to_be_length n z). rewrite E in H0. cbn in H0. lia. Qed.
Lemma big_bytes_head n : 0 < n -> exists b l, big_bytes n = b :: l /\ b <> 0 /\ bytes_ok (b :: l) /\ be_to_Z (b :: l) = n.
Proof.
  intros H. pose proof (big_bytes_ok n) as Hok. pose proof (be_to_Z_big_bytes n) as Hv. rewrite Z.abs_eq in Hv by lia.
  pose proof (big_bytes_length n) as Hl. rewrite Z.abs_eq in Hl by lia.
  destruct (big_bytes n) as [|b l]; [cbn in Hv; lia|].
  exists b, l. repeat split; auto. intros ->.
  cbn in Hl. pose proof (nbytes_spec n H) as [B _]. rewrite <- Hl in B.
  replace (Z.of_nat (S (List.length l)) - 1) with (zlen l) in B by (unfold zlen; lia).
  apply bytes_ok_cons in Hok. pose proof (be_to_Z_bound l (proj2 Hok)). rewrite be_to_Z_cons in Hv. lia.
Qed.
Lemma bigint_content_spec n : bytes_ok (bigint_content n) /\ checkASN1Integer (bigint_content n) = true /\
  twos (bigint_content n) = n.
Proof.
  unfold bigint_content. destruct (Z.ltb_spec n 0) as [Hn|Hn].
  - set (m := - n - 1). assert (Hm : 0 <= m) by lia.
    assert (E : map (fun b => Z.lxor b 255) (big_bytes m) = map (fun b => 255 - b) (big_bytes m)).
    { apply map_ext_in. intros b Hb. apply lxor_ff. pose proof (big_bytes_ok m) as Ho.
      unfold bytes_ok in Ho. rewrite Forall_forall in Ho. auto. }
    rewrite E. destruct (Z.eq_dec m 0) as [Em|Em].
    + rewrite Em. change (big_bytes 0) with (@nil Z). cbn [map]. 
      split; [apply bytes_okb_spec; reflexivity|]. split; [reflexivity|]. change (twos [255]) with (-1). lia.
    + destruct (big_bytes_head m ltac:(lia)) as (b & l & El & Hb & Hok & Hv). rewrite El. cbn [map].
      pose proof (compl_ok _ Hok) as Hok'. cbn [map] in Hok'.
      pose proof (be_to_Z_compl _ Hok) as Hv'. cbn [map] in Hv'. rewrite Hv in Hv'.
      pose proof Hok' as Hh. apply bytes_ok_cons in Hh. destruct Hh as [Hh Hl'].
      rewrite land80 by auto. 
      assert (Hzl : zlen (255 - b :: map (fun b0 => 255 - b0) l) = zlen (b :: l)).
      { unfold zlen; cbn [List.length]; now rewrite map_length. }
      destruct (Z.ltb_spec (255 - b) 128) as [Hlt|Hge].
      * cbn [Z.eqb]. split; [apply bytes_ok_cons; split; auto; split; lia|]. split.
        { unfold checkASN1Integer. rewrite land80 by auto. rewrite (proj2 (Z.ltb_lt _ _)) by auto. reflexivity. }
        unfold twos. change (255 <? 128) with false. cbv iota.
        rewrite be_to_Z_cons, (zlen_cons 255), Hv', Hzl. rewrite Z.pow_add_r by (try lia; apply zlen_nonneg).
        change (256 ^ 1) with 256. lia.
      * change (128 =? 0) with false. cbv iota. split; [auto|]. split.
        { unfold checkASN1Integer. destruct (map _ l) as [|b1 l'] eqn:El'; [reflexivity|].
          rewrite (proj2 (Z.eqb_neq (255 - b) 0)) by lia. cbn [andb orb].
          rewrite (proj2 (Z.eqb_neq (255 - b) 255)) by lia. reflexivity. }
        unfold twos. rewrite (proj2 (Z.ltb_ge _ _)) by lia. rewrite Hv', Hzl. lia.
  - destruct (Z.eqb_spec n 0) as [->|Hnz].
    + split; [apply bytes_okb_spec; reflexivity|]. split; reflexivity.
    + destruct (big_bytes_head n ltac:(lia)) as (b & l & El & Hb & Hok & Hv). rewrite El.
      pose proof Hok as Hh. apply bytes_ok_cons in Hh. destruct Hh as [Hh Hl].
      rewrite land80 by auto. destruct (Z.ltb_spec b 128).
      * cbn [Z.eqb negb]. split; [auto|]. split.
        { unfold checkASN1Integer. destruct l as [|b1 l']; [reflexivity|].
          rewrite (proj2 (Z.eqb_neq b 0)) by lia. rewrite (proj2 (Z.eqb_neq b 255)) by lia. reflexivity. }
        unfold twos. rewrite (proj2 (Z.ltb_lt _ _)) by lia. auto.
      * change (128 =? 0) with false. cbn [negb]. split; [apply bytes_ok_cons; split; auto; split; lia|]. split.
        { unfold checkASN1Integer. rewrite land80 by auto. rewrite (proj2 (Z.ltb_ge _ _)) by lia. reflexivity. }
        unfold twos. change (0 <? 128) with true. cbv iota. rewrite be_to_Z_cons, Hv. lia.
Qed.
Lemma bigint_content_roundtrip n : checkASN1Integer (bigint_content n) = true /\ bigint_of_content (bigint_content n) = n.
Proof.
  destruct (bigint_content_spec n) as (A & B & C). split; auto. rewrite bigint_of_content_twos; auto.
Qed.
Lemma bigint_content_canonical c : bytes_ok c -> checkASN1Integer c = true -> c = bigint_content (bigint_of_content c).
Proof.
  intros H K. rewrite bigint_of_content_twos by auto.
  destruct (bigint_content_spec (twos c)) as (A & B & C). apply twos_inj; auto.
Qed.
Lemma bigint_content_zlen n k : 0 <= k -> - 2 ^ (8 * k - 1) <= n < 2 ^ (8 * k - 1) -> zlen (bigint_content n) <= Z.max 1 k.
Proof.
  intros Hk Hn. destruct (bigint_content_spec n) as (A & B & C).
  destruct (Z.le_gt_cases (zlen (bigint_content n)) (Z.max 1 k)) as [|Hgt]; auto. exfalso.
  assert (HL : (2 <= List.length (bigint_content n))%nat) by (unfold zlen in Hgt; lia).
  pose proof (twos_minimal _ A B HL) as M. rewrite C in M.
  assert (256 ^ k <= 256 ^ (zlen (bigint_content n) - 1)) by (apply Z.pow_le_mono_r; lia).
  assert (E : 256 ^ k = 2 ^ (8 * k)) by (change 256 with (2 ^ 8); rewrite <- Z.pow_mul_r by lia; reflexivity).
  destruct (Z.eq_dec k 0) as [->|].
  - change (2 ^ (8 * 0 - 1)) with 0 in Hn. lia.
  - replace (8 * k) with (1 + (8 * k - 1)) in E by lia. rewrite Z.pow_add_r in E by lia. change (2 ^ 1) with 2 in E. lia.
Qed.
Lemma readBigInt_tlv n rest : zlen (bigint_content n) <= max_content ->
  readBigInt (tlv T_INTEGER (bigint_content n) ++ rest) = Some (n, rest).
Proof.
  intros H. unfold readBigInt. rewrite readASN1_tlv; auto; [|now compute].
  destruct (bigint_content_roundtrip n) as [-> ->]. reflexivity.
Qed.
Lemma readBigInt_inv s n rest : bytes_ok s -> readBigInt s = Some (n, rest) ->
  s = tlv T_INTEGER (bigint_content n) ++ rest /\ zlen (bigint_content n) <= max_content.
Proof.
  intros Hs. unfold readBigInt. destruct (readASN1 T_INTEGER s) as [[c r]|] eqn:E; [|discriminate].
  apply readASN1_inv in E; auto. destruct E as (E & _ & Hc). subst s.
  destruct (checkASN1Integer c) eqn:K; [|discriminate]. intros [= <- <-].
  apply bytes_ok_app in Hs. destruct Hs as [Hs _]. 
  assert (Hcok : bytes_ok c).
  { unfold tlv in Hs. apply bytes_ok_cons in Hs. destruct Hs as [_ Hs]. apply bytes_ok_app in Hs. tauto. }
  rewrite <- (bigint_content_canonical c) by auto. auto.
Qed.
