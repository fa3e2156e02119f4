(** * C139: the certificate extensions, byte for byte *)
From Coq Require Import String Ascii ZifyBool ZifyNat.
From Verif Require Import Base Words Utf8 BMPModel ECModel SM2Model CryptoByte Asn1 Asn1Proofs KeysModel KeysProofs P12Enc X509Model X509Sig X509Build X509Proofs X509StrProofs PropertiesX509Str X509ExtProofs X509NCProofs PropertiesX509Ext PropertiesP12Pem PropertiesWire.
Open Scope Z_scope.

(** ** The specification *)
(** X.690 8.3: an INTEGER has the fewest octets that hold it in two's complement *)
Definition int_size (n : Z) : nat := Z.to_nat ((if (n =? 0) || (n =? -1) then 0 else Z.log2 (if n <? 0 then - n - 1 else n) + 1) / 8 + 1).
Definition int_octets (n : Z) : bytes := Z_to_be (int_size n) n.
(** X.690 8.19: an arc in base 128, most significant digit first, the high bit on all digits but the last; the first two
    arcs are packed in one *)
Fixpoint arc_high (fuel : nat) (n : Z) : bytes :=
  match fuel with O => [] | S f => if n =? 0 then [] else arc_high f (n / 128) ++ [128 + n mod 128] end.
Definition arc (n : Z) : bytes := arc_high 5 (n / 128) ++ [n mod 128].
Definition oid_octets (o : oid) : bytes := match o with a :: b :: rest => List.concat (map arc (40 * a + b :: rest)) | _ => [] end.
(** X.690 8.6: a bit string, first bit in the high bit of the first octet, and the number of unused bits of the last octet *)
Fixpoint octet (l : list bool) (w : Z) : Z := match l with [] => 0 | b :: r => (if b then w else 0) + octet r (w / 2) end.
Definition pack (l : list bool) : bytes := if (List.length l <=? 8)%nat then [octet l 128] else [octet (firstn 8 l) 128; octet (skipn 8 l) 128].
Definition BITS (l : list bool) : bytes := DER 3 ((8 - zlen l mod 8) mod 8 :: pack l).
(** X.690 11.2.2: trailing zero bits of a named bit list are left out *)
Fixpoint trim (l : list bool) : list bool := match l with [] => [] | b :: r => match trim r with [] => if b then [true] else [] | r' => b :: r' end end.

(** RFC 5280, 4.2.1.3: bit i of KeyUsage is the i-th named bit.  (No bit among the low 16: the code writes a zero octet, with
    no unused bits.) *)
Definition key_usage (ku : Z) : bytes :=
  match trim (map (Z.testbit ku) [0; 1; 2; 3; 4; 5; 6; 7; 8; 9; 10; 11; 12; 13; 14; 15]) with [] => [3; 2; 0; 0] | l => BITS l end.
(** RFC 5280, 4.2.1.12 and vendor key purposes, in the order of the constants ExtKeyUsageAny, ... *)
Definition key_purposes : list oid :=
  [ [2; 5; 29; 37; 0]; [1; 3; 6; 1; 5; 5; 7; 3; 1]; [1; 3; 6; 1; 5; 5; 7; 3; 2]; [1; 3; 6; 1; 5; 5; 7; 3; 3]; [1; 3; 6; 1; 5; 5; 7; 3; 4];
    [1; 3; 6; 1; 5; 5; 7; 3; 5]; [1; 3; 6; 1; 5; 5; 7; 3; 6]; [1; 3; 6; 1; 5; 5; 7; 3; 7]; [1; 3; 6; 1; 5; 5; 7; 3; 8]; [1; 3; 6; 1; 5; 5; 7; 3; 9];
    [1; 3; 6; 1; 4; 1; 311; 10; 3; 3]; [2; 16; 840; 1; 113730; 4; 1]; [1; 3; 6; 1; 4; 1; 311; 2; 1; 22]; [1; 3; 6; 1; 4; 1; 311; 61; 1; 1] ].
Definition each {A} (f : A -> bytes) (l : list A) : bytes := List.concat (map f l).
Definition ext_key_usage (known : list Z) (unknown : list oid) : bytes :=
  SEQ (each (fun u => OID (oid_octets (nth (Z.to_nat u) key_purposes []))) known ++ each (fun o => OID (oid_octets o)) unknown).
(** 4.2.1.9: cA (default FALSE) and pathLenConstraint, absent when there is no limit *)
Definition basic_constraints (isCA : bool) (mpl : Z) (zero : bool) : bytes :=
  SEQ ((if isCA then [1; 1; 255] else []) ++ (if (mpl =? -1) || ((mpl =? 0) && negb zero) then [] else INTEGER (int_octets mpl))).
(** GeneralName: rfc822Name [1], dNSName [2], uniformResourceIdentifier [6], iPAddress [7] *)
Definition MAIL (b : bytes) : bytes := DER 0x81 b.
Definition DNS (b : bytes) : bytes := DER 0x82 b.
Definition URI (b : bytes) : bytes := DER 0x86 b.
Definition IP (b : bytes) : bytes := DER 0x87 b.
(** an IPv4 address is written with 4 octets *)
Definition short_ip (ip : bytes) : bytes := if (List.length ip =? 16)%nat && bytes_eqb (firstn 12 ip) mapped then skipn 12 ip else ip.
Definition alt_names (s : SANs) : bytes :=
  SEQ (each DNS (san_DNS s) ++ each MAIL (san_Email s) ++ each (fun ip => IP (short_ip ip)) (san_IP s) ++ each (fun u => URI (u_String u)) (san_URI s)).
(** 4.2.2.1 *)
Definition info_access (ocsp issuers : list bytes) : bytes :=
  SEQ (each (fun n => SEQ (OID (oid_octets [1; 3; 6; 1; 5; 5; 7; 48; 1]) ++ URI n)) ocsp ++ each (fun n => SEQ (OID (oid_octets [1; 3; 6; 1; 5; 5; 7; 48; 2]) ++ URI n)) issuers).
(** 4.2.1.4 *)
Definition policies (l : list oid) : bytes := SEQ (each (fun o => SEQ (OID (oid_octets o))) l).
(** 4.2.1.13: the full name *)
Definition crl_points (l : list bytes) : bytes := SEQ (each (fun n => SEQ (CTX0 (CTX0 (URI n)))) l).
(** 4.2.1.10: subtrees, a network being its masked address and its mask *)
Definition network_octets (n : IPNet) (b : bytes) : Prop :=
  exists ip, (List.length ip = 4 \/ List.length ip = 16)%nat /\ List.length (ipn_Mask n) = List.length ip /\
    (ipn_IP n = ip \/ (List.length ip = 4%nat /\ ipn_IP n = mapped ++ ip)) /\
    b = map (fun '(a, m) => Z.land a m) (combine ip (ipn_Mask n)) ++ ipn_Mask n.
Definition subtrees_of (c : constraints) (nets : list bytes) : bytes :=
  each (fun s => SEQ (DNS s)) (nc_DNS c) ++ each (fun s => SEQ (IP s)) nets ++ each (fun s => SEQ (MAIL s)) (nc_Email c) ++ each (fun s => SEQ (URI s)) (nc_URI c).
Definition unless_empty (t : Z) (b : bytes) : bytes := match b with [] => [] | _ => DER t b end.
Definition name_constraints (p x : constraints) (netsp netsx : list bytes) : bytes :=
  SEQ (unless_empty 0xa0 (subtrees_of p netsp) ++ unless_empty 0xa1 (subtrees_of x netsx)).

(** ** Integers and object identifiers *)
Lemma int_size_spec n : (0 < int_size n)%nat /\ - 256 ^ Z.of_nat (int_size n) <= 2 * n < 256 ^ Z.of_nat (int_size n) /\
  ((2 <= int_size n)%nat -> ~ (- 256 ^ (Z.of_nat (int_size n) - 1) <= 2 * n < 256 ^ (Z.of_nat (int_size n) - 1))).
Proof.
  unfold int_size. assert (C1 : Z.to_nat (0 / 8 + 1) = 1%nat) by reflexivity.
  destruct (Z.eqb_spec n 0) as [->|N0]; [cbn [orb]; rewrite C1; change (256 ^ Z.of_nat 1) with 256; lia|]. destruct (Z.eqb_spec n (-1)) as [->|N1]; [cbn [orb]; rewrite C1; change (256 ^ Z.of_nat 1) with 256; lia|]. cbn [orb].
  set (m := if n <? 0 then - n - 1 else n). assert (Hm : 0 < m) by (unfold m; destruct (Z.ltb_spec n 0); lia).
  destruct (Z.log2_spec m Hm) as [L1 L2]. pose proof (Z.log2_nonneg m) as L0. set (l := Z.log2 m) in *.
  assert (Hq : 0 <= (l + 1) / 8) by (apply Z.div_pos; lia). pose proof (Z.div_mod (l + 1) 8 ltac:(lia)) as D. pose proof (Z.mod_pos_bound (l + 1) 8 ltac:(lia)) as R.
  set (q := (l + 1) / 8) in *. rewrite Z2Nat.id by lia. split; [lia|].
  assert (P : 256 ^ (q + 1) = 2 ^ (8 * (q + 1))) by (change 256 with (2 ^ 8); now rewrite <- Z.pow_mul_r by lia).
  assert (P' : 256 ^ q = 2 ^ (8 * q)) by (change 256 with (2 ^ 8); now rewrite <- Z.pow_mul_r by lia).
  assert (B : 2 * 2 ^ Z.succ l <= 2 ^ (8 * (q + 1))). { rewrite <- Z.pow_succ_r by lia. apply Z.pow_le_mono_r; lia. }
  split; [rewrite P; unfold m in *; destruct (Z.ltb_spec n 0); lia|]. intros Hs. replace (q + 1 - 1) with q by lia. rewrite P'.
  assert (B' : 2 ^ (8 * q) <= 2 * 2 ^ l). { rewrite <- Z.pow_succ_r by lia. apply Z.pow_le_mono_r; lia. }
  unfold m in *; destruct (Z.ltb_spec n 0); lia.
Qed.
Lemma int_octets_eq n : bigint_content n = int_octets n.
Proof.
  destruct (bigint_content_spec n) as (Ho & Hc & Ht). remember (bigint_content n) as c eqn:Ec. clear Ec.
  destruct (int_size_spec n) as (S0 & S1 & S2). unfold int_octets. set (k := int_size n) in *.
  assert (N : c <> []) by (intros ->; discriminate). pose proof (twos_bounds c Ho N) as B. rewrite Ht in B.
  assert (L : List.length c = k).
  { assert (L1 : zlen c = Z.of_nat (List.length c)) by reflexivity. destruct (Nat.lt_trichotomy (List.length c) k) as [H|[H|H]]; [exfalso|exact H|exfalso].
    - assert (List.length c <> 0)%nat by (destruct c; [congruence|cbn; lia]). apply S2; [lia|]. assert (256 ^ zlen c <= 256 ^ (Z.of_nat k - 1)) by (apply Z.pow_le_mono_r; lia). lia.
    - pose proof (twos_minimal c Ho Hc ltac:(lia)) as M. rewrite Ht in M. assert (256 ^ Z.of_nat k <= 256 ^ (zlen c - 1)) by (apply Z.pow_le_mono_r; lia). lia. }
  apply be_to_Z_inj; auto; [now rewrite Z_to_be_length|]. rewrite be_to_Z_to_be. rewrite <- L. fold (zlen c). pose proof (be_to_Z_bound c Ho) as Bc.
  destruct c as [|b0 r]; [congruence|]. unfold twos in Ht. destruct (b0 <? 128); rewrite <- Ht; [now rewrite Z.mod_small|].
  replace (be_to_Z (b0 :: r) - 256 ^ zlen (b0 :: r)) with (be_to_Z (b0 :: r) + (-1) * 256 ^ zlen (b0 :: r)) by ring. rewrite Z.mod_add by lia. now rewrite Z.mod_small.
Qed.
(** the digits with the high bit set *)
Fixpoint hi_digits (l : nat) (n : Z) : bytes := match l with O => [] | S l' => (n / 128 ^ Z.of_nat l') mod 128 + 128 :: hi_digits l' n end.
Lemma hi_snoc l : forall n, 0 <= n -> hi_digits (S l) n = hi_digits l (n / 128) ++ [128 + n mod 128].
Proof.
  induction l as [|l IH]; intros n Hn; [cbn [hi_digits app]; change (128 ^ Z.of_nat 0) with 1; rewrite Z.div_1_r; f_equal; lia|].
  change (hi_digits (S (S l)) n) with ((n / 128 ^ Z.of_nat (S l)) mod 128 + 128 :: hi_digits (S l) n). rewrite (IH n Hn). cbn [hi_digits app]. f_equal.
  rewrite Z.div_div by lia. do 3 f_equal. rewrite Nat2Z.inj_succ, Z.pow_succ_r by lia. reflexivity.
Qed.
Lemma hi_high l : forall f n, (l <= f)%nat -> 0 <= n < 128 ^ Z.of_nat l -> ((0 < l)%nat -> 128 ^ (Z.of_nat l - 1) <= n) -> arc_high f n = hi_digits l n.
Proof.
  induction l as [|l IH]; intros f n Hf Hn Hl.
  - change (128 ^ Z.of_nat 0) with 1 in Hn. assert (n = 0) by lia. subst n. destruct f; reflexivity.
  - destruct f as [|f]; [lia|]. cbn [arc_high]. specialize (Hl ltac:(lia)). replace (Z.of_nat (S l) - 1) with (Z.of_nat l) in Hl by lia. pose proof (Z.pow_pos_nonneg 128 (Z.of_nat l) ltac:(lia) ltac:(lia)).
    replace (n =? 0) with false by lia. rewrite (hi_snoc l n) by lia. f_equal. rewrite Nat2Z.inj_succ, Z.pow_succ_r in Hn by lia. apply IH; [lia| |].
    + split; [apply Z.div_pos; lia|apply Z.div_lt_upper_bound; lia].
    + intros L0. apply Z.div_le_lower_bound; [lia|]. rewrite <- Z.pow_succ_r by lia. replace (Z.succ (Z.of_nat l - 1)) with (Z.of_nat l) by lia. exact Hl.
Qed.
Lemma digits_hi l : forall n, 0 <= n -> base128_digits (S l) n = hi_digits l (n / 128) ++ [n mod 128].
Proof.
  induction l as [|l IH]; intros n Hn; [cbn [base128_digits Nat.eqb hi_digits app]; change (128 ^ Z.of_nat 0) with 1; rewrite Z.div_1_r, Z.add_0_r; reflexivity|].
  change (base128_digits (S (S l)) n) with ((n / 128 ^ Z.of_nat (S l)) mod 128 + 128 :: base128_digits (S l) n). rewrite (IH n Hn). cbn [hi_digits app]. f_equal.
  rewrite Z.div_div by lia. do 3 f_equal. rewrite Nat2Z.inj_succ, Z.pow_succ_r by lia. reflexivity.
Qed.
Lemma arc_eq n : 0 <= n <= maxInt32 -> appendBase128Int n = arc n.
Proof.
  intros Hn. unfold appendBase128Int, arc. destruct (Z.eq_dec n 0) as [->|N0]; [reflexivity|]. destruct (base128_length_spec n ltac:(lia)) as (Hp & L1 & L2).
  destruct (base128_length n) as [|l]; [lia|]. rewrite (digits_hi l n) by lia. f_equal. symmetry. replace (Z.of_nat (S l) - 1) with (Z.of_nat l) in L1 by lia. apply hi_high.
  - destruct (Nat.le_gt_cases l 5) as [H|H]; [exact H|exfalso]. assert (128 ^ 6 <= 128 ^ Z.of_nat l) by (apply Z.pow_le_mono_r; lia). unfold maxInt32 in Hn. change (2 ^ 31 - 1) with 2147483647 in Hn. change (128 ^ 6) with 4398046511104 in *. lia.
  - rewrite Nat2Z.inj_succ, Z.pow_succ_r in L2 by lia. split; [apply Z.div_pos; lia|apply Z.div_lt_upper_bound; lia].
  - intros L0. apply Z.div_le_lower_bound; [lia|]. rewrite <- Z.pow_succ_r by lia. replace (Z.succ (Z.of_nat l - 1)) with (Z.of_nat l) by lia. exact L1.
Qed.
Lemma oid_octets_eq o : oid_ok o -> oid_bytes o = oid_octets o.
Proof.
  destruct o as [|a [|b rest]]; cbn [oid_ok]; try tauto. intros (Ha & Hb & _ & Hm & Hr). unfold oid_bytes, oid_octets. rewrite flat_map_concat_map. cbn [map List.concat].
  replace (40 * a + b) with (a * 40 + b) by lia. rewrite arc_eq by lia. do 2 f_equal. apply map_ext_Forall. eapply Forall_impl; [|exact Hr]. cbv beta. intros x Hx. apply arc_eq. lia.
Qed.
Lemma mk_oid_der o : oid_ok o -> makeField cOID noP o = Ret (OID (oid_octets o)).
Proof. intros H. rewrite (mk_oid_ok o H), PropertiesWire.el_oid, (oid_octets_eq o H). reflexivity. Qed.

(** ** Key usage *)
Definition bits8_low (b : Z) : list bool := map (Z.testbit b) [0; 1; 2; 3; 4; 5; 6; 7].
Definition all_bytes : list Z := map Z.of_nat (seq 0 256).
Lemma in_all b : byte_ok b -> In b all_bytes.
Proof. intros [H1 H2]. unfold all_bytes. apply in_map_iff. exists (Z.to_nat b). split; [lia|]. apply in_seq. lia. Qed.
Definition one_byte (b : Z) : bool :=
  let a := reverseBitsInAByte b in
  (octet (bits8_low b) 128 =? a) && (octet (trim (bits8_low b)) 128 =? a) &&
  (asn1BitLength [a] =? zlen (trim (bits8_low b))) && Bool.eqb (a =? 0) (isnil (trim (bits8_low b))) && (List.length (trim (bits8_low b)) <=? 8)%nat.
Lemma one_byte_all : forallb one_byte all_bytes = true. Proof. vm_compute. reflexivity. Qed.
Lemma one_byte_ok b : byte_ok b -> one_byte b = true.
Proof. intros H. apply (proj1 (forallb_forall one_byte all_bytes) one_byte_all), in_all, H. Qed.
Lemma low_bit_loop_shift n b bit k d : low_bit_loop n b bit (k + d) = let '(o, l) := low_bit_loop n b bit k in (option_map (fun x => x + d) o, l + d).
Proof.
  revert bit k. induction n as [|n IH]; intros bit k; cbn [low_bit_loop]; [reflexivity|]. destruct (_ =? 1); [reflexivity|]. replace (k + d - 1) with (k - 1 + d) by lia. apply IH.
Qed.
Lemma low_bit_zero b l : byte_ok b -> low_bit_loop 8 b 0 8 = (None, l) -> asn1BitLength [b] = 0.
Proof. intros _ E. unfold asn1BitLength. change (rev [b]) with [b]. change (zlen [b] * 8) with 8. cbn [bitlen_loop]. rewrite E. reflexivity. Qed.
Lemma low_bit_none n b : forall bit k l, low_bit_loop n b bit k = (None, l) -> forall i, bit <= i < bit + Z.of_nat n -> Z.testbit b i = false.
Proof.
  induction n as [|n IH]; intros bit k l E i Hi; cbn [low_bit_loop] in E; [lia|]. destruct (Z.eqb_spec (Z.land (Z.shiftr b bit) 1) 1) as [Q|Q]; [discriminate|].
  destruct (Z.eq_dec i bit) as [->|].
  - destruct (Z.testbit b bit) eqn:T; [|reflexivity]. exfalso. apply Q. change 1 with (Z.ones 1) at 1. rewrite Z.land_ones by lia. change (2 ^ 1) with 2.
    rewrite <- (Z.bit0_mod (Z.shiftr b bit)). destruct (Z.leb_spec 0 bit).
    + rewrite Z.shiftr_spec by lia. rewrite Z.add_0_l, T. reflexivity.
    + rewrite Z.testbit_neg_r in T by lia. discriminate.
  - apply (IH _ _ _ E). lia.
Qed.
Lemma two_len a0 a1 : byte_ok a1 -> a1 <> 0 -> asn1BitLength [a0; a1] = 8 + asn1BitLength [a1].
Proof.
  intros B N. unfold asn1BitLength. change (rev [a0; a1]) with [a1; a0]. change (rev [a1]) with [a1]. change (zlen [a0; a1] * 8) with (8 + 8). change (zlen [a1] * 8) with 8. cbn [bitlen_loop].
  rewrite low_bit_loop_shift. destruct (low_bit_loop 8 a1 0 8) as [[l|] l'] eqn:E; cbn [option_map]; [lia|]. exfalso. apply N. apply Z.bits_inj'. intros i Hi. rewrite Z.bits_0.
  destruct (Z.ltb_spec i 8); [apply (low_bit_none 8 a1 0 8 l' E i); lia|]. destruct B as [B1 B2]. apply Z.testbit_false; [lia|]. rewrite Z.div_small; [reflexivity|]. split; [lia|]. assert (2 ^ 8 <= 2 ^ i) by (apply Z.pow_le_mono_r; lia). change (2 ^ 8) with 256 in *. lia.
Qed.
Lemma trim_app a b : trim b <> [] -> trim (a ++ b) = a ++ trim b.
Proof. intros N. induction a as [|x a IH]; [reflexivity|]. cbn [app trim]. rewrite IH. destruct (a ++ trim b) eqn:E; [destruct a; [contradiction|discriminate]|reflexivity]. Qed.
Lemma trim_nil a b : trim b = [] -> trim (a ++ b) = trim a.
Proof. intros N. induction a as [|x a IH]; [exact N|]. cbn [app trim]. now rewrite IH. Qed.
Lemma usage_bits ku : map (Z.testbit ku) [0; 1; 2; 3; 4; 5; 6; 7; 8; 9; 10; 11; 12; 13; 14; 15] = bits8_low (ku mod 256) ++ bits8_low (Z.shiftr ku 8 mod 256).
Proof. unfold bits8_low. cbn [map app]. rewrite !mod256_bit by lia. rewrite !Z.shiftr_spec by lia. reflexivity. Qed.
Lemma bits_make s len : makeField cBits noP (mkBits (Some s) len) = Ret (DER 3 ((8 - Z.rem len 8) mod 8 :: s)).
Proof. change (makeField cBits noP (mkBits (Some s) len)) with (@Ret bytes (el 0 3 false ((8 - Z.rem len 8) mod 8 :: s))). rewrite el_der by lia. reflexivity. Qed.
Lemma key_usage_der ku : marshalKeyUsage ku = Ret (mkExt [2; 5; 29; 15] true (key_usage ku)).
Proof.
  unfold marshalKeyUsage, key_usage. rewrite usage_bits. pose proof (mod256_ok ku) as B0. pose proof (mod256_ok (Z.shiftr ku 8)) as B1. set (b0 := ku mod 256) in *. set (b1 := Z.shiftr ku 8 mod 256) in *.
  pose proof (one_byte_ok b0 B0) as O0. pose proof (one_byte_ok b1 B1) as O1. unfold one_byte in O0, O1. cbv zeta in *. destruct (rev_byte b1 B1) as [R1 _].
  apply andb_true_iff in O0 as [O0 Y0]. apply andb_true_iff in O0 as [O0 X0]. apply andb_true_iff in O0 as [O0 W0]. apply andb_true_iff in O0 as [U0 V0].
  apply andb_true_iff in O1 as [O1 Y1]. apply andb_true_iff in O1 as [O1 X1]. apply andb_true_iff in O1 as [O1 W1]. apply andb_true_iff in O1 as [U1 V1].
  apply Z.eqb_eq in U0, V0, W0, U1, V1, W1. apply Bool.eqb_prop in X0, X1. apply Nat.leb_le in Y0, Y1.
  assert (RM : forall n, 0 <= n -> Z.rem n 8 = n mod 8) by (intros; apply Z.rem_mod_nonneg; lia).
  destruct (trim (bits8_low b1)) as [|x1 l1] eqn:T1.
  - cbn [isnil] in X1. rewrite X1. cbn [negb]. rewrite (trim_nil _ _ T1). unfold Marshal. rewrite bits_make. cbn [bind].
    destruct (trim (bits8_low b0)) as [|x0 l0] eqn:T0.
    + cbn [isnil] in X0. apply Z.eqb_eq in X0. rewrite X0. reflexivity.
    + unfold BITS, pack. rewrite W0, RM by (apply zlen_nonneg). replace (List.length (x0 :: l0) <=? 8)%nat with true by lia. rewrite V0. reflexivity.
  - cbn [isnil] in X1. rewrite X1. cbn [negb]. rewrite trim_app by (rewrite T1; discriminate). unfold Marshal. rewrite bits_make. cbn [bind]. rewrite two_len by (auto; apply Z.eqb_neq; exact X1). rewrite W1, T1.
    assert (LB : List.length (bits8_low b0) = 8%nat) by reflexivity.
    assert (NE : bits8_low b0 ++ x1 :: l1 <> []) by (destruct (bits8_low b0); discriminate). remember (bits8_low b0 ++ x1 :: l1) as all eqn:Ea. destruct all as [|y all]; [congruence|]. rewrite Ea. clear NE Ea y all.
    unfold BITS, pack. rewrite RM by (pose proof (zlen_nonneg (x1 :: l1)); lia). rewrite zlen_app. replace (zlen (bits8_low b0)) with 8 by reflexivity.
    rewrite app_length, LB. replace (8 + List.length (x1 :: l1) <=? 8)%nat with false by (cbn [List.length]; lia).
    rewrite firstn_app_exact by exact LB. rewrite skipn_app_exact by exact LB. rewrite U0, V1. reflexivity.
Qed.

(** ** The other values *)
Lemma seq_make {A} (c : codec A) (f : A -> bytes) l v : Forall (fun a => makeField c noP a = Ret (f a)) l -> Marshal (cSeqOf false c) (Some l) = Ret v -> v = SEQ (each f l).
Proof. intros H E. unfold Marshal in E. rewrite (mk_seq c l (map f l)) in E by (apply mapM_ret; exact H). rewrite el_seq in E. unfold each. congruence. Qed.
Lemma each_app {A} (f : A -> bytes) l m : each f (l ++ m) = each f l ++ each f m.
Proof. unfold each. now rewrite map_app, concat_app. Qed.
Lemma each_map {A B} (f : B -> bytes) (g : A -> B) l : each f (map g l) = each (fun a => f (g a)) l.
Proof. unfold each. now rewrite map_map. Qed.
Lemma each_ext {A} (f g : A -> bytes) l : Forall (fun a => f a = g a) l -> each f l = each g l.
Proof. intros H. unfold each. f_equal. apply map_ext_Forall. exact H. Qed.
Lemma ext_key_usage_der known unknown e : Forall valid_oid unknown -> marshalExtKeyUsage known unknown = Ret e -> e = mkExt [2; 5; 29; 37] false (ext_key_usage known unknown).
Proof.
  intros Hu E. unfold marshalExtKeyUsage in E. apply bind_inv in E as (oids & Em & E). apply bind_inv in E as (v & Ev & E). injection E as <-. f_equal. apply mapM_Forall2 in Em.
  assert (Hk : Forall2 (fun u o => oidFromExtKeyUsage u = Some o) known oids). { clear - Em. induction Em as [|u o known oids H _ IH]; constructor; auto. destruct (oidFromExtKeyUsage u); congruence. }
  assert (Ho : Forall oid_ok oids). { clear - Hk. induction Hk as [|u o known oids H1 _ IH]; constructor; auto. apply (oidFrom_inv u o H1). }
  apply (seq_make cOID (fun o => OID (oid_octets o))) in Ev.
  2:{ apply Forall_app. split; [eapply Forall_impl; [|exact Ho]; apply mk_oid_der|]. eapply Forall_impl; [|exact Hu]. intros o H. apply mk_oid_der, valid_oid_ok, H. }
  rewrite Ev, each_app. unfold ext_key_usage. do 2 f_equal. clear - Hk. unfold each. f_equal. induction Hk as [|u o known oids H1 _ IH]; [reflexivity|]. cbn [map]. f_equal; [|exact IH].
  do 2 f_equal. apply oidFrom_In in H1. cbn in H1. repeat (destruct H1 as [H1|H1]; [injection H1 as <- <-; reflexivity|]). contradiction.
Qed.
Lemma basic_constraints_der isCA mpl zero e : marshalBasicConstraints isCA mpl zero = Ret e -> e = mkExt [2; 5; 29; 19] true (basic_constraints isCA mpl zero).
Proof.
  unfold marshalBasicConstraints, basic_constraints. fold (eff_mpl mpl zero).
  assert (M : Marshal cBC (isCA, eff_mpl mpl zero) = Ret (SEQ ((if isCA then [1; 1; 255] else []) ++ (if (mpl =? -1) || ((mpl =? 0) && negb zero) then [] else INTEGER (int_octets mpl))))); [|rewrite M; intros E; injection E as <-; reflexivity].
  rewrite <- el_seq. apply (mk_struct _ _ _ (isCA, eff_mpl mpl zero)). apply f_cons; [rewrite mk_bc_bool; destruct isCA; reflexivity|]. apply f_one. rewrite mk_bc_int. f_equal. unfold eff_mpl.
  rewrite <- int_octets_eq, <- el_int. destruct (Z.eqb_spec mpl 0) as [->|N]; cbn [andb orb]; [destruct zero; reflexivity|]. rewrite orb_false_r. reflexivity.
Qed.
Lemma ski_der id v : Marshal cBytes (Some id) = Ret v -> v = OCTETS id.
Proof. unfold Marshal. rewrite mk_bytes, el_oct. congruence. Qed.
Lemma aki_der id v : Marshal cAuthKeyId (Some id) = Ret v -> v = SEQ (CTX0P id).
Proof. unfold Marshal, cAuthKeyId. rewrite (mk_struct _ _ _ (Some id) (el 2 0 false id)) by (apply f_one; apply mk_bytes_imp). rewrite el_seq, el_c0p. congruence. Qed.
Lemma ctx_uri n : makeField cRaw noP (ctxRaw 6 n) = Ret (URI n).
Proof. rewrite mk_ctxRaw, el_der by lia. reflexivity. Qed.
Lemma info_access_der ocsp issuers v : marshalAIA ocsp issuers = Ret v -> v = info_access ocsp issuers.
Proof.
  unfold marshalAIA. intros E. apply (seq_make cAIA (fun p => SEQ (OID (oid_octets (fst p)) ++ URI (sl (rv_bytes (snd p)))))) in E.
  2:{ assert (OK1 : oid_ok oidAuthorityInfoAccessOcsp) by oidok. assert (OK2 : oid_ok oidAuthorityInfoAccessIssuers) by oidok.
      assert (G : forall o n, oid_ok o -> makeField cAIA noP (o, ctxRaw 6 n) = Ret (SEQ (OID (oid_octets o) ++ URI n))).
      { intros o n Ho. rewrite <- el_seq. apply (mk_struct _ _ _ (o, ctxRaw 6 n)). apply f_cons; [apply mk_oid_der, Ho|]. apply f_one. apply ctx_uri. }
      apply Forall_app. split; apply Forall_map, Forall_forall; intros n _; apply G; assumption. }
  rewrite E, each_app, !each_map. reflexivity.
Qed.
Lemma crl_points_der l v : marshalCRLDP l = Ret v -> v = crl_points l.
Proof.
  unfold marshalCRLDP. intros E. apply (seq_make cDP (fun d => match dp_Name d with Some [r] => SEQ (CTX0 (CTX0 (URI (sl (rv_bytes r))))) | _ => [] end)) in E.
  2:{ apply Forall_map, Forall_forall. intros n _. rewrite mk_dp, el_seq, !el_c0. rewrite (el_der 2 6) by lia. reflexivity. }
  rewrite E, each_map. reflexivity.
Qed.
Lemma policies_der l e : Forall valid_oid l -> marshalCertificatePolicies l = Ret e -> e = mkExt [2; 5; 29; 32] false (policies l).
Proof.
  intros H E. unfold marshalCertificatePolicies in E. apply bind_inv in E as (v & Ev & E). injection E as <-. f_equal. apply (seq_make cPolicy (fun o => SEQ (OID (oid_octets o)))) in Ev; [exact Ev|].
  eapply Forall_impl; [|exact H]. intros o Ho. rewrite <- el_seq. apply (mk_struct _ _ _ o). apply f_one. apply mk_oid_der, valid_oid_ok, Ho.
Qed.
Lemma short_ip_eq ip : match IP_To4 ip with Some v4 => v4 | None => ip end = short_ip ip.
Proof.
  unfold IP_To4, short_ip. destruct (Nat.eqb_spec (List.length ip) 4) as [H|H]; [rewrite H; reflexivity|]. change v4InV6Prefix with mapped. destruct (_ && _); reflexivity.
Qed.
Lemma alt_names_der s v : marshalSANs (san_DNS s) (san_Email s) (san_IP s) (san_URI s) = Ret v -> v = alt_names s.
Proof.
  intros E. unfold marshalSANs in E. apply bind_inv in E as (d & Hd & E). apply bind_inv in E as (m & Hm & E). apply bind_inv in E as (u & Hu & E).
  apply (mapM_ia5 nameTypeDNS (fun b => b)) in Hd as [-> _]. apply (mapM_ia5 nameTypeEmail (fun b => b)) in Hm as [-> _]. apply (mapM_ia5 nameTypeURI u_String) in Hu as [-> _].
  apply (seq_make cRaw (fun r => DER (0x80 + rv_tag r) (sl (rv_bytes r)))) in E.
  2:{ assert (G : forall t b, 0 <= t < 31 -> makeField cRaw noP (ctxRaw t b) = Ret (DER (0x80 + t) b)). { intros t b Ht. rewrite mk_ctxRaw, el_der by lia. reflexivity. }
      repeat apply Forall_app, conj; apply Forall_map, Forall_forall; intros x _; (rewrite G; [reflexivity|cbv; split; congruence]). }
  rewrite E, !each_app, !each_map. unfold alt_names. do 3 f_equal. f_equal. apply each_ext, Forall_forall. intros ip _. cbn [ctxRaw rv_tag rv_bytes sl]. rewrite short_ip_eq. reflexivity.
Qed.
Lemma tlv_der cls tag (comp : bool) b : tag <= 30 -> zlen b <= 0xfffffffe -> tlv (cls * 64 + (if comp then 32 else 0) + tag) b = DER (cls * 64 + (if comp then 32 else 0) + tag) b.
Proof. intros H1 H2. rewrite <- el_tlv by assumption. apply el_der. lia. Qed.
Lemma subtree_der tag v : 0 <= tag <= 30 -> zlen (tlv (ctx tag) v) <= 0xfffffffe -> zlen v <= 0xfffffffe -> st tag v = SEQ (DER (0x80 + tag) v).
Proof.
  intros Ht H1 H2. unfold st. assert (Q : tlv (ctx tag) v = DER (0x80 + tag) v). { unfold ctx. replace (tag + 0x80) with (2 * 64 + 0 + tag) by lia. rewrite (tlv_der 2 tag false) by lia. reflexivity. }
  rewrite Q in *. apply (tlv_der 0 16 true); lia.
Qed.
Lemma subtrees_der {A} tag (f : A -> bytes) l bs : 0 <= tag <= 30 -> mapM (fun a => subtree tag (f a)) l = Ret bs -> List.concat bs = each (fun a => SEQ (DER (0x80 + tag) (f a))) l.
Proof.
  intros Ht E. apply mapM_Forall2 in E. unfold each. f_equal. induction E as [|a b l bs H _ IH]; [reflexivity|]. cbn [map]. f_equal; [|exact IH].
  apply subtree_inv in H as (-> & H1 & H2). apply subtree_der; assumption.
Qed.
Lemma ia5_subtrees_der {A} tag (f : A -> bytes) l bs : 0 <= tag <= 30 -> mapM (fun a => ia5Subtree tag (f a)) l = Ret bs -> List.concat bs = each (fun a => SEQ (DER (0x80 + tag) (f a))) l.
Proof.
  intros Ht E. apply (subtrees_der tag f l bs Ht). rewrite <- E. apply mapM_Forall2 in E. induction E as [|a b l bs H _ IH]; [reflexivity|]. cbn [mapM]. rewrite IH. unfold ia5Subtree in *. destruct (isIA5String (f a)); [reflexivity|discriminate].
Qed.
Lemma network_mask n b : network_octets n b -> ipAndMask n = b.
Proof.
  intros (ip & L & LM & Hip & ->). unfold ipAndMask. f_equal.
  unfold IP_Mask. destruct Hip as [->|(L4 & ->)].
  - rewrite LM. destruct L as [L|L]; rewrite L; cbn [Nat.eqb andb]; rewrite ?LM, ?L; cbn [Nat.eqb andb]; rewrite ?L; apply and_bytes_combine.
  - rewrite app_length, LM, L4. cbn [List.length Nat.add Nat.eqb andb]. rewrite LM, L4. cbn [Nat.eqb andb]. rewrite (firstn_app_exact mapped ip) by reflexivity.
    change (bytes_eqb mapped v4InV6Prefix) with true. cbv iota. rewrite (skipn_app_exact mapped ip) by reflexivity. change (List.length mapped + 4 =? 16)%nat with true. cbn [andb]. rewrite L4. apply and_bytes_combine.
Qed.
Lemma serialise_der c nets b : Forall2 network_octets (nc_IP c) nets -> serialiseConstraints c = Ret b -> b = subtrees_of c nets.
Proof.
  intros Hn E. unfold serialiseConstraints in E. apply bind_inv in E as (d & Hd & E). apply bind_inv in E as (i & Hi & E). apply bind_inv in E as (m & Hm & E). apply bind_inv in E as (u & Hu & E). injection E as <-.
  apply (ia5_subtrees_der 2 (fun b => b)) in Hd; [|lia]. apply (subtrees_der 7 ipAndMask) in Hi; [|lia]. apply (ia5_subtrees_der 1 (fun b => b)) in Hm; [|lia]. apply (ia5_subtrees_der 6 (fun b => b)) in Hu; [|lia].
  rewrite !concat_app, Hd, Hi, Hm, Hu. unfold subtrees_of. do 2 f_equal. clear - Hn. unfold each. f_equal. induction Hn as [|n b l m H _ IH]; [reflexivity|]. cbn [map]. f_equal; [|exact IH]. rewrite (network_mask n b H). reflexivity.
Qed.
Lemma add_der T b v : 0 <= T < 256 -> T mod 32 < 31 -> addASN1 T b = Ret v -> v = DER T b.
Proof.
  intros HT Hm E. apply addASN1_inv in E as [-> H]. pose proof (Z.div_mod T 32 ltac:(lia)) as D. pose proof (Z.mod_pos_bound T 32 ltac:(lia)) as M.
  pose proof (Z.div_mod (T / 32) 2 ltac:(lia)) as D2. pose proof (Z.mod_pos_bound (T / 32) 2 ltac:(lia)) as M2.
  assert (Q : T = (T / 32 / 2) * 64 + (if T / 32 mod 2 =? 1 then 32 else 0) + T mod 32) by (destruct (Z.eqb_spec (T / 32 mod 2) 1); lia).
  rewrite Q. apply tlv_der; [lia|]. exact H.
Qed.
Lemma name_constraints_der p x netsp netsx v : Forall2 network_octets (nc_IP p) netsp -> Forall2 network_octets (nc_IP x) netsx -> marshalNC p x = Ret v -> v = name_constraints p x netsp netsx.
Proof.
  intros Hp Hx E. unfold marshalNC in E. apply bind_inv in E as (bp & Ep & E). apply bind_inv in E as (bx & Ex & E). apply bind_inv in E as (a & Ea & E). apply bind_inv in E as (b & Eb & E).
  apply (serialise_der p netsp) in Ep; [|exact Hp]. apply (serialise_der x netsx) in Ex; [|exact Hx]. subst bp bx. apply add_der in E; [|cbv; split; congruence|reflexivity]. rewrite E. unfold name_constraints, unless_empty, SEQ. change T_SEQUENCE with 48. do 2 f_equal.
  - destruct (subtrees_of p netsp); [congruence|]. apply add_der in Ea; [exact Ea|cbv; split; congruence|reflexivity].
  - destruct (subtrees_of x netsx); [congruence|]. apply add_der in Eb; [exact Eb|cbv; split; congruence|reflexivity].
Qed.

(** ** C139 *)
(** one field of the template: nothing if it is not set or the caller gives that extension himself *)
Definition field (extra : list Extension) (is_set : bool) (e : Extension) : list Extension :=
  if is_set && negb (existsb (fun x => bytes_eqb (x_Id x) (x_Id e)) extra) then [e] else [].
Definition given {A} (l : list A) : bool := match l with [] => false | _ => true end.
Definition given_nc (c : constraints) : bool := given (nc_DNS c) || given (nc_IP c) || given (nc_Email c) || given (nc_URI c).
(** all extensions of a certificate, in this order: those of the fields, and then the caller's own *)
Definition written (T : extInfo) (extra : list Extension) (subjectIsEmpty : bool) (aki ski : bytes) (netsp netsx : list bytes) : list Extension :=
  field extra (negb (i_KeyUsage T =? 0)) (mkExt [2; 5; 29; 15] true (key_usage (i_KeyUsage T))) ++
  field extra (given (i_ExtKeyUsage T) || given (i_UnknownExtKeyUsage T)) (mkExt [2; 5; 29; 37] false (ext_key_usage (i_ExtKeyUsage T) (i_UnknownExtKeyUsage T))) ++
  field extra (i_BasicConstraintsValid T) (mkExt [2; 5; 29; 19] true (basic_constraints (i_IsCA T) (i_MaxPathLen T) (i_MaxPathLenZero T))) ++
  field extra (given ski) (mkExt [2; 5; 29; 14] false (OCTETS ski)) ++
  field extra (given aki) (mkExt [2; 5; 29; 35] false (SEQ (CTX0P aki))) ++
  field extra (given (i_OCSPServer T) || given (i_IssuingCertificateURL T)) (mkExt [1; 3; 6; 1; 5; 5; 7; 1; 1] false (info_access (i_OCSPServer T) (i_IssuingCertificateURL T))) ++
  field extra (given (san_DNS (i_SAN T)) || given (san_Email (i_SAN T)) || given (san_IP (i_SAN T)) || given (san_URI (i_SAN T))) (mkExt [2; 5; 29; 17] subjectIsEmpty (alt_names (i_SAN T))) ++
  field extra (given (i_PolicyIdentifiers T)) (mkExt [2; 5; 29; 32] false (policies (i_PolicyIdentifiers T))) ++
  field extra (given_nc (i_Permitted T) || given_nc (i_Excluded T)) (mkExt [2; 5; 29; 30] (i_PermittedDNSDomainsCritical T) (name_constraints (i_Permitted T) (i_Excluded T) netsp netsx)) ++
  field extra (given (i_CRLDistributionPoints T)) (mkExt [2; 5; 29; 31] false (crl_points (i_CRLDistributionPoints T))) ++
  extra.
Lemma block_field extra cond cond' o mk e l : block cond o extra mk = Ret l -> cond = cond' -> x_Id e = o -> (forall e', mk = Ret e' -> e' = e) -> l = field extra cond' e.
Proof.
  intros E <- <- H. unfold block, oidInExtensions in E. unfold field. assert (Q : existsb (fun x => oid_eqb (x_Id x) (x_Id e)) extra = existsb (fun x => bytes_eqb (x_Id x) (x_Id e)) extra) by reflexivity. rewrite Q in E.
  destruct (cond && _); [|congruence]. apply bind_inv in E as (e' & E' & E). apply H in E'. subst e'. congruence.
Qed.
Lemma isnil_given {A} (l : list A) : negb (isnil l) = given l. Proof. destruct l; reflexivity. Qed.
Theorem C139_extensions : forall t subjectIsEmpty aki ski exts netsp netsx,
  buildCertExtensions t subjectIsEmpty aki ski = Ret exts ->
  Forall valid_oid (i_UnknownExtKeyUsage (tp_Info t)) -> Forall valid_oid (i_PolicyIdentifiers (tp_Info t)) ->
  Forall2 network_octets (nc_IP (i_Permitted (tp_Info t))) netsp -> Forall2 network_octets (nc_IP (i_Excluded (tp_Info t))) netsx ->
  exts = written (tp_Info t) (tp_ExtraExtensions t) subjectIsEmpty aki ski netsp netsx.
Proof.
  intros t se aki ski exts netsp netsx E Hu Hpol Hp Hx. unfold buildCertExtensions in E. cbv zeta in E.
  repeat match type of E with bind (block _ _ _ _) _ = _ => let l := fresh "l" in let H := fresh "H" in apply bind_inv in E as (l & H & E) end.
  injection E as <-. unfold written.
  assert (V : forall o c (v : outcome bytes) w e, (forall v', v = Ret v' -> v' = w) -> bind v (fun b => Ret (mkExt o c b)) = Ret e -> e = mkExt o c w).
  { intros o c v w e Hv M. apply bind_inv in M as (b & Eb & M). apply Hv in Eb. congruence. }
  repeat match goal with |- _ ++ _ = _ ++ _ => f_equal end; (eapply block_field; [eassumption| |reflexivity|]).
  - reflexivity.
  - intros e M. rewrite key_usage_der in M. congruence.
  - now rewrite !isnil_given.
  - intros e M. apply ext_key_usage_der; assumption.
  - reflexivity.
  - intros e M. apply basic_constraints_der; assumption.
  - now rewrite !isnil_given.
  - intros e. apply V. apply ski_der.
  - now rewrite !isnil_given.
  - intros e. apply V. apply aki_der.
  - now rewrite !isnil_given.
  - intros e. apply V. apply info_access_der.
  - unfold san_empty. now rewrite !negb_andb, !isnil_given.
  - intros e. apply V. apply alt_names_der.
  - now rewrite !isnil_given.
  - intros e M. apply policies_der; assumption.
  - unfold nc_empty, given_nc. now rewrite !negb_andb, !isnil_given.
  - intros e. apply V. intros v. apply name_constraints_der; assumption.
  - now rewrite !isnil_given.
  - intros e. apply V. apply crl_points_der.
Qed.
Print Assumptions C139_extensions.
(** RFC 5280, 4.2.1.3: the exported constants are the bits digitalSignature (0), nonRepudiation (1), keyEncipherment (2),
    dataEncipherment (3), keyAgreement (4), keyCertSign (5), cRLSign (6), encipherOnly (7), decipherOnly (8) *)
Theorem C139_key_usage_names : map key_usage
    [KeyUsageDigitalSignature; KeyUsageContentCommitment; KeyUsageKeyEncipherment; KeyUsageDataEncipherment; KeyUsageKeyAgreement;
     KeyUsageCertSign; KeyUsageCRLSign; KeyUsageEncipherOnly; KeyUsageDecipherOnly] =
  [ [3; 2; 7; 128]; [3; 2; 6; 64]; [3; 2; 5; 32]; [3; 2; 4; 16]; [3; 2; 3; 8]; [3; 2; 2; 4]; [3; 2; 1; 2]; [3; 2; 0; 1]; [3; 3; 7; 0; 128] ].
Proof. reflexivity. Qed.
Print Assumptions C139_key_usage_names.

From Verif Require Import PropertiesX509Exts.
(** a template with all ten extensions and a critical extra one: the conditions hold, and what is written first *)
Example C139_instance : Forall valid_oid (i_UnknownExtKeyUsage (tp_Info C87_tmpl)) /\ Forall valid_oid (i_PolicyIdentifiers (tp_Info C87_tmpl)) /\
  Forall2 network_octets (nc_IP (i_Permitted (tp_Info C87_tmpl))) [[10; 1; 0; 0; 255; 255; 0; 0]] /\ Forall2 network_octets (nc_IP (i_Excluded (tp_Info C87_tmpl))) [] /\
  exists rest, buildCertExtensions C87_tmpl true [7; 7] [8] =
    Ret (mkExt [2; 5; 29; 15] true [3; 2; 1; 6] ::                                                    (* certSign, cRLSign *)
         mkExt [2; 5; 29; 37] false ([48; 25; 6; 8; 43; 6; 1; 5; 5; 7; 3; 1; 6; 8; 43; 6; 1; 5; 5; 7; 3; 2; 6; 3; 42; 3; 4]) ::
         mkExt [2; 5; 29; 19] true [48; 6; 1; 1; 255; 2; 1; 0] ::                                     (* CA, path length 0 *)
         mkExt [2; 5; 29; 14] false [4; 1; 8] :: mkExt [2; 5; 29; 35] false [48; 4; 128; 2; 7; 7] :: rest) /\ List.length rest = 6%nat.
Proof.
  split; [constructor; [exists 1, 2, [3; 4]; repeat split; try lia; repeat constructor; lia|constructor]|].
  split; [constructor; [exists 2, 5, [29; 32; 0]; repeat split; try lia; repeat constructor; lia|constructor]|].
  split; [constructor; [exists [10; 1; 2; 3]; split; [left; reflexivity|split; [reflexivity|split; [left; reflexivity|reflexivity]]]|constructor]|].
  split; [constructor|]. eexists. split; [vm_compute; reflexivity|reflexivity].
Qed.
