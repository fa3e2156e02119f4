(** * C113, C114: names and sizes of algorithms; equality of certificates; revocation lists in PEM *)
From Coq Require Import String Ascii DecimalString DecimalZ DecimalFacts ZifyBool.
From Verif Require Import Base Words CryptoByte Asn1 Asn1Proofs KeysModel X509Model PropertiesX509Str PropertiesX509Cert X509Sig X509Crl PropertiesX509Crl X509Reg.
Open Scope Z_scope.

(** ** C113 *)
(** the output lengths of the hash functions, in bits, by name *)
Definition digest_bits : list (string * Z) :=
  [("MD5", 128); ("SHA-1", 160); ("SHA-224", 224); ("SHA-256", 256); ("SHA-384", 384); ("SHA-512", 512); ("MD5+SHA1", 288); ("RIPEMD-160", 160);
   ("SHA3-224", 224); ("SHA3-256", 256); ("SHA3-384", 384); ("SHA3-512", 512); ("SHA-512/224", 224); ("SHA-512/256", 256);
   ("BLAKE2s-256", 256); ("BLAKE2b-256", 256); ("BLAKE2b-384", 384); ("BLAKE2b-512", 512); ("SM3", 256)]%string.
(** decimal numerals: an optional minus sign and digits without leading zeros *)
Definition digit_char (c : ascii) : Prop := (48 <= N_of_ascii c <= 57)%N.
Definition numeral_value (s : string) : option Z := option_map Z.of_int (NilZero.int_of_string s).

Lemma Itoa_value z : numeral_value (Itoa z) = Some z.
Proof. unfold numeral_value, Itoa. rewrite NilZero.isi; [cbn; now rewrite DecimalZ.of_to|..]. all: destruct z as [|p|p]; cbn; try discriminate; intros [= Q]; generalize (DecimalPos.Unsigned.to_uint_nonnil p); congruence. Qed.
Lemma Itoa_inj a b : Itoa a = Itoa b -> a = b.
Proof. intros E. pose proof (Itoa_value a) as A. rewrite E, Itoa_value in A. congruence. Qed.
(** a table of names with a prefix and a numeral for everything else *)
Section Table.
Variable pre : string.
Variable tab : list (Z * string).
Variable num : Z -> Z.
Definition table_name (k : Z) : string := match find (fun d => fst d =? k) tab with Some d => snd d | None => (pre ++ Itoa (num k))%string end.
Fixpoint strip (p s : string) : option string :=
  match p, s with
  | EmptyString, _ => Some s
  | String a p', String b s' => if Ascii.eqb a b then strip p' s' else None
  | _, _ => None
  end.
Lemma strip_app p s : strip p (p ++ s)%string = Some s.
Proof. induction p as [|a p IH]; cbn; [reflexivity|]. now rewrite Ascii.eqb_refl. Qed.
Definition not_numeral (s : string) : bool := match strip pre s with Some r => match numeral_value r with Some _ => false | None => true end | None => true end.
Fixpoint distinct (l : list string) : bool := match l with [] => true | a :: l => negb (existsb (String.eqb a) l) && distinct l end.
Hypothesis Hd : distinct (map snd tab) = true.
Hypothesis Hn : forallb not_numeral (map snd tab) = true.
Lemma distinct_spec : forall l : list (Z * string), distinct (map snd l) = true -> forall a b, In a l -> In b l -> snd a = snd b -> a = b.
Proof.
  induction l as [|x l IH]; [intros _ ? ? []|]. cbn [map distinct]. intros H a b Ia Ib E. apply andb_prop in H as [H1 H2].
  assert (N : forall y, In y l -> snd y <> snd x).
  { intros y Iy Ey. apply Bool.negb_true_iff in H1. rewrite <- Bool.not_true_iff_false in H1. apply H1. apply existsb_exists. exists (snd y). split; [now apply in_map|]. rewrite Ey. apply String.eqb_refl. }
  destruct Ia as [<-|Ia], Ib as [<-|Ib]; auto; exfalso; [apply (N b Ib)|apply (N a Ia)]; congruence.
Qed.
Lemma table_inj a b : (num a = num b -> a = b) -> table_name a = table_name b -> a = b.
Proof.
  intros Hi. unfold table_name. destruct (find _ tab) as [x|] eqn:Ea; destruct (find (fun d => fst d =? b) tab) as [y|] eqn:Eb.
  - apply find_some in Ea as [Ia Ka]. apply find_some in Eb as [Ib Kb]. intros E. pose proof (distinct_spec tab Hd x y Ia Ib E) as ->. lia.
  - apply find_some in Ea as [Ia Ka]. intros E. exfalso. rewrite forallb_forall in Hn. specialize (Hn (snd x) (in_map snd _ _ Ia)). unfold not_numeral in Hn. rewrite E, strip_app, Itoa_value in Hn. discriminate.
  - apply find_some in Eb as [Ib Kb]. intros E. exfalso. rewrite forallb_forall in Hn. specialize (Hn (snd y) (in_map snd _ _ Ib)). unfold not_numeral in Hn. rewrite <- E, strip_app, Itoa_value in Hn. discriminate.
  - intros E. apply Hi. apply (f_equal (strip pre)) in E. rewrite !strip_app in E. injection E as E. now apply Itoa_inj.
Qed.
End Table.
Definition hashNames : list (Z * string) :=
  [(2, "MD5"); (3, "SHA-1"); (4, "SHA-224"); (5, "SHA-256"); (6, "SHA-384"); (7, "SHA-512"); (8, "MD5+SHA1"); (9, "RIPEMD-160"); (10, "SHA3-224"); (11, "SHA3-256");
   (12, "SHA3-384"); (13, "SHA3-512"); (14, "SHA-512/224"); (15, "SHA-512/256"); (16, "BLAKE2s-256"); (17, "BLAKE2b-256"); (18, "BLAKE2b-384"); (19, "BLAKE2b-512"); (20, "SM3")]%string.
Lemma HashString_table h : HashString h = table_name "unknown hash value " hashNames int_of_uint h.
Proof.
  unfold HashString, table_name, hashNames. cbn [find fst]. unfold H_MD5, H_SHA1, H_SHA224, H_SHA256, H_SHA384, H_SHA512, H_MD5SHA1, H_RIPEMD160, H_SHA3_224, H_SHA3_256, H_SHA3_384, H_SHA3_512, H_SHA512_224, H_SHA512_256, H_SM3.
  repeat (match goal with |- context[(?k =? h)%Z] => rewrite (Z.eqb_sym k h) end). repeat match goal with |- context[(h =? ?k)%Z] => destruct (h =? k); [reflexivity|] end. reflexivity.
Qed.
(** no two values share a name: hashes (64-bit unsigned), signature algorithms and public key algorithms (signed) *)
Theorem C113_names : 
  (forall a b, 0 <= a < 2 ^ 64 -> 0 <= b < 2 ^ 64 -> HashString a = HashString b -> a = b) /\
  (forall a b, SigAlgString a = SigAlgString b -> a = b) /\
  (forall a b, PubAlgString a = PubAlgString b -> a = b).
Proof.
  split; [|split].
  - intros a b Ha Hb. rewrite !HashString_table. apply table_inj; [vm_compute; reflexivity|vm_compute; reflexivity|]. unfold int_of_uint. destruct (Z.ltb_spec a (2 ^ 63)), (Z.ltb_spec b (2 ^ 63)); lia.
  - intros a b. change (SigAlgString a) with (table_name "" detailNames (fun x => x) a). change (SigAlgString b) with (table_name "" detailNames (fun x => x) b). apply table_inj; [vm_compute; reflexivity|vm_compute; reflexivity|auto].
  - set (tab := [(1, "RSA"); (2, "DSA"); (3, "ECDSA"); (4, "Ed25519"); (5, "SM2")]%string).
    assert (T : forall a, PubAlgString a = table_name "" tab (fun x => x) a).
    { intros a. unfold PubAlgString, table_name, tab. cbn [find fst]. change (zlen publicKeyAlgoName) with 6.
      destruct (Z.eqb_spec 1 a) as [<-|]; [reflexivity|]. destruct (Z.eqb_spec 2 a) as [<-|]; [reflexivity|]. destruct (Z.eqb_spec 3 a) as [<-|]; [reflexivity|].
      destruct (Z.eqb_spec 4 a) as [<-|]; [reflexivity|]. destruct (Z.eqb_spec 5 a) as [<-|]; [reflexivity|]. replace ((0 <? a) && (a <? 6)) with false by lia. reflexivity. }
    intros a b. rewrite !T. apply table_inj; [vm_compute; reflexivity|vm_compute; reflexivity|auto].
Qed.
Print Assumptions C113_names.
(** Size: the bits of the named function, for every hash with a name, and 16 bytes for MD4, which has none; a panic for every other value *)
Theorem C113_size : forall h, 0 <= h ->
  (forall bits, In (HashString h, bits) digest_bits -> exists n, Size h = Ret n /\ 8 * n = bits) /\
  (Size h = Panic <-> h = 0 \/ 21 <= h) /\
  (h <> 1 -> (exists n, Size h = Ret n) -> exists bits, In (HashString h, bits) digest_bits).
Proof.
  intros h Hh. destruct (Z_lt_dec h 21) as [L|L].
  - assert (C : h = 0 \/ h = 1 \/ h = 2 \/ h = 3 \/ h = 4 \/ h = 5 \/ h = 6 \/ h = 7 \/ h = 8 \/ h = 9 \/ h = 10 \/ h = 11 \/ h = 12 \/ h = 13 \/ h = 14 \/ h = 15 \/ h = 16 \/ h = 17 \/ h = 18 \/ h = 19 \/ h = 20) by lia.
    assert (F : forall h, existsb (Z.eqb h) [0; 1] = false -> Forall (fun x => fst x = HashString h -> exists n, Size h = Ret n /\ 8 * n = snd x) digest_bits ->
                 (exists bits, In (HashString h, bits) digest_bits) -> Size h <> Panic -> 0 < h < 21 ->
                 (forall bits, In (HashString h, bits) digest_bits -> exists n, Size h = Ret n /\ 8 * n = bits) /\ (Size h = Panic <-> h = 0 \/ 21 <= h) /\
                 (h <> 1 -> (exists n, Size h = Ret n) -> exists bits, In (HashString h, bits) digest_bits)).
    { clear. intros h _ F E N R. split; [|split; [|auto]].
      - intros bits I. rewrite Forall_forall in F. exact (F _ I eq_refl).
      - split; [contradiction|lia]. }
    destruct C as [->|[->|C]].
    + split; [intros bits I; cbn in I; decompose [or] I; try contradiction; discriminate|]. split; [split; [auto|reflexivity]|]. intros _ [n Q]. discriminate Q.
    + split; [intros bits I; cbn in I; decompose [or] I; try contradiction; discriminate|]. split; [split; [discriminate|lia]|]. intros Q. now destruct Q.
    + clear Hh L. repeat destruct C as [->|C]; [..|subst h]; apply F; try reflexivity; try discriminate; try lia;
        first [unfold digest_bits; repeat (apply Forall_cons; [intros Q; first [discriminate Q|eexists; split; reflexivity]|]); apply Forall_nil|eexists; cbn; tauto].
  - assert (S : Size h = Panic) by (unfold Size, maxHash; replace ((0 <? h) && (h <? 21)) with false by lia; reflexivity).
    assert (N : forall bits, ~ In (HashString h, bits) digest_bits).
    { intros bits I. rewrite HashString_table in I. unfold table_name in I. destruct (find _ hashNames) as [d|] eqn:E.
      - apply find_some in E as [E K]. cbn in E. decompose [or] E; try contradiction; subst d; cbn [fst] in K; apply Z.eqb_eq in K; lia.
      - clear E. cbn in I. decompose [or] I; try contradiction; discriminate. }
    split; [intros bits I; now destruct (N bits)|]. split; [split; [lia|auto]|]. intros _ [n Q]. congruence.
Qed.
Print Assumptions C113_size.
Example C113_instance : HashString 20 = "SM3"%string /\ HashString 1 = "unknown hash value 1"%string /\ HashString (2 ^ 64 - 7) = "unknown hash value -7"%string /\
  SigAlgString 16 = "SM2WithSM3"%string /\ SigAlgString (-3) = "-3"%string /\ SigAlgString 0 = "0"%string /\ PubAlgString 5 = "SM2"%string /\ PubAlgString 6 = "6"%string.
Proof. repeat split. Qed.

(** ** C114 *)
(** Equal is an equivalence on certificates and nil pointers, and for parsed certificates it says that the DER inputs were the same *)
Theorem C114_equal : 
  (forall a, Certificate_Equal a a = true) /\ (forall a b, Certificate_Equal a b = Certificate_Equal b a) /\
  (forall a b c, Certificate_Equal a b = true -> Certificate_Equal b c = true -> Certificate_Equal a c = true) /\
  (forall a, Certificate_Equal None a = true <-> a = None) /\
  (forall net der der' c c', bytes_ok der -> bytes_ok der' -> ParseCertificate net der = Ret c -> ParseCertificate net der' = Ret c' ->
     (Certificate_Equal (Some c) (Some c') = true <-> der = der')).
Proof.
  assert (Q : forall a b, Certificate_Equal a b = true <-> option_map c_Raw a = option_map c_Raw b).
  { intros [a|] [b|]; cbn; [rewrite bytes_eqb_spec; split; congruence|split; discriminate|split; discriminate|tauto]. }
  split; [intros a; now apply Q|]. split.
  { intros a b. destruct (Certificate_Equal a b) eqn:E.
    - symmetry. apply Q. apply Q in E. now symmetry.
    - destruct (Certificate_Equal b a) eqn:E'; [|reflexivity]. apply Q in E'. symmetry in E'. apply Q in E'. congruence. }
  split; [intros a b c H1 H2; apply Q in H1; apply Q in H2; apply Q; congruence|]. split; [intros [a|]; cbn; split; congruence|].
  intros net der der' c c' Hb Hb' E E'. rewrite Q. cbn. destruct (C70_exact net der c Hb E) as [R _]. destruct (C70_exact net der' c' Hb' E') as [R' _]. rewrite R, R'. split; congruence.
Qed.
Print Assumptions C114_equal.
(** bytes that ParseDERCRL accepts never look like PEM *)
Lemma der_not_pem b : HasPrefix b pemCRLPrefix = true -> exists e, ParseDERCRL b = Err e.
Proof.
  intros H. assert (P : exists r, b = 45 :: 45 :: r).
  { unfold HasPrefix in H. apply bytes_eqb_spec in H. destruct b as [|x [|y b]]; [discriminate H|discriminate H|]. exists b. cbn in H. congruence. }
  destruct P as [r ->]. unfold ParseDERCRL, Unmarshal. eexists. cbn. reflexivity.
Qed.
(** C114: a list in DER is read as it is; a PEM block of the type "X509 CRL" at the start of the input is read as the list it contains;
    an input that starts like such a block and is none is rejected *)
Theorem C114_parse_crl : forall pemDecode b,
  (forall l, ParseDERCRL b = Ret l -> ParseCRL pemDecode b = Ret l) /\
  (forall contents, (exists r, b = chars "-----BEGIN X509 CRL" ++ r) -> pemDecode b = Some (chars "X509 CRL", contents) -> ParseCRL pemDecode b = ParseDERCRL contents) /\
  (forall l, ParseCRL pemDecode b = Ret l -> ParseDERCRL b = Ret l \/
     (exists r, b = chars "-----BEGIN X509 CRL" ++ r) /\ exists contents, pemDecode b = Some (chars "X509 CRL", contents) /\ ParseDERCRL contents = Ret l).
Proof.
  intros pemDecode b.
  assert (HP : HasPrefix b pemCRLPrefix = true <-> exists r, b = chars "-----BEGIN X509 CRL" ++ r).
  { unfold HasPrefix. rewrite bytes_eqb_spec. change (chars "-----BEGIN X509 CRL") with pemCRLPrefix. split.
    - intros E. exists (skipn (List.length pemCRLPrefix) b). rewrite <- E at 1. symmetry. apply firstn_skipn.
    - intros [r ->]. rewrite firstn_app, Nat.sub_diag, firstn_O, app_nil_r. apply firstn_all. }
  unfold ParseCRL. split; [|split].
  - intros l E. destruct (HasPrefix b pemCRLPrefix) eqn:H; [|exact E]. destruct (der_not_pem b H) as [e Q]. rewrite Q in E. discriminate E.
  - intros contents Hr Hp. apply HP in Hr. rewrite Hr, Hp. change (chars "X509 CRL") with pemType. now rewrite bytes_eqb_refl.
  - intros l. destruct (HasPrefix b pemCRLPrefix) eqn:H; [|auto]. destruct (pemDecode b) as [[ty contents]|]; [|auto]. destruct (bytes_eqb ty pemType) eqn:Et; [|auto].
    apply bytes_eqb_spec in Et. subst ty. intros E. right. split; [now apply HP|]. eexists. split; [reflexivity|exact E].
Qed.
Print Assumptions C114_parse_crl.
Example C114_instance : exists der l, ParseDERCRL der = Ret l /\ let pem := chars "-----BEGIN X509 CRL-----" ++ [10] in
  ParseCRL (fun _ => Some (chars "X509 CRL", der)) pem = Ret l /\ (exists e, ParseCRL (fun _ => Some (chars "X509 CRLS", der)) pem = Err e) /\ ParseCRL (fun _ => None) der = Ret l.
Proof.
  destruct C94_nonvacuous as (P & key & der & c & l & _ & _ & _ & _ & L & _). exists der, l. split; [exact L|]. cbv zeta. split; [|split].
  - rewrite <- L. apply C114_parse_crl; [now exists (chars "-----" ++ [10])|reflexivity].
  - eexists. reflexivity.
  - now apply C114_parse_crl.
Qed.
Example C114_equal_instance : exists c, ParseCertificate net0 example_der = Ret c /\ Certificate_Equal (Some c) (Some c) = true /\ Certificate_Equal None (Some c) = false.
Proof. destruct certificate_instance as (_ & c & E & _). exists c. split; [exact E|]. split; [apply C114_equal|reflexivity]. Qed.
