(** * C124: certificates and keys through PKCS#12, with the certificate parser of the same library *)
From Coq Require Import String ZifyBool ZifyNat.
From Verif Require Import Base Words ECSpec ECModel ECProofs ECBridge BaseOrder SM2Spec SM2Model CryptoByte Asn1 Asn1Proofs KeysModel KeysProofs Asn1Safe BMPModel P12Spec P12Model P12Proofs P12Round
  P12File PropertiesP12 PropertiesNoPanic PropertiesCurve PropertiesTrunc PropertiesP12File X509Model X509Sig X509Build X509Crl X509Proofs X509CertProofs PropertiesX509Cert X509Spki X509CreateProofs
  PropertiesX509Sig PropertiesX509Crl PropertiesX509Exts PropertiesX509Create.
Open Scope Z_scope.
(** pkcs12.go:235: DecodeAll, and so SM2P12Decrypt, reads certificates with this library's ParseCertificates.  (Of the authorities'
    certificates given to Encode, of the standard library's type, only Raw is used, which is the DER that was parsed.) *)
Definition open_all (P : prims) (edPub : bytes -> bytes) (net : netlib) : bytes -> list Z -> outcome (privKey * list Certificate * option string) :=
  DecodeAll P edPub Certificate (ParseCertificates net).
Definition open_file (P : prims) (edPub : bytes -> bytes) (net : netlib) : option bytes -> list Z -> outcome (option (Certificate * privKey)) :=
  SM2P12Decrypt P edPub Certificate (ParseCertificates net).

Lemma one_cert net der c : bytes_ok der -> ParseCertificate net der = Ret c -> ParseCertificates net der = Ret [c].
Proof. intros O E. pose proof (C71_concatenation net [der] [c] ltac:(repeat constructor; exact O) ltac:(repeat constructor; exact E)) as H. cbn [List.concat] in H. now rewrite app_nil_r in H. Qed.
(** C124: what ParseCertificate gave, Encode stores and DecodeAll gives back: the same key, the same certificates with all their
    fields, in the order given; whether or not the key belongs to the certificate *)
Theorem C124_parsed : forall P edPub net rnd d der c caDers cas password pwd, prims_ok P ->
  0 <= d < sm2_N -> bmpString password = Ret pwd -> bytes_ok rnd -> 24 <= zlen rnd ->
  bytes_ok der -> Forall bytes_ok caDers -> total_size (der :: caDers) < 2 ^ 29 ->
  ParseCertificate net der = Ret c -> Forall2 (fun r x => ParseCertificate net r = Ret x) caDers cas ->
  exists out, Encode P rnd (sm2_key d) (c_Raw c) caDers password = Ret out /\ open_all P edPub net out password = Ret (sm2_key d, c :: cas, None).
Proof.
  intros P edPub net rnd d der c caDers cas password pwd HP Hd Eb Or Lr Od Oca Hz Hc Hcs.
  rewrite (Parse_raw net der c Od Hc). apply (C45_encode_decode P edPub Certificate (ParseCertificates net) rnd d der caDers c cas password pwd HP Hd Eb Or Lr Od Oca Hz (one_cert net der c Od Hc)).
  clear Hz. induction Hcs as [|r x rs xs E _ IH]; [constructor|]. inversion Oca as [|? ? O1 O2]; subst. constructor; [exact (one_cert net r x O1 E)|exact (IH O2)].
Qed.
Print Assumptions C124_parsed.

(** the public half of the key the store holds *)
Definition sm2_pub (d : Z) : pubKey := PKsm2 (mkPub SM2P256V1_id (fst (enc (sm2_pmul d sm2_G))) (snd (enc (sm2_pmul d sm2_G)))).
(** C124: from issuing to use.  An authority (key1) gets a certificate, issues one for the SM2 key d, both are stored with d in a PFX
    under a password and read back: d comes back, the leaf certificate names the public key of d, and its signature verifies
    against the authority's certificate from the store. *)
Theorem C124_issued : forall S P edPub net rand1 rand2 t1 parent1 key0 der1 t2 parent2 key1 der2 rnd d password pwd, prims_ok P ->
  1 <= d < sm2_N -> bmpString password = Ret pwd -> bytes_ok rnd -> 24 <= zlen rnd ->
  CreateCertificate S rand1 t1 parent1 (sg_Public key1) (ASigner key0) = Ret der1 -> fine net t1 parent1 (sg_Public key1) der1 -> ca_template t1 ->
  CreateCertificate S rand2 t2 parent2 (sm2_pub d) (ASigner key1) = Ret der2 -> fine net t2 parent2 (sm2_pub d) der2 -> trusted S key1 t2 ->
  bytes_ok der1 -> bytes_ok der2 -> zlen der1 + zlen der2 < 2 ^ 28 ->
  exists out leaf ca, Encode P rnd (sm2_key d) der2 [der1] password = Ret out /\
    open_all P edPub net out password = Ret (sm2_key d, [leaf; ca], None) /\
    ParseCertificate net der2 = Ret leaf /\ ParseCertificate net der1 = Ret ca /\
    c_PublicKey leaf = sm2_pub d /\ c_PublicKey ca = sg_Public key1 /\ CheckSignatureFrom S leaf ca = Ret tt.
Proof.
  intros S P edPub net rand1 rand2 t1 parent1 key0 der1 t2 parent2 key1 der2 rnd d password pwd HP Hd Eb Or Lr E1 F1 A1 E2 F2 T2 O1 O2 Hz.
  destruct (C102_chain S net rand1 rand2 t1 parent1 key0 der1 t2 parent2 (sm2_pub d) key1 der2 E1 F1 A1 E2 F2 T2) as (ca & leaf & Hca & Hl & V).
  assert (Z : total_size [der2; der1] < 2 ^ 29) by (unfold total_size; cbn [map fold_right]; lia).
  destruct (C124_parsed P edPub net rnd d der2 leaf [der1] [ca] password pwd HP ltac:(lia) Eb Or Lr O2 ltac:(repeat constructor; exact O1) Z Hl ltac:(repeat constructor; exact Hca)) as (out & Eo & Do).
  rewrite (Parse_raw net der2 leaf O2 Hl) in Eo.
  exists out, leaf, ca. split; [exact Eo|]. split; [exact Do|]. split; [exact Hl|]. split; [exact Hca|].
  destruct F1 as (Hz1 & Ht1 & Hp1 & Vb1 & Va1 & Gp1 & (s1 & p1 & x1 & W1) & Hx1). destruct F2 as (Hz2 & Ht2 & Hp2 & Vb2 & Va2 & Gp2 & (s2 & p2 & x2 & W2) & Hx2).
  destruct (C99_created S net rand1 t1 parent1 _ key0 der1 s1 p1 x1 E1 Hz1 Ht1 Hp1 Vb1 Va1 Gp1 W1 Hx1) as (c1 & Hc1 & _ & _ & _ & _ & _ & _ & _ & K1 & _).
  destruct (C99_created S net rand2 t2 parent2 _ key1 der2 s2 p2 x2 E2 Hz2 Ht2 Hp2 Vb2 Va2 Gp2 W2 Hx2) as (c2 & Hc2 & _ & _ & _ & _ & _ & _ & _ & K2 & _).
  assert (c1 = ca) by congruence. assert (c2 = leaf) by congruence. subst c1 c2. auto.
Qed.
Print Assumptions C124_issued.
(** C124: the same through a file: SM2P12Encrypt, then SM2P12Decrypt *)
Theorem C124_file : forall P edPub net rnd d der c password old file, prims_ok P -> 1 <= d < sm2_N -> bytes_ok rnd -> bytes_ok der -> zlen der < 2 ^ 28 ->
  ParseCertificate net der = Ret c -> SM2P12Encrypt P rnd (sm2_key d) (c_Raw c) password Written old = (file, Ret tt) ->
  open_file P edPub net file password = Ret (Some (c, sm2_key d)).
Proof.
  intros P edPub net rnd d der c password old file HP Hd Or Od Hz Hc E. pose proof (Parse_raw net der c Od Hc) as R. rewrite R in E.
  destruct (C120_success P edPub Certificate (ParseCertificates net) (mkCall rnd d der password Written) old file HP) as (x & Ex & G).
  - split; [exact Hd|]. split; [exact Or|]. split; [exact Od|]. split; [exact Hz|]. exists c. exact (one_cert net der c Od Hc).
  - exact E.
  - cbn [ec_cert ec_pwd ec_D] in *. rewrite (one_cert net der c Od Hc) in Ex. injection Ex as <-. exact G.
Qed.
Print Assumptions C124_file.

(** not vacuous: the authority of C102's case issues a certificate for the SM2 key 1 *)
Definition leaf_der : bytes := Eval vm_compute in der_of (CreateCertificate prims0 [] leaf0 ca0 (PKsm2 (mkPub SM2P256V1_id sm2_Gx sm2_Gy)) (ASigner rsa_signer)).
Lemma sm2_pub_1 : sm2_pub 1 = PKsm2 (mkPub SM2P256V1_id sm2_Gx sm2_Gy).
Proof. unfold sm2_pub. rewrite (sm2_pmul_1). reflexivity. Qed.
Example C124_instance : exists out leaf ca, Encode toy (repeat 5 24) (sm2_key 1) leaf_der [der1] [112; 119] = Ret out /\ open_all toy (fun x => x) noNet out [112; 119] = Ret (sm2_key 1, [leaf; ca], None) /\ c_PublicKey leaf = sm2_pub 1 /\ CheckSignatureFrom prims0 leaf ca = Ret tt.
Proof.
  destruct (C124_issued prims0 toy (fun x => x) noNet [] [] ca0 ca0 rsa_signer der1 leaf0 ca0 rsa_signer leaf_der (repeat 5 24) 1 [112; 119] [0; 112; 0; 119; 0; 0]) as (out & leaf & ca & H1 & H2 & _ & _ & H3 & _ & H4).
  - exact toy_ok.
  - unfold sm2_N. lia.
  - reflexivity.
  - apply bytes_okb_spec; reflexivity.
  - discriminate.
  - exact made1.
  - exact fine1.
  - exact (proj1 C102_nonvacuous).
  - rewrite sm2_pub_1. vm_compute. reflexivity.
  - destruct fine2 as (_ & B & C & D & E & _ & F & G). split; [vm_compute; reflexivity|]. split; [exact B|]. split; [exact C|]. split; [exact D|]. split; [exact E|]. split; [|split; [exact F|exact G]].
    rewrite sm2_pub_1. split; [reflexivity|]. vm_compute. reflexivity.
  - exact (proj1 (proj2 (proj2 C102_nonvacuous))).
  - apply bytes_okb_spec; vm_compute; reflexivity.
  - apply bytes_okb_spec; vm_compute; reflexivity.
  - vm_compute. reflexivity.
  - exists out, leaf, ca. auto.
Qed.
