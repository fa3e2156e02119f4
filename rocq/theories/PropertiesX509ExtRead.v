(** * Property C146 (x509: exactly how the standard extensions are read) *)
From Coq Require Import String.
From Verif Require Import Base Words Utf8 BMPModel ECSpec ECModel SM2Model CryptoByte Asn1 Asn1Proofs KeysModel KeysProofs P12Enc X509Model X509Sig X509Build X509Proofs X509StrProofs PropertiesX509Str X509ExtProofs X509NCProofs PropertiesX509Ext X509CertProofs PropertiesX509Cert PropertiesX509Exts PropertiesX509Create PropertiesX509Build PropertiesSec1 PropertiesX509Read.
From Coq Require Import ZifyBool ZifyNat.
Open Scope Z_scope.

(** ** Specification *)
(** [element], [each_in], [identifier], [integer], [starts]: see C145.  [e] is at the front of [v]; what follows it is ignored *)
Definition front (R : bytes -> Prop) (v : bytes) : Prop := exists e ignored, v = e ++ ignored /\ R e.
(** key usage: a BIT STRING whose bit i (counted from the most significant bit of the first octet) is bit i of the number, for the first nine bits *)
Definition key_usage (ku : Z) (v : bytes) : Prop :=
  front (fun e => exists pad bits, element 3 (pad :: bits) e /\ padded pad bits /\
    forall i, 0 <= i -> Z.testbit ku i = (i <? 9) && (i <? 8 * zlen bits - pad) && Z.testbit (nth (Z.to_nat (i / 8)) bits 0) (7 - i mod 8)) v.
(** an optional BOOLEAN, false if absent *)
Definition flag (b : bool) (e rest : bytes) : Prop :=
  (e = [] /\ ~ starts 1 rest /\ b = false) \/ (e = [1; 1; 0] /\ b = false) \/ (e = [1; 1; 255] /\ b = true).
(** basic constraints: a SEQUENCE of the flag and the optional path length, -1 if absent *)
Definition basic_constraints (ca : bool) (len : Z) (v : bytes) : Prop :=
  front (fun e => exists f n rest, element 48 (f ++ n ++ rest) e /\ flag ca f (n ++ rest) /\
    ((n = [] /\ ~ starts 2 rest /\ len = -1) \/ (integer len n /\ - 2 ^ 63 <= len < 2 ^ 63))) v.
(** the domains of C66 *)
Definition domain (d : bytes) : Prop :=
  d = [] \/ exists labels, labels <> [] /\ Forall label labels /\ (d = dotted labels \/ d = chars "." ++ dotted labels).
Definition ascii (s : bytes) : Prop := Forall (fun b => b < 128) s.
(** alternative names: [1] e-mail, [2] DNS, [6] URI, [7] IP address; every other type is skipped *)
Definition general_name (net : netlib) (g : genName) (e : bytes) : Prop :=
  exists t s, element t s e /\
    ((t = 129 /\ ascii s /\ g = GNemail s) \/ (t = 130 /\ ascii s /\ g = GNdns s) \/
     (t = 134 /\ ascii s /\ exists u, url_Parse net s = Some u /\ (u_Host u = [] \/ domain (u_Host u)) /\ g = GNuri u) \/
     (t = 135 /\ (List.length s = 4 \/ List.length s = 16)%nat /\ g = GNip s) \/
     (~ In t [129; 130; 134; 135] /\ g = GNother)).
Definition alternative_names (net : netlib) (s : SANs) (v : bytes) : Prop :=
  exists l, front (each_in 48 (general_name net) l) v /\
    san_DNS s = flat_map (fun g => match g with GNdns s => [s] | _ => [] end) l /\ san_Email s = flat_map (fun g => match g with GNemail s => [s] | _ => [] end) l /\
    san_IP s = flat_map (fun g => match g with GNip s => [s] | _ => [] end) l /\ san_URI s = flat_map (fun g => match g with GNuri s => [s] | _ => [] end) l.
(** extended key usages: the known ones (C62 has the table) and the others, each in their order *)
Definition ext_key_usage (known : list Z) (unknown : list oid) (v : bytes) : Prop :=
  exists l, front (each_in 48 identifier l) v /\
    known = flat_map (fun o => match extKeyUsageFromOID o with Some u => [u] | None => [] end) l /\
    unknown = filter (fun o => match extKeyUsageFromOID o with Some _ => false | None => true end) l.
(** policies: the identifier at the front of every SEQUENCE *)
Definition policies (l : list oid) (v : bytes) : Prop :=
  front (each_in 48 (fun o e => exists id ignored, identifier o id /\ element 48 (id ++ ignored) e) l) v.
(** a distribution point: without a name, or the URIs at the front of its full name *)
Definition distribution_point (uris : list bytes) (e : bytes) : Prop :=
  exists c, element 48 c e /\
    ((uris = [] /\ ~ starts 160 c) \/
     (exists n m us rest, front (element 160 n) c /\ front (element 160 m) n /\ m = List.concat us ++ rest /\ Forall2 (element 134) uris us /\ ~ starts 134 rest)).
Definition distribution_points (l : list bytes) (v : bytes) : Prop :=
  exists ll, front (each_in 48 distribution_point ll) v /\ l = List.concat ll.
(** the authority key identifier: [0] at the front, or none *)
Definition authority_key (k : option bytes) (v : bytes) : Prop :=
  front (fun e => exists c, element 48 c e /\ match k with Some id => front (element 128 id) c | None => ~ starts 128 c end) v.
(** one access description: a URI with one of the two methods, or nothing *)
Definition access (p : list bytes * list bytes) (e : bytes) : Prop :=
  exists m id rest, identifier m id /\ element 48 (id ++ rest) e /\
    ((~ starts 134 rest /\ p = ([], [])) \/
     (exists u, front (element 134 u) rest /\
        ((m = [1; 3; 6; 1; 5; 5; 7; 48; 1] /\ p = ([u], [])) \/ (m = [1; 3; 6; 1; 5; 5; 7; 48; 2] /\ p = ([], [u])) \/
         (m <> [1; 3; 6; 1; 5; 5; 7; 48; 1] /\ m <> [1; 3; 6; 1; 5; 5; 7; 48; 2] /\ p = ([], []))))).
Definition authority_info (ocsp issuers : list bytes) (v : bytes) : Prop :=
  exists l, front (each_in 48 access l) v /\ ocsp = List.concat (map fst l) /\ issuers = List.concat (map snd l).
(** name constraints: one optional dot, then a domain *)
Definition constraint_domain (s : bytes) : Prop := domain (match s with 46 :: r => r | _ => s end).
Definition subtree (net : netlib) (c : constraint) (e : bytes) : Prop :=
  exists t s el ignored, element t s el /\ element 48 (el ++ ignored) e /\
    ((t = 130 /\ ascii s /\ constraint_domain s /\ c = NCdns s) \/
     (t = 135 /\ (exists ip mask, s = ip ++ mask /\ List.length ip = List.length mask /\ (List.length mask = 4 \/ List.length mask = 16)%nat /\
        (exists ones zeros, bits mask = repeat true ones ++ repeat false zeros) /\ c = NCip (mkIPNet ip mask))) \/
     (t = 129 /\ ascii s /\ (if existsb (Z.eqb 64) s then exists l d, mailbox s l d else constraint_domain s) /\ c = NCemail s) \/
     (t = 134 /\ ascii s /\ net_ParseIP net s = false /\ constraint_domain s /\ c = NCuri s) \/
     (~ In t [129; 130; 134; 135] /\ c = NCother)).
Definition constraint_lists (l : list constraint) (c : constraints) : Prop :=
  nc_DNS c = flat_map (fun g => match g with NCdns s => [s] | _ => [] end) l /\ nc_IP c = flat_map (fun g => match g with NCip s => [s] | _ => [] end) l /\
  nc_Email c = flat_map (fun g => match g with NCemail s => [s] | _ => [] end) l /\ nc_URI c = flat_map (fun g => match g with NCuri s => [s] | _ => [] end) l.
(** an optional list of subtrees *)
Definition subtrees (net : netlib) (t : Z) (present : bool) (l : list constraint) (f rest : bytes) : Prop :=
  if present then exists es, Forall2 (subtree net) l es /\ element t (List.concat es) f else f = [] /\ l = [] /\ ~ starts t rest.
(** the whole extension, without anything after it or after the two lists; at least one constraint *)
Definition name_constraints (net : netlib) (p x : constraints) (unhandled : bool) (v : bytes) : Prop :=
  exists hp hx lp lx fp fx, element 48 (fp ++ fx) v /\ subtrees net 160 hp lp fp fx /\ subtrees net 161 hx lx fx [] /\ (lp <> [] \/ lx <> []) /\
    constraint_lists lp p /\ constraint_lists lx x /\ (unhandled = true <-> In NCother (lp ++ lx)).
(** what one extension does to the fields, and whether it is (partly) not understood *)
Inductive reading (net : netlib) (x : Extension) (i : extInfo) : extInfo -> bool -> Prop :=
| r_key_usage ku : x_Id x = [2; 5; 29; 15] -> key_usage ku (x_Value x) ->
    reading net x i (mkInfo ku (i_BasicConstraintsValid i) (i_IsCA i) (i_MaxPathLen i) (i_MaxPathLenZero i) (i_SAN i) (i_Permitted i) (i_Excluded i) (i_PermittedDNSDomainsCritical i)
      (i_CRLDistributionPoints i) (i_AuthorityKeyId i) (i_SubjectKeyId i) (i_ExtKeyUsage i) (i_UnknownExtKeyUsage i) (i_PolicyIdentifiers i) (i_OCSPServer i) (i_IssuingCertificateURL i) (i_Unhandled i)) false
| r_basic_constraints ca len : x_Id x = [2; 5; 29; 19] -> basic_constraints ca len (x_Value x) ->
    reading net x i (mkInfo (i_KeyUsage i) true ca len (len =? 0) (i_SAN i) (i_Permitted i) (i_Excluded i) (i_PermittedDNSDomainsCritical i)
      (i_CRLDistributionPoints i) (i_AuthorityKeyId i) (i_SubjectKeyId i) (i_ExtKeyUsage i) (i_UnknownExtKeyUsage i) (i_PolicyIdentifiers i) (i_OCSPServer i) (i_IssuingCertificateURL i) (i_Unhandled i)) false
| r_alternative_names s u : x_Id x = [2; 5; 29; 17] -> alternative_names net s (x_Value x) ->
    (u = true <-> san_DNS s = [] /\ san_Email s = [] /\ san_IP s = [] /\ san_URI s = []) ->
    reading net x i (mkInfo (i_KeyUsage i) (i_BasicConstraintsValid i) (i_IsCA i) (i_MaxPathLen i) (i_MaxPathLenZero i) s (i_Permitted i) (i_Excluded i) (i_PermittedDNSDomainsCritical i)
      (i_CRLDistributionPoints i) (i_AuthorityKeyId i) (i_SubjectKeyId i) (i_ExtKeyUsage i) (i_UnknownExtKeyUsage i) (i_PolicyIdentifiers i) (i_OCSPServer i) (i_IssuingCertificateURL i) (i_Unhandled i)) u
| r_name_constraints p e u : x_Id x = [2; 5; 29; 30] -> name_constraints net p e u (x_Value x) ->
    reading net x i (mkInfo (i_KeyUsage i) (i_BasicConstraintsValid i) (i_IsCA i) (i_MaxPathLen i) (i_MaxPathLenZero i) (i_SAN i) p e (x_Critical x)
      (i_CRLDistributionPoints i) (i_AuthorityKeyId i) (i_SubjectKeyId i) (i_ExtKeyUsage i) (i_UnknownExtKeyUsage i) (i_PolicyIdentifiers i) (i_OCSPServer i) (i_IssuingCertificateURL i) (i_Unhandled i)) u
| r_distribution_points l : x_Id x = [2; 5; 29; 31] -> distribution_points l (x_Value x) ->
    reading net x i (mkInfo (i_KeyUsage i) (i_BasicConstraintsValid i) (i_IsCA i) (i_MaxPathLen i) (i_MaxPathLenZero i) (i_SAN i) (i_Permitted i) (i_Excluded i) (i_PermittedDNSDomainsCritical i)
      (i_CRLDistributionPoints i ++ l) (i_AuthorityKeyId i) (i_SubjectKeyId i) (i_ExtKeyUsage i) (i_UnknownExtKeyUsage i) (i_PolicyIdentifiers i) (i_OCSPServer i) (i_IssuingCertificateURL i) (i_Unhandled i)) false
| r_authority_key k : x_Id x = [2; 5; 29; 35] -> authority_key k (x_Value x) ->
    reading net x i (mkInfo (i_KeyUsage i) (i_BasicConstraintsValid i) (i_IsCA i) (i_MaxPathLen i) (i_MaxPathLenZero i) (i_SAN i) (i_Permitted i) (i_Excluded i) (i_PermittedDNSDomainsCritical i)
      (i_CRLDistributionPoints i) (match k with Some id => id | None => i_AuthorityKeyId i end) (i_SubjectKeyId i) (i_ExtKeyUsage i) (i_UnknownExtKeyUsage i) (i_PolicyIdentifiers i) (i_OCSPServer i) (i_IssuingCertificateURL i) (i_Unhandled i)) false
| r_ext_key_usage k u : x_Id x = [2; 5; 29; 37] -> ext_key_usage k u (x_Value x) ->
    reading net x i (mkInfo (i_KeyUsage i) (i_BasicConstraintsValid i) (i_IsCA i) (i_MaxPathLen i) (i_MaxPathLenZero i) (i_SAN i) (i_Permitted i) (i_Excluded i) (i_PermittedDNSDomainsCritical i)
      (i_CRLDistributionPoints i) (i_AuthorityKeyId i) (i_SubjectKeyId i) k u (i_PolicyIdentifiers i) (i_OCSPServer i) (i_IssuingCertificateURL i) (i_Unhandled i)) false
| r_subject_key id : x_Id x = [2; 5; 29; 14] -> front (element 4 id) (x_Value x) ->
    reading net x i (mkInfo (i_KeyUsage i) (i_BasicConstraintsValid i) (i_IsCA i) (i_MaxPathLen i) (i_MaxPathLenZero i) (i_SAN i) (i_Permitted i) (i_Excluded i) (i_PermittedDNSDomainsCritical i)
      (i_CRLDistributionPoints i) (i_AuthorityKeyId i) id (i_ExtKeyUsage i) (i_UnknownExtKeyUsage i) (i_PolicyIdentifiers i) (i_OCSPServer i) (i_IssuingCertificateURL i) (i_Unhandled i)) false
| r_policies l : x_Id x = [2; 5; 29; 32] -> policies l (x_Value x) ->
    reading net x i (mkInfo (i_KeyUsage i) (i_BasicConstraintsValid i) (i_IsCA i) (i_MaxPathLen i) (i_MaxPathLenZero i) (i_SAN i) (i_Permitted i) (i_Excluded i) (i_PermittedDNSDomainsCritical i)
      (i_CRLDistributionPoints i) (i_AuthorityKeyId i) (i_SubjectKeyId i) (i_ExtKeyUsage i) (i_UnknownExtKeyUsage i) l (i_OCSPServer i) (i_IssuingCertificateURL i) (i_Unhandled i)) false
| r_authority_info ocsp issuers : x_Id x = [1; 3; 6; 1; 5; 5; 7; 1; 1] -> authority_info ocsp issuers (x_Value x) ->
    reading net x i (mkInfo (i_KeyUsage i) (i_BasicConstraintsValid i) (i_IsCA i) (i_MaxPathLen i) (i_MaxPathLenZero i) (i_SAN i) (i_Permitted i) (i_Excluded i) (i_PermittedDNSDomainsCritical i)
      (i_CRLDistributionPoints i) (i_AuthorityKeyId i) (i_SubjectKeyId i) (i_ExtKeyUsage i) (i_UnknownExtKeyUsage i) (i_PolicyIdentifiers i) (i_OCSPServer i ++ ocsp) (i_IssuingCertificateURL i ++ issuers) (i_Unhandled i)) false
| r_other : ~ In (x_Id x) [[2; 5; 29; 14]; [2; 5; 29; 15]; [2; 5; 29; 17]; [2; 5; 29; 19]; [2; 5; 29; 30]; [2; 5; 29; 31]; [2; 5; 29; 32]; [2; 5; 29; 35]; [2; 5; 29; 37]; [1; 3; 6; 1; 5; 5; 7; 1; 1]] ->
    reading net x i i true.
(** all of them, in their order; the identifiers of the critical ones that were not fully understood are collected *)
Inductive derived (net : netlib) : list Extension -> extInfo -> extInfo -> Prop :=
| d_nil i : derived net [] i i
| d_cons x l i j u j' k : reading net x i j u ->
    j' = mkInfo (i_KeyUsage j) (i_BasicConstraintsValid j) (i_IsCA j) (i_MaxPathLen j) (i_MaxPathLenZero j) (i_SAN j) (i_Permitted j) (i_Excluded j) (i_PermittedDNSDomainsCritical j)
      (i_CRLDistributionPoints j) (i_AuthorityKeyId j) (i_SubjectKeyId j) (i_ExtKeyUsage j) (i_UnknownExtKeyUsage j) (i_PolicyIdentifiers j) (i_OCSPServer j) (i_IssuingCertificateURL j)
      (i_Unhandled j ++ if x_Critical x && u then [x_Id x] else []) ->
    derived net l j' k -> derived net (x :: l) i k.

(** ** Lemmas *)
Ltac tg := split; [unfold byte_ok; lia|vm_compute; discriminate].
Lemma front_read t c s : tag_ok t -> bytes_ok s -> ((exists r, readASN1 t s = Some (c, r)) <-> front (element t c) s).
Proof.
  intros T Hs. unfold front. split.
  - intros (r & E). apply read_iff in E as (e & He & ->); auto. exists e, r. auto.
  - intros (e & r & -> & He). exists r. now apply read_el.
Qed.
Lemma seq_iff {A} (p : bytes -> outcome (A * bytes)) R er v l : reads p R -> (forall a e, R a e -> e <> []) -> bytes_ok v ->
  ((do (c, _) <- need (readASN1 T_SEQUENCE v) er; many p c) = Ret l <-> front (each_in 48 R l) v).
Proof.
  intros Hp Hn Hv. split.
  - intros E. bs E q H1. destruct q as [c r]. apply read_iff in H1 as (e & He & ->); [|exact tagok48|exact Hv]. destruct (el_ok _ _ _ _ He Hv) as [Hc _].
    apply (many_reads _ _ Hp Hn) in E as (es & F & ->); [|exact Hc]. exists e, r. split; [reflexivity|]. exists es. auto.
  - intros (e & r & -> & (es & F & He)). change T_SEQUENCE with 48. rewrite (read_el _ _ _ _ He). cbn [need bind]. destruct (el_ok _ _ _ _ He Hv) as [Hc _].
    apply (many_reads _ _ Hp Hn); [exact Hc|]. eauto.
Qed.
Lemma identifier_ne o e : identifier o e -> e <> [].
Proof. intros (_ & H). eapply element_ne; eauto. Qed.
(** key usage *)
Lemma fold_bits (f : Z -> Z) l : Forall (fun j => 0 <= j) l -> forall u i, 0 <= i ->
  Z.testbit (fold_left (fun u j => if f j =? 0 then u else Z.lor u (Z.shiftl 1 j)) l u) i = Z.testbit u i || existsb (fun j => (j =? i) && negb (f j =? 0)) l.
Proof.
  induction 1 as [|j l Hj _ IH]; intros u i Hi; cbn [fold_left existsb]; [now rewrite Bool.orb_false_r|]. rewrite IH by exact Hi. destruct (f j =? 0); cbn [negb].
  - now rewrite Bool.andb_false_r.
  - rewrite Z.lor_spec, Z.shiftl_1_l, Z.pow2_bits_eqb by lia. rewrite Bool.andb_true_r. now rewrite Bool.orb_assoc.
Qed.
Lemma bit_at_spec pad b i : 0 <= i -> negb (bit_at (mkBits (Some b) (8 * zlen b - pad)) i =? 0) = (i <? 8 * zlen b - pad) && Z.testbit (nth (Z.to_nat (i / 8)) b 0) (7 - i mod 8).
Proof.
  intros Hi. unfold bit_at. cbn [bs_len bs_bytes sl]. replace (i <? 0) with false by lia. cbn [orb]. destruct (Z.leb_spec (8 * zlen b - pad) i); [replace (i <? 8 * zlen b - pad) with false by lia; reflexivity|].
  replace (i <? 8 * zlen b - pad) with true by lia. cbn [andb]. set (y := nth _ b 0). pose proof (Z.mod_pos_bound i 8). change 1 with (Z.ones 1) at 1. rewrite Z.land_ones by lia. change (2 ^ 1) with 2.
  rewrite <- Z.bit0_mod. rewrite Z.shiftr_spec by lia. rewrite Z.add_0_l. destruct (Z.testbit y (7 - i mod 8)); reflexivity.
Qed.
Lemma nine i f : 0 <= i -> existsb (fun j => (j =? i) && f j) [0; 1; 2; 3; 4; 5; 6; 7; 8] = (i <? 9) && f i.
Proof.
  intros Hi. destruct (Z.ltb_spec i 9).
  - assert (C : i = 0 \/ i = 1 \/ i = 2 \/ i = 3 \/ i = 4 \/ i = 5 \/ i = 6 \/ i = 7 \/ i = 8) by lia.
    repeat (destruct C as [->|C]; [cbn; rewrite ?Bool.orb_false_r; reflexivity|]). subst i. cbn. rewrite ?Bool.orb_false_r. reflexivity.
  - cbn [existsb andb]. repeat match goal with |- context[?k =? i] => replace (k =? i) with false by lia end. reflexivity.
Qed.
Lemma key_usage_iff v ku : bytes_ok v -> (parseKeyUsageExtension v = Ret ku <-> key_usage ku v).
Proof.
  intros Hv. unfold parseKeyUsageExtension. set (F := fun b => fold_left (fun usage i => if bit_at b i =? 0 then usage else Z.lor usage (Z.shiftl 1 i)) [0; 1; 2; 3; 4; 5; 6; 7; 8] 0).
  assert (FB : forall pad b i, 0 <= i -> Z.testbit (F (mkBits (Some b) (8 * zlen b - pad))) i = (i <? 9) && (i <? 8 * zlen b - pad) && Z.testbit (nth (Z.to_nat (i / 8)) b 0) (7 - i mod 8)).
  { intros pad b i Hi. unfold F. rewrite fold_bits; [|repeat constructor; lia|exact Hi]. rewrite Z.testbit_0_l. cbn [orb].
    rewrite (nine i (fun j => negb (bit_at (mkBits (Some b) (8 * zlen b - pad)) j =? 0)) Hi). rewrite bit_at_spec by exact Hi. now rewrite Bool.andb_assoc. }
  split.
  - intros E. bs E p H1. destruct p as [b r]. injection E as <-. unfold readBitString in H1. destruct (readASN1 T_BIT_STRING v) as [[c r']|] eqn:E1; [|discriminate H1].
    apply read_iff in E1 as (e & He & ->); [|exact tagok3|exact Hv]. destruct (el_ok _ _ _ _ He Hv) as [Hc _]. pose proof (bits_same c Hc r') as BS.
    destruct (bits_parse c) as [b'| |] eqn:Eb; [|rewrite BS in H1; discriminate H1..]. rewrite BS in H1. injection H1 as <- <-.
    destruct (proj1 (bits_parse_exact c Hc)) as (pad & bits & -> & P); [eauto|]. exists e, r'. split; [reflexivity|]. exists pad, bits. split; [exact He|]. split; [exact P|].
    unfold bits_parse in Eb. destruct (_ || _) in Eb; [discriminate Eb|]. injection Eb as <-. rewrite (Z.mul_comm (zlen bits)). apply FB.
  - intros (e & r & -> & (pad & bits & He & P & B)). unfold readBitString. change T_BIT_STRING with 3. rewrite (read_el _ _ _ _ He). destruct (el_ok _ _ _ _ He Hv) as [Hc _].
    destruct (proj2 (bits_parse_exact (pad :: bits) Hc)) as (b & Eb); [eauto|]. pose proof (bits_same (pad :: bits) Hc r) as BS. rewrite Eb in BS. cbv beta iota in BS. rewrite BS. cbn [need bind]. f_equal.
    unfold bits_parse in Eb. destruct (_ || _) in Eb; [discriminate Eb|]. injection Eb as <-. rewrite (Z.mul_comm (zlen bits)). apply Z.bits_inj'. intros i Hi. rewrite (B i Hi). apply FB, Hi.
Qed.
(** basic constraints *)
Lemma flag_ok (er : string) s : bytes_ok s -> forall b r,
  (if peekTag T_BOOLEAN s then need (readBool s) er else Ret (false, s)) = Ret (b, r) <-> exists e, s = e ++ r /\ flag b e r.
Proof.
  intros Hs b r. unfold flag. split.
  - destruct (peekTag T_BOOLEAN s) eqn:P.
    + intros E. apply need_inv in E. unfold readBool in E. destruct (readASN1 T_BOOLEAN s) as [[[|x [|]] r2]|] eqn:EB; try discriminate E. apply readASN1_inv in EB as (-> & _ & _); [|exact Hs]. change T_BOOLEAN with 1. rewrite el_bool.
      exists [1; 1; x]. destruct (Z.eqb_spec x 0) as [->|]; [injection E as <- <-; auto|]. destruct (Z.eqb_spec x 255) as [->|]; [injection E as <- <-; auto|discriminate E].
    + intros [= <- <-]. exists []. apply peek_not in P. auto.
  - intros (e & -> & [(-> & N & ->)|[(-> & ->)|(-> & ->)]]).
    + cbn [app]. now rewrite (proj2 (peek_not T_BOOLEAN r) N).
    + change ([1; 1; 0] ++ r) with (tlv 1 [0] ++ r). replace (peekTag T_BOOLEAN (tlv 1 [0] ++ r)) with true by reflexivity. unfold readBool. change T_BOOLEAN with 1. rewrite readASN1_tlv; [reflexivity|tg|vm_compute; discriminate].
    + change ([1; 1; 255] ++ r) with (tlv 1 [255] ++ r). replace (peekTag T_BOOLEAN (tlv 1 [255] ++ r)) with true by reflexivity. unfold readBool. change T_BOOLEAN with 1. rewrite readASN1_tlv; [reflexivity|tg|vm_compute; discriminate].
Qed.
Lemma len_ok (er : string) s : bytes_ok s -> forall n r,
  (if peekTag T_INTEGER s then need (readInt64 s) er else Ret (-1, s)) = Ret (n, r) <->
  exists e, s = e ++ r /\ ((e = [] /\ ~ starts 2 r /\ n = -1) \/ (integer n e /\ - 2 ^ 63 <= n < 2 ^ 63)).
Proof.
  intros Hs n r. split.
  - destruct (peekTag T_INTEGER s) eqn:P.
    + intros E. apply need_inv in E. apply readInt64_inv in E as [-> I64]; [|exact Hs]. exists (tlv 2 (bigint_content n)). split; [reflexivity|]. right. destruct (int64_content n I64) as [L _].
      split; [split; [tg|split; [unfold max_content; lia|reflexivity]]|exact I64].
    + intros [= <- <-]. exists []. apply peek_not in P. auto.
  - intros (e & -> & [(-> & N & ->)|((_ & _ & ->) & H)]).
    + cbn [app]. now rewrite (proj2 (peek_not T_INTEGER r) N).
    + change (tlv 2 (bigint_content n)) with (tlv T_INTEGER (bigint_content n)). replace (peekTag T_INTEGER (tlv T_INTEGER (bigint_content n) ++ r)) with true by reflexivity. rewrite readInt64_tlv by exact H. reflexivity.
Qed.
Lemma basic_iff v ca len : bytes_ok v -> (parseBasicConstraintsExtension v = Ret (ca, len) <-> basic_constraints ca len v).
Proof.
  intros Hv. unfold parseBasicConstraintsExtension. split.
  - intros E. bs E p H1. destruct p as [c z]. apply read_iff in H1 as (e & He & ->); [|exact tagok48|exact Hv]. destruct (el_ok _ _ _ _ He Hv) as [Hc _].
    bs E p H2. destruct p as [b d]. apply flag_ok in H2 as (f & -> & Hf); [|exact Hc]. apply bytes_ok_app in Hc as [_ Hc].
    bs E p H3. destruct p as [n r]. apply len_ok in H3 as (ne & -> & Hn); [|exact Hc]. injection E as <- <-. exists e, z. split; [reflexivity|]. exists f, ne, r. auto.
  - intros (e & z & -> & (f & n & r & He & Hf & Hn)). change T_SEQUENCE with 48. rewrite (read_el _ _ _ _ He). cbn [need bind]. destruct (el_ok _ _ _ _ He Hv) as [Hc _].
    rewrite (proj2 (flag_ok _ _ Hc ca (n ++ r))) by eauto. cbn [bind]. apply bytes_ok_app in Hc as [_ Hc]. rewrite (proj2 (len_ok _ _ Hc len r)) by eauto. reflexivity.
Qed.
(** domains *)
Lemma domain_iff d : bytes_ok d -> ((exists ls, domainToReverseLabels d = Some ls) <-> domain d).
Proof.
  intros Hd. unfold domain. split.
  - intros (ls & E). apply C66_labels in E as [(-> & _)|(N & F & C)]; [auto| |exact Hd]. right. exists (rev ls). split; [intros K; apply N; rewrite <- (rev_involutive ls), K; reflexivity|].
    split; [now apply Forall_rev|exact C].
  - intros [->|(ls & N & F & C)]; [exists []; reflexivity|]. exists (rev ls). apply C66_labels; [exact Hd|]. right. rewrite rev_involutive. split; [intros K; apply N; rewrite <- (rev_involutive ls), K; reflexivity|].
    split; [now apply Forall_rev|exact C].
Qed.
Lemma domain_none d : bytes_ok d -> (domainToReverseLabels d = None <-> ~ domain d).
Proof. intros Hd. rewrite <- domain_iff by exact Hd. destruct (domainToReverseLabels d); split; intros H; try congruence; [exfalso; apply H; eauto|intros (? & ?); discriminate]. Qed.
Lemma ia5_ascii s : bytes_ok s -> isIA5String s = true <-> ascii s. Proof. apply isIA5_iff. Qed.
(** alternative names *)
Lemma xor80 t k : 0 <= t -> 0 <= k < 128 -> (Z.lxor t 128 =? k) = (t =? k + 128).
Proof.
  intros Ht Hk. assert (E : Z.lxor (k + 128) 128 = k).
  { replace (k + 128) with (Z.lxor k 128); [now rewrite Z.lxor_assoc, Z.lxor_nilpotent, Z.lxor_0_r|]. symmetry. apply Z.add_nocarry_lxor. change 128 with (2 ^ 7).
    apply Z.bits_inj'. intros n Hn. rewrite Z.land_spec, Z.pow2_bits_eqb, Z.bits_0 by lia. destruct (Z.eqb_spec 7 n); [|apply Bool.andb_false_r]. subst n. rewrite Bool.andb_true_r. apply Z.bits_above_log2; [lia|].
    destruct (Z.eq_dec k 0) as [->|]; [reflexivity|]. apply Z.log2_lt_pow2; lia. }
  destruct (Z.eqb_spec t (k + 128)) as [->|N]; [now rewrite E, Z.eqb_refl|]. apply Z.eqb_neq. intros K. apply N. rewrite <- K, Z.add_comm. rewrite <- K in E.
  rewrite <- (Z.lxor_0_r t) at 1. rewrite <- (Z.lxor_nilpotent 128), <- Z.lxor_assoc, K. rewrite <- K. rewrite K. clear - Hk E K.
  replace (128 + k) with (k + 128) by lia. assert (Z.lxor (Z.lxor (k + 128) 128) 128 = Z.lxor k 128) by (rewrite K in E; now rewrite E). rewrite Z.lxor_assoc, Z.lxor_nilpotent, Z.lxor_0_r in H. congruence.
Qed.
Section Names.
Variable net : netlib.
Hypothesis hosts_ok : forall s u, url_Parse net s = Some u -> bytes_ok (u_Host u).
Lemma callback_iff t s g : 0 <= t -> bytes_ok s -> (sanCallback net (Z.lxor t 0x80) s = Ret g <->
    ((t = 129 /\ ascii s /\ g = GNemail s) \/ (t = 130 /\ ascii s /\ g = GNdns s) \/
     (t = 134 /\ ascii s /\ exists u, url_Parse net s = Some u /\ (u_Host u = [] \/ domain (u_Host u)) /\ g = GNuri u) \/
     (t = 135 /\ (List.length s = 4 \/ List.length s = 16)%nat /\ g = GNip s) \/
     (~ In t [129; 130; 134; 135] /\ g = GNother))).
Proof.
  intros Ht Hs. unfold sanCallback, nameTypeEmail, nameTypeDNS, nameTypeURI, nameTypeIP. rewrite !xor80 by lia. change (1 + 128) with 129. change (2 + 128) with 130. change (6 + 128) with 134. change (7 + 128) with 135.
  pose proof (ia5_ascii s Hs) as A.
  destruct (Z.eqb_spec t 129) as [->|N1].
  { destruct (isIA5String s); split; [intros [= <-]; left; tauto| |discriminate|].
    - intros [(_ & _ & ->)|[(? & _)|[(? & _)|[(? & _)|(N & _)]]]]; try discriminate; [reflexivity|]. exfalso; apply N; cbn; auto.
    - intros [(_ & K & ->)|[(? & _)|[(? & _)|[(? & _)|(N & _)]]]]; try discriminate; [apply A in K; discriminate|]. exfalso; apply N; cbn; auto. }
  destruct (Z.eqb_spec t 130) as [->|N2].
  { destruct (isIA5String s); split; [intros [= <-]; right; left; tauto| |discriminate|].
    - intros [(? & _)|[(_ & _ & ->)|[(? & _)|[(? & _)|(N & _)]]]]; try discriminate; [reflexivity|]. exfalso; apply N; cbn; auto.
    - intros [(? & _)|[(_ & K & ->)|[(? & _)|[(? & _)|(N & _)]]]]; try discriminate; [apply A in K; discriminate|]. exfalso; apply N; cbn; auto. }
  destruct (Z.eqb_spec t 134) as [->|N3].
  { assert (Z3 : forall X Y Z0 W : Prop, (134 = 129 /\ X) \/ (134 = 130 /\ Y) \/ (134 = 134 /\ Z0) \/ (134 = 135 /\ W) \/ (~ In 134 [129; 130; 134; 135] /\ g = GNother) <-> Z0).
    { intros. split; [|tauto]. intros [(? & _)|[(? & _)|[(_ & K)|[(? & _)|(N & _)]]]]; try discriminate; [exact K|]. exfalso; apply N; cbn; auto. }
    rewrite Z3. destruct (isIA5String s); cbn [negb]; [|split; [discriminate|]; intros (K & _); apply A in K; discriminate].
    destruct (url_Parse net s) as [u|] eqn:U; [|split; [discriminate|]; intros (_ & u & K & _); discriminate]. pose proof (hosts_ok _ _ U) as Hu.
    destruct (u_Host u) as [|h0 h] eqn:Eh.
    - cbn [List.length Nat.ltb Nat.leb andb]. split; [intros [= <-]; split; [tauto|]; exists u; rewrite Eh; auto|]. intros (_ & u' & [= <-] & _ & ->). reflexivity.
    - rewrite <- Eh in *. replace (0 <? List.length (u_Host u))%nat with true by (rewrite Eh; reflexivity). cbn [andb]. pose proof (domain_iff _ Hu) as D. destruct (domainToReverseLabels (u_Host u)) as [ls|].
      + split; [intros [= <-]; split; [tauto|]; exists u; split; [reflexivity|]; split; [right; apply D; eauto|reflexivity]|]. intros (_ & u' & [= <-] & _ & ->). reflexivity.
      + split; [discriminate|]. intros (_ & u' & [= <-] & [K|K] & _); [rewrite Eh in K; discriminate|]. apply D in K as (? & ?). discriminate. }
  destruct (Z.eqb_spec t 135) as [->|N4].
  { assert (Z3 : forall X Y Z0 W : Prop, (135 = 129 /\ X) \/ (135 = 130 /\ Y) \/ (135 = 134 /\ Z0) \/ (135 = 135 /\ W) \/ (~ In 135 [129; 130; 134; 135] /\ g = GNother) <-> W).
    { intros. split; [|tauto]. intros [(? & _)|[(? & _)|[(? & _)|[(_ & K)|(N & _)]]]]; try discriminate; [exact K|]. exfalso; apply N; cbn; auto. }
    rewrite Z3. destruct (Nat.eqb_spec (List.length s) 4); [cbn [orb]; split; [intros [= <-]; auto|intros (_ & ->); reflexivity]|].
    destruct (Nat.eqb_spec (List.length s) 16); cbn [orb]; (split; [first [discriminate|intros [= <-]; auto]|intros ([?|?] & ->); first [reflexivity|contradiction]]). }
  assert (NI : ~ In t [129; 130; 134; 135]) by (cbn; intros K; repeat (destruct K as [K|K]; [congruence|]); destruct K).
  split; [intros [= <-]; tauto|]. intros [(? & _)|[(? & _)|[(? & _)|[(? & _)|(_ & ->)]]]]; try congruence.
Qed.
Definition name_step : bytes -> outcome (genName * bytes) := fun der =>
  do (tag, san, r) <- need (readAny der) "x509: invalid subject alternative name";
  do g <- sanCallback net (Z.lxor tag 0x80) san;
  Ret (g, r).
Lemma readAny_iff s t c r : bytes_ok s -> (readAny s = Some (t, c, r) <-> exists e, element t c e /\ s = e ++ r).
Proof.
  intros Hs. unfold readAny. split.
  - destruct (readAnyElt s) as [[[[t' e'] c'] r']|] eqn:E; [|discriminate]. intros [= <- <- <-]. apply readAny_inv in E as (-> & -> & T & Z0); [|exact Hs]. exists (tlv t' c'). split; [split; auto|reflexivity].
  - intros (e & (T & Z0 & ->) & ->). now rewrite readAny_tlv.
Qed.
Lemma tag_pos t c e : element t c e -> 0 <= t.
Proof. intros ((B & _) & _). unfold byte_ok in B. lia. Qed.
Lemma name_reads : reads name_step (general_name net).
Proof.
  intros s g r Hs. unfold name_step. split.
  - intros E. bs E p H1. destruct p as [[t c] r']. apply readAny_iff in H1 as (e & He & ->); [|exact Hs]. bs E g' H2. injection E as <- <-. destruct (el_ok _ _ _ _ He Hs) as [Hc _].
    apply callback_iff in H2; [|eapply tag_pos; eauto|exact Hc]. exists e. split; [reflexivity|]. exists t, c. auto.
  - intros (e & -> & (t & c & He & C)). rewrite (proj2 (readAny_iff (e ++ r) t c r Hs)) by eauto. cbn [need bind]. destruct (el_ok _ _ _ _ He Hs) as [Hc _].
    apply callback_iff in C; [|eapply tag_pos; eauto|exact Hc]. rewrite C. reflexivity.
Qed.
Lemma names_iff v s : bytes_ok v -> (parseSANExtension net v = Ret s <-> alternative_names net s v).
Proof.
  intros Hv. unfold parseSANExtension, forEachSAN, alternative_names. fold name_step.
  assert (Ne : forall g e, general_name net g e -> e <> []) by (intros g e (? & ? & H & _); eapply element_ne; eauto).
  assert (SI := fun l => seq_iff name_step (general_name net) "x509: invalid subject alternative names" v l name_reads Ne Hv). split.
  - intros E. apply bind_inv in E as (l & E & [= <-]). apply SI in E. exists l. auto.
  - intros (l & F & E1 & E2 & E3 & E4). apply SI in F. rewrite F. cbn [bind]. unfold collect_san. rewrite <- E1, <- E2, <- E3, <- E4. destruct s. reflexivity.
Qed.
(** extended key usage, policies *)
Lemma oid_reads er : reads (fun der => need (readOID der) er) identifier.
Proof.
  intros s o r Hs. split.
  - intros E. apply need_inv in E. apply readOID_iff in E as (e & He & ->); eauto.
  - intros (e & -> & He). rewrite (proj2 (readOID_iff (e ++ r) o r Hs)) by eauto. reflexivity.
Qed.
Lemma filter_flat (l : list oid) : flat_map (fun o => match extKeyUsageFromOID o with Some _ => [] | None => [o] end) l = filter (fun o => match extKeyUsageFromOID o with Some _ => false | None => true end) l.
Proof. induction l as [|o l IH]; [reflexivity|]. cbn [flat_map filter]. rewrite IH. destruct (extKeyUsageFromOID o); reflexivity. Qed.
Lemma eku_iff v k u : bytes_ok v -> (parseExtKeyUsageExtension v = Ret (k, u) <-> ext_key_usage k u v).
Proof.
  intros Hv. unfold parseExtKeyUsageExtension, ext_key_usage. assert (SI := fun l => seq_iff _ _ "x509: invalid extended key usages" v l (oid_reads "x509: invalid extended key usages") identifier_ne Hv).
  split.
  - intros E. bs E p H1. destruct p as [c r]. bs E l H2. injection E as <- <-. exists l. split; [|split; [reflexivity|apply filter_flat]]. apply SI. rewrite H1. cbn [need bind]. exact H2.
  - intros (l & F & -> & ->). apply SI in F. bs F p H1. destruct p as [c r]. rewrite H1. cbn [need bind]. rewrite F. cbn [bind]. now rewrite filter_flat.
Qed.
Definition policy_step (der : bytes) : outcome (oid * bytes) :=
    do (cp, r) <- need (readASN1 T_SEQUENCE der) "x509: invalid certificate policies";
    do (o, _) <- need (readOID cp) "x509: invalid certificate policies";
    Ret (o, r).
Lemma policy_reads : reads policy_step (fun o e => exists id ignored, identifier o id /\ element 48 (id ++ ignored) e).
Proof.
  intros s o r Hs. unfold policy_step. split.
  - intros E. bs E p H1. destruct p as [c r']. apply read_iff in H1 as (e & He & ->); [|exact tagok48|exact Hs]. destruct (el_ok _ _ _ _ He Hs) as [Hc _].
    bs E p H2. destruct p as [o' z]. injection E as <- <-. apply readOID_iff in H2 as (id & Hid & ->); [|exact Hc]. eauto 6.
  - intros (e & -> & (id & z & Hid & He)). change T_SEQUENCE with 48. rewrite (read_el _ _ _ _ He). cbn [need bind]. destruct (el_ok _ _ _ _ He Hs) as [Hc _].
    rewrite (proj2 (readOID_iff (id ++ z) o z Hc)) by eauto. reflexivity.
Qed.
Lemma policies_iff v l : bytes_ok v -> (parseCertificatePoliciesExtension v = Ret l <-> policies l v).
Proof. intros Hv. apply (seq_iff policy_step); [exact policy_reads| |exact Hv]. intros o e (? & ? & _ & H). eapply element_ne; eauto. Qed.
(** distribution points *)
Lemma tagok134 : tag_ok 134. Proof. tg. Qed.
Lemma tagok160 : tag_ok 160. Proof. tg. Qed.
Lemma tagok161 : tag_ok 161. Proof. tg. Qed.
Lemma tagok128 : tag_ok 128. Proof. tg. Qed.
Lemma uris_iff fuel : forall s l, bytes_ok s -> (List.length s <= fuel)%nat ->
  (dp_uris fuel s = Ret l <-> exists us rest, s = List.concat us ++ rest /\ Forall2 (element 134) l us /\ ~ starts 134 rest).
Proof.
  assert (Nil : forall s l us rest, ~ starts 134 s -> s = List.concat us ++ rest -> Forall2 (element 134) l us -> l = []).
  { intros s l us rest N E F. destruct F as [|c u l us Hu F]; [reflexivity|]. exfalso. apply N. rewrite E. cbn [List.concat]. rewrite <- app_assoc. eapply el_starts; eauto. }
  induction fuel as [|fuel IH]; intros s l Hs Hl; cbn [dp_uris]; change (ctx 6) with 134; destruct (peekTag 134 s) eqn:P; cbn [negb].
  - destruct s; [discriminate P|cbn [List.length] in Hl; lia].
  - apply peek_not in P. split; [intros [= <-]; exists [], s; auto|]. intros (us & rest & E & F & _). rewrite (Nil _ _ _ _ P E F). reflexivity.
  - split.
    + intros E. bs E p H1. destruct p as [u r]. apply read_iff in H1 as (e & He & ->); [|exact tagok134|exact Hs]. apply bytes_ok_app in Hs as [_ Hs]. bs E l' H2. injection E as <-.
      apply IH in H2 as (us & rest & -> & F & N); [|exact Hs|]. { exists (e :: us), rest. cbn [List.concat]. rewrite app_assoc. auto. }
      pose proof (element_ne _ _ _ He) as Ne. rewrite app_length in Hl. destruct e; [congruence|]. cbn [List.length] in Hl. lia.
    + intros (us & rest & E & F & N). destruct F as [|c u l us Hu F]; [exfalso; cbn [List.concat app] in E; subst s; apply N; now apply peek_iff|]. cbn [List.concat] in E. rewrite <- app_assoc in E. subst s.
      rewrite (read_el _ _ _ _ Hu). cbn [need bind]. apply bytes_ok_app in Hs as [_ Hs]. rewrite (proj2 (IH (List.concat us ++ rest) l Hs ltac:(pose proof (element_ne _ _ _ Hu) as Ne; rewrite app_length in Hl; destruct u; [congruence|]; cbn [List.length] in Hl; lia))) by eauto. reflexivity.
  - apply peek_not in P. split; [intros [= <-]; exists [], s; auto|]. intros (us & rest & E & F & _). rewrite (Nil _ _ _ _ P E F). reflexivity.
Qed.
Lemma opt_iff t s p c r : tag_ok t -> bytes_ok s -> (readOptional t s = Some (p, c, r) <->
  (p = true /\ exists f, element t c f /\ s = f ++ r) \/ (p = false /\ c = [] /\ r = s /\ ~ starts t s)).
Proof.
  intros T Hs. unfold readOptional. destruct (peekTag t s) eqn:P.
  - pose proof (proj1 (peek_iff _ _) P) as P'. split.
    + destruct (readASN1 t s) as [[c' r']|] eqn:E; [|discriminate]. intros [= <- <- <-]. apply read_iff in E; auto.
    + intros [(-> & f & Hf & ->)|(_ & _ & _ & N)]; [|contradiction]. rewrite (read_el _ _ _ _ Hf). reflexivity.
  - apply peek_not in P. split; [intros [= <- <- <-]; auto|]. intros [(_ & f & Hf & ->)|(-> & -> & -> & _)]; [|reflexivity]. exfalso. apply P. eapply el_starts; eauto.
Qed.
Lemma dp_reads : reads parseDP distribution_point.
Proof.
  intros s l r Hs. unfold parseDP. cbv zeta. change (ctxc 0) with 160. change T_SEQUENCE with 48. split.
  - intros E. bs E p H1. destruct p as [c r']. apply read_iff in H1 as (e & He & ->); [|exact tagok48|exact Hs]. destruct (el_ok _ _ _ _ He Hs) as [Hc _].
    bs E p H2. destruct p as [[p n] z]. apply opt_iff in H2 as [(-> & f & Hf & ->)|(-> & -> & -> & N)]; [| |exact tagok160|exact Hc]; cbn [negb] in E.
    + destruct (el_ok _ _ _ _ Hf Hc) as [Hn _]. bs E p H3. destruct p as [m z2]. apply read_iff in H3 as (g & Hg & ->); [|exact tagok160|exact Hn]. destruct (el_ok _ _ _ _ Hg Hn) as [Hm _].
      bs E l' H4. injection E as <- <-. apply uris_iff in H4 as (us & rest & -> & F & N); [|exact Hm|lia]. exists e. split; [reflexivity|]. eexists. split; [exact He|]. right.
      exists (g ++ z2), (List.concat us ++ rest), us, rest. split; [exists f, z; auto|]. split; [exists g, z2; auto|]. auto.
    + injection E as <- <-. exists e. split; [reflexivity|]. exists c. auto.
  - intros (e & -> & (c & He & C)). rewrite (read_el _ _ _ _ He). cbn [need bind]. destruct (el_ok _ _ _ _ He Hs) as [Hc _]. destruct C as [(-> & N)|(n & m & us & rest & (f & z & -> & Hf) & (g & z2 & -> & Hg) & -> & F & N)].
    + rewrite (proj2 (opt_iff 160 c false [] c tagok160 Hc)) by auto. reflexivity.
    + rewrite (proj2 (opt_iff 160 (f ++ z) true (g ++ z2) z tagok160 Hc)) by eauto. cbn [need bind negb]. destruct (el_ok _ _ _ _ Hf Hc) as [Hn _].
      rewrite (read_el _ _ _ _ Hg). cbn [need bind]. destruct (el_ok _ _ _ _ Hg Hn) as [Hm _]. rewrite (proj2 (uris_iff _ _ l Hm (Nat.le_refl _))) by eauto. reflexivity.
Qed.
Lemma dps_iff v l : bytes_ok v -> (parseCRLDP v = Ret l <-> distribution_points l v).
Proof.
  intros Hv. unfold parseCRLDP, distribution_points. assert (Ne : forall u e, distribution_point u e -> e <> []) by (intros u e (? & H & _); eapply element_ne; eauto).
  assert (SI := fun l => seq_iff parseDP distribution_point "x509: invalid CRL distribution points" v l dp_reads Ne Hv). split.
  - intros E. bs E p H1. destruct p as [c r]. bs E ll H2. injection E as <-. exists ll. split; [|reflexivity]. apply SI. rewrite H1. exact H2.
  - intros (ll & F & ->). apply SI in F. bs F p H1. destruct p as [c r]. rewrite H1. cbn [need bind]. rewrite F. reflexivity.
Qed.
(** the authority key identifier *)
Lemma aki_iff v k : bytes_ok v -> (parseAKI v = Ret k <-> authority_key k v).
Proof.
  intros Hv. unfold parseAKI. change (ctx 0) with 128. change T_SEQUENCE with 48. split.
  - intros E. bs E p H1. destruct p as [c z]. apply read_iff in H1 as (e & He & ->); [|exact tagok48|exact Hv]. destruct (el_ok _ _ _ _ He Hv) as [Hc _]. exists e, z. split; [reflexivity|]. exists c. split; [exact He|].
    destruct (peekTag 128 c) eqn:P.
    + bs E p H2. destruct p as [id r]. injection E as <-. apply (front_read 128 id c tagok128 Hc). eauto.
    + injection E as <-. now apply peek_not.
  - intros (e & z & -> & (c & He & C)). rewrite (read_el _ _ _ _ He). cbn [need bind]. destruct k as [id|].
    + destruct C as (f & z2 & -> & Hf). rewrite (proj2 (peek_iff _ _) (el_starts _ _ _ z2 Hf)), (read_el _ _ _ _ Hf). reflexivity.
    + now rewrite (proj2 (peek_not _ _) C).
Qed.
(** authority information access *)
Lemma access_reads : reads parseAIAEntry access.
Proof.
  intros s p r Hs. unfold parseAIAEntry. cbv zeta. change (ctx 6) with 134. change T_SEQUENCE with 48. split.
  - intros E. bs E q H1. destruct q as [c r']. apply read_iff in H1 as (e & He & ->); [|exact tagok48|exact Hs]. destruct (el_ok _ _ _ _ He Hs) as [Hc _].
    bs E q H2. destruct q as [m d]. apply readOID_iff in H2 as (id & Hid & ->); [|exact Hc]. apply bytes_ok_app in Hc as [_ Hd]. destruct (peekTag 134 d) eqn:P; cbn [negb] in E.
    + bs E q H3. destruct q as [u z]. apply read_iff in H3 as (f & Hf & ->); [|exact tagok134|exact Hd]. injection E as <- <-. exists e. split; [reflexivity|]. exists m, id, (f ++ z). split; [exact Hid|]. split; [exact He|]. right.
      exists u. split; [exists f, z; auto|]. change [1; 3; 6; 1; 5; 5; 7; 48; 1] with oidAuthorityInfoAccessOcsp. change [1; 3; 6; 1; 5; 5; 7; 48; 2] with oidAuthorityInfoAccessIssuers.
      destruct (oid_eqb m oidAuthorityInfoAccessOcsp) eqn:O1; [apply oid_eqb_spec in O1; auto|]. destruct (oid_eqb m oidAuthorityInfoAccessIssuers) eqn:O2; [apply oid_eqb_spec in O2; auto|].
      right. right. split; [intros K; apply oid_eqb_spec in K; congruence|]. split; [intros K; apply oid_eqb_spec in K; congruence|reflexivity].
    + injection E as <- <-. apply peek_not in P. exists e. split; [reflexivity|]. exists m, id, d. auto.
  - intros (e & -> & (m & id & rest & Hid & He & C)). rewrite (read_el _ _ _ _ He). cbn [need bind]. destruct (el_ok _ _ _ _ He Hs) as [Hc _].
    rewrite (proj2 (readOID_iff (id ++ rest) m rest Hc)) by eauto. cbn [need bind]. destruct C as [(N & ->)|(u & (f & z & -> & Hf) & C)].
    + now rewrite (proj2 (peek_not _ _) N).
    + rewrite (proj2 (peek_iff _ _) (el_starts _ _ _ z Hf)), (read_el _ _ _ _ Hf). cbn [negb need bind]. f_equal. f_equal. destruct C as [(-> & ->)|[(-> & ->)|(N1 & N2 & ->)]]; [reflexivity|reflexivity|].
      destruct (oid_eqb m oidAuthorityInfoAccessOcsp) eqn:O1; [apply oid_eqb_spec in O1; contradiction|]. destruct (oid_eqb m oidAuthorityInfoAccessIssuers) eqn:O2; [apply oid_eqb_spec in O2; contradiction|reflexivity].
Qed.
Lemma aia_iff v o i : bytes_ok v -> (parseAIA v = Ret (o, i) <-> authority_info o i v).
Proof.
  intros Hv. unfold parseAIA, authority_info. assert (Ne : forall u e, access u e -> e <> []) by (intros u e (? & ? & ? & _ & H & _); eapply element_ne; eauto).
  assert (SI := fun l => seq_iff parseAIAEntry access "x509: invalid authority info access" v l access_reads Ne Hv). split.
  - intros E. bs E p H1. destruct p as [c r]. bs E ll H2. injection E as <- <-. exists ll. split; [|auto]. apply SI. rewrite H1. exact H2.
  - intros (ll & F & -> & ->). apply SI in F. bs F p H1. destruct p as [c r]. rewrite H1. cbn [need bind]. rewrite F. reflexivity.
Qed.
(** name constraints *)
Lemma trim_eq s : trim_dot s = match s with 46 :: r => r | _ => s end.
Proof.
  destruct s as [|c r]; [reflexivity|]. unfold trim_dot. destruct (Z.eqb_spec c 46) as [->|N]; [reflexivity|].
  destruct c as [|p|p]; try reflexivity. do 6 (destruct p as [p|p|]; try reflexivity). contradiction.
Qed.
Lemma labels_iff s : bytes_ok s -> (labels_ok (trim_dot s) = true <-> constraint_domain s).
Proof.
  intros Hs. unfold constraint_domain. rewrite <- trim_eq. assert (H : bytes_ok (trim_dot s)) by (unfold trim_dot; destruct s as [|c r]; [exact Hs|]; destruct (c =? 46); [apply bytes_ok_cons in Hs; tauto|exact Hs]).
  rewrite <- (domain_iff _ H). unfold labels_ok. destruct (domainToReverseLabels (trim_dot s)); split; eauto; [discriminate|]. intros (? & ?). discriminate.
Qed.
Definition sub_body (t : Z) (value : bytes) : outcome constraint :=
    (if t =? ctx 2 then
       if negb (isIA5String value) then Err "x509: invalid constraint value: " else
       if labels_ok (trim_dot value) then Ret (NCdns value) else Err "x509: failed to parse dnsName constraint"
     else if t =? ctx 7 then
       let n := List.length value in
       if (n =? 8)%nat || (n =? 32)%nat then
         let h := (n / 2)%nat in
         if isValidIPMask (skipn h value) then Ret (NCip (mkIPNet (firstn h value) (skipn h value)))
         else Err "x509: IP constraint contained invalid mask"
       else Err "x509: IP constraint contained value of length "
     else if t =? ctx 1 then
       if negb (isIA5String value) then Err "x509: invalid constraint value: " else
       if existsb (Z.eqb 64) value then
         match parseRFC2821Mailbox value with Some _ => Ret (NCemail value) | None => Err "x509: failed to parse rfc822Name constraint" end
       else if labels_ok (trim_dot value) then Ret (NCemail value) else Err "x509: failed to parse rfc822Name constraint"
     else if t =? ctx 6 then
       if negb (isIA5String value) then Err "x509: invalid constraint value: " else
       if net_ParseIP net value then Err "x509: failed to parse URI constraint: cannot be IP address" else
       if labels_ok (trim_dot value) then Ret (NCuri value) else Err "x509: failed to parse URI constraint"
     else Ret NCother).
Definition sub_spec (t : Z) (s : bytes) (c : constraint) : Prop :=
    (t = 130 /\ ascii s /\ constraint_domain s /\ c = NCdns s) \/
     (t = 135 /\ (exists ip mask, s = ip ++ mask /\ List.length ip = List.length mask /\ (List.length mask = 4 \/ List.length mask = 16)%nat /\
        (exists ones zeros, bits mask = repeat true ones ++ repeat false zeros) /\ c = NCip (mkIPNet ip mask))) \/
     (t = 129 /\ ascii s /\ (if existsb (Z.eqb 64) s then exists l d, mailbox s l d else constraint_domain s) /\ c = NCemail s) \/
     (t = 134 /\ ascii s /\ net_ParseIP net s = false /\ constraint_domain s /\ c = NCuri s) \/
     (~ In t [129; 130; 134; 135] /\ c = NCother).
Lemma sub_iff t s c : bytes_ok s -> (sub_body t s = Ret c <-> sub_spec t s c).
Proof.
  intros Hs. unfold sub_body, sub_spec. change (ctx 2) with 130. change (ctx 7) with 135. change (ctx 1) with 129. change (ctx 6) with 134. cbv zeta.
  pose proof (ia5_ascii s Hs) as A. pose proof (labels_iff s Hs) as D.
  destruct (Z.eqb_spec t 130) as [->|N2].
  { assert (S0 : forall X Y Z0 W : Prop, (130 = 130 /\ X) \/ (130 = 135 /\ Y) \/ (130 = 129 /\ Z0) \/ (130 = 134 /\ W) \/ (~ In 130 [129; 130; 134; 135] /\ c = NCother) <-> X).
    { intros. split; [|tauto]. intros [(_ & K)|[(? & _)|[(? & _)|[(? & _)|(N & _)]]]]; try discriminate; [exact K|]. exfalso; apply N; cbn; auto. }
    rewrite S0. clear S0. destruct (isIA5String s); cbn [negb]; [|split; [discriminate|]; intros (K & _); apply A in K; discriminate].
    destruct (labels_ok (trim_dot s)); [|split; [discriminate|]; intros (_ & K & _); apply D in K; discriminate]. split; [intros [= <-]; tauto|]. intros (_ & _ & ->). reflexivity. }
  destruct (Z.eqb_spec t 135) as [->|N4].
  { assert (S0 : forall X Y Z0 W : Prop, (135 = 130 /\ X) \/ (135 = 135 /\ Y) \/ (135 = 129 /\ Z0) \/ (135 = 134 /\ W) \/ (~ In 135 [129; 130; 134; 135] /\ c = NCother) <-> Y).
    { intros. split; [|tauto]. intros [(? & _)|[(_ & K)|[(? & _)|[(? & _)|(N & _)]]]]; try discriminate; [exact K|]. exfalso; apply N; cbn; auto. }
    rewrite S0. clear S0.
    assert (Hk : forall ip mask, s = ip ++ mask -> List.length ip = List.length mask -> (List.length s / 2)%nat = List.length ip).
    { intros ip mask -> L. rewrite app_length, <- L. replace (List.length ip + List.length ip)%nat with (List.length ip * 2)%nat by lia. apply Nat.div_mul. lia. }
    split.
    - intros E. destruct (_ || _) eqn:L in E; [|discriminate E]. assert (HL : (List.length s = 8 \/ List.length s = 32)%nat) by (destruct (Nat.eqb_spec (List.length s) 8); [auto|]; destruct (Nat.eqb_spec (List.length s) 32); [auto|discriminate L]).
      set (h := (List.length s / 2)%nat) in *. assert (Hh : (List.length s = h + h)%nat) by (destruct HL as [K|K]; unfold h; rewrite K; reflexivity). clearbody h.
      destruct (isValidIPMask (skipn h s)) eqn:M; [|discriminate E]. injection E as <-. exists (firstn h s), (skipn h s). split; [symmetry; apply firstn_skipn|].
      assert (Om : bytes_ok (skipn h s)) by (rewrite <- (firstn_skipn h s) in Hs; apply bytes_ok_app in Hs; tauto). apply (C65_prefix_masks _ Om) in M.
      assert (L1 : List.length (firstn h s) = h) by (rewrite firstn_length; lia). assert (L2 : List.length (skipn h s) = h) by (rewrite skipn_length; lia).
      split; [lia|]. split; [lia|]. auto.
    - intros (ip & mask & E & L & HL & M & ->). pose proof (Hk ip mask E L) as K. rewrite K. subst s. rewrite firstn_app, skipn_app, Nat.sub_diag, firstn_all, skipn_all. cbn [firstn skipn app]. rewrite app_nil_r.
      rewrite app_length. apply bytes_ok_app in Hs as [_ Hm]. apply (C65_prefix_masks _ Hm) in M. rewrite M. destruct HL as [HL|HL]; rewrite L, HL; reflexivity. }
  destruct (Z.eqb_spec t 129) as [->|N1].
  { assert (S0 : forall X Y Z0 W : Prop, (129 = 130 /\ X) \/ (129 = 135 /\ Y) \/ (129 = 129 /\ Z0) \/ (129 = 134 /\ W) \/ (~ In 129 [129; 130; 134; 135] /\ c = NCother) <-> Z0).
    { intros. split; [|tauto]. intros [(? & _)|[(? & _)|[(_ & K)|[(? & _)|(N & _)]]]]; try discriminate; [exact K|]. exfalso; apply N; cbn; auto. }
    rewrite S0. clear S0. destruct (isIA5String s); cbn [negb]; [|split; [discriminate|]; intros (K & _); apply A in K; discriminate].
    destruct (existsb (Z.eqb 64) s).
    - pose proof (fun l d => C67_mailbox s l d) as Mb. destruct (parseRFC2821Mailbox s) as [[l d]|].
      + split; [intros [= <-]; split; [tauto|]; split; [exists l, d; now apply Mb|reflexivity]|]. intros (_ & _ & ->). reflexivity.
      + split; [discriminate|]. intros (_ & (l & d & K) & _). apply Mb in K. discriminate.
    - destruct (labels_ok (trim_dot s)); [|split; [discriminate|]; intros (_ & K & _); apply D in K; discriminate]. split; [intros [= <-]; tauto|]. intros (_ & _ & ->). reflexivity. }
  destruct (Z.eqb_spec t 134) as [->|N3].
  { assert (S0 : forall X Y Z0 W : Prop, (134 = 130 /\ X) \/ (134 = 135 /\ Y) \/ (134 = 129 /\ Z0) \/ (134 = 134 /\ W) \/ (~ In 134 [129; 130; 134; 135] /\ c = NCother) <-> W).
    { intros. split; [|tauto]. intros [(? & _)|[(? & _)|[(? & _)|[(_ & K)|(N & _)]]]]; try discriminate; [exact K|]. exfalso; apply N; cbn; auto. }
    rewrite S0. clear S0. destruct (isIA5String s); cbn [negb]; [|split; [discriminate|]; intros (K & _); apply A in K; discriminate].
    destruct (net_ParseIP net s); [split; [discriminate|]; intros (_ & K & _); discriminate|].
    destruct (labels_ok (trim_dot s)); [|split; [discriminate|]; intros (_ & _ & K & _); apply D in K; discriminate]. split; [intros [= <-]; tauto|]. intros (_ & _ & _ & ->). reflexivity. }
  assert (NI : ~ In t [129; 130; 134; 135]) by (cbn; intros K; repeat (destruct K as [K|K]; [congruence|]); destruct K).
  split; [intros [= <-]; tauto|]. intros [(? & _)|[(? & _)|[(? & _)|[(? & _)|(_ & ->)]]]]; try congruence.
Qed.
Lemma subtree_ne c e : subtree net c e -> e <> [].
Proof. intros (? & ? & ? & ? & _ & H & _). eapply element_ne; eauto. Qed.
Lemma subtree_reads : reads (parseSubtree net) (subtree net).
Proof.
  intros s c r Hs. unfold parseSubtree. change T_SEQUENCE with 48. split.
  - intros E. bs E q H1. destruct q as [b r']. apply read_iff in H1 as (e & He & ->); [|exact tagok48|exact Hs]. destruct (el_ok _ _ _ _ He Hs) as [Hb _].
    bs E q H2. destruct q as [[t v] z]. apply readAny_iff in H2 as (f & Hf & ->); [|exact Hb]. destruct (el_ok _ _ _ _ Hf Hb) as [Hv _].
    fold (sub_body t v) in E. bs E c' H3. injection E as <- <-. apply (sub_iff t v c' Hv) in H3. exists e. split; [reflexivity|]. exists t, v, f, z. auto.
  - intros (e & -> & (t & v & f & z & Hf & He & C)). rewrite (read_el _ _ _ _ He). cbn [need bind]. destruct (el_ok _ _ _ _ He Hs) as [Hb _].
    rewrite (proj2 (readAny_iff (f ++ z) t v z Hb)) by eauto. cbn [need bind]. destruct (el_ok _ _ _ _ Hf Hb) as [Hv _]. fold (sub_body t v). apply (sub_iff t v c Hv) in C. rewrite C. reflexivity.
Qed.
Lemma other_iff l : has_other l = true <-> In NCother l.
Proof.
  unfold has_other. rewrite existsb_exists. split; [|intros H; exists NCother; auto]. intros (c & H & K). destruct c; try discriminate. exact H.
Qed.
Lemma collect_iff l c : collect_nc l = c <-> constraint_lists l c.
Proof. unfold collect_nc, constraint_lists. destruct c. cbn. split; [intros [= <- <- <- <-]; auto|]. intros (-> & -> & -> & ->). reflexivity. Qed.
Lemma concat_nil (l : list constraint) es : Forall2 (subtree net) l es -> (List.concat es = [] <-> l = []).
Proof. intros F. destruct F as [|c e l es Hc F]; [tauto|]. cbn [List.concat]. pose proof (subtree_ne _ _ Hc). split; [|discriminate]. intros E. apply app_eq_nil in E as [E _]. contradiction. Qed.
Lemma lists_iff s l : bytes_ok s -> (many (parseSubtree net) s = Ret l <-> exists es, Forall2 (subtree net) l es /\ s = List.concat es).
Proof. apply many_reads; [exact subtree_reads|exact subtree_ne]. Qed.
Lemma nc_iff v p x u : bytes_ok v -> (parseNameConstraintsExtension net v = Ret (p, x, u) <-> name_constraints net p x u v).
Proof.
  intros Hv. unfold parseNameConstraintsExtension, name_constraints. cbv zeta. change (ctxc 0) with 160. change (ctxc 1) with 161. change T_SEQUENCE with 48. split.
  - intros E. bs E q H1. destruct q as [c z]. destruct z; [|discriminate E]. apply read_iff in H1 as (e & He & ->); [|exact tagok48|exact Hv]. destruct (el_ok _ _ _ _ He Hv) as [Hc _].
    bs E q H2. destruct q as [[hp cp] t1]. apply (opt_iff 160 c hp cp t1 tagok160 Hc) in H2.
    assert (Ht1 : bytes_ok t1 /\ bytes_ok cp).
    { destruct H2 as [(_ & f & Hf & ->)|(_ & -> & -> & _)]; [destruct (el_ok _ _ _ _ Hf Hc); auto|split; [exact Hc|constructor]]. }
    destruct Ht1 as [Ht1 Hcp]. bs E q H3. destruct q as [[hx cx] t2]. apply (opt_iff 161 t1 hx cx t2 tagok161 Ht1) in H3.
    assert (Hcx : bytes_ok cx). { destruct H3 as [(_ & f & Hf & ->)|(_ & -> & _ & _)]; [destruct (el_ok _ _ _ _ Hf Ht1); auto|constructor]. }
    destruct t2; [|discriminate E]. destruct (_ || _) eqn:B in E; [discriminate E|]. bs E lp H4. bs E lx H5. injection E as <- <- <-.
    apply (lists_iff cp lp Hcp) in H4 as (ep & Fp & Ep). apply (lists_iff cx lx Hcx) in H5 as (ex & Fx & Ex).
    assert (Ne : lp <> [] \/ lx <> []).
    { apply Bool.orb_false_iff in B as [_ B]. apply Bool.andb_false_iff in B as [B|B]; apply Nat.eqb_neq in B; [left|right]; intros ->; [inversion Fp; subst ep|inversion Fx; subst ex]; subst; apply B; reflexivity. }
    assert (Sp : exists fp, c = fp ++ t1 /\ subtrees net 160 hp lp fp t1).
    { destruct H2 as [(-> & f & Hf & ->)|(-> & -> & -> & N)]; [exists f; split; [reflexivity|]; exists ep; rewrite <- Ep; auto|]. exists []. split; [reflexivity|]. split; [reflexivity|]. split; [|exact N]. symmetry in Ep. now apply (concat_nil _ _ Fp). }
    assert (Sx : subtrees net 161 hx lx t1 []).
    { destruct H3 as [(-> & f & Hf & ->)|(-> & -> & <- & N)]; [rewrite app_nil_r; exists ex; rewrite <- Ex; auto|]. split; [reflexivity|]. split; [|exact N]. symmetry in Ex. now apply (concat_nil _ _ Fx). }
    destruct Sp as (fp & -> & Sp). exists hp, hx, lp, lx, fp, t1. rewrite app_nil_r. split; [exact He|]. split; [exact Sp|]. split; [exact Sx|]. split; [exact Ne|]. split; [now apply collect_iff|]. split; [now apply collect_iff|].
    rewrite in_app_iff, <- !other_iff. apply Bool.orb_true_iff.
  - intros (hp & hx & lp & lx & fp & fx & He & Sp & Sx & Ne & Cp & Cx & U). rewrite <- (app_nil_r v), (read_el _ _ _ _ He). cbn [need bind]. pose proof (el_ok' _ _ _ He Hv) as Hc.
    assert (Rp : exists cp ep, readOptional 160 (fp ++ fx) = Some (hp, cp, fx) /\ Forall2 (subtree net) lp ep /\ cp = List.concat ep).
    { destruct hp; cbn [subtrees] in Sp.
      - destruct Sp as (ep & F & Hf). exists (List.concat ep), ep. split; [|auto]. apply (opt_iff 160 _ _ _ _ tagok160 Hc). left. eauto.
      - destruct Sp as (-> & -> & N). exists [], []. split; [|auto]. apply (opt_iff 160 _ _ _ _ tagok160 Hc). right. auto. }
    destruct Rp as (cp & ep & Rp & Fp & Ep). rewrite Rp. cbn [need bind].
    assert (Ox : bytes_ok fx) by (apply bytes_ok_app in Hc; tauto).
    assert (Rx : exists cx ex, readOptional 161 fx = Some (hx, cx, []) /\ Forall2 (subtree net) lx ex /\ cx = List.concat ex).
    { destruct hx; cbn [subtrees] in Sx.
      - destruct Sx as (ex & F & Hf). exists (List.concat ex), ex. split; [|auto]. apply (opt_iff 161 _ _ _ _ tagok161 Ox). left. split; [reflexivity|]. exists fx. rewrite app_nil_r. auto.
      - destruct Sx as (-> & -> & N). exists [], []. split; [|auto]. apply (opt_iff 161 _ _ _ _ tagok161 Ox). right. auto. }
    destruct Rx as (cx & ex & Rx & Fx & Ex). rewrite Rx. cbn [need bind].
    assert (Hcp : bytes_ok cp). { apply (opt_iff 160 _ _ _ _ tagok160 Hc) in Rp as [(_ & f & Hf & E)|(_ & -> & _)]; [rewrite E in Hc; destruct (el_ok _ _ _ _ Hf Hc); auto|constructor]. }
    assert (Hcx : bytes_ok cx). { apply (opt_iff 161 _ _ _ _ tagok161 Ox) in Rx as [(_ & f & Hf & E)|(_ & -> & _)]; [rewrite E in Ox; destruct (el_ok _ _ _ _ Hf Ox); auto|constructor]. }
    match goal with |- (if ?b then _ else _) = _ => assert (B : b = false) end.
    { apply Bool.orb_false_iff. split.
      - destruct hp, hx; try reflexivity. exfalso. cbn [subtrees] in Sp, Sx. destruct Sp as (_ & -> & _). destruct Sx as (_ & -> & _). destruct Ne; congruence.
      - apply Bool.andb_false_iff. destruct Ne as [K|K]; [left|right]; apply Nat.eqb_neq; intros L; apply length_zero_iff_nil in L; apply K; [apply (concat_nil _ _ Fp)|apply (concat_nil _ _ Fx)]; congruence. }
    rewrite B. rewrite (proj2 (lists_iff cp lp Hcp)) by eauto. cbn [bind]. rewrite (proj2 (lists_iff cx lx Hcx)) by eauto. cbn [bind].
    apply collect_iff in Cp, Cx. rewrite Cp, Cx. f_equal. f_equal. rewrite in_app_iff, <- !other_iff, <- Bool.orb_true_iff in U. destruct u, (has_other lp || has_other lx); try reflexivity; [|symmetry]; apply U; reflexivity.
Qed.
(** one extension *)
Lemma nilb {A} (l : list A) : (List.length l =? 0)%nat = true <-> l = [].
Proof. rewrite Nat.eqb_eq. apply length_zero_iff_nil. Qed.
Lemma reading_iff i x j u : bytes_ok (x_Value x) -> (processExtension net i x = Ret (j, u) <-> reading net x i j u).
Proof.
  intros Hv. destruct (in_dec (list_eq_dec Z.eq_dec) (x_Id x) interpreted) as [Hin|Nin].
  2: { rewrite process_other by exact Nin. split; [intros [= <- <-]; apply r_other; exact Nin|].
       intros R. destruct R as [? E|? ? E|? ? E|? ? ? E|? E|? E|? ? E|? E|? E|? ? E|_]; try (exfalso; apply Nin; rewrite E; cbn [In interpreted]; tauto). reflexivity. }
  destruct x as [id cr v]. cbn [x_Id x_Value] in *. unfold interpreted in Hin.
  Ltac only_case R := inversion R; subst; cbn [x_Id x_Value x_Critical] in *; try discriminate; try (exfalso; match goal with K : ~ In _ _ |- _ => apply K; cbn [In]; tauto end).
  repeat (destruct Hin as [<-|Hin]).
  - change (processExtension net i (mkExt [2; 5; 29; 14] cr v)) with (do (skid, _) <- need (readASN1 T_OCTET_STRING v) "x509: invalid subject key identifier"; Ret (set_SKI i skid, false)).
    split.
    + intros E. bs E q H1. destruct q as [k z]. injection E as <- <-. destruct i. apply r_subject_key; [reflexivity|]. apply (front_read 4 k v tagok4 Hv). eauto.
    + intros R. only_case R. match goal with K : front _ v |- _ => apply (front_read 4 _ v tagok4 Hv) in K as (r & K); change T_OCTET_STRING with 4; rewrite K end. destruct i. reflexivity.
  - change (processExtension net i (mkExt [2; 5; 29; 15] cr v)) with (do ku <- parseKeyUsageExtension v; Ret (set_KeyUsage i ku, false)). split.
    + intros E. bs E q H1. injection E as <- <-. destruct i. apply r_key_usage; [reflexivity|]. now apply key_usage_iff.
    + intros R. only_case R. match goal with K : key_usage _ v |- _ => apply (key_usage_iff _ _ Hv) in K; rewrite K end. destruct i. reflexivity.
  - change (processExtension net i (mkExt [2; 5; 29; 17] cr v)) with (do s <- parseSANExtension net v;
        Ret (set_SAN i s, (List.length (san_DNS s) =? 0)%nat && (List.length (san_Email s) =? 0)%nat && (List.length (san_IP s) =? 0)%nat && (List.length (san_URI s) =? 0)%nat)).
    assert (B : forall s, (List.length (san_DNS s) =? 0)%nat && (List.length (san_Email s) =? 0)%nat && (List.length (san_IP s) =? 0)%nat && (List.length (san_URI s) =? 0)%nat = true
      <-> san_DNS s = [] /\ san_Email s = [] /\ san_IP s = [] /\ san_URI s = []).
    { intros s. rewrite !Bool.andb_true_iff, !nilb. tauto. }
    split.
    + intros E. bs E q H1. injection E as <- <-. destruct i. apply r_alternative_names; [reflexivity|now apply names_iff|apply B].
    + intros R. only_case R. match goal with K : alternative_names _ _ v |- _ => apply (names_iff _ _ Hv) in K; rewrite K end. cbn [bind]. f_equal. f_equal; [destruct i; reflexivity|].
      match goal with K : u = true <-> _ |- ?b = u => specialize (B s); destruct b, u; try reflexivity; [symmetry|]; tauto end.
  - change (processExtension net i (mkExt [2; 5; 29; 19] cr v)) with (do (ca, mpl) <- parseBasicConstraintsExtension v; Ret (set_BC i ca mpl, false)). split.
    + intros E. bs E q H1. destruct q as [ca n]. injection E as <- <-. destruct i. apply r_basic_constraints; [reflexivity|]. now apply basic_iff.
    + intros R. only_case R. match goal with K : basic_constraints _ _ v |- _ => apply (basic_iff _ _ _ Hv) in K; rewrite K end. destruct i. reflexivity.
  - change (processExtension net i (mkExt [2; 5; 29; 30] cr v)) with (do (p, x, unhandled) <- parseNameConstraintsExtension net v; Ret (set_NC i p x cr, unhandled)). split.
    + intros E. bs E q H1. destruct q as [[p x] w]. injection E as <- <-. destruct i. apply r_name_constraints; [reflexivity|]. now apply nc_iff.
    + intros R. only_case R. match goal with K : name_constraints _ _ _ _ v |- _ => apply (nc_iff _ _ _ _ Hv) in K; rewrite K end. destruct i. reflexivity.
  - change (processExtension net i (mkExt [2; 5; 29; 31] cr v)) with (do l <- parseCRLDP v; Ret (add_CRLDP i l, false)). split.
    + intros E. bs E q H1. injection E as <- <-. destruct i. apply r_distribution_points; [reflexivity|]. now apply dps_iff.
    + intros R. only_case R. match goal with K : distribution_points _ v |- _ => apply (dps_iff _ _ Hv) in K; rewrite K end. destruct i. reflexivity.
  - change (processExtension net i (mkExt [2; 5; 29; 32] cr v)) with (do l <- parseCertificatePoliciesExtension v; Ret (set_Policies i l, false)). split.
    + intros E. bs E q H1. injection E as <- <-. destruct i. apply r_policies; [reflexivity|]. now apply policies_iff.
    + intros R. only_case R. match goal with K : policies _ v |- _ => apply (policies_iff _ _ Hv) in K; rewrite K end. destruct i. reflexivity.
  - change (processExtension net i (mkExt [2; 5; 29; 35] cr v)) with (do k <- parseAKI v; Ret (match k with Some id => set_AKI i id | None => i end, false)). split.
    + intros E. bs E q H1. injection E as <- <-. apply (aki_iff _ _ Hv) in H1. pose proof (r_authority_key net (mkExt [2; 5; 29; 35] cr v) i q eq_refl H1) as R. destruct q; destruct i; exact R.
    + intros R. only_case R. match goal with K : authority_key _ v |- _ => apply (aki_iff _ _ Hv) in K; rewrite K end. destruct k; destruct i; reflexivity.
  - change (processExtension net i (mkExt [2; 5; 29; 37] cr v)) with (do (k, u) <- parseExtKeyUsageExtension v; Ret (set_EKU i k u, false)). split.
    + intros E. bs E q H1. destruct q as [k w]. injection E as <- <-. destruct i. apply r_ext_key_usage; [reflexivity|]. now apply eku_iff.
    + intros R. only_case R. match goal with K : ext_key_usage _ _ v |- _ => apply (eku_iff _ _ _ Hv) in K; rewrite K end. destruct i. reflexivity.
  - change (processExtension net i (mkExt [1; 3; 6; 1; 5; 5; 7; 1; 1] cr v)) with (do (ocsp, iss) <- parseAIA v; Ret (add_AIA i ocsp iss, false)). split.
    + intros E. bs E q H1. destruct q as [o w]. injection E as <- <-. destruct i. apply r_authority_info; [reflexivity|]. now apply aia_iff.
    + intros R. only_case R. match goal with K : authority_info _ _ v |- _ => apply (aia_iff _ _ _ Hv) in K; rewrite K end. destruct i. reflexivity.
  - destruct Hin.
Qed.
Lemma derived_iff l : Forall (fun x => bytes_ok (x_Value x)) l -> forall i k, processExtensions net i l = Ret k <-> derived net l i k.
Proof.
  induction 1 as [|x l Hx _ IH]; intros i k; cbn [processExtensions].
  - split; [intros [= <-]; constructor|]. intros D. inversion D. reflexivity.
  - split.
    + intros E. bs E q H1. destruct q as [j u]. apply (reading_iff _ _ _ _ Hx) in H1. eapply d_cons; [exact H1|reflexivity|]. apply IH. rewrite <- E. f_equal.
      destruct (x_Critical x && u); destruct j; [reflexivity|]. unfold add_Unhandled. cbn. now rewrite app_nil_r.
    + intros D. inversion D as [|? ? ? j u j' ? R Ej D' E1 E2 E3]. subst. apply (reading_iff _ _ _ _ Hx) in R. rewrite R. cbn [bind]. apply IH in D'. rewrite <- D'. f_equal.
      destruct (x_Critical x && u); destruct j; [reflexivity|]. cbn. now rewrite app_nil_r.
Qed.
End Names.
(** ** Theorems *)
(** what the extensions of a certificate are taken to say: exactly the above *)
Theorem C146_extensions : forall net, (forall s u, url_Parse net s = Some u -> bytes_ok (u_Host u)) ->
  forall l, Forall (fun x => bytes_ok (x_Value x)) l -> forall i k, processExtensions net i l = Ret k <-> derived net l i k.
Proof. exact derived_iff. Qed.
Print Assumptions C146_extensions.
Lemma values_ok version l s : bytes_ok s -> extensions version l s -> Forall (fun x => bytes_ok (x_Value x)) l.
Proof.
  intros Hs [[_ ->]|(_ & u1 & u2 & rest & -> & _ & _ & H)]; [constructor|]. apply bytes_ok_app in Hs as [_ Hs]. apply bytes_ok_app in Hs as [_ Hs].
  destruct H as [[_ ->]|[(_ & _ & ->)|(_ & x & es & ign & more & (xs & F & He) & Hx & ->)]]; [constructor|constructor|].
  destruct (el_ok _ _ _ _ Hx Hs) as [H1 _]. destruct (el_ok _ _ _ _ He H1) as [H2 _]. clear - F H2. induction F as [|y e l xs Hy F IH]; [constructor|].
  cbn [List.concat] in H2. apply bytes_ok_app in H2 as [H2 H3]. constructor; [|auto]. destruct Hy as (id & cr & v & ig & _ & _ & Hv & He).
  apply (el_ok' _ _ _ He) in H2. apply bytes_ok_app in H2 as [_ H2]. apply bytes_ok_app in H2 as [_ H2]. destruct (el_ok _ _ _ _ Hv H2) as [H4 _]. exact H4.
Qed.
(** in every certificate that is accepted *)
Theorem C146_certificate : forall net, (forall s u, url_Parse net s = Some u -> bytes_ok (u_Host u)) ->
  forall der c, bytes_ok der -> zlen der < 2 ^ 31 -> ParseCertificate net der = Ret c -> derived net (c_Extensions c) info0 (c_Info c).
Proof.
  intros net Hn der c Hb Hz E. apply (C145_certificate net der c Hb Hz) in E.
  destruct E as (a & params & ac & alg & sig & ignored & ver & serial & nb & na & ign' & validity & rest & _ & _ & _ & _ & _ & _ & _ & _ & _ & _ & _ & H). repeat match goal with K : _ /\ _ |- _ => destruct K end.
  match goal with K : processExtensions _ _ _ = Ret _, X : extensions _ _ ?r, T : element 48 (_ ++ _ ++ _ ++ _ ++ _ ++ _ ++ _ ++ ?r) _, D : element 48 (_ ++ _ ++ _ ++ _) der |- _ =>
    apply C146_extensions; [exact Hn| |exact K]; apply (el_ok' _ _ _ D) in Hb; apply bytes_ok_app in Hb as [Hb _]; apply (el_ok' _ _ _ T) in Hb; repeat (apply bytes_ok_app in Hb as [_ Hb]); exact (values_ok _ _ _ Hb X) end.
Qed.
Print Assumptions C146_certificate.
(** there is one reading only *)
Theorem C146_one_reading : forall net, (forall s u, url_Parse net s = Some u -> bytes_ok (u_Host u)) ->
  forall l, Forall (fun x => bytes_ok (x_Value x)) l -> forall i k k', derived net l i k -> derived net l i k' -> k = k'.
Proof. intros net Hn l Hl i k k' H1 H2. apply (C146_extensions net Hn l Hl) in H1, H2. congruence. Qed.
Print Assumptions C146_one_reading.
Definition ku1 : Extension := mkExt [2; 5; 29; 15] true [3; 2; 1; 134].
Definition bc1 : Extension := mkExt [2; 5; 29; 19] true [48; 6; 1; 1; 255; 2; 1; 3; 99].
Definition san1 : Extension := mkExt [2; 5; 29; 17] false [48; 5; 130; 3; 97; 46; 98].
Definition odd1 : Extension := mkExt [2; 5; 29; 99] true [].
(** critical key usage with bits 0, 5 and 6, basic constraints with a byte after them, a DNS name, an unknown critical one; a broken path length *)
Example C146_nonvacuous : (forall s u, url_Parse PropertiesX509Create.noNet s = Some u -> bytes_ok (u_Host u)) /\
  (exists k, derived PropertiesX509Create.noNet [ku1; bc1; san1; odd1] info0 k /\ i_KeyUsage k = 97 /\ i_IsCA k = true /\ i_MaxPathLen k = 3 /\ san_DNS (i_SAN k) = [[97; 46; 98]] /\ i_Unhandled k = [[2; 5; 29; 99]]) /\
  forall k, ~ derived PropertiesX509Create.noNet [mkExt [2; 5; 29; 19] true [48; 4; 2; 2; 0; 3]] info0 k.
Proof.
  assert (N : forall s u, url_Parse PropertiesX509Create.noNet s = Some u -> bytes_ok (u_Host u)) by (intros s u K; discriminate K).
  split; [exact N|]. split.
  - assert (F : Forall (fun x => bytes_ok (x_Value x)) [ku1; bc1; san1; odd1]) by (repeat (apply Forall_cons; [apply bytes_okb_spec; reflexivity|]); apply Forall_nil).
    destruct (processExtensions PropertiesX509Create.noNet info0 [ku1; bc1; san1; odd1]) as [k| |] eqn:E; [|vm_compute in E; discriminate E..].
    exists k. split; [now apply C146_extensions|]. vm_compute in E. injection E as <-. repeat split.
  - intros k K. apply C146_extensions in K; [vm_compute in K; discriminate K|exact N|apply Forall_cons; [apply bytes_okb_spec; reflexivity|apply Forall_nil]].
Qed.
