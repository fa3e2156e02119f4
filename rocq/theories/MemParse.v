(** * parser.go on memory (Mem): which byte slices of a parsed certificate are windows on the caller's array

    cryptobyte.String is a []byte; its readers hand out windows on it and never copy.  Parsing writes nothing, so the
    memory [h] is a parameter.  A window's position is computed from the sizes of what the list reader returns; what is
    copied out of the input (strings, numbers, object identifiers, times, RSA, ECDSA, SM2 and DSA keys) is computed by the list model's functions
    from the bytes in memory at the time. *)
From Coq Require Import String PeanoNat.
From Verif Require Import Base Words CryptoByte Asn1 KeysModel X509Model Mem.
Local Open Scope nat_scope.

(** s[i:j], keeping the capacity *)
Definition cut (s : slc) (i j : nat) : slc := mkS (s_arr s) (s_off s + i) (j - i) (s_cap s - i).
Section Parse.
Variable h : heap.
(** the rest of [s] when [r] bytes are left *)
Definition left_over (s : slc) (r : bytes) : slc := cut s (s_len s - List.length r) (s_len s).
(** a reader that copies what it reads *)
Definition sRest {A} (f : bytes -> option (A * bytes)) (s : slc) : option (A * slc) :=
  match f (rd h s) with Some (a, r) => Some (a, left_over s r) | None => None end.
(** cryptobyte asn1.go readASN1: tag, element, contents, rest *)
Definition sAnyElt (s : slc) : option (Z * slc * slc * slc) :=
  match readAnyElt (rd h s) with
  | Some (t, e, c, r) => Some (t, cut s 0 (List.length e), cut s (List.length e - List.length c) (List.length e), left_over s r)
  | None => None
  end.
(** ReadAnyASN1, ReadASN1, ReadASN1Element *)
Definition sAny (s : slc) : option (Z * slc * slc) := match sAnyElt s with Some (t, _, c, r) => Some (t, c, r) | None => None end.
Definition sASN1 (tag : Z) (s : slc) : option (slc * slc) :=
  match sAnyElt s with Some (t, _, c, r) => if (t =? tag)%Z then Some (c, r) else None | None => None end.
Definition sElement (tag : Z) (s : slc) : option (slc * slc) :=
  match sAnyElt s with Some (t, e, _, r) => if (t =? tag)%Z then Some (e, r) else None | None => None end.
(** SkipOptionalASN1, ReadOptionalASN1 *)
Definition sSkip (tag : Z) (s : slc) : option slc :=
  if peekTag tag (rd h s) then match sASN1 tag s with Some (_, r) => Some r | None => None end else Some s.
Definition sOptional (tag : Z) (s : slc) : option (bool * slc * slc) :=
  if peekTag tag (rd h s) then match sASN1 tag s with Some (c, r) => Some (true, c, r) | None => None end
  else Some (false, cut s 0 0, s).
(** ReadASN1BitString: out.Bytes is a window, too *)
Definition sBits (s : slc) : option (slc * bitString * slc) :=
  match readBitString (rd h s), sASN1 T_BIT_STRING s with
  | Some (b, _), Some (c, r) => Some (cut c 1 (s_len c), b, r)
  | _, _ => None
  end.
(** encoding/asn1 BitString.RightAlign: b.Bytes itself when there is nothing to shift, otherwise a new array *)
Inductive held := Window (s : slc) | Copy (b : bytes).
Definition sRightAlign (s : slc) (b : bitString) : held :=
  if ((8 - Z.rem (bs_len b) 8 =? 8)%Z || (s_len s =? 0)) then Window s else Copy (RightAlign b).
(** for !s.Empty() *)
Fixpoint sMany_fuel {A} (step : slc -> outcome (A * slc)) (fuel : nat) (s : slc) : outcome (list A) :=
  if s_len s =? 0 then Ret [] else
  match fuel with
  | O => Panic
  | S f => do (a, r) <- step s; do l <- sMany_fuel step f r; Ret (a :: l)
  end.
Definition sMany {A} (step : slc -> outcome (A * slc)) (s : slc) : outcome (list A) := sMany_fuel step (s_len s) s.

(** an extension whose Value is a window *)
Record extS := mkExtS { xs_Id : oid; xs_Critical : bool; xs_Value : slc }.
Definition extSeen (e : extS) : Extension := mkExt (xs_Id e) (xs_Critical e) (rd h (xs_Value e)).
(** parser.go:222-238 *)
Definition parseExtensionS (s : slc) : outcome extS :=
  do (id, s) <- need (sRest readOID s) "x509: malformed extension OID field";
  do (crit, s) <- (if peekTag T_BOOLEAN (rd h s) then need (sRest readBool s) "x509: malformed extension critical field" else Ret (false, s));
  do (val, _) <- need (sASN1 T_OCTET_STRING s) "x509: malformed extension value field";
  Ret (mkExtS id crit val).
(** the windows among the fields that extensions fill: SubjectKeyId, AuthorityKeyId, the addresses of the alternative names
    and the address and mask of each network of the name constraints *)
Record refs := mkRefs { rf_SKI : option slc; rf_AKI : option slc; rf_IP : list slc; rf_Permitted : list (slc * slc); rf_Excluded : list (slc * slc) }.
(** parser.go:377-393, 430-473: the windows of the iPAddress entries *)
Definition sanIPs (net : netlib) (s : slc) : outcome (list slc) :=
  do (s, _) <- need (sASN1 T_SEQUENCE s) "x509: invalid subject alternative names";
  do l <- sMany (fun s =>
    do (tag, san, r) <- need (sAny s) "x509: invalid subject alternative name";
    do g <- sanCallback net (Z.lxor tag 0x80) (rd h san);
    Ret ((g, san), r)) s;
  Ret (flat_map (fun p => match fst p with GNip _ => [snd p] | _ => [] end) l).
(** parser.go:540-698: ip := value[:l], mask := value[l:] *)
Definition subtreeS (net : netlib) (s : slc) : outcome ((constraint * slc) * slc) :=
  do (seq, r) <- need (sASN1 T_SEQUENCE s) "x509: invalid NameConstraints extension";
  do (tag, value, _) <- need (sAny seq) "x509: invalid NameConstraints extension";
  do (c, _) <- parseSubtree net (rd h s);
  Ret ((c, value), r).
Definition netsOf (l : list (constraint * slc)) : list (slc * slc) :=
  flat_map (fun p => match fst p with NCip _ => let v := snd p in [(cut v 0 (s_len v / 2), cut v (s_len v / 2) (s_len v))] | _ => [] end) l.
Definition ncNets (net : netlib) (s : slc) : outcome (list (slc * slc) * list (slc * slc)) :=
  let e := "x509: invalid NameConstraints extension"%string in
  do (top, _) <- need (sASN1 T_SEQUENCE s) e;
  do (_, permitted, top) <- need (sOptional (ctxc 0) top) e;
  do (_, excluded, top) <- need (sOptional (ctxc 1) top) e;
  do p <- sMany (subtreeS net) permitted;
  do x <- sMany (subtreeS net) excluded;
  Ret (netsOf p, netsOf x).
(** parser.go:930-942 *)
Definition akiS (s : slc) : option slc :=
  match sASN1 T_SEQUENCE s with
  | Some (akid, _) => if peekTag (ctx 0) (rd h akid) then match sASN1 (ctx 0) akid with Some (id, _) => Some id | None => None end else None
  | None => None
  end.
(** parser.go:852-996: the windows one extension leaves in the certificate, after it was accepted *)
Definition processRefs (net : netlib) (r : refs) (e : extS) : refs :=
  let id := xs_Id e in
  if oid_eqb id [2; 5; 29; 14]%Z then match sASN1 T_OCTET_STRING (xs_Value e) with Some (s, _) => mkRefs (Some s) (rf_AKI r) (rf_IP r) (rf_Permitted r) (rf_Excluded r) | None => r end
  else if oid_eqb id [2; 5; 29; 35]%Z then match akiS (xs_Value e) with Some s => mkRefs (rf_SKI r) (Some s) (rf_IP r) (rf_Permitted r) (rf_Excluded r) | None => r end
  else if oid_eqb id [2; 5; 29; 17]%Z then match sanIPs net (xs_Value e) with Ret l => mkRefs (rf_SKI r) (rf_AKI r) l (rf_Permitted r) (rf_Excluded r) | _ => r end
  else if oid_eqb id [2; 5; 29; 30]%Z then match ncNets net (xs_Value e) with Ret (p, x) => mkRefs (rf_SKI r) (rf_AKI r) (rf_IP r) p x | _ => r end
  else r.
(** parser.go:849-1004 *)
Fixpoint processS (net : netlib) (i : extInfo) (r : refs) (l : list extS) : outcome (extInfo * refs) :=
  match l with
  | [] => Ret (i, r)
  | e :: l =>
      do (i, unhandled) <- processExtension net i (extSeen e);
      processS net (if xs_Critical e && unhandled then add_Unhandled i (xs_Id e) else i) (processRefs net r e) l
  end.
Definition noRefs : refs := mkRefs None None [] [] [].
(** parser.go:1161-1171 *)
Definition parseExtStepS (s : slc) : outcome (extS * slc) :=
  do (extension, r) <- need (sASN1 T_SEQUENCE s) "x509: malformed extension";
  do ext <- parseExtensionS extension;
  Ret (ext, r).
(** parser.go:1144-1178 *)
Definition parseTailS (net : netlib) (version : Z) (tbs : slc) : outcome (list extS * (extInfo * refs)) :=
  if (1 <? version)%Z then
    do tbs <- need (sSkip (ctxc 1) tbs) "x509: malformed issuerUniqueID";
    do tbs <- need (sSkip (ctxc 2) tbs) "x509: malformed subjectUniqueID";
    if (version =? 3)%Z then
      do (present, extensions, _) <- need (sOptional (ctxc 3) tbs) "x509: malformed extensions";
      if present : bool then
        do (extensions, _) <- need (sASN1 T_SEQUENCE extensions) "x509: malformed extensions";
        do l <- sMany parseExtStepS extensions;
        do i <- processS net info0 noRefs l;
        Ret (l, i)
      else Ret ([], (info0, noRefs))
    else Ret ([], (info0, noRefs))
  else Ret ([], (info0, noRefs)).

(** a certificate: its windows, and the rest by value.  An Ed25519 key is a window, too: ed25519.PublicKey(der), line 310.  The slices among [cs_Value]'s fields are not used. *)
Record CertS := mkCertS { cs_Raw : slc; cs_RawTBS : slc; cs_RawSPKI : slc; cs_RawSubject : slc; cs_RawIssuer : slc;
  cs_Signature : held; cs_Ed25519 : option held; cs_Extensions : list extS; cs_Refs : refs; cs_Value : Certificate }.
(** parser.go:1006-1187 *)
Definition parseCertificateS (net : netlib) (der : slc) : outcome CertS :=
  do (raw, _) <- need (sElement T_SEQUENCE der) "x509: malformed certificate";
  do (input, _) <- need (sASN1 T_SEQUENCE raw) "x509: malformed certificate";
  do (rawTBS, input) <- need (sElement T_SEQUENCE input) "x509: malformed tbs certificate";
  do (tbs, _) <- need (sASN1 T_SEQUENCE rawTBS) "x509: malformed tbs certificate";
  do (v, tbs) <- need (sRest (readOptionalInt (ctxc 0)) tbs) "x509: malformed version";
  if (v <? 0)%Z then Err "x509: malformed version" else
  let version := wrap64 (v + 1) in
  if (3 <? version)%Z then Err "x509: invalid version" else
  do (serial, tbs) <- need (sRest readBigInt tbs) "x509: malformed serial number";
  do (sigAISeq, tbs) <- need (sASN1 T_SEQUENCE tbs) "x509: malformed signature algorithm identifier";
  do (outerSigAISeq, input) <- need (sASN1 T_SEQUENCE input) "x509: malformed algorithm identifier";
  if negb (bytes_eqb (rd h outerSigAISeq) (rd h sigAISeq)) then Err "x509: inner and outer signature algorithm identifiers don't match" else
  do sigAI <- parseAI (rd h sigAISeq);
  do (issuerSeq, tbs) <- need (sElement T_SEQUENCE tbs) "x509: malformed issuer";
  do issuer <- parseName (rd h issuerSeq);
  do (validity, tbs) <- need (sASN1 T_SEQUENCE tbs) "x509: malformed validity";
  do (nb, na) <- parseValidity (rd h validity);
  do (subjectSeq, tbs) <- need (sElement T_SEQUENCE tbs) "x509: malformed issuer";
  do subject <- parseName (rd h subjectSeq);
  do (rawSPKI, tbs) <- need (sElement T_SEQUENCE tbs) "x509: malformed spki";
  do (spki, _) <- need (sASN1 T_SEQUENCE rawSPKI) "x509: malformed spki";
  do (pkAISeq, spki) <- need (sASN1 T_SEQUENCE spki) "x509: malformed public key algorithm identifier";
  do pkAI <- parseAI (rd h pkAISeq);
  let pka := getPublicKeyAlgorithmFromOID (ai_alg pkAI) in
  do (kb, spk, _) <- need (sBits spki) "x509: malformed subjectPublicKey";
  do pub <- parsePublicKey pka (mkPKI None pkAI spk);
  do (exts, ir) <- parseTailS net version tbs;
  do (sb, signature, _) <- need (sBits input) "x509: malformed signature";
  Ret (mkCertS raw rawTBS rawSPKI subjectSeq issuerSeq (sRightAlign sb signature)
         (match pub with PKed25519 _ => Some (sRightAlign kb spk) | _ => None end) exts (snd ir)
         (mkCert [] [] [] [] [] [] (getSignatureAlgorithmFromAI sigAI) pka pub version serial issuer subject nb na [] (fst ir))).
(** parser.go:1190-1199 *)
Definition ParseCertificateS (net : netlib) (der : slc) : outcome CertS :=
  do cert <- parseCertificateS net der;
  if negb (s_len der =? s_len (cs_Raw cert)) then Err "x509: trailing data" else Ret cert.
(** parser.go:1203-1214: der = der[len(cert.Raw):] *)
Definition ParseCertificatesS (net : netlib) (der : slc) : outcome (list CertS) :=
  sMany (fun der => do cert <- parseCertificateS net der; Ret (cert, cut der (s_len (cs_Raw cert)) (s_len der))) der.
End Parse.

(** What the fields of a certificate show in memory [h], at any later time *)
Definition heldSeen (h : heap) (x : held) : bytes := match x with Window s => rd h s | Copy b => b end.
Definition refSeen (h : heap) (o : option slc) : bytes := match o with Some s => rd h s | None => [] end.
Definition netSeen (h : heap) (p : slc * slc) : IPNet := mkIPNet (rd h (fst p)) (rd h (snd p)).
Definition infoSeen (h : heap) (r : refs) (i : extInfo) : extInfo :=
  let i := set_SKI (set_AKI i (refSeen h (rf_AKI r))) (refSeen h (rf_SKI r)) in
  let i := set_SAN i (mkSANs (san_DNS (i_SAN i)) (san_Email (i_SAN i)) (map (rd h) (rf_IP r)) (san_URI (i_SAN i))) in
  let n c l := mkNC (nc_DNS c) (map (netSeen h) l) (nc_Email c) (nc_URI c) in
  set_NC i (n (i_Permitted i) (rf_Permitted r)) (n (i_Excluded i) (rf_Excluded r)) (i_PermittedDNSDomainsCritical i).
Definition seen (h : heap) (c : CertS) : Certificate :=
  let v := cs_Value c in
  mkCert (rd h (cs_Raw c)) (rd h (cs_RawTBS c)) (rd h (cs_RawSPKI c)) (rd h (cs_RawSubject c)) (rd h (cs_RawIssuer c))
    (heldSeen h (cs_Signature c)) (c_SignatureAlgorithm v) (c_PublicKeyAlgorithm v)
    (match cs_Ed25519 c with Some k => PKed25519 (heldSeen h k) | None => c_PublicKey v end) (c_Version v) (c_SerialNumber v)
    (c_Issuer v) (c_Subject v) (c_NotBefore v) (c_NotAfter v) (map (extSeen h) (cs_Extensions c)) (infoSeen h (cs_Refs c) (c_Info v)).
