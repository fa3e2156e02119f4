(** * Model of x509/parser.go: the X.509 certificate parser *)
From Coq Require Import String.
From Verif Require Import Base Words Utf8 BMPModel ECModel SM2Model CryptoByte Asn1 KeysModel.
Open Scope Z_scope.

(** a failing cryptobyte read becomes an error *)
Definition need {A} (o : option A) (e : string) : outcome A := match o with Some a => Ret a | None => Err e end.
(** [for !s.Empty() { x = step(&s) }]: the list of results; the fuel is the length of the input and is never
    exhausted because every step consumes at least one byte (X509Proofs.many_step) *)
Fixpoint many_fuel {A} (step : bytes -> outcome (A * bytes)) (fuel : nat) (s : bytes) : outcome (list A) :=
  match s with
  | [] => Ret []
  | _ :: _ =>
      match fuel with
      | O => Panic
      | S f => do (a, r) <- step s; do l <- many_fuel step f r; Ret (a :: l)
      end
  end.
Definition many {A} (step : bytes -> outcome (A * bytes)) (s : bytes) : outcome (list A) := many_fuel step (List.length s) s.

(** cryptobyte_asn1.Tag(n).ContextSpecific() and .ContextSpecific().Constructed() *)
Definition ctx (n : Z) : Z := n + 0x80.
Definition ctxc (n : Z) : Z := n + 0xa0.
(** cryptobyte ReadASN1BitString *)
Definition readBitString (s : bytes) : option (bitString * bytes) :=
  match readASN1 T_BIT_STRING s with
  | Some (pad :: b, r) =>
      if (7 <? pad) || ((List.length b =? 0)%nat && negb (pad =? 0)) ||
         ((0 <? List.length b)%nat && negb (Z.land (last b 0) (2 ^ pad - 1) =? 0))
      then None else Some (mkBits (Some b) (8 * zlen b - pad), r)
  | _ => None
  end.
(** cryptobyte ReadAnyASN1Element *)
Definition readAnyElement (s : bytes) : option (Z * bytes * bytes) :=
  match readAnyElt s with Some (t, e, _, r) => Some (t, e, r) | None => None end.
(** cryptobyte ReadOptionalASN1Integer(&int, tag, 0) *)
Definition readOptionalInt (tag : Z) (s : bytes) : option (Z * bytes) :=
  match readOptional tag s with
  | None => None
  | Some (false, _, r) => Some (0, r)
  | Some (true, c, r) => match readInt64 c with Some (n, []) => Some (n, r) | _ => None end
  end.
(** encoding/asn1 BitString.At *)
Definition bit_at (b : bitString) (i : Z) : Z :=
  if (i <? 0) || (bs_len b <=? i) then 0 else Z.land (Z.shiftr (nth (Z.to_nat (i / 8)) (sl (bs_bytes b)) 0) (7 - i mod 8)) 1.

(** ** Strings *)
(** parser.go:33-52; the characters as numbers: a-z 97..122, A-Z 65..90, 0-9 48..57, '..) 39..41, +../ 43..47, space 32,
    : 58, = 61, ? 63, * 42, & 38 *)
Definition isPrintable (b : Z) : bool :=
  ((97 <=? b) && (b <=? 122)) || ((65 <=? b) && (b <=? 90)) || ((48 <=? b) && (b <=? 57)) ||
  ((39 <=? b) && (b <=? 41)) || ((43 <=? b) && (b <=? 47)) || (b =? 32) || (b =? 58) || (b =? 61) || (b =? 63) ||
  (b =? 42) || (b =? 38).
(** x509.go:1210-1219 (true: no error) *)
Definition isIA5String (s : bytes) : bool := forallb (fun r => negb (127 <? r)) (runes s).
(** parser.go:58-106 (the tag is left out of the last error message) *)
Definition T_BMPString : Z := 30.
Definition T_NumericString : Z := 18.
Definition parseASN1String (tag : Z) (value : bytes) : outcome bytes :=
  if tag =? T_T61String then Ret value
  else if tag =? T_PrintableString then
    if forallb isPrintable value then Ret value else Err "invalid PrintableString"
  else if tag =? T_UTF8String then
    if utf8_valid value then Ret value else Err "invalid UTF-8 string"
  else if tag =? T_BMPString then
    if negb (zlen value mod 2 =? 0) then Err "invalid BMPString"
    else Ret (utf8_encode (utf16_Decode (units (strip_terminator value))))
  else if tag =? T_IA5String then
    if isIA5String value then Ret value else Err "invalid IA5String"
  else if tag =? T_NumericString then
    if forallb (fun b => ((48 <=? b) && (b <=? 57)) || (b =? 32)) value then Ret value else Err "invalid NumericString"
  else Err "unsupported string type: ".

(** ** Names.  pkix.RDNSequence: a list of sets of (type, string value) *)
Record ATV := mkATV { atv_Type : oid; atv_Value : bytes }.
Definition RDNSequence := list (list ATV).
(** parser.go:122-142 *)
Definition parseATV (set : bytes) : outcome (ATV * bytes) :=
  do (atav, r) <- need (readASN1 T_SEQUENCE set) "x509: invalid RDNSequence: invalid attribute";
  do (ty, atav) <- need (readOID atav) "x509: invalid RDNSequence: invalid attribute type";
  do (tag, raw, _) <- need (readAny atav) "x509: invalid RDNSequence: invalid attribute value";
  match parseASN1String tag raw with
  | Ret v => Ret (mkATV ty v, r)
  | Err e => Err (errcat "x509: invalid RDNSequence: invalid attribute value: " e)
  | Panic => Panic
  end.
(** parser.go:116-145 *)
Definition parseRDN (raw : bytes) : outcome (list ATV * bytes) :=
  do (set, r) <- need (readASN1 T_SET raw) "x509: invalid RDNSequence";
  do l <- many parseATV set;
  Ret (l, r).
(** parser.go:110-148 *)
Definition parseName (raw : bytes) : outcome RDNSequence :=
  do (raw, _) <- need (readASN1 T_SEQUENCE raw) "x509: invalid RDNSequence";
  many parseRDN raw.
(** parser.go:150-166: Parameters gets Tag (the whole identifier octet) and FullBytes only *)
Definition parseAI (der : bytes) : outcome AI :=
  do (o, der) <- need (readOID der) "x509: malformed OID";
  match der with
  | [] => Ret (mkAI o rawZero)
  | _ =>
      do (tag, params, _) <- need (readAnyElement der) "x509: malformed parameters";
      Ret (mkAI o (mkRaw 0 tag false None (Some params)))
  end.

(** ** Times.  A time.Time is represented by its civil fields and its zone offset in minutes *)
Record civil := mkCivil { t_Year : Z; t_Month : Z; t_Day : Z; t_Hour : Z; t_Min : Z; t_Sec : Z; t_Off : Z }.
Definition is_leap (y : Z) : bool := (y mod 4 =? 0) && (negb (y mod 100 =? 0) || (y mod 400 =? 0)).
Definition days_in (m y : Z) : Z :=
  if m =? 2 then (if is_leap y then 29 else 28)
  else if (m =? 4) || (m =? 6) || (m =? 9) || (m =? 11) then 30 else 31.
(** two decimal digits *)
Definition digit (b : Z) : option Z := if (48 <=? b) && (b <=? 57) then Some (b - 48) else None.
Definition two (s : bytes) : option (Z * bytes) :=
  match s with
  | a :: b :: r => match digit a, digit b with Some x, Some y => Some (10 * x + y, r) | _, _ => None end
  | _ => None
  end.
(** the zone: Z, or sign hhmm.  Format prints the zero offset as Z and minutes modulo 60, so the comparison of the
    re-serialised time with the input leaves only canonical zones *)
Definition zone (s : bytes) : option Z :=
  match s with
  | [c] => if c =? 90 then Some 0 else None
  | c :: r =>
      match two r with
      | Some (h, r) =>
          match two r with
          | Some (m, []) =>
              if (m <? 60) && negb (60 * h + m =? 0) then
                if c =? 43 then Some (60 * h + m) else if c =? 45 then Some (- (60 * h + m)) else None
              else None
          | _ => None
          end
      | None => None
      end
  | [] => None
  end.
(** month, day, hour, minute, optional second, zone after a year *)
Definition parse_after_year (y : Z) (secs : bool) (s : bytes) : option civil :=
  match two s with None => None | Some (mo, s) =>
  match two s with None => None | Some (d, s) =>
  match two s with None => None | Some (h, s) =>
  match two s with None => None | Some (mi, s) =>
  match (if secs then two s else Some (0, s)) with None => None | Some (se, s) =>
  match zone s with None => None | Some off =>
    if (1 <=? mo) && (mo <=? 12) && (1 <=? d) && (d <=? days_in mo y) && (h <? 24) && (mi <? 60) && (se <? 60)
    then Some (mkCivil y mo d h mi se off) else None
  end end end end end end.
(** time.Parse(formatStr, s) followed by the comparison of t.Format(formatStr) with s (Go 1.18 time package): the formats
    "0601021504Z0700" and "060102150405Z0700"; a two-digit year is 19YY from 69 on *)
Definition parse_utc (secs : bool) (s : bytes) : option civil :=
  match two s with
  | Some (yy, r) => parse_after_year (if 69 <=? yy then 1900 + yy else 2000 + yy) secs r
  | None => None
  end.
(** cryptobyte ReadASN1GeneralizedTime: "20060102150405Z0700", with the same comparison *)
Definition parse_generalized (s : bytes) : option civil :=
  match two s with
  | Some (c, r) => match two r with Some (yy, r) => parse_after_year (100 * c + yy) true r | None => None end
  | None => None
  end.
(** parser.go:169-208.  Both failures of the UTCTime syntax (time.Parse, re-serialisation) are one error here.
    AddDate(-100,0,0) subtracts 100 years (the date stays valid: no year after 2050 and before 2069 is a century). *)
Definition parseTime (der : bytes) : outcome (civil * bytes) :=
  if peekTag T_UTCTime der then
    do (s, r) <- need (readASN1 T_UTCTime der) "x509: malformed UTCTime";
    match (match parse_utc false s with Some t => Some t | None => parse_utc true s end) with
    | None => Err "x509: malformed UTCTime"
    | Some t =>
        Ret (if 2050 <=? t_Year t then mkCivil (t_Year t - 100) (t_Month t) (t_Day t) (t_Hour t) (t_Min t) (t_Sec t) (t_Off t) else t, r)
    end
  else if peekTag T_GeneralizedTime der then
    match readASN1 T_GeneralizedTime der with
    | Some (s, r) => match parse_generalized s with Some t => Ret (t, r) | None => Err "x509: malformed GeneralizedTime" end
    | None => Err "x509: malformed GeneralizedTime"
    end
  else Err "x509: unsupported time format".
(** parser.go:168-220 *)
Definition parseValidity (der : bytes) : outcome (civil * civil) :=
  do (nb, der) <- parseTime der;
  do (na, _) <- parseTime der;
  Ret (nb, na).

(** ** Extensions *)
Record Extension := mkExt { x_Id : oid; x_Critical : bool; x_Value : bytes }.
(** parser.go:222-238 *)
Definition parseExtension (der : bytes) : outcome Extension :=
  do (id, der) <- need (readOID der) "x509: malformed extension OID field";
  do (crit, der) <- (if peekTag T_BOOLEAN der then need (readBool der) "x509: malformed extension critical field" else Ret (false, der));
  do (val, _) <- need (readASN1 T_OCTET_STRING der) "x509: malformed extension value field";
  Ret (mkExt id crit val).
(** parser.go:341-354 *)
Definition parseKeyUsageExtension (der : bytes) : outcome Z :=
  do (usageBits, _) <- need (readBitString der) "x509: invalid key usage";
  Ret (fold_left (fun usage i => if bit_at usageBits i =? 0 then usage else Z.lor usage (Z.shiftl 1 i)) [0; 1; 2; 3; 4; 5; 6; 7; 8] 0).
(** parser.go:356-375 *)
Definition parseBasicConstraintsExtension (der : bytes) : outcome (bool * Z) :=
  do (der, _) <- need (readASN1 T_SEQUENCE der) "x509: invalid basic constraints a";
  do (isCA, der) <- (if peekTag T_BOOLEAN der then need (readBool der) "x509: invalid basic constraints b" else Ret (false, der));
  do (mpl, _) <- (if peekTag T_INTEGER der then need (readInt64 der) "x509: invalid basic constraints c" else Ret (-1, der));
  Ret (isCA, mpl).
(** strings.LastIndexByte(s, '.') *)
Fixpoint lastDot (s : bytes) : option nat :=
  match s with
  | [] => None
  | c :: r => match lastDot r with Some i => Some (S i) | None => if c =? 46 then Some O else None end
  end.
(** parser.go:398-406; the domain gets shorter in every iteration, so its length bounds their number *)
Fixpoint labels_loop (fuel : nat) (domain : bytes) : list bytes :=
  match domain with
  | [] => []
  | _ =>
      match fuel with
      | O => []
      | S f =>
          match lastDot domain with
          | None => [domain]
          | Some i => skipn (i + 1) domain :: labels_loop f (firstn i domain)
          end
      end
  end.
(** parser.go:397-428; None is ok = false.  The test of the first label (408-411) is subsumed by the loop but kept. *)
Definition domainToReverseLabels (domain : bytes) : option (list bytes) :=
  let reverseLabels := labels_loop (List.length domain) domain in
  if match reverseLabels with [] :: _ => true | _ => false end then None
  else if forallb (fun l => negb (List.length l =? 0)%nat && forallb (fun c => negb ((c <? 33) || (126 <? c))) (runes l)) reverseLabels
  then Some reverseLabels else None.

(** net/url.URL as seen by this package: its Host field and its String() *)
Record urlT := mkUrl { u_Host : bytes; u_String : bytes }.
(** library functions the parser calls: url.Parse (None on error) and net.ParseIP (is the result non-nil?) *)
Record netlib := mkNet { url_Parse : bytes -> option urlT; net_ParseIP : bytes -> bool }.

(** x509.go:1094-1099 *)
Definition nameTypeEmail : Z := 1.
Definition nameTypeDNS : Z := 2.
Definition nameTypeURI : Z := 6.
Definition nameTypeIP : Z := 7.
(** one GeneralName *)
Inductive genName := GNemail (s : bytes) | GNdns (s : bytes) | GNuri (u : urlT) | GNip (ip : bytes) | GNother.
(** parser.go:431-470: the callback (the URI and the parse error are left out of the messages) *)
Definition sanCallback (net : netlib) (tag : Z) (data : bytes) : outcome genName :=
  if tag =? nameTypeEmail then
    if isIA5String data then Ret (GNemail data) else Err "x509: SAN rfc822Name is malformed"
  else if tag =? nameTypeDNS then
    if isIA5String data then Ret (GNdns data) else Err "x509: SAN dNSName is malformed"
  else if tag =? nameTypeURI then
    if negb (isIA5String data) then Err "x509: SAN uniformResourceIdentifier is malformed" else
    match url_Parse net data with
    | None => Err "x509: cannot parse URI"
    | Some uri =>
        if (0 <? List.length (u_Host uri))%nat && match domainToReverseLabels (u_Host uri) with None => true | Some _ => false end
        then Err "x509: cannot parse URI: invalid domain" else Ret (GNuri uri)
    end
  else if tag =? nameTypeIP then
    if (List.length data =? 4)%nat || (List.length data =? 16)%nat then Ret (GNip data)
    else Err "x509: cannot parse IP address of length "
  else Ret GNother.
(** parser.go:377-393 *)
Definition forEachSAN (der : bytes) (callback : Z -> bytes -> outcome genName) : outcome (list genName) :=
  do (der, _) <- need (readASN1 T_SEQUENCE der) "x509: invalid subject alternative names";
  many (fun der =>
    do (tag, san, r) <- need (readAny der) "x509: invalid subject alternative name";
    do g <- callback (Z.lxor tag 0x80) san;
    Ret (g, r)) der.
Record SANs := mkSANs { san_DNS : list bytes; san_Email : list bytes; san_IP : list bytes; san_URI : list urlT }.
Definition collect_san (l : list genName) : SANs :=
  mkSANs (flat_map (fun g => match g with GNdns s => [s] | _ => [] end) l)
         (flat_map (fun g => match g with GNemail s => [s] | _ => [] end) l)
         (flat_map (fun g => match g with GNip s => [s] | _ => [] end) l)
         (flat_map (fun g => match g with GNuri s => [s] | _ => [] end) l).
(** parser.go:430-473 *)
Definition parseSANExtension (net : netlib) (der : bytes) : outcome SANs :=
  do l <- forEachSAN der (sanCallback net);
  Ret (collect_san l).

(** x509.go:738-751, 758-794: the table; an ExtKeyUsage is its number *)
Definition extKeyUsageOIDs : list (Z * oid) :=
  [(0, [2; 5; 29; 37; 0]);
   (1, [1; 3; 6; 1; 5; 5; 7; 3; 1]);
   (2, [1; 3; 6; 1; 5; 5; 7; 3; 2]);
   (3, [1; 3; 6; 1; 5; 5; 7; 3; 3]);
   (4, [1; 3; 6; 1; 5; 5; 7; 3; 4]);
   (5, [1; 3; 6; 1; 5; 5; 7; 3; 5]);
   (6, [1; 3; 6; 1; 5; 5; 7; 3; 6]);
   (7, [1; 3; 6; 1; 5; 5; 7; 3; 7]);
   (8, [1; 3; 6; 1; 5; 5; 7; 3; 8]);
   (9, [1; 3; 6; 1; 5; 5; 7; 3; 9]);
   (10, [1; 3; 6; 1; 4; 1; 311; 10; 3; 3]);
   (11, [2; 16; 840; 1; 113730; 4; 1]);
   (12, [1; 3; 6; 1; 4; 1; 311; 2; 1; 22]);
   (13, [1; 3; 6; 1; 4; 1; 311; 61; 1; 1])].
(** x509.go:796-803 *)
Definition extKeyUsageFromOID (o : oid) : option Z := option_map fst (find (fun p => oid_eqb o (snd p)) extKeyUsageOIDs).
(** x509.go:805-812 *)
Definition oidFromExtKeyUsage (eku : Z) : option oid := option_map snd (find (fun p => eku =? fst p) extKeyUsageOIDs).
(** parser.go:475-493 *)
Definition parseExtKeyUsageExtension (der : bytes) : outcome (list Z * list oid) :=
  do (der, _) <- need (readASN1 T_SEQUENCE der) "x509: invalid extended key usages";
  do l <- many (fun der => need (readOID der) "x509: invalid extended key usages") der;
  Ret (flat_map (fun o => match extKeyUsageFromOID o with Some u => [u] | None => [] end) l,
       flat_map (fun o => match extKeyUsageFromOID o with Some _ => [] | None => [o] end) l).
(** parser.go:495-513 *)
Definition parseCertificatePoliciesExtension (der : bytes) : outcome (list oid) :=
  do (der, _) <- need (readASN1 T_SEQUENCE der) "x509: invalid certificate policies";
  many (fun der =>
    do (cp, r) <- need (readASN1 T_SEQUENCE der) "x509: invalid certificate policies";
    do (o, _) <- need (readOID cp) "x509: invalid certificate policies";
    Ret (o, r)) der.
(** parser.go:516-538 *)
Fixpoint mask_loop (seenZero : bool) (mask : bytes) : bool :=
  match mask with
  | [] => true
  | b :: r =>
      if seenZero then (if negb (b =? 0) then false else mask_loop true r)
      else if existsb (Z.eqb b) [0x00; 0x80; 0xc0; 0xe0; 0xf0; 0xf8; 0xfc; 0xfe] then mask_loop true r
      else if b =? 0xff then mask_loop false r
      else false
  end.
Definition isValidIPMask (mask : bytes) : bool := mask_loop false mask.

(** ** Mailboxes *)
(** parser.go:749-752 *)
Definition is_quoted_text (c : Z) : bool := (c =? 11) || (c =? 12) || ((1 <=? c) && (c <=? 9)) || ((14 <=? c) && (c <=? 127)).
(** parser.go:759-772 *)
Definition is_qtext (c : Z) : bool :=
  (c =? 11) || (c =? 12) || (c =? 32) || (c =? 33) || (c =? 127) || ((1 <=? c) && (c <=? 8)) || ((14 <=? c) && (c <=? 31)) ||
  ((35 <=? c) && (c <=? 91)) || ((93 <=? c) && (c <=? 126)).
(** parser.go:800-807: digits, letters and !#$%&'*+-/=?^_`{|}~. *)
Definition is_atext (c : Z) : bool :=
  ((48 <=? c) && (c <=? 57)) || ((97 <=? c) && (c <=? 122)) || ((65 <=? c) && (c <=? 90)) ||
  existsb (Z.eqb c) [33; 35; 36; 37; 38; 39; 42; 43; 45; 47; 61; 63; 94; 95; 96; 123; 124; 125; 126; 46].
(** parser.go:733-779: after the opening quote (34); the result is the local part and what follows the closing quote *)
Fixpoint quoted_loop (s : bytes) : option (bytes * bytes) :=
  match s with
  | [] => None
  | c :: r =>
      if c =? 34 then Some ([], r)
      else if c =? 92 then
        match r with
        | [] => None
        | d :: r => if is_quoted_text d then match quoted_loop r with Some (l, t) => Some (d :: l, t) | None => None end else None
        end
      else if is_qtext c then match quoted_loop r with Some (l, t) => Some (c :: l, t) | None => None end
      else None
  end.
(** parser.go:783-814: a backslash (92) takes the next character, whatever it is *)
Fixpoint atom_loop (s : bytes) : option (bytes * bytes) :=
  match s with
  | [] => Some ([], [])
  | c :: r =>
      if c =? 92 then
        match r with
        | [] => None
        | d :: r => match atom_loop r with Some (l, t) => Some (d :: l, t) | None => None end
        end
      else if is_atext c then match atom_loop r with Some (l, t) => Some (c :: l, t) | None => None end
      else Some ([], s)
  end.
(** bytes.Contains(l, "..") *)
Fixpoint two_dots (l : bytes) : bool :=
  match l with
  | a :: ((b :: _) as r) => ((a =? 46) && (b =? 46)) || two_dots r
  | _ => false
  end.
(** parser.go:712-847; None is ok = false *)
Definition parseRFC2821Mailbox (s : bytes) : option (bytes * bytes) :=
  match s with
  | [] => None
  | c :: r =>
      match (if c =? 34 then quoted_loop r
             else match atom_loop s with
                  | None => None
                  | Some ([], _) => None
                  | Some (l, t) => if (hd 0 l =? 46) || (last l 0 =? 46) || two_dots l then None else Some (l, t)
                  end) with
      | None => None
      | Some (local, rest) =>
          match rest with
          | a :: domain =>
              if negb (a =? 64) then None else
              match domainToReverseLabels domain with Some _ => Some (local, domain) | None => None end
          | [] => None
          end
      end
  end.

(** ** Name constraints *)
Record IPNet := mkIPNet { ipn_IP : bytes; ipn_Mask : bytes }.
Inductive constraint := NCdns (s : bytes) | NCip (n : IPNet) | NCemail (s : bytes) | NCuri (s : bytes) | NCother.
Definition trim_dot (s : bytes) : bytes := match s with c :: r => if c =? 46 then r else s | [] => s end.
Definition labels_ok (s : bytes) : bool := match domainToReverseLabels s with Some _ => true | None => false end.
(** parser.go:576-684: one subtree (values left out of the messages) *)
Definition parseSubtree (net : netlib) (subtrees : bytes) : outcome (constraint * bytes) :=
  do (seq, r) <- need (readASN1 T_SEQUENCE subtrees) "x509: invalid NameConstraints extension";
  do (tag, value, _) <- need (readAny seq) "x509: invalid NameConstraints extension";
  do c <-
    (if tag =? ctx 2 then
       if negb (isIA5String value) then Err "x509: invalid constraint value: " else
       if labels_ok (trim_dot value) then Ret (NCdns value) else Err "x509: failed to parse dnsName constraint"
     else if tag =? ctx 7 then
       let n := List.length value in
       if (n =? 8)%nat || (n =? 32)%nat then
         let h := (n / 2)%nat in
         if isValidIPMask (skipn h value) then Ret (NCip (mkIPNet (firstn h value) (skipn h value)))
         else Err "x509: IP constraint contained invalid mask"
       else Err "x509: IP constraint contained value of length "
     else if tag =? ctx 1 then
       if negb (isIA5String value) then Err "x509: invalid constraint value: " else
       if existsb (Z.eqb 64) value then
         match parseRFC2821Mailbox value with Some _ => Ret (NCemail value) | None => Err "x509: failed to parse rfc822Name constraint" end
       else if labels_ok (trim_dot value) then Ret (NCemail value) else Err "x509: failed to parse rfc822Name constraint"
     else if tag =? ctx 6 then
       if negb (isIA5String value) then Err "x509: invalid constraint value: " else
       if net_ParseIP net value then Err "x509: failed to parse URI constraint: cannot be IP address" else
       if labels_ok (trim_dot value) then Ret (NCuri value) else Err "x509: failed to parse URI constraint"
     else Ret NCother);
  Ret (c, r).
Record constraints := mkNC { nc_DNS : list bytes; nc_IP : list IPNet; nc_Email : list bytes; nc_URI : list bytes }.
Definition collect_nc (l : list constraint) : constraints :=
  mkNC (flat_map (fun g => match g with NCdns s => [s] | _ => [] end) l)
       (flat_map (fun g => match g with NCip s => [s] | _ => [] end) l)
       (flat_map (fun g => match g with NCemail s => [s] | _ => [] end) l)
       (flat_map (fun g => match g with NCuri s => [s] | _ => [] end) l).
Definition has_other (l : list constraint) : bool := existsb (fun c => match c with NCother => true | _ => false end) l.
(** parser.go:540-698: permitted, excluded and unhandled *)
Definition parseNameConstraintsExtension (net : netlib) (value : bytes) : outcome (constraints * constraints * bool) :=
  let e := "x509: invalid NameConstraints extension"%string in
  do (toplevel, outer) <- need (readASN1 T_SEQUENCE value) e;
  match outer with _ :: _ => Err e | [] =>
    do (havePermitted, permitted, toplevel) <- need (readOptional (ctxc 0) toplevel) e;
    do (haveExcluded, excluded, toplevel) <- need (readOptional (ctxc 1) toplevel) e;
    match toplevel with _ :: _ => Err e | [] =>
      if (negb havePermitted && negb haveExcluded) || ((List.length permitted =? 0)%nat && (List.length excluded =? 0)%nat)
      then Err "x509: empty name constraints extension" else
      do p <- many (parseSubtree net) permitted;
      do x <- many (parseSubtree net) excluded;
      Ret (collect_nc p, collect_nc x, has_other p || has_other x)
    end
  end.

(** ** processExtensions *)
(** x509.go:814-914: the fields of Certificate that are set from extensions *)
Record extInfo := mkInfo {
  i_KeyUsage : Z;
  i_BasicConstraintsValid : bool; i_IsCA : bool; i_MaxPathLen : Z; i_MaxPathLenZero : bool;
  i_SAN : SANs;
  i_Permitted : constraints; i_Excluded : constraints; i_PermittedDNSDomainsCritical : bool;
  i_CRLDistributionPoints : list bytes;
  i_AuthorityKeyId : bytes; i_SubjectKeyId : bytes;
  i_ExtKeyUsage : list Z; i_UnknownExtKeyUsage : list oid;
  i_PolicyIdentifiers : list oid;
  i_OCSPServer : list bytes; i_IssuingCertificateURL : list bytes;
  i_Unhandled : list oid }.
Definition noSAN : SANs := mkSANs [] [] [] [].
Definition noNC : constraints := mkNC [] [] [] [].
Definition info0 : extInfo := mkInfo 0 false false 0 false noSAN noNC noNC false [] [] [] [] [] [] [] [] [].
Definition set_KeyUsage (i : extInfo) (v : Z) : extInfo :=
  let '(mkInfo _ a b c d e f g h j k l m n o p q r) := i in mkInfo v a b c d e f g h j k l m n o p q r.
Definition set_BC (i : extInfo) (isCA : bool) (mpl : Z) : extInfo :=
  let '(mkInfo z _ _ _ _ e f g h j k l m n o p q r) := i in mkInfo z true isCA mpl (mpl =? 0) e f g h j k l m n o p q r.
Definition set_SAN (i : extInfo) (v : SANs) : extInfo :=
  let '(mkInfo z a b c d _ f g h j k l m n o p q r) := i in mkInfo z a b c d v f g h j k l m n o p q r.
Definition set_NC (i : extInfo) (pm ex : constraints) (crit : bool) : extInfo :=
  let '(mkInfo z a b c d e _ _ _ j k l m n o p q r) := i in mkInfo z a b c d e pm ex crit j k l m n o p q r.
Definition add_CRLDP (i : extInfo) (v : list bytes) : extInfo :=
  let '(mkInfo z a b c d e f g h j k l m n o p q r) := i in mkInfo z a b c d e f g h (j ++ v) k l m n o p q r.
Definition set_AKI (i : extInfo) (v : bytes) : extInfo :=
  let '(mkInfo z a b c d e f g h j _ l m n o p q r) := i in mkInfo z a b c d e f g h j v l m n o p q r.
Definition set_SKI (i : extInfo) (v : bytes) : extInfo :=
  let '(mkInfo z a b c d e f g h j k _ m n o p q r) := i in mkInfo z a b c d e f g h j k v m n o p q r.
Definition set_EKU (i : extInfo) (v : list Z) (w : list oid) : extInfo :=
  let '(mkInfo z a b c d e f g h j k l _ _ o p q r) := i in mkInfo z a b c d e f g h j k l v w o p q r.
Definition set_Policies (i : extInfo) (v : list oid) : extInfo :=
  let '(mkInfo z a b c d e f g h j k l m n _ p q r) := i in mkInfo z a b c d e f g h j k l m n v p q r.
Definition add_AIA (i : extInfo) (ocsp iss : list bytes) : extInfo :=
  let '(mkInfo z a b c d e f g h j k l m n o p q r) := i in mkInfo z a b c d e f g h j k l m n o (p ++ ocsp) (q ++ iss) r.
Definition add_Unhandled (i : extInfo) (v : oid) : extInfo :=
  let '(mkInfo z a b c d e f g h j k l m n o p q r) := i in mkInfo z a b c d e f g h j k l m n o p q (r ++ [v]).

(** parser.go:918-927: the URIs up to the first general name of another type *)
Fixpoint dp_uris (fuel : nat) (s : bytes) : outcome (list bytes) :=
  if negb (peekTag (ctx 6) s) then Ret [] else
  match fuel with
  | O => Panic
  | S f => do (uri, r) <- need (readASN1 (ctx 6) s) "x509: invalid CRL distribution point"; do l <- dp_uris f r; Ret (uri :: l)
  end.
(** parser.go:902-928 *)
Definition parseDP (val : bytes) : outcome (list bytes * bytes) :=
  let e := "x509: invalid CRL distribution point"%string in
  do (dpDER, r) <- need (readASN1 T_SEQUENCE val) e;
  do (present, dpNameDER, _) <- need (readOptional (ctxc 0) dpDER) e;
  if negb present then Ret ([], r) else
  do (dpNameDER, _) <- need (readASN1 (ctxc 0) dpNameDER) e;
  do l <- dp_uris (List.length dpNameDER) dpNameDER;
  Ret (l, r).
(** parser.go:898-928 *)
Definition parseCRLDP (value : bytes) : outcome (list bytes) :=
  do (val, _) <- need (readASN1 T_SEQUENCE value) "x509: invalid CRL distribution points";
  do l <- many parseDP val;
  Ret (List.concat l).
(** parser.go:932-942: None when there is no key identifier *)
Definition parseAKI (value : bytes) : outcome (option bytes) :=
  do (akid, _) <- need (readASN1 T_SEQUENCE value) "x509: invalid authority key identifier";
  if peekTag (ctx 0) akid then
    do (id, _) <- need (readASN1 (ctx 0) akid) "x509: invalid authority key identifier"; Ret (Some id)
  else Ret None.
(** x509.go:1146-1163 *)
Definition oidExtensionSubjectKeyId : oid := [2; 5; 29; 14].
Definition oidExtensionKeyUsage : oid := [2; 5; 29; 15].
Definition oidExtensionExtendedKeyUsage : oid := [2; 5; 29; 37].
Definition oidExtensionAuthorityKeyId : oid := [2; 5; 29; 35].
Definition oidExtensionBasicConstraints : oid := [2; 5; 29; 19].
Definition oidExtensionSubjectAltName : oid := [2; 5; 29; 17].
Definition oidExtensionCertificatePolicies : oid := [2; 5; 29; 32].
Definition oidExtensionNameConstraints : oid := [2; 5; 29; 30].
Definition oidExtensionCRLDistributionPoints : oid := [2; 5; 29; 31].
Definition oidExtensionAuthorityInfoAccess : oid := [1; 3; 6; 1; 5; 5; 7; 1; 1].
Definition oidAuthorityInfoAccessOcsp : oid := [1; 3; 6; 1; 5; 5; 7; 48; 1].
Definition oidAuthorityInfoAccessIssuers : oid := [1; 3; 6; 1; 5; 5; 7; 48; 2].
(** parser.go:971-992: OCSP URLs and issuer URLs of one access description *)
Definition parseAIAEntry (val : bytes) : outcome ((list bytes * list bytes) * bytes) :=
  let e := "x509: invalid authority info access"%string in
  do (aiaDER, r) <- need (readASN1 T_SEQUENCE val) e;
  do (method, aiaDER) <- need (readOID aiaDER) e;
  if negb (peekTag (ctx 6) aiaDER) then Ret (([], []), r) else
  do (loc, _) <- need (readASN1 (ctx 6) aiaDER) e;
  Ret (if oid_eqb method oidAuthorityInfoAccessOcsp then ([loc], [])
       else if oid_eqb method oidAuthorityInfoAccessIssuers then ([], [loc]) else ([], []), r).
Definition parseAIA (value : bytes) : outcome (list bytes * list bytes) :=
  do (val, _) <- need (readASN1 T_SEQUENCE value) "x509: invalid authority info access";
  do l <- many parseAIAEntry val;
  Ret (List.concat (map fst l), List.concat (map snd l)).

(** parser.go:852-996: one extension: the new fields and [unhandled] *)
Definition processExtension (net : netlib) (i : extInfo) (e : Extension) : outcome (extInfo * bool) :=
  let id := x_Id e in
  if (List.length id =? 4)%nat && (nth 0 id 0 =? 2) && (nth 1 id 0 =? 5) && (nth 2 id 0 =? 29) then
      let n := nth 3 id 0 in
      if n =? 15 then do ku <- parseKeyUsageExtension (x_Value e); Ret (set_KeyUsage i ku, false)
      else if n =? 19 then do (ca, mpl) <- parseBasicConstraintsExtension (x_Value e); Ret (set_BC i ca mpl, false)
      else if n =? 17 then
        do s <- parseSANExtension net (x_Value e);
        Ret (set_SAN i s, (List.length (san_DNS s) =? 0)%nat && (List.length (san_Email s) =? 0)%nat
                          && (List.length (san_IP s) =? 0)%nat && (List.length (san_URI s) =? 0)%nat)
      else if n =? 30 then
        do (p, x, unhandled) <- parseNameConstraintsExtension net (x_Value e);
        Ret (set_NC i p x (x_Critical e), unhandled)
      else if n =? 31 then do l <- parseCRLDP (x_Value e); Ret (add_CRLDP i l, false)
      else if n =? 35 then
        do k <- parseAKI (x_Value e);
        Ret (match k with Some id => set_AKI i id | None => i end, false)
      else if n =? 37 then do (k, u) <- parseExtKeyUsageExtension (x_Value e); Ret (set_EKU i k u, false)
      else if n =? 14 then
        do (skid, _) <- need (readASN1 T_OCTET_STRING (x_Value e)) "x509: invalid subject key identifier";
        Ret (set_SKI i skid, false)
      else if n =? 32 then do l <- parseCertificatePoliciesExtension (x_Value e); Ret (set_Policies i l, false)
      else Ret (i, true)
  else if oid_eqb id oidExtensionAuthorityInfoAccess then
    do (ocsp, iss) <- parseAIA (x_Value e); Ret (add_AIA i ocsp iss, false)
  else Ret (i, true).
(** parser.go:849-1004 *)
Fixpoint processExtensions (net : netlib) (i : extInfo) (l : list Extension) : outcome extInfo :=
  match l with
  | [] => Ret i
  | e :: r =>
      do (i, unhandled) <- processExtension net i e;
      processExtensions net (if x_Critical e && unhandled then add_Unhandled i (x_Id e) else i) r
  end.

(** ** Signature algorithms *)
(** x509.go:272-294: hash numbers *)
Definition H_MD5 : Z := 2.
Definition H_SHA1 : Z := 3.
Definition H_SHA256 : Z := 5.
Definition H_SHA384 : Z := 6.
Definition H_SHA512 : Z := 7.
Definition H_SM3 : Z := 20.
Definition maxHash : Z := 21.
(** x509.go:200-216, 344-346: the registered hashes (MD5SHA1, number 8, is registered as nil) *)
Definition Hash_Available (h : Z) : bool := existsb (Z.eqb h) [2; 3; 4; 5; 6; 7; 9; 10; 11; 12; 13; 14; 15; 20].
(** x509.go:358-378 *)
Definition UnknownSignatureAlgorithm : Z := 0.
Definition MD5WithRSA : Z := 1.
Definition SHA1WithRSA : Z := 2.
Definition SHA256WithRSA : Z := 3.
Definition SHA384WithRSA : Z := 4.
Definition SHA512WithRSA : Z := 5.
Definition DSAWithSHA1 : Z := 6.
Definition DSAWithSHA256 : Z := 7.
Definition ECDSAWithSHA1 : Z := 8.
Definition ECDSAWithSHA256 : Z := 9.
Definition ECDSAWithSHA384 : Z := 10.
Definition ECDSAWithSHA512 : Z := 11.
Definition SHA256WithRSAPSS : Z := 12.
Definition SHA384WithRSAPSS : Z := 13.
Definition SHA512WithRSAPSS : Z := 14.
Definition PureEd25519 : Z := 15.
Definition SM2WithSM3 : Z := 16.
(** x509.go:380-387 *)
Definition isRSAPSS (algo : Z) : bool := (algo =? SHA256WithRSAPSS) || (algo =? SHA384WithRSAPSS) || (algo =? SHA512WithRSAPSS).
(** x509.go:479-509 *)
Definition oidSignatureMD5WithRSA : oid := [1; 2; 840; 113549; 1; 1; 4].
Definition oidSignatureSHA1WithRSA : oid := [1; 2; 840; 113549; 1; 1; 5].
Definition oidSignatureSHA256WithRSA : oid := [1; 2; 840; 113549; 1; 1; 11].
Definition oidSignatureSHA384WithRSA : oid := [1; 2; 840; 113549; 1; 1; 12].
Definition oidSignatureSHA512WithRSA : oid := [1; 2; 840; 113549; 1; 1; 13].
Definition oidSignatureRSAPSS : oid := [1; 2; 840; 113549; 1; 1; 10].
Definition oidSignatureDSAWithSHA1 : oid := [1; 2; 840; 10040; 4; 3].
Definition oidSignatureDSAWithSHA256 : oid := [2; 16; 840; 1; 101; 3; 4; 3; 2].
Definition oidSignatureECDSAWithSHA1 : oid := [1; 2; 840; 10045; 4; 1].
Definition oidSignatureECDSAWithSHA256 : oid := [1; 2; 840; 10045; 4; 3; 2].
Definition oidSignatureECDSAWithSHA384 : oid := [1; 2; 840; 10045; 4; 3; 3].
Definition oidSignatureECDSAWithSHA512 : oid := [1; 2; 840; 10045; 4; 3; 4].
Definition oidSignatureEd25519 : oid := [1; 3; 101; 112].
Definition oidSignatureSM2WithSM3 : oid := [1; 2; 156; 10197; 1; 501].
Definition oidSHA256 : oid := [2; 16; 840; 1; 101; 3; 4; 2; 1].
Definition oidSHA384 : oid := [2; 16; 840; 1; 101; 3; 4; 2; 2].
Definition oidSHA512 : oid := [2; 16; 840; 1; 101; 3; 4; 2; 3].
Definition oidMGF1 : oid := [1; 2; 840; 113549; 1; 1; 8].
(** x509.go:511-534 *)
Record sigDetails := mkDetails { sd_algo : Z; sd_oid : oid; sd_pub : pkAlgo; sd_hash : Z }.
Definition signatureAlgorithmDetails : list sigDetails :=
  [mkDetails MD5WithRSA oidSignatureMD5WithRSA RSA H_MD5;
   mkDetails SHA1WithRSA oidSignatureSHA1WithRSA RSA H_SHA1;
   mkDetails SHA256WithRSA oidSignatureSHA256WithRSA RSA H_SHA256;
   mkDetails SHA384WithRSA oidSignatureSHA384WithRSA RSA H_SHA384;
   mkDetails SHA512WithRSA oidSignatureSHA512WithRSA RSA H_SHA512;
   mkDetails SHA256WithRSAPSS oidSignatureRSAPSS RSA H_SHA256;
   mkDetails SHA384WithRSAPSS oidSignatureRSAPSS RSA H_SHA384;
   mkDetails SHA512WithRSAPSS oidSignatureRSAPSS RSA H_SHA512;
   mkDetails DSAWithSHA1 oidSignatureDSAWithSHA1 DSA H_SHA1;
   mkDetails DSAWithSHA256 oidSignatureDSAWithSHA256 DSA H_SHA256;
   mkDetails ECDSAWithSHA1 oidSignatureECDSAWithSHA1 ECDSA H_SHA1;
   mkDetails ECDSAWithSHA256 oidSignatureECDSAWithSHA256 ECDSA H_SHA256;
   mkDetails ECDSAWithSHA384 oidSignatureECDSAWithSHA384 ECDSA H_SHA384;
   mkDetails ECDSAWithSHA512 oidSignatureECDSAWithSHA512 ECDSA H_SHA512;
   mkDetails PureEd25519 oidSignatureEd25519 Ed25519 0;
   mkDetails SM2WithSM3 oidSignatureSM2WithSM3 ECDSA H_SM3].
(** x509.go:551-559 *)
Record pssParameters := mkPSS { pss_Hash : AI; pss_MGF : AI; pss_Salt : Z; pss_Trailer : Z }.
Definition cPSS : codec pssParameters :=
  cStruct (fcons (explicitP 0) cAI (fcons (explicitP 1) cAI (fcons (explicitP 2) cInt (fcons (mkP true true (Some 3) false (Some 1) false) cInt fnil))))
    (fun '(h, (m, (s, (t, _)))) => mkPSS h m s t) (fun p => (pss_Hash p, (pss_MGF p, (pss_Salt p, (pss_Trailer p, tt))))).
Definition ai_full (a : AI) : bytes := sl (rv_full (ai_params a)).
(** no parameters or NULL *)
Definition null_or_absent (b : bytes) : bool := (List.length b =? 0)%nat || bytes_eqb b NullBytes.
(** x509.go:561-615 *)
Definition getSignatureAlgorithmFromAI (ai : AI) : Z :=
  if oid_eqb (ai_alg ai) oidSignatureEd25519 && negb (List.length (ai_full ai) =? 0)%nat then UnknownSignatureAlgorithm else
  if negb (oid_eqb (ai_alg ai) oidSignatureRSAPSS) then
    match find (fun d => oid_eqb (ai_alg ai) (sd_oid d)) signatureAlgorithmDetails with
    | Some d => sd_algo d
    | None => UnknownSignatureAlgorithm
    end
  else
    match Unmarshal cPSS (ai_full ai) with
    | Ret (params, _) =>
        match Unmarshal cAI (ai_full (pss_MGF params)) with
        | Ret (mgf1HashFunc, _) =>
            if negb (null_or_absent (ai_full (pss_Hash params))) || negb (oid_eqb (ai_alg (pss_MGF params)) oidMGF1) ||
               negb (oid_eqb (ai_alg mgf1HashFunc) (ai_alg (pss_Hash params))) ||
               negb (null_or_absent (ai_full mgf1HashFunc)) || negb (pss_Trailer params =? 1)
            then UnknownSignatureAlgorithm
            else if oid_eqb (ai_alg (pss_Hash params)) oidSHA256 && (pss_Salt params =? 32) then SHA256WithRSAPSS
            else if oid_eqb (ai_alg (pss_Hash params)) oidSHA384 && (pss_Salt params =? 48) then SHA384WithRSAPSS
            else if oid_eqb (ai_alg (pss_Hash params)) oidSHA512 && (pss_Salt params =? 64) then SHA512WithRSAPSS
            else UnknownSignatureAlgorithm
        | _ => UnknownSignatureAlgorithm
        end
    | _ => UnknownSignatureAlgorithm
    end.

(** ** Certificates *)
(** x509.go:814-914.  Issuer and Subject are kept as the parsed RDN sequences (pkix.Name.FillFromRDNSequence only
    rearranges them). *)
Record Certificate := mkCert {
  c_Raw : bytes; c_RawTBSCertificate : bytes; c_RawSubjectPublicKeyInfo : bytes; c_RawSubject : bytes; c_RawIssuer : bytes;
  c_Signature : bytes; c_SignatureAlgorithm : Z;
  c_PublicKeyAlgorithm : pkAlgo; c_PublicKey : pubKey;
  c_Version : Z; c_SerialNumber : Z; c_Issuer : RDNSequence; c_Subject : RDNSequence; c_NotBefore : civil; c_NotAfter : civil;
  c_Extensions : list Extension; c_Info : extInfo }.
(** int arithmetic (64 bits) *)
Definition wrap64 (n : Z) : Z := (n + 2 ^ 63) mod 2 ^ 64 - 2 ^ 63.
(** parser.go:1161-1171 *)
Definition parseExtStep (extensions : bytes) : outcome (Extension * bytes) :=
  do (extension, r) <- need (readASN1 T_SEQUENCE extensions) "x509: malformed extension";
  do ext <- parseExtension extension;
  Ret (ext, r).
(** parser.go:1144-1178: the extensions and the fields derived from them *)
Definition parseTail (net : netlib) (version : Z) (tbs : bytes) : outcome (list Extension * extInfo) :=
  if 1 <? version then
    do tbs <- need (skipOptional (ctxc 1) tbs) "x509: malformed issuerUniqueID";
    do tbs <- need (skipOptional (ctxc 2) tbs) "x509: malformed subjectUniqueID";
    if version =? 3 then
      do (present, extensions, _) <- need (readOptional (ctxc 3) tbs) "x509: malformed extensions";
      if present then
        do (extensions, _) <- need (readASN1 T_SEQUENCE extensions) "x509: malformed extensions";
        do l <- many parseExtStep extensions;
        do i <- processExtensions net info0 l;
        Ret (l, i)
      else Ret ([], info0)
    else Ret ([], info0)
  else Ret ([], info0).
(** parser.go:1006-1187.  The debugging output of line 1129 (the parameters' OID is printed on stdout) is not modelled. *)
Definition parseCertificate (net : netlib) (der : bytes) : outcome Certificate :=
  do (raw, _) <- need (readASN1Element T_SEQUENCE der) "x509: malformed certificate";
  do (input, _) <- need (readASN1 T_SEQUENCE raw) "x509: malformed certificate";
  do (rawTBS, input) <- need (readASN1Element T_SEQUENCE input) "x509: malformed tbs certificate";
  do (tbs, _) <- need (readASN1 T_SEQUENCE rawTBS) "x509: malformed tbs certificate";
  do (v, tbs) <- need (readOptionalInt (ctxc 0) tbs) "x509: malformed version";
  if v <? 0 then Err "x509: malformed version" else
  let version := wrap64 (v + 1) in
  if 3 <? version then Err "x509: invalid version" else
  do (serial, tbs) <- need (readBigInt tbs) "x509: malformed serial number";
  do (sigAISeq, tbs) <- need (readASN1 T_SEQUENCE tbs) "x509: malformed signature algorithm identifier";
  do (outerSigAISeq, input) <- need (readASN1 T_SEQUENCE input) "x509: malformed algorithm identifier";
  if negb (bytes_eqb outerSigAISeq sigAISeq) then Err "x509: inner and outer signature algorithm identifiers don't match" else
  do sigAI <- parseAI sigAISeq;
  do (issuerSeq, tbs) <- need (readASN1Element T_SEQUENCE tbs) "x509: malformed issuer";
  do issuer <- parseName issuerSeq;
  do (validity, tbs) <- need (readASN1 T_SEQUENCE tbs) "x509: malformed validity";
  do (nb, na) <- parseValidity validity;
  do (subjectSeq, tbs) <- need (readASN1Element T_SEQUENCE tbs) "x509: malformed issuer";
  do subject <- parseName subjectSeq;
  do (rawSPKI, tbs) <- need (readASN1Element T_SEQUENCE tbs) "x509: malformed spki";
  do (spki, _) <- need (readASN1 T_SEQUENCE rawSPKI) "x509: malformed spki";
  do (pkAISeq, spki) <- need (readASN1 T_SEQUENCE spki) "x509: malformed public key algorithm identifier";
  do pkAI <- parseAI pkAISeq;
  let pka := getPublicKeyAlgorithmFromOID (ai_alg pkAI) in
  do (spk, _) <- need (readBitString spki) "x509: malformed subjectPublicKey";
  do pub <- parsePublicKey pka (mkPKI None pkAI spk);
  do (exts, info) <- parseTail net version tbs;
  do (signature, _) <- need (readBitString input) "x509: malformed signature";
  Ret (mkCert raw rawTBS rawSPKI subjectSeq issuerSeq (RightAlign signature) (getSignatureAlgorithmFromAI sigAI)
              pka pub version serial issuer subject nb na exts info).
(** parser.go:1190-1199 *)
Definition ParseCertificate (net : netlib) (der : bytes) : outcome Certificate :=
  do cert <- parseCertificate net der;
  if negb (List.length der =? List.length (c_Raw cert))%nat then Err "x509: trailing data" else Ret cert.
(** parser.go:1203-1214 *)
Definition ParseCertificates (net : netlib) (der : bytes) : outcome (list Certificate) :=
  many (fun der => do cert <- parseCertificate net der; Ret (cert, skipn (List.length (c_Raw cert)) der)) der.
