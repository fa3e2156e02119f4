(** * Model of Go 1.18 encoding/asn1 (asn1.go, marshal.go), the reflection-driven DER codec used by
    pkcs12, x509/sec1.go, pkcs1.go, pkcs8.go, pkcs7.go and x509.go.  The library is not part of /repo.
    A Go type is represented by a [codec]; a struct by the list of its fields with their asn1 tags.
    Positions are suffixes of the input.  Not modelled: strings, time.Time, Flag, Enumerated, ANY
    (interface{}), application/private classes. *)
From Verif Require Import Base Words CryptoByte.
From Coq Require Import ZifyBool ZifyNat.

Definition ClassUniversal : Z := 0.
Definition ClassContext : Z := 2.
Definition TagInteger : Z := 2.
Definition TagBitString : Z := 3.
Definition TagOctetString : Z := 4.
Definition TagOID : Z := 6.
Definition TagSequence : Z := 16.
Definition TagSet : Z := 17.
Definition TagBoolean : Z := 1.

(** ** Tags and lengths *)
(** asn1.go tagAndLength *)
Record tagLen := mkTL { t_class : Z; t_tag : Z; t_len : Z; t_comp : bool }.

(** asn1.go parseBase128Int; [shifted] counts the octets read *)
Fixpoint base128_loop (s : bytes) (shifted : nat) (acc : Z) : outcome (Z * bytes) :=
  match s with
  | [] => Err "truncated base 128 integer"
  | b :: r =>
      if (shifted =? 5)%nat then Err "base 128 integer too large" else
      if (shifted =? 0)%nat && (b =? 0x80) then Err "integer is not minimally encoded" else
      let acc := acc * 128 + b mod 128 in
      if b <? 128 then (if 2147483647 <? acc then Err "base 128 integer too large" else Ret (acc, r))
      else base128_loop r (S shifted) acc
  end.
Definition parseBase128Int (s : bytes) : outcome (Z * bytes) := base128_loop s 0 0.
(** asn1.go parseTagAndLength, the long-form length loop *)
Fixpoint len_loop (n : nat) (s : bytes) (acc : Z) : outcome (Z * bytes) :=
  match n with
  | O => Ret (acc, s)
  | S n' =>
      match s with
      | [] => Err "truncated tag or length"
      | b :: r =>
          if 2 ^ 23 <=? acc then Err "length too large" else
          let acc := acc * 256 + b in
          if acc =? 0 then Err "superfluous leading zeros in length" else len_loop n' r acc
      end
  end.
(** asn1.go parseTagAndLength *)
Definition parseTagAndLength (s : bytes) : outcome (tagLen * bytes) :=
  match s with
  | [] => Err "asn1: internal error in parseTagAndLength"
  | b :: r =>
      let class := b / 64 in
      let comp := (b / 32) mod 2 =? 1 in
      let tag := b mod 32 in
      do (tag, r) <- (if tag =? 31 then
                        do (tg, r) <- parseBase128Int r;
                        if tg <? 31 then Err "non-minimal tag" else Ret (tg, r)
                      else Ret (tag, r));
      match r with
      | [] => Err "truncated tag or length"
      | b :: r =>
          if b <? 128 then Ret (mkTL class tag b comp, r)
          else
            let numBytes := b - 128 in
            if numBytes =? 0 then Err "indefinite length found (not DER)" else
            do (l, r) <- len_loop (Z.to_nat numBytes) r 0;
            if l <? 128 then Err "non-minimal length" else Ret (mkTL class tag l comp, r)
      end
  end.
(** marshal.go appendBase128Int *)
Definition base128_length (n : Z) : nat := if n =? 0 then 1%nat else Z.to_nat (Z.log2 n / 7 + 1).
Fixpoint base128_digits (l : nat) (n : Z) : bytes :=
  match l with
  | O => []
  | S l' => ((n / 128 ^ Z.of_nat l') mod 128 + (if (l' =? 0)%nat then 0 else 128)) :: base128_digits l' n
  end.
Definition appendBase128Int (n : Z) : bytes := base128_digits (base128_length n) n.
(** marshal.go appendTagAndLength, appendLength, lengthLength *)
Definition appendTagAndLength (t : tagLen) : bytes :=
  let b := t_class t * 64 + (if t_comp t then 32 else 0) in
  (if 31 <=? t_tag t then (b + 31) :: appendBase128Int (t_tag t) else [b + t_tag t]) ++
  (if 128 <=? t_len t then (128 + Z.of_nat (nbytes (t_len t))) :: Z_to_be (nbytes (t_len t)) (t_len t) else [t_len t]).
Definition hdr (class tag : Z) (comp : bool) (len : Z) : bytes := appendTagAndLength (mkTL class tag len comp).

(** ** Types *)
(** the asn1:"..." struct tag *)
Record params := mkP { p_opt : bool; p_exp : bool; p_tag : option Z; p_set : bool; p_def : option Z; p_omit : bool }.
Definition noP : params := mkP false false None false None false.
Definition optP : params := mkP true false None false None false.
Definition explicitP (n : Z) : params := mkP false true (Some n) false None false.
Definition optExplicitP (n : Z) : params := mkP true true (Some n) false None false.
Definition implicitP (n : Z) : params := mkP false false (Some n) false None false.
Definition optImplicitP (n : Z) : params := mkP true false (Some n) false None false.
Definition setP : params := mkP false false None true None false.
Definition optSetP : params := mkP true false None true None false.
Definition defaultP (d : Z) : params := mkP true false None false (Some d) false.

(** a Go type as encoding/asn1 sees it *)
Record codec (A : Type) := Codec {
  c_any : bool;                                  (* matchAny of getUniversalType (only RawValue) *)
  c_tag : Z;                                     (* universal tag of getUniversalType *)
  c_comp : bool;                                 (* compound? *)
  c_zero : A;                                    (* zero value *)
  c_iszero : A -> bool;                          (* reflect.DeepEqual to the zero value *)
  c_int : Z -> option A;                         (* SetInt, for kinds with canHaveDefaultValue *)
  c_isint : Z -> A -> bool;
  c_len0 : A -> bool;                            (* a slice of length 0 *)
  c_whole : A -> option (outcome bytes);         (* RawValue: the complete encoding *)
  c_body : bool -> A -> outcome bytes;           (* makeBody; the flag is params.set *)
  c_parse : tagLen -> bytes -> bytes -> outcome A (* value from header, full element, contents *)
}.
Arguments Codec {A}. Arguments c_any {A}. Arguments c_tag {A}. Arguments c_comp {A}. Arguments c_zero {A}.
Arguments c_iszero {A}. Arguments c_int {A}. Arguments c_isint {A}. Arguments c_len0 {A}. Arguments c_whole {A}.
Arguments c_body {A}. Arguments c_parse {A}.

(** asn1.go setDefaultValue (into a fresh target) *)
Definition setDefault {A} (c : codec A) (p : params) : option A :=
  if p_opt p then
    match p_def p with
    | None => Some (c_zero c)
    | Some d => match c_int c d with Some a => Some a | None => Some (c_zero c) end
    end
  else None.
(** asn1.go parseField: from the header on ("We have unwrapped any explicit tagging at this point"); [s] is
    the field's start, [t] the header, [s1] what follows it *)
Definition parseFieldTail {A} (c : codec A) (p : params) (s : bytes) (t : tagLen) (s1 : bytes) : outcome (A * bytes) :=
  let universalTag := if p_set p then TagSet else c_tag c in
  let '(anyCT, eclass, etag) :=
    match p_exp p, p_tag p with
    | false, Some n => (false, ClassContext, n)
    | _, _ => (c_any c, ClassUniversal, universalTag)
    end in
  if (negb anyCT && (negb (t_class t =? eclass) || negb (t_tag t =? etag)))
     || (negb (c_any c) && negb (Bool.eqb (t_comp t) (c_comp c)))
  then match setDefault c p with Some a => Ret (a, s) | None => Err "tags don't match" end
  else if zlen s1 <? t_len t then Err "data truncated"
  else
    let inner := firstn (Z.to_nat (t_len t)) s1 in
    let rest := skipn (Z.to_nat (t_len t)) s1 in
    let full := firstn (List.length s - List.length rest) s in
    do a <- c_parse c t full inner;
    Ret (a, rest).
(** asn1.go parseField *)
Definition parseField {A} (c : codec A) (p : params) (s : bytes) : outcome (A * bytes) :=
  match s with
  | [] => match setDefault c p with Some a => Ret (a, []) | None => Err "sequence truncated" end
  | _ =>
      do (t, s1) <- parseTagAndLength s;
      if p_exp p then
        match s1 with
        | [] => Err "explicit tag has no child"
        | _ =>
            if (t_class t =? ClassContext) && (t_tag t =? match p_tag p with Some n => n | None => -1 end)
               && ((t_len t =? 0) || t_comp t)
            then
              if c_any c then parseFieldTail c p s t s1
              else if 0 <? t_len t then
                do (t', s2) <- parseTagAndLength s1;
                parseFieldTail c p s t' s2
              else Err "zero length explicit tag was not an asn1.Flag"
            else match setDefault c p with Some a => Ret (a, s) | None => Err "explicitly tagged member didn't match" end
        end
      else parseFieldTail c p s t s1
  end.
(** marshal.go makeField *)
Definition makeField {A} (c : codec A) (p : params) (a : A) : outcome bytes :=
  if p_omit p && c_len0 c a then Ret [] else
  if p_opt p && match p_def p with Some d => c_isint c d a | None => false end then Ret [] else
  if p_opt p && match p_def p with None => c_iszero c a | Some _ => false end then Ret [] else
  match c_whole c a with
  | Some r => r
  | None =>
      if p_set p && negb (c_tag c =? TagSequence) then Err "non sequence tagged as set" else
      let tag := if p_set p then TagSet else c_tag c in
      do body <- c_body c (tag =? TagSet) a;
      match p_tag p with
      | Some n =>
          if p_exp p then
            let inner := hdr ClassUniversal tag (c_comp c) (zlen body) ++ body in
            Ret (hdr ClassContext n true (zlen inner) ++ inner)
          else Ret (hdr ClassContext n (c_comp c) (zlen body) ++ body)
      | None => Ret (hdr ClassUniversal tag (c_comp c) (zlen body) ++ body)
      end
  end.
(** asn1.Marshal and asn1.Unmarshal (value and trailing bytes) *)
Definition Marshal {A} (c : codec A) (a : A) : outcome bytes := makeField c noP a.
Definition Unmarshal {A} (c : codec A) (s : bytes) : outcome (A * bytes) := parseField c noP s.

(** *** primitive types *)
Definition prim {A} (tag : Z) (zero : A) (iszero : A -> bool) (len0 : A -> bool) (enc : A -> outcome bytes) (dec : bytes -> outcome A) : codec A :=
  Codec false tag false zero iszero (fun _ => None) (fun _ _ => false) len0 (fun _ => None) (fun _ => enc) (fun _ _ => dec).
(** int: makeBody int64Encoder / parseInt64 (minimal two's complement; at most 8 octets) *)
Definition int_parse (b : bytes) : outcome Z :=
  if negb (checkASN1Integer b) then Err "integer not minimally-encoded" else
  if 8 <? zlen b then Err "integer too large" else Ret (bigint_of_content b).
Definition cInt : codec Z :=
  Codec false TagInteger false 0 (fun a => a =? 0) (fun d => Some d) (fun d a => a =? d) (fun _ => false) (fun _ => None)
    (fun _ a => Ret (bigint_content a)) (fun _ _ b => int_parse b).
(** *big.Int (a pointer: nil is None) *)
Definition cBig : codec (option Z) :=
  prim TagInteger None (fun a => match a with None => true | _ => false end) (fun _ => false)
    (fun a => match a with Some n => Ret (bigint_content n) | None => Err "empty integer" end)
    (fun b => if checkASN1Integer b then Ret (Some (bigint_of_content b)) else Err "integer not minimally-encoded").
(** bool *)
Definition cBool : codec bool :=
  prim TagBoolean false negb (fun _ => false) (fun a => Ret [if a then 255 else 0])
    (fun b => match b with [x] => if x =? 0 then Ret false else if x =? 255 then Ret true else Err "invalid boolean" | _ => Err "invalid boolean" end).
(** []byte: None is nil *)
Definition cBytes : codec (option bytes) :=
  prim TagOctetString None (fun a => match a with None => true | _ => false end)
    (fun a => match a with Some (_ :: _) => false | _ => true end)
    (fun a => Ret (match a with Some b => b | None => [] end)) (fun b => Ret (Some b)).
(** ObjectIdentifier: [] stands for nil as well as the empty slice (DeepEqual would tell them apart; no
    code in /repo builds an empty non-nil OID) *)
Notation oid := (list Z).
Definition oid_body (o : oid) : outcome bytes :=
  match o with
  | a :: b :: rest =>
      if (2 <? a) || ((a <? 2) && (40 <=? b)) then Err "invalid object identifier"
      else Ret (flat_map appendBase128Int (a * 40 + b :: rest))
  | _ => Err "invalid object identifier"
  end.
Fixpoint oid_loop (fuel : nat) (s : bytes) : outcome (list Z) :=
  match fuel with
  | O => Ret []
  | S f =>
      match s with
      | [] => Ret []
      | _ => do (v, r) <- parseBase128Int s; do l <- oid_loop f r; Ret (v :: l)
      end
  end.
Definition oid_parse (b : bytes) : outcome oid :=
  match b with
  | [] => Err "zero length OBJECT IDENTIFIER"
  | _ =>
      do (v, r) <- parseBase128Int b;
      do l <- oid_loop (List.length r) r;
      Ret (if v <? 80 then v / 40 :: v mod 40 :: l else 2 :: (v - 80) :: l)
  end.
Definition cOID : codec oid :=
  prim TagOID [] (fun o => match o with [] => true | _ => false end) (fun o => match o with [] => true | _ => false end) oid_body oid_parse.
(** ObjectIdentifier.Equal *)
Definition oid_eqb : oid -> oid -> bool := bytes_eqb.
(** BitString{Bytes, BitLength} *)
Record bitString := mkBits { bs_bytes : option bytes; bs_len : Z }.
Definition bits_body (a : bitString) : outcome bytes :=
  Ret ((8 - Z.rem (bs_len a) 8) mod 8 :: match bs_bytes a with Some b => b | None => [] end).
Definition bits_parse (b : bytes) : outcome bitString :=
  match b with
  | [] => Err "zero length BIT STRING"
  | pad :: r =>
      if (7 <? pad) || ((zlen b =? 1) && (0 <? pad)) || negb (Z.land (last b 0) (2 ^ pad - 1) =? 0)
      then Err "invalid padding bits in BIT STRING"
      else Ret (mkBits (Some r) (zlen r * 8 - pad))
  end.
Definition cBits : codec bitString :=
  prim TagBitString (mkBits None 0) (fun a => match bs_bytes a with None => bs_len a =? 0 | _ => false end) (fun _ => false) bits_body bits_parse.
(** BitString.RightAlign for BitLength a multiple of 8 is Bytes; general case shifts (asn1.go RightAlign) *)
(** RawValue *)
Record rawValue := mkRaw { rv_class : Z; rv_tag : Z; rv_comp : bool; rv_bytes : option bytes; rv_full : option bytes }.
Definition rawZero : rawValue := mkRaw 0 0 false None None.
Definition sl (b : option bytes) : bytes := match b with Some b => b | None => [] end.
Definition raw_whole (r : rawValue) : outcome bytes :=
  match sl (rv_full r) with
  | [] => Ret (hdr (rv_class r) (rv_tag r) (rv_comp r) (zlen (sl (rv_bytes r))) ++ sl (rv_bytes r))
  | f => Ret f
  end.
Definition cRaw : codec rawValue :=
  Codec true (-1) false rawZero
    (fun r => match r with mkRaw 0 0 false None None => true | _ => false end)
    (fun _ => None) (fun _ _ => false) (fun _ => false) (fun r => Some (raw_whole r)) (fun _ _ => Err "unknown Go type")
    (fun t full inner => Ret (mkRaw (t_class t) (t_tag t) (t_comp t) (Some inner) (Some full))).

(** *** structs *)
Record fcodec (A : Type) := FC { f_zero : A; f_iszero : A -> bool; f_enc : A -> outcome bytes; f_dec : bytes -> outcome A }.
Arguments FC {A}. Arguments f_zero {A}. Arguments f_iszero {A}. Arguments f_enc {A}. Arguments f_dec {A}.
Definition fnil : fcodec unit := FC tt (fun _ => true) (fun _ => Ret []) (fun _ => Ret tt).
Definition fcons {A B} (p : params) (c : codec A) (fs : fcodec B) : fcodec (A * B) :=
  FC (c_zero c, f_zero fs) (fun ab => c_iszero c (fst ab) && f_iszero fs (snd ab))
     (fun ab => do x <- makeField c p (fst ab); do y <- f_enc fs (snd ab); Ret (x ++ y))
     (fun s => do (a, r) <- parseField c p s; do b <- f_dec fs r; Ret (a, b)).
(** asn1.go parseField / marshal.go makeBody, case reflect.Struct ("We allow extra bytes at the end of the
    SEQUENCE") *)
Definition cStruct {X A} (fs : fcodec X) (mk : X -> A) (un : A -> X) : codec A :=
  Codec false TagSequence true (mk (f_zero fs)) (fun a => f_iszero fs (un a)) (fun _ => None) (fun _ _ => false) (fun _ => false) (fun _ => None)
    (fun _ a => f_enc fs (un a)) (fun _ _ b => do x <- f_dec fs b; Ret (mk x)).
(** structs whose first field is RawContent; marshalling a non-empty RawContent copies it without its header
    (marshal.go stripTagAndLength) *)
Definition stripTagAndLength (s : bytes) : bytes :=
  match parseTagAndLength s with Ret (_, r) => r | _ => s end.
Definition cStructRaw {X A} (fs : fcodec X) (mk : option bytes -> X -> A) (raw : A -> option bytes) (un : A -> X) : codec A :=
  Codec false TagSequence true (mk None (f_zero fs)) (fun a => match raw a with None => f_iszero fs (un a) | _ => false end)
    (fun _ => None) (fun _ _ => false) (fun _ => false) (fun _ => None)
    (fun _ a => match sl (raw a) with [] => f_enc fs (un a) | r => Ret (stripTagAndLength r) end)
    (fun _ full b => do x <- f_dec fs b; Ret (mk (Some full) x)).

(** *** SEQUENCE OF / SET OF (slices); None is nil *)
(** bytes.Compare *)
Fixpoint bytes_leb (a b : bytes) : bool :=
  match a, b with
  | [], _ => true
  | _, [] => false
  | x :: a, y :: b => if x <? y then true else if y <? x then false else bytes_leb a b
  end.
Fixpoint insert_sorted (x : bytes) (l : list bytes) : list bytes :=
  match l with [] => [x] | y :: r => if bytes_leb x y then x :: l else y :: insert_sorted x r end.
Fixpoint sort_bytes (l : list bytes) : list bytes := match l with [] => [] | x :: r => insert_sorted x (sort_bytes r) end.
Fixpoint mapM {A B} (f : A -> outcome B) (l : list A) : outcome (list B) :=
  match l with [] => Ret [] | x :: r => do y <- f x; do ys <- mapM f r; Ret (y :: ys) end.
Definition seq_body {A} (c : codec A) (set : bool) (l : list A) : outcome bytes :=
  do es <- mapM (makeField c noP) l;
  Ret (List.concat (if set && (1 <? List.length l)%nat then sort_bytes es else es)).
(** asn1.go parseSequenceOf, first pass: count the elements and check their headers.  (The renaming of
    string and time tags is left out: no slice of those types occurs.) *)
Fixpoint count_elems {A} (c : codec A) (fuel : nat) (s : bytes) : outcome nat :=
  match fuel with
  | O => Ret O
  | S f =>
      match s with
      | [] => Ret O
      | _ =>
          do (t, r) <- parseTagAndLength s;
          if negb (c_any c) && (negb (t_class t =? ClassUniversal) || negb (Bool.eqb (t_comp t) (c_comp c)) || negb (t_tag t =? c_tag c))
          then Err "sequence tag mismatch"
          else if zlen r <? t_len t then Err "truncated sequence"
          else do n <- count_elems c f (skipn (Z.to_nat (t_len t)) r); Ret (S n)
      end
  end.
(** second pass *)
Fixpoint parse_elems {A} (c : codec A) (n : nat) (s : bytes) : outcome (list A) :=
  match n with
  | O => Ret []
  | S n' => do (a, r) <- parseField c noP s; do l <- parse_elems c n' r; Ret (a :: l)
  end.
Definition cSeqOf {A} (isSET : bool) (c : codec A) : codec (option (list A)) :=
  Codec false (if isSET then TagSet else TagSequence) true None (fun a => match a with None => true | _ => false end)
    (fun _ => None) (fun _ _ => false) (fun a => match a with Some (_ :: _) => false | _ => true end) (fun _ => None)
    (fun set a => seq_body c set (match a with Some l => l | None => [] end))
    (fun _ _ b => do n <- count_elems c (List.length b) b; do l <- parse_elems c n b; Ret (Some l)).
