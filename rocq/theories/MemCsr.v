(** * The attributes of a certificate request in memory

    CreateCertificateRequest copies template.Attributes "because we may alter it below".  A pkix.AttributeTypeAndValueSET
    is a type and a slice of slices, so what is copied and what stays shared matters.  This is the loop of
    x509.go:2083-2134 over a memory of arrays with slices as windows (array, offset, length, capacity); a nil slice is
    [None].  There are two kinds of arrays: of slice headers, and of AttributeTypeAndValue values. *)
From Coq Require Import String ZifyBool ZifyNat.
From Verif Require Import Base Asn1 KeysModel X509Model X509Build X509Crl Mem.
Local Open Scope nat_scope.

Record heap2 := mkH2 { outerA : list (list (option slc)); innerA : list (list ATVa) }.
(** pkix.AttributeTypeAndValueSET *)
Record mattr := mkMA { ma_Type : oid; ma_Value : option slc }.

Definition win {X} (arrays : list (list X)) (s : slc) : list X := firstn (s_len s) (skipn (s_off s) (nth (s_arr s) arrays [])).
Definition olist {X} (arrays : list (list X)) (s : option slc) : list X := match s with Some s => win arrays s | None => [] end.
(** overwriting cells of an array from [i] on *)
Definition putL {X} (l : list X) (i : nat) (b : list X) : list X := firstn i l ++ b ++ skipn (i + List.length b) l.
Fixpoint setL {X} (arrays : list X) (i : nat) (a : X) : list X :=
  match arrays, i with
  | [], _ => []
  | _ :: r, O => a :: r
  | x :: r, S i' => x :: setL r i' a
  end.
Definition pokeL {X} (arrays : list (list X)) (s : slc) (i : nat) (b : list X) : list (list X) :=
  setL arrays (s_arr s) (putL (nth (s_arr s) arrays []) (s_off s + i) b).

(** x509.go:2085-2092: values := make([][]ATV, len(attr.Value)); copy(values, attr.Value) *)
Definition copyValues (h : heap2) (a : mattr) : heap2 * mattr :=
  let n := match ma_Value a with Some s => s_len s | None => 0 end in
  let values := mkS (List.length (outerA h)) 0 n n in
  let made := outerA h ++ [repeat None n] in
  let copied := pokeL made values 0 (firstn n (olist made (ma_Value a))) in
  (mkH2 copied (innerA h), mkMA (ma_Type a) (Some values)).
Fixpoint copyAttributes (h : heap2) (l : list mattr) : heap2 * list mattr :=
  match l with
  | [] => (h, [])
  | a :: r => let '(h, b) := copyValues h a in let '(h, m) := copyAttributes h r in (h, b :: m)
  end.
(** append(s, b...) on slices of AttributeTypeAndValue; a new array when the capacity does not suffice *)
Definition appendA (h : heap2) (s : slc) (b : list ATVa) : heap2 * slc :=
  let n := s_len s + List.length b in
  if n <=? s_cap s then (mkH2 (outerA h) (pokeL (innerA h) s (s_len s) b), mkS (s_arr s) (s_off s) n (s_cap s))
  else (mkH2 (outerA h) (innerA h ++ [win (innerA h) s ++ b]), mkS (List.length (innerA h)) 0 n n).
(** x509.go:2115-2128 *)
Fixpoint appendNew (h : heap2) (specified : list ATVa) (s : slc) (exts : list Extension) : heap2 * slc :=
  match exts with
  | [] => (h, s)
  | e :: r =>
      if existsb (fun x => oid_eqb (aa_Type x) (x_Id e)) specified then appendNew h specified s r
      else let '(h, s) := appendA h s [mkATVa (x_Id e) (VBytes (x_Value e))] in appendNew h specified s r
  end.
(** x509.go:2097-2133: the loop variable atvSet is a copy of the struct, sharing the array of its slice.  The result says
    whether the extensions were appended. *)
Fixpoint appendToExisting (blank : ATVa) (h : heap2) (attributes : list mattr) (exts : list Extension) : heap2 * bool :=
  match attributes with
  | [] => (h, false)
  | a :: r =>
      match ma_Value a with
      | None => appendToExisting blank h r exts
      | Some s =>
          if negb (oid_eqb (ma_Type a) oidExtensionRequest) || (s_len s =? 0) then appendToExisting blank h r exts else
          let cells := win (outerA h) s in
          let specified := List.concat (map (olist (innerA h)) cells) in
          let v0 := olist (innerA h) (nth 0 cells None) in
          let newValue := mkS (List.length (innerA h)) 0 0 (List.length v0 + List.length exts) in
          let h := mkH2 (outerA h) (innerA h ++ [repeat blank (List.length v0 + List.length exts)]) in
          let '(h, newValue) := appendA h newValue v0 in
          let '(h, newValue) := appendNew h specified newValue exts in
          (mkH2 (pokeL (outerA h) s 0 [Some newValue]) (innerA h), true)
      end
  end.
(** what a list of attributes says in a memory *)
Definition view (h : heap2) (a : mattr) : ATVset :=
  mkATVset (ma_Type a) (match ma_Value a with Some s => Some (map (option_map (win (innerA h))) (win (outerA h) s)) | None => None end).
(** x509.go:2083-2163: [blank] is the zero AttributeTypeAndValue *)
Definition memCsrAttributes (blank : ATVa) (h : heap2) (attrs : list mattr) (exts : list Extension) : heap2 * outcome (list rawValue) :=
  let '(h, attributes) := copyAttributes h attrs in
  let '(h, appended) := match exts with [] => (h, false) | _ => appendToExisting blank h attributes exts end in
  (h,
   do raws <- newRawAttributes (map (view h) attributes);
   match exts with
   | [] => Ret raws
   | _ =>
       if appended then Ret raws else
       match Marshal cExtAttr (oidExtensionRequest, Some [Some exts]) with
       | Ret b => do (rv, _) <- Unmarshal cRaw b; Ret (raws ++ [rv])
       | Err e => Err (errcat "x509: failed to serialise extensions attribute: " e)
       | Panic => Panic
       end
   end).
