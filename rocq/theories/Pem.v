(** * encoding/base64 (StdEncoding) and encoding/pem of Go 1.18, as used by x509.ParseCRL (x509.go:1820-1828) and by the callers of
    pkcs12.ToPEM (pkcs12.go:105-124).  This is a model of the standard library, written from its documentation and source; the library is not in /repo. *)
From Coq Require Import String Ascii.
From Verif Require Import Base X509Reg.
Open Scope Z_scope.

(** ** base64.StdEncoding *)
Definition b64_alphabet : bytes := str_bytes "ABCDEFGHIJKLMNOPQRSTUVWXYZabcdefghijklmnopqrstuvwxyz0123456789+/".
Definition b64_char (i : Z) : Z := nth (Z.to_nat i) b64_alphabet 0.
(** the decodeMap: None is 0xff *)
Fixpoint index_of (c : Z) (l : bytes) (i : Z) : option Z :=
  match l with [] => None | x :: r => if x =? c then Some i else index_of c r (i + 1) end.
Definition b64_val (c : Z) : option Z := index_of c b64_alphabet 0.
Definition PAD : Z := 61.
(** Encoding.Encode *)
Fixpoint b64_encode (l : bytes) : bytes :=
  match l with
  | [] => []
  | [a] => [b64_char (a / 4); b64_char (a mod 4 * 16); PAD; PAD]
  | [a; b] => [b64_char (a / 4); b64_char (a mod 4 * 16 + b / 16); b64_char (b mod 16 * 4); PAD]
  | a :: b :: c :: r => b64_char (a / 4) :: b64_char (a mod 4 * 16 + b / 16) :: b64_char (b mod 16 * 4 + c / 64) :: b64_char (c mod 64) :: b64_encode r
  end.
(** Encoding.Decode on input without newlines: groups of four; padding only at the very end; unused low bits of a padded group are ignored (the
    encoding is not strict).  None is CorruptInputError. *)
Fixpoint b64_groups (l : bytes) : option bytes :=
  match l with
  | [] => Some []
  | a :: b :: c :: d :: r =>
      match b64_val a, b64_val b with
      | Some x, Some y =>
          let o1 := x * 4 + y / 16 in
          if c =? PAD then (if (d =? PAD) && bytes_eqb r [] then Some [o1] else None)
          else match b64_val c with
               | None => None
               | Some z =>
                   let o2 := y mod 16 * 16 + z / 4 in
                   if d =? PAD then (if bytes_eqb r [] then Some [o1; o2] else None)
                   else match b64_val d with
                        | None => None
                        | Some w => match b64_groups r with Some t => Some (o1 :: o2 :: z mod 4 * 64 + w :: t) | None => None end
                        end
               end
      | _, _ => None
      end
  | _ => None
  end.
(** '\r' and '\n' are skipped wherever they are *)
Definition b64_decode (l : bytes) : option bytes := b64_groups (filter (fun c => negb ((c =? 10) || (c =? 13))) l).

(** ** encoding/pem *)
Record block := mkBlock { b_Type : bytes; b_Headers : list (bytes * bytes); b_Bytes : bytes }.
Definition pemBegin : bytes := str_bytes "-----BEGIN ".
Definition pemEndMark : bytes := str_bytes "-----END ".
Definition pemEndOfLine : bytes := str_bytes "-----".
(** bytes.Cut: around the first occurrence *)
Fixpoint Cut (s sep : bytes) {struct s} : option (bytes * bytes) :=
  if HasPrefix s sep then Some ([], skipn (List.length sep) s)
  else match s with
       | [] => None
       | x :: r => match Cut r sep with Some (a, b) => Some (x :: a, b) | None => None end
       end.
(** bytes.HasSuffix *)
Definition HasSuffix (s suf : bytes) : bool := (List.length suf <=? List.length s)%nat && bytes_eqb (skipn (List.length s - List.length suf) s) suf.
(** bytes.TrimRight(s, " \t") *)
Fixpoint drop_blanks (l : bytes) : bytes :=
  match l with x :: r => if (x =? 32) || (x =? 9) then drop_blanks r else l | [] => [] end.
Definition TrimRightBlanks (s : bytes) : bytes := rev (drop_blanks (rev s)).
(** getLine: a '\r' just before the '\n' is dropped; the last line may lack its '\n' *)
Definition drop_cr (l : bytes) : bytes := match rev l with 13 :: r => rev r | _ => l end.
Definition getLine (data : bytes) : bytes * bytes :=
  match Cut data [10] with
  | Some (line, rest) => (TrimRightBlanks (drop_cr line), rest)
  | None => (TrimRightBlanks data, [])
  end.
(** the code points of unicode.IsSpace, UTF-8 encoded *)
Definition space_encodings : list bytes :=
  [[9]; [10]; [11]; [12]; [13]; [32]; [194; 133]; [194; 160]; [225; 154; 128]; [226; 128; 128]; [226; 128; 129]; [226; 128; 130]; [226; 128; 131]; [226; 128; 132];
   [226; 128; 133]; [226; 128; 134]; [226; 128; 135]; [226; 128; 136]; [226; 128; 137]; [226; 128; 138]; [226; 128; 168]; [226; 128; 169]; [226; 128; 175]; [226; 129; 159]; [227; 128; 128]].
(** bytes.TrimSpace: strips encoded spaces from both ends *)
Fixpoint strip (sps : list bytes) (fuel : nat) (s : bytes) : bytes :=
  match fuel with
  | O => s
  | S n => match find (HasPrefix s) sps with Some sp => strip sps n (skipn (List.length sp) s) | None => s end
  end.
Definition TrimLeft (s : bytes) : bytes := strip space_encodings (List.length s) s.
Definition TrimRight (s : bytes) : bytes := rev (strip (map (@rev Z) space_encodings) (List.length s) (rev s)).
Definition TrimSpace (s : bytes) : bytes := TrimRight (TrimLeft s).
(** removeSpacesAndTabs *)
Definition removeSpacesAndTabs (s : bytes) : bytes := filter (fun c => negb ((c =? 32) || (c =? 9))) s.
Definition set_key (h : list (bytes * bytes)) (k v : bytes) : list (bytes * bytes) := filter (fun e => negb (bytes_eqb (fst e) k)) h ++ [(k, v)].

(** the header loop of Decode; None is its "return nil, data" at the end of the input.  Every line is shorter than what is left: the fuel never runs out *)
Fixpoint headerLoop (fuel : nat) (rest : bytes) (h : list (bytes * bytes)) : option (list (bytes * bytes) * bytes) :=
  match fuel with
  | O => None
  | S n =>
      match rest with
      | [] => None
      | _ =>
          let (line, next) := getLine rest in
          match Cut line [58] with
          | None => Some (h, rest)
          | Some (k, v) => headerLoop n next (set_key h (TrimSpace k) (TrimSpace v))
          end
      end
  end.
(** one attempt after the BEGIN marker: [inl rest] is "continue" from rest, [inr None] is "return nil, data" *)
Definition decodeOne (data : bytes) : bytes + option (block * bytes) :=
  let (typeLine, rest) := getLine data in
  if negb (HasSuffix typeLine pemEndOfLine) then inl rest else
  let ty := firstn (List.length typeLine - List.length pemEndOfLine) typeLine in
  match headerLoop (S (List.length rest)) rest [] with
  | None => inr None
  | Some (h, rest) =>
      let cut := if (match h with [] => true | _ => false end) && HasPrefix rest pemEndMark then Some ([], skipn (List.length pemEndMark) rest)
                 else Cut rest (10 :: pemEndMark) in
      match cut with
      | None => inl rest
      | Some (body, trailer) =>
          let n := (List.length ty + List.length pemEndOfLine)%nat in
          if (List.length trailer <? n)%nat then inl rest else
          let restOfEndLine := skipn n trailer in
          let endTrailer := firstn n trailer in
          if negb (HasPrefix endTrailer ty) || negb (HasSuffix endTrailer pemEndOfLine) then inl rest else
          match fst (getLine restOfEndLine) with
          | _ :: _ => inl rest
          | [] =>
              match b64_decode (removeSpacesAndTabs body) with
              | None => inl rest
              | Some b => inr (Some (mkBlock ty h b, snd (getLine (32 :: trailer))))
              end
          end
      end
  end.
(** Decode: at the beginning of the data the BEGIN marker needs no newline before it; after a broken block the search starts again behind it.
    (Go 1.18.0 restarts by recursion and exhausts its stack on very long inputs; later releases loop as here.) *)
Fixpoint decodeLoop (fuel : nat) (rest : bytes) : option (block * bytes) :=
  match fuel with
  | O => None
  | S n =>
      match (if HasPrefix rest pemBegin then Some (skipn (List.length pemBegin) rest)
             else match Cut rest (10 :: pemBegin) with Some (_, a) => Some a | None => None end) with
      | None => None
      | Some after => match decodeOne after with inl rest => decodeLoop n rest | inr r => r end
      end
  end.
Definition Decode (data : bytes) : option (block * bytes) := decodeLoop (S (List.length data)) data.

(** Encode: lines of 64 characters *)
Fixpoint breakLines (fuel : nat) (l : bytes) : bytes :=
  match fuel with
  | O => []
  | S n => match l with [] => [] | _ => firstn 64 l ++ [10] ++ breakLines n (skipn 64 l) end
  end.
(** Go's order on strings *)
Fixpoint bytes_leb (a b : bytes) : bool :=
  match a, b with
  | [], _ => true
  | _ :: _, [] => false
  | x :: a', y :: b' => (x <? y) || ((x =? y) && bytes_leb a' b')
  end.
Fixpoint insert_key (e : bytes * bytes) (l : list (bytes * bytes)) : list (bytes * bytes) :=
  match l with [] => [e] | f :: r => if bytes_leb (fst e) (fst f) then e :: l else f :: insert_key e r end.
Fixpoint sort_keys (l : list (bytes * bytes)) : list (bytes * bytes) := match l with [] => [] | e :: r => insert_key e (sort_keys r) end.
Definition procType : bytes := str_bytes "Proc-Type".
(** Proc-Type comes first, the others in order *)
Definition header_order (h : list (bytes * bytes)) : list (bytes * bytes) :=
  filter (fun e => bytes_eqb (fst e) procType) h ++ sort_keys (filter (fun e => negb (bytes_eqb (fst e) procType)) h).
Definition writeHeader (e : bytes * bytes) : bytes := fst e ++ [58; 32] ++ snd e ++ [10].
(** EncodeToMemory: None when a header key contains a colon (h has one entry per key) *)
Definition Encode (b : block) : option bytes :=
  if existsb (fun e => existsb (Z.eqb 58) (fst e)) (b_Headers b) then None
  else Some (pemBegin ++ b_Type b ++ pemEndOfLine ++ [10]
             ++ (match b_Headers b with [] => [] | _ => flat_map writeHeader (header_order (b_Headers b)) ++ [10] end)
             ++ (let t := b64_encode (b_Bytes b) in breakLines (List.length t) t)
             ++ pemEndMark ++ b_Type b ++ pemEndOfLine ++ [10]).
