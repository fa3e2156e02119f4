(** * Model of pkcs12/rc2.go *)
From Verif Require Import Base.

(** rc2.go:36-53 *)
Definition piTable : list Z :=
  [0xd9; 0x78; 0xf9; 0xc4; 0x19; 0xdd; 0xb5; 0xed; 0x28; 0xe9; 0xfd; 0x79; 0x4a; 0xa0; 0xd8; 0x9d;
   0xc6; 0x7e; 0x37; 0x83; 0x2b; 0x76; 0x53; 0x8e; 0x62; 0x4c; 0x64; 0x88; 0x44; 0x8b; 0xfb; 0xa2;
   0x17; 0x9a; 0x59; 0xf5; 0x87; 0xb3; 0x4f; 0x13; 0x61; 0x45; 0x6d; 0x8d; 0x09; 0x81; 0x7d; 0x32;
   0xbd; 0x8f; 0x40; 0xeb; 0x86; 0xb7; 0x7b; 0x0b; 0xf0; 0x95; 0x21; 0x22; 0x5c; 0x6b; 0x4e; 0x82;
   0x54; 0xd6; 0x65; 0x93; 0xce; 0x60; 0xb2; 0x1c; 0x73; 0x56; 0xc0; 0x14; 0xa7; 0x8c; 0xf1; 0xdc;
   0x12; 0x75; 0xca; 0x1f; 0x3b; 0xbe; 0xe4; 0xd1; 0x42; 0x3d; 0xd4; 0x30; 0xa3; 0x3c; 0xb6; 0x26;
   0x6f; 0xbf; 0x0e; 0xda; 0x46; 0x69; 0x07; 0x57; 0x27; 0xf2; 0x1d; 0x9b; 0xbc; 0x94; 0x43; 0x03;
   0xf8; 0x11; 0xc7; 0xf6; 0x90; 0xef; 0x3e; 0xe7; 0x06; 0xc3; 0xd5; 0x2f; 0xc8; 0x66; 0x1e; 0xd7;
   0x08; 0xe8; 0xea; 0xde; 0x80; 0x52; 0xee; 0xf7; 0x84; 0xaa; 0x72; 0xac; 0x35; 0x4d; 0x6a; 0x2a;
   0x96; 0x1a; 0xd2; 0x71; 0x5a; 0x15; 0x49; 0x74; 0x4b; 0x9f; 0xd0; 0x5e; 0x04; 0x18; 0xa4; 0xec;
   0xc2; 0xe0; 0x41; 0x6e; 0x0f; 0x51; 0xcb; 0xcc; 0x24; 0x91; 0xaf; 0x50; 0xa1; 0xf4; 0x70; 0x39;
   0x99; 0x7c; 0x3a; 0x85; 0x23; 0xb8; 0xb4; 0x7a; 0xfc; 0x02; 0x36; 0x5b; 0x25; 0x55; 0x97; 0x31;
   0x2d; 0x5d; 0xfa; 0x98; 0xe3; 0x8a; 0x92; 0xae; 0x05; 0xdf; 0x29; 0x10; 0x67; 0x6c; 0xba; 0xc9;
   0xd3; 0x00; 0xe6; 0xcf; 0xe1; 0x9e; 0xa8; 0x2c; 0x63; 0x16; 0x01; 0x3f; 0x58; 0xe2; 0x89; 0xa9;
   0x0d; 0x38; 0x34; 0x1b; 0xab; 0x33; 0xff; 0xb0; 0xbb; 0x48; 0x0c; 0x5f; 0xb9; 0xb1; 0xcd; 0x2e;
   0xc5; 0xf3; 0xdb; 0x47; 0xe5; 0xa5; 0x9c; 0x77; 0x0a; 0xa6; 0x20; 0x68; 0xfe; 0x7f; 0xc1; 0xad].
Definition w16 (x : Z) : Z := x mod 2 ^ 16.

(** rc2.go:64-66: i = len(key)..127; byte addition wraps; an index outside l panics *)
Fixpoint expand_up (n : nat) (i t : Z) (l : bytes) : outcome bytes :=
  match n with
  | O => Ret l
  | S n' =>
      if (i - 1 <? 0) || (127 <? i - 1) then Panic else
      let a := nth (Z.to_nat (i - 1)) l 0 in
      let b := nth (Z.to_nat ((i - t) mod 256)) l 0 in
      expand_up n' (i + 1) t (upd l (Z.to_nat i) (nth (Z.to_nat ((a + b) mod 256)) piTable 0))
  end.
(** rc2.go:70-72: i = 127-t8 downto 0 *)
Fixpoint expand_down (n : nat) (t8 : Z) (l : bytes) : bytes :=
  match n with
  | O => l
  | S i =>
      let a := nth (i + 1) l 0 in
      let b := nth (Z.to_nat (Z.of_nat i + t8)) l 0 in
      expand_down i t8 (upd l i (nth (Z.to_nat (Z.lxor a b)) piTable 0))
  end.
(** rc2.go:55-81.  t1 >= 0 assumed (every caller passes len(key)*8); copy(l, key) truncates keys
    longer than 128 bytes *)
Definition expandKey (key : bytes) (t1 : Z) : outcome (list Z) :=
  let l := firstn 128 (key ++ repeat 0 128) in
  let t := zlen key in
  let t8 := Z.quot (t1 + 7) 8 in
  let tm := Z.rem 255 (2 ^ (8 + t1 - 8 * t8)) mod 256 in
  do l <- expand_up (Z.to_nat (128 - t)) t t l;
  if (128 - t8 <? 0) || (127 <? 128 - t8) then Panic else
  let i := Z.to_nat (128 - t8) in
  let l := upd l i (nth (Z.to_nat (Z.land (nth i l 0) tm)) piTable 0) in
  let l := expand_down (Z.to_nat (128 - t8)) t8 l in
  Ret (map (fun i => w16 (nth (2 * i) l 0 + w16 (nth (2 * i + 1) l 0 * 256))) (seq 0 64)).

(** rc2.go:83-85 *)
Definition rotl16 (x b : Z) : Z := Z.lor (Z.shiftr x (16 - b)) (w16 (Z.shiftl x b)).
Definition not16 (x : Z) : Z := Z.lxor x 0xFFFF.
Record regs4 := mk4 { q0 : Z; q1 : Z; q2 : Z; q3 : Z }.

(** rc2.go:97-115 (also 126-144, 155-173): one pass of the mixing loop body starting at index j *)
Definition enc_mix (k : list Z) (j : nat) (s : regs4) : regs4 :=
  let '(mk4 r0 r1 r2 r3) := s in
  let r0 := w16 (r0 + nth j k 0 + Z.land r3 r2 + Z.land (not16 r3) r1) in
  let r0 := rotl16 r0 1 in
  let r1 := w16 (r1 + nth (j + 1) k 0 + Z.land r0 r3 + Z.land (not16 r0) r2) in
  let r1 := rotl16 r1 2 in
  let r2 := w16 (r2 + nth (j + 2) k 0 + Z.land r1 r0 + Z.land (not16 r1) r3) in
  let r2 := rotl16 r2 3 in
  let r3 := w16 (r3 + nth (j + 3) k 0 + Z.land r2 r1 + Z.land (not16 r2) r0) in
  let r3 := rotl16 r3 5 in
  mk4 r0 r1 r2 r3.
(** rc2.go:119-122, 148-151 *)
Definition enc_mash (k : list Z) (s : regs4) : regs4 :=
  let '(mk4 r0 r1 r2 r3) := s in
  let r0 := w16 (r0 + nth (Z.to_nat (Z.land r3 63)) k 0) in
  let r1 := w16 (r1 + nth (Z.to_nat (Z.land r0 63)) k 0) in
  let r2 := w16 (r2 + nth (Z.to_nat (Z.land r1 63)) k 0) in
  let r3 := w16 (r3 + nth (Z.to_nat (Z.land r2 63)) k 0) in
  mk4 r0 r1 r2 r3.
(** for j <= bound { ... } ; returns the registers and j.  At most 64 passes (each adds 4 to j) *)
Fixpoint enc_while (fuel : nat) (bound : nat) (k : list Z) (j : nat) (s : regs4) : nat * regs4 :=
  match fuel with
  | O => (j, s)
  | S f => if (j <=? bound)%nat then enc_while f bound k (j + 4) (enc_mix k j s) else (j, s)
  end.
(** binary.LittleEndian.Uint16 / PutUint16 *)
Definition get16 (b : bytes) (i : nat) : Z := Z.lor (nth i b 0) (Z.shiftl (nth (i + 1) b 0) 8).
Definition put16 (w : Z) : bytes := [w mod 256; Z.shiftr w 8 mod 256].
(** rc2.go:87-180; src shorter than 8 bytes panics; the result is what is stored in dst[0:8] *)
Definition rc2_Encrypt (k : list Z) (src : bytes) : outcome bytes :=
  if zlen src <? 8 then Panic else
  let s := mk4 (get16 src 0) (get16 src 2) (get16 src 4) (get16 src 6) in
  let '(j, s) := enc_while 16 16 k 0 s in
  let s := enc_mash k s in
  let '(j, s) := enc_while 16 40 k j s in
  let s := enc_mash k s in
  let '(j, s) := enc_while 16 60 k j s in
  Ret (put16 (q0 s) ++ put16 (q1 s) ++ put16 (q2 s) ++ put16 (q3 s)).

(** rc2.go:192-210 (219-237, 248-266) with j the index used for r3 *)
Definition dec_mix (k : list Z) (j : Z) (s : regs4) : regs4 :=
  let '(mk4 r0 r1 r2 r3) := s in
  let r3 := rotl16 r3 (16 - 5) in
  let r3 := w16 (r3 - nth (Z.to_nat j) k 0 - Z.land r2 r1 - Z.land (not16 r2) r0) in
  let r2 := rotl16 r2 (16 - 3) in
  let r2 := w16 (r2 - nth (Z.to_nat (j - 1)) k 0 - Z.land r1 r0 - Z.land (not16 r1) r3) in
  let r1 := rotl16 r1 (16 - 2) in
  let r1 := w16 (r1 - nth (Z.to_nat (j - 2)) k 0 - Z.land r0 r3 - Z.land (not16 r0) r2) in
  let r0 := rotl16 r0 (16 - 1) in
  let r0 := w16 (r0 - nth (Z.to_nat (j - 3)) k 0 - Z.land r3 r2 - Z.land (not16 r3) r1) in
  mk4 r0 r1 r2 r3.
(** rc2.go:213-216, 241-244 *)
Definition dec_mash (k : list Z) (s : regs4) : regs4 :=
  let '(mk4 r0 r1 r2 r3) := s in
  let r3 := w16 (r3 - nth (Z.to_nat (Z.land r2 63)) k 0) in
  let r2 := w16 (r2 - nth (Z.to_nat (Z.land r1 63)) k 0) in
  let r1 := w16 (r1 - nth (Z.to_nat (Z.land r0 63)) k 0) in
  let r0 := w16 (r0 - nth (Z.to_nat (Z.land r3 63)) k 0) in
  mk4 r0 r1 r2 r3.
(** for j >= bound { ... } *)
Fixpoint dec_while (fuel : nat) (bound : Z) (k : list Z) (j : Z) (s : regs4) : Z * regs4 :=
  match fuel with
  | O => (j, s)
  | S f => if bound <=? j then dec_while f bound k (j - 4) (dec_mix k j s) else (j, s)
  end.
(** rc2.go:182-274 *)
Definition rc2_Decrypt (k : list Z) (src : bytes) : outcome bytes :=
  if zlen src <? 8 then Panic else
  let s := mk4 (get16 src 0) (get16 src 2) (get16 src 4) (get16 src 6) in
  let '(j, s) := dec_while 16 44 k 63 s in
  let s := dec_mash k s in
  let '(j, s) := dec_while 16 20 k j s in
  let s := dec_mash k s in
  let '(j, s) := dec_while 16 0 k j s in
  Ret (put16 (q0 s) ++ put16 (q1 s) ++ put16 (q2 s) ++ put16 (q3 s)).
(** rc2.go:27-32 *)
Definition rc2_New (key : bytes) (t1 : Z) : outcome (list Z) := expandKey key t1.
