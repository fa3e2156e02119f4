(** * RFC 2268 (RC2), written from the RFC: key expansion as equations, cipher on four 16-bit words
    R[0..3] as mixing and mashing steps with indices taken modulo 4 *)
From Verif Require Import Base.

(** RFC 2268 section 2, PITABLE *)
Definition PITABLE : list Z :=
  [0xd9; 0x78; 0xf9; 0xc4; 0x19; 0xdd; 0xb5; 0xed; 0x28; 0xe9; 0xfd; 0x79; 0x4a; 0xa0; 0xd8; 0x9d;
   0xc6; 0x7e; 0x37; 0x83; 0x2b; 0x76; 0x53; 0x8e; 0x62; 0x4c; 0x64; 0x88; 0x44; 0x8b; 0xfb; 0xa2;
   0x17; 0x9a; 0x59; 0xf5; 0x87; 0xb3; 0x4f; 0x13; 0x61; 0x45; 0x6d; 0x8d; 0x09; 0x81; 0x7d; 0x32;
   0xbd; 0x8f; 0x40; 0xeb; 0x86; 0xb7; 0x7b; 0x0b; 0xf0; 0x95; 0x21; 0x22; 0x5c; 0x6b; 0x4e; 0x82;
   0x54; 0xd6; 0x65; 0x93; 0xce; 0x60; 0xb2; 0x1c; 0x73; 0x56; 0xc0; 0x14; 0xa7; 0x8c; 0xf1; 0xdc;
   0x12; 0x75; 0xca; 0x1f; 0x3b; 0xbe; 0xe4; 0xd1; 0x42; 0x3d; 0xd4; 0x30; 0xa3; 0x3c; 0xb6; 0x26;
   0x6f; 0xbf; 0x0e; 0xda; 0x46; 0x69; 0x07; 0x57; 0x27; 0xf2; 0x1d; 0x9b; 0xbc; 0x94; 0x43; 0x03;
   0xf8; 0x11; 0xc7; 0xf6; 0x90; 0xef; 0x3e; 0xe7; 0x06; 0xc3; 0xd5; 0x2f; 0xc8; 0x66; 0x1e; 0xd7;
   0x08; 0xe8; 0xea; 0xde; 0x80; 0x52; 0xee; 0xf7; 0x84; 0xaa; 0x72; 0xac; 0x35; 0x4d; 0x6a; 0x2a;
   0x96; 0x1a; 0xd2; 0x71; 0x5a; 0x15; 0x49; 0x74; 0x4b; 0x9f; 0xd0; 0x5e; 0x04; 0x18; 0xa4; 0xec;
   0xc2; 0xe0; 0x41; 0x6e; 0x0f; 0x51; 0xcb; 0xcc; 0x24; 0x91; 0xaf; 0x50; 0xa1; 0xf4; 0x70; 0x39;
   0x99; 0x7c; 0x3a; 0x85; 0x23; 0xb8; 0xb4; 0x7a; 0xfc; 0x02; 0x36; 0x5b; 0x25; 0x55; 0x97; 0x31;
   0x2d; 0x5d; 0xfa; 0x98; 0xe3; 0x8a; 0x92; 0xae; 0x05; 0xdf; 0x29; 0x10; 0x67; 0x6c; 0xba; 0xc9;
   0xd3; 0x00; 0xe6; 0xcf; 0xe1; 0x9e; 0xa8; 0x2c; 0x63; 0x16; 0x01; 0x3f; 0x58; 0xe2; 0x89; 0xa9;
   0x0d; 0x38; 0x34; 0x1b; 0xab; 0x33; 0xff; 0xb0; 0xbb; 0x48; 0x0c; 0x5f; 0xb9; 0xb1; 0xcd; 0x2e;
   0xc5; 0xf3; 0xdb; 0x47; 0xe5; 0xa5; 0x9c; 0x77; 0x0a; 0xa6; 0x20; 0x68; 0xfe; 0x7f; 0xc1; 0xad].
Definition PI (i : Z) : Z := nth (Z.to_nat i) PITABLE 0.

(** section 2: K is the expansion of key (T = length key bytes, T1 effective bits) *)
Definition key_schedule (key : bytes) (T1 : Z) (K : list Z) : Prop :=
  let T := zlen key in
  let T8 := (T1 + 7) / 8 in
  let TM := 255 mod 2 ^ (8 + T1 - 8 * T8) in
  exists L L' : Z -> Z,
    (forall i, 0 <= i < T -> L i = nth (Z.to_nat i) key 0) /\
    (forall i, T <= i < 128 -> L i = PI ((L (i - 1) + L (i - T)) mod 256)) /\
    (forall i, 128 - T8 < i < 128 -> L' i = L i) /\
    L' (128 - T8) = PI (Z.land (L (128 - T8)) TM) /\
    (forall i, 0 <= i < 128 - T8 -> L' i = PI (Z.lxor (L' (i + 1)) (L' (i + T8)))) /\
    List.length K = 64%nat /\
    (forall i, 0 <= i < 64 -> nth (Z.to_nat i) K 0 = L' (2 * i) + 256 * L' (2 * i + 1)).

(** section 3 *)
Notation rc2_state := (list Z).
Definition Rn (R : rc2_state) (i : nat) : Z := nth (i mod 4) R 0.
Definition rol (x s : Z) : Z := (x * 2 ^ s) mod 2 ^ 16 + x / 2 ^ (16 - s).
Definition rot_amount (i : nat) : Z := nth i [1; 2; 3; 5] 0.
(** "mix up R[i]": R[i] := R[i] + K[j] + (R[i-1] & R[i-2]) + ((~R[i-1]) & R[i-3]); j := j+1;
    R[i] := R[i] rol s[i] *)
Definition mix_up (K : list Z) (Rj : rc2_state * nat) (i : nat) : rc2_state * nat :=
  let '(R, j) := Rj in
  let x := (Rn R i + nth j K 0 + Z.land (Rn R (i + 3)) (Rn R (i + 2))
            + Z.land (2 ^ 16 - 1 - Rn R (i + 3)) (Rn R (i + 1))) mod 2 ^ 16 in
  (upd R i (rol x (rot_amount i)), S j).
Definition mix_round K Rj := fold_left (mix_up K) [0; 1; 2; 3]%nat Rj.
(** "mash R[i]": R[i] := R[i] + K[R[i-1] & 63] *)
Definition mash_up (K : list Z) (R : rc2_state) (i : nat) : rc2_state :=
  upd R i ((Rn R i + nth (Z.to_nat (Rn R (i + 3) mod 64)) K 0) mod 2 ^ 16).
Definition mash_round K (Rj : rc2_state * nat) : rc2_state * nat :=
  (fold_left (mash_up K) [0; 1; 2; 3]%nat (fst Rj), snd Rj).
Fixpoint times {A} (n : nat) (f : A -> A) (x : A) : A := match n with O => x | S n' => times n' f (f x) end.
(** five mixing rounds, a mashing round, six mixing, a mashing, five mixing *)
Definition rc2_words (K : list Z) (R : rc2_state) : rc2_state :=
  fst (times 5 (mix_round K) (mash_round K (times 6 (mix_round K) (mash_round K (times 5 (mix_round K) (R, 0%nat)))))).
(** words are little-endian pairs of bytes *)
Definition le16 (a b : Z) : Z := a + 256 * b.
Definition rc2_block (K : list Z) (b : bytes) : bytes :=
  match b with
  | [b0; b1; b2; b3; b4; b5; b6; b7] =>
      flat_map (fun w => [w mod 256; w / 256]) (rc2_words K [le16 b0 b1; le16 b2 b3; le16 b4 b5; le16 b6 b7])
  | _ => []
  end.
