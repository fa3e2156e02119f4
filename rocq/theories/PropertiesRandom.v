(** * Properties C126, C127 (package sm2: how randomness becomes nonces and keys; using the same randomness twice) *)
From Verif Require Import Base SM3Spec ECSpec ECModel NumTheory Primes CryptoByte SM2Spec SM2Model SM2SigProofs SM2EncProofs SM3Proofs ECProofs BaseOrder PropertiesSM2Sig PropertiesSM2Enc.
From Coq Require Import ZifyBool ZifyNat.
Open Scope Z_scope.

(** ** Counting *)
(** exactly [N] byte strings have the property [F] *)
Definition count (F : bytes -> Prop) (N : Z) : Prop :=
  exists L : list bytes, NoDup L /\ (forall b, In b L <-> F b) /\ zlen L = N.

Lemma count_unique F N M : count F N -> count F M -> N = M.
Proof.
  intros (L & NL & HL & EL) (K & NK & HK & EK). unfold zlen in *.
  assert (A : (List.length L <= List.length K)%nat) by (apply NoDup_incl_length; [auto|]; intros b Hb; apply HK, HL, Hb).
  assert (B : (List.length K <= List.length L)%nat) by (apply NoDup_incl_length; [auto|]; intros b Hb; apply HL, HK, Hb).
  lia.
Qed.

Lemma NoDup_map_on {A B} (f : A -> B) (l : list A) :
  (forall x y, In x l -> In y l -> f x = f y -> x = y) -> NoDup l -> NoDup (map f l).
Proof.
  induction l as [|a l IH]; intros H N; cbn; [constructor|]. inversion N; subst. constructor.
  - intros Hin. apply in_map_iff in Hin. destruct Hin as (x & E & Hx). apply H2.
    rewrite <- (H x a); [exact Hx|right; exact Hx|left; reflexivity|exact E].
  - apply IH; [|assumption]. intros x y Hx Hy. apply H; right; assumption.
Qed.

(** the strings of w bytes whose value is c modulo m *)
Lemma count_residue (w : nat) (m c : Z) : 0 <= c < m ->
  count (fun b => bytes_ok b /\ List.length b = w /\ be_to_Z b mod m = c) ((256 ^ Z.of_nat w - 1 - c) / m + 1).
Proof.
  intros Hc. set (T := 256 ^ Z.of_nat w). assert (HT : 0 < T) by (apply Z.pow_pos_nonneg; lia).
  set (q := (T - 1 - c) / m + 1).
  assert (Hq : 0 <= q).
  { unfold q. assert (-1 <= (T - 1 - c) / m); [|lia]. apply Z.div_le_lower_bound; lia. }
  assert (Hin : forall i, 0 <= i -> (i < q <-> c + i * m < T)).
  { intros i Hi. unfold q. pose proof (Z.div_mod (T - 1 - c) m ltac:(lia)). pose proof (Z.mod_pos_bound (T - 1 - c) m ltac:(lia)).
    set (d := (T - 1 - c) / m) in *. clearbody d. split; intros; nia. }
  exists (map (fun i => Z_to_be w (c + Z.of_nat i * m)) (seq 0 (Z.to_nat q))). split; [|split].
  - apply NoDup_map_on; [|apply seq_NoDup]. intros x y Hx Hy E. apply in_seq in Hx, Hy.
    apply (f_equal be_to_Z) in E.
    assert (Bx : c + Z.of_nat x * m < T) by (apply Hin; lia). assert (By : c + Z.of_nat y * m < T) by (apply Hin; lia).
    rewrite !be_to_Z_to_be_small in E by (fold T; nia). nia.
  - intros b. rewrite in_map_iff. split.
    + intros (i & <- & Hi). apply in_seq in Hi. assert (Bi : c + Z.of_nat i * m < T) by (apply Hin; lia).
      split; [apply Z_to_be_ok|]. split; [apply Z_to_be_length|].
      rewrite be_to_Z_to_be_small by (fold T; nia). rewrite Z_mod_plus_full. apply Z.mod_small; lia.
    + intros (Hb & Hl & Hr). pose proof (be_to_Z_bound b Hb) as Bd. unfold zlen in Bd. rewrite Hl in Bd. fold T in Bd.
      pose proof (Z.div_mod (be_to_Z b) m ltac:(lia)) as DM. rewrite Hr in DM.
      assert (Hd : 0 <= be_to_Z b / m) by (apply Z.div_pos; lia).
      exists (Z.to_nat (be_to_Z b / m)). rewrite Z2Nat.id by auto.
      replace (c + be_to_Z b / m * m) with (be_to_Z b) by lia. split.
      * rewrite <- Hl. apply Z_to_be_be_to_Z; auto.
      * apply in_seq. assert (be_to_Z b / m < q); [|lia]. apply Hin; lia.
  - unfold zlen. rewrite map_length, seq_length. lia.
Qed.

(** ** C126 *)
(** Each nonce k in [1, n-1] is made from N_k of the 2^320 possible reads of 40 bytes, and N_k differs from the average
    2^320/(n-1) by less than one (multiplied by n-1 here); the average is above 2^64, so no nonce is more than 1+2^-64 times
    as likely as another. *)
Theorem C126_nonce_even : forall k, 1 <= k <= sm2_N - 1 ->
  exists N, count (fun b => bytes_ok b /\ List.length b = 40%nat /\ nextk b = Ret (k, [])) N /\
    2 ^ 320 - (sm2_N - 1) < N * (sm2_N - 1) < 2 ^ 320 + (sm2_N - 1) /\ 2 ^ 64 <= N.
Proof.
  intros k Hk. pose proof (count_residue 40 (sm2_N - 1) (k - 1) ltac:(lia)) as (L & NL & HL & EL).
  change (256 ^ Z.of_nat 40) with (2 ^ 320) in EL.
  exists ((2 ^ 320 - 1 - (k - 1)) / (sm2_N - 1) + 1). split.
  - exists L. split; [exact NL|]. split; [|exact EL]. intros b. rewrite HL. split; intros (A & B & C); split; auto; split; auto.
    + pose proof (nextk_full b [] B) as E. rewrite app_nil_r in E. rewrite E. unfold nonce_of. rewrite C. do 2 f_equal. lia.
    + pose proof (nextk_full b [] B) as E. rewrite app_nil_r in E. rewrite E in C. unfold nonce_of in C. injection C as C. lia.
  - assert (A : 0 < sm2_N - 1) by reflexivity. assert (B : 2 ^ 64 * sm2_N <= 2 ^ 320) by (now compute). assert (Q0 : 0 < 2 ^ 64) by reflexivity.
    remember (2 ^ 320) as T. remember (2 ^ 64) as q. remember sm2_N as n. clear - Hk A B Q0.
    pose proof (Z.div_mod (T - 1 - (k - 1)) (n - 1) ltac:(lia)). pose proof (Z.mod_pos_bound (T - 1 - (k - 1)) (n - 1) ltac:(lia)).
    set (d := (T - 1 - (k - 1)) / (n - 1)) in *. clearbody d. split; [nia|]. assert (q - 1 <= d); [|lia].
    destruct (Z_lt_le_dec d (q - 1)) as [Hd|Hd]; [|exact Hd].
    assert ((n - 1) * (d + 2) <= (n - 1) * q) by (apply Z.mul_le_mono_nonneg_l; lia). lia.
Qed.
Print Assumptions C126_nonce_even.

Lemma gen_one fuel b : bytes_ok b -> List.length b = 32%nat -> key_candidate b < sm2_N ->
  exists d xy, elliptic_GenerateKey (S fuel) b = Ret (d, xy, []).
Proof.
  intros Hbok Hb Hc. cbn [elliptic_GenerateKey]. unfold ReadFull.
  destruct (Nat.leb_spec 32 (List.length b)) as [H|H]; [|lia].
  cbn [bind]. rewrite firstn_all2 by lia. rewrite skipn_all2 by lia.
  destruct (gen_step b Hbok Hb) as [Pok Pv].
  set (p0 := upd b 0 (Z.land (nth 0 b 0) 255)) in *. set (p := upd p0 1 (Z.lxor (nth 1 p0 0) 66)) in *.
  destruct (Z.leb_spec sm2_N (be_to_Z p)) as [Hge|Hlt]; [lia|].
  pose proof (sm2_ScalarBaseMult_correct p Pok) as EP. rewrite EP. cbn [bind]. eauto.
Qed.
Lemma gen_key b : bytes_ok b -> List.length b = 32%nat -> key_candidate b < sm2_N -> exists priv, GenerateKey b = Ret (priv, []).
Proof.
  intros Hbok Hb Hc. destruct (gen_one (List.length b) b Hbok Hb Hc) as (d & xy & E). unfold GenerateKey. rewrite E. cbn [bind]. eauto.
Qed.
(** Each private key in [0, n-1] is made from exactly one read of 32 bytes; the other reads (2^256 - n of 2^256) are thrown away
    and the next 32 bytes are read. *)
Theorem C126_key_even : forall d, 0 <= d <= sm2_N - 1 ->
  count (fun b => bytes_ok b /\ List.length b = 32%nat /\ exists priv, GenerateKey b = Ret (priv, []) /\ sk_D priv = d) 1.
Proof.
  intros d Hd.
  set (c := Z_to_be 32 d).
  assert (Lc : List.length c = 32%nat) by apply Z_to_be_length.
  assert (Oc : bytes_ok c) by apply Z_to_be_ok.
  assert (Vc : be_to_Z c = d).
  { apply be_to_Z_to_be_small. assert (sm2_N < 256 ^ Z.of_nat 32) by (now compute). lia. }
  set (flip := fun b : bytes => firstn 1 b ++ [Z.lxor (nth 1 b 0) 0x42] ++ skipn 2 b).
  assert (FF : forall b, List.length b = 32%nat -> flip (flip b) = b).
  { intros b H. destruct b as [|b0 [|b1 b]]; cbn in H; try lia. unfold flip. cbn [firstn nth skipn app].
    rewrite Z.lxor_assoc, Z.lxor_nilpotent, Z.lxor_0_r. reflexivity. }
  assert (FL : forall b, List.length b = 32%nat -> List.length (flip b) = 32%nat).
  { intros b H. destruct b as [|b0 [|b1 b]]; cbn in H; try lia. unfold flip. cbn [firstn nth skipn app List.length]. lia. }
  assert (FO : forall b, List.length b = 32%nat -> bytes_ok b -> bytes_ok (flip b)).
  { intros b H Ob. destruct b as [|b0 [|b1 b]]; cbn in H; try lia. unfold flip. cbn [firstn nth skipn app].
    apply bytes_ok_cons in Ob. destruct Ob as [O0 Ob]. apply bytes_ok_cons in Ob. destruct Ob as [O1 Ob].
    apply bytes_ok_cons. split; auto. apply bytes_ok_cons. split; auto. apply lxor_byte; auto. split; reflexivity || lia. }
  assert (KC : forall b, key_candidate b = be_to_Z (flip b)) by reflexivity.
  clearbody c flip.
  exists [flip c]. split; [repeat constructor; intros []|]. split; [|reflexivity].
  intros b. cbn [In]. split.
  - intros [<-|[]]. split; [apply FO; auto|]. split; [apply FL; auto|].
    pose proof (GenerateKey_spec (flip c) (FO c Lc Oc)) as S.
    assert (LF := FL c Lc).
    assert (NR : forall pre x rest, flip c = List.concat pre ++ x ++ rest -> List.length x = 32%nat ->
                  Forall (fun c => List.length c = 32%nat /\ sm2_N <= key_candidate c) pre -> pre = [] /\ rest = [] /\ x = flip c).
    { intros pre x rest E Hx F. apply (f_equal (@List.length Z)) in E as El. rewrite !app_length, LF, Hx in El.
      destruct pre as [|p pre]; [|exfalso; cbn in El; apply Forall_inv in F; destruct F as [F _]; rewrite app_length, F in El; lia].
      split; [reflexivity|]. cbn in El, E. destruct rest; [|cbn in El; lia]. rewrite app_nil_r in E. auto. }
    destruct (GenerateKey (flip c)) as [[priv rest]|e|] eqn:EG; [|exfalso|destruct S].
    + destruct S as (pre & x & E & Hx & F & HD & _). destruct (NR _ _ _ E Hx F) as (-> & -> & ->).
      exists priv. split; [reflexivity|]. rewrite HD, KC, FF, Vc; auto.
    + destruct (gen_key (flip c) (FO c Lc Oc) LF) as [priv R]; [rewrite KC, FF, Vc by auto; lia|].
      rewrite R in EG. discriminate EG.
  - intros (Ob & Lb & priv & E & HD). left. pose proof (GenerateKey_spec b Ob) as S. rewrite E in S.
    destruct S as (pre & x & Er & Hx & F & HDx & _).
    apply (f_equal (@List.length Z)) in Er as El. rewrite !app_length, Lb, Hx in El. cbn in El.
    destruct pre as [|p pre]; [|exfalso; cbn in El; apply Forall_inv in F; destruct F as [F _]; rewrite app_length, F in El; lia].
    cbn in Er. rewrite app_nil_r in Er. subst x. rewrite HD, KC in HDx.
    assert (Ef : flip b = c).
    { apply be_to_Z_inj; auto; [rewrite FL, Lc; auto|]. rewrite Vc. auto. }
    rewrite <- Ef. apply FF; auto.
Qed.
Print Assumptions C126_key_even.

(** concrete values: nonce 1 comes from 2^64 + ... reads, the all-zero one among them; key 3 from one read *)
Example C126_nonvacuous : (1 <= 1 <= sm2_N - 1) /\ nextk (repeat 0 40) = Ret (1, []) /\ nextk (Z_to_be 40 (sm2_N - 1)) = Ret (1, []) /\
  exists priv, GenerateKey (0 :: 0x42 :: repeat 0 29 ++ [3]) = Ret (priv, []) /\ sk_D priv = 3.
Proof.
  split; [now compute|]. split; [vm_compute; reflexivity|]. split; [vm_compute; reflexivity|].
  eexists. split; [vm_compute; reflexivity|reflexivity].
Qed.

(** ** C127 *)
(** the same bytes read by two signing calls: the private key follows from the two signatures *)
Lemma two_signatures D k e1 e2 r1 s1 r2 s2 : 0 <= D < sm2_N ->
  is_signature D e1 k r1 s1 -> is_signature D e2 k r2 s2 -> e1 mod sm2_N <> e2 mod sm2_N ->
  exists i, ModInverse (r1 + s1 - r2 - s2) sm2_N = Some i /\ D = ((s2 - s1) * i) mod sm2_N.
Proof.
  intros HD (_ & R1 & _ & _ & S1 & E1) (_ & R2 & _ & _ & S2 & E2) NE.
  pose proof sm2_N_prime as PN. set (x := xcoord (k ⊗ G)) in *. clearbody x.
  assert (Npos : 1 < sm2_N) by reflexivity. remember sm2_N as n eqn:En. clear En.
  assert (D1 : (n | (r1 + s1 - r2 - s2) * D - (s2 - s1))).
  { assert (A1 : (n | (1 + D) * s1 - (k - r1 * D))) by (apply Z.mod_divide; [lia|]; rewrite Zminus_mod, E1, Z.sub_diag; apply Z.mod_0_l; lia).
    assert (A2 : (n | (1 + D) * s2 - (k - r2 * D))) by (apply Z.mod_divide; [lia|]; rewrite Zminus_mod, E2, Z.sub_diag; apply Z.mod_0_l; lia).
    replace ((r1 + s1 - r2 - s2) * D - (s2 - s1)) with (((1 + D) * s1 - (k - r1 * D)) - ((1 + D) * s2 - (k - r2 * D))) by ring.
    apply Z.divide_sub_r; auto. }
  assert (T : (r1 + s1 - r2 - s2) mod n <> 0).
  { intros T. apply Z.mod_divide in T; [|lia].
    assert (D2 : (n | s2 - s1)).
    { replace (s2 - s1) with ((r1 + s1 - r2 - s2) * D - ((r1 + s1 - r2 - s2) * D - (s2 - s1))) by ring.
      apply Z.divide_sub_r; auto. apply Z.divide_mul_l; auto. }
    assert (D3 : (n | r1 - r2)).
    { replace (r1 - r2) with ((r1 + s1 - r2 - s2) + (s2 - s1)) by ring. apply Z.divide_add_r; auto. }
    apply NE. assert (D4 : (n | e1 - e2)).
    { rewrite R1, R2 in D3. apply Z.mod_divide in D3; [|lia]. apply Z.mod_divide; [lia|].
      rewrite <- Zminus_mod in D3. replace (e1 + x - (e2 + x)) with (e1 - e2) in D3 by ring. exact D3. }
    apply Z.mod_divide in D4; [|lia]. rewrite <- (Z.sub_add e2 e1). rewrite Zplus_mod, D4, Z.add_0_l, Z.mod_mod by lia. reflexivity. }
  destruct (ModInverse_prime _ _ PN T) as (i & Ei & Hi & Ei1). exists i. split; [exact Ei|].
  assert (D5 : (n | (s2 - s1) * i - D)).
  { assert (A : (n | i * (r1 + s1 - r2 - s2) - 1)) by (apply Z.mod_divide; [lia|]; rewrite Zminus_mod, Ei1, (Z.mod_small 1) by lia; apply Z.mod_0_l; lia).
    replace ((s2 - s1) * i - D) with (D * (i * (r1 + s1 - r2 - s2) - 1) - i * ((r1 + s1 - r2 - s2) * D - (s2 - s1))) by ring.
    apply Z.divide_sub_r; apply Z.divide_mul_r; auto. }
  apply Z.mod_divide in D5; [|lia]. rewrite <- (Z.sub_add D ((s2 - s1) * i)). rewrite Zplus_mod, D5, Z.add_0_l, Z.mod_mod by lia.
  symmetry. apply Z.mod_small. lia.
Qed.
(** Two calls of SignDigestRS with one key and the same random bytes, on digests that differ modulo n: anybody who sees the two
    signatures can compute the private key. *)
Theorem C127_nonce_reuse : forall rand priv dg1 dg2 r1 s1 r2 s2 rest,
  0 <= sk_D priv < sm2_N ->
  SignDigestRS rand priv dg1 = Ret (r1, s1, rest) -> SignDigestRS rand priv dg2 = Ret (r2, s2, rest) ->
  be_to_Z dg1 mod sm2_N <> be_to_Z dg2 mod sm2_N ->
  exists i, ModInverse (r1 + s1 - r2 - s2) sm2_N = Some i /\ sk_D priv = ((s2 - s1) * i) mod sm2_N.
Proof.
  intros rand priv dg1 dg2 r1 s1 r2 s2 rest HD E1 E2 NE.
  apply sign_digest_ret in E1, E2. destruct E1 as (p1 & b1 & A1 & L1 & _ & S1). destruct E2 as (p2 & b2 & A2 & L2 & _ & S2).
  assert (Eb : b1 = b2).
  { rewrite A1 in A2. rewrite !app_assoc in A2. apply app_inv_tail in A2.
    assert (H : List.length p1 = List.length p2) by (apply (f_equal (@List.length Z)) in A2; rewrite !app_length, L1, L2 in A2; lia).
    apply app_inj_len in A2; tauto. }
  subst b2. exact (two_signatures _ _ _ _ _ _ _ _ HD S1 S2 NE).
Qed.
Print Assumptions C127_nonce_reuse.
(** One signature and the 40 bytes its nonce was read from give the private key away, too. *)
Theorem C127_nonce_known : forall rand priv dg r s rest,
  0 <= sk_D priv < sm2_N -> SignDigestRS rand priv dg = Ret (r, s, rest) ->
  exists pre b i, rand = pre ++ b ++ rest /\ List.length b = 40%nat /\
    ModInverse (r + s) sm2_N = Some i /\ sk_D priv = ((be_to_Z b mod (sm2_N - 1) + 1 - s) * i) mod sm2_N.
Proof.
  intros rand priv dg r s rest HD E. apply sign_digest_ret in E. destruct E as (pre & b & A & L & _ & HS).
  exists pre, b. change (be_to_Z b mod (sm2_N - 1) + 1) with (nonce_of b). set (k := nonce_of b) in *. clearbody k. set (D := sk_D priv) in *. clearbody D.
  destruct HS as (Hk & R & NR & NK & S & ES). pose proof sm2_N_prime as PN. assert (Npos : 1 < sm2_N) by reflexivity.
  assert (Hr : 0 <= r < sm2_N) by (rewrite R; apply Z.mod_pos_bound; lia). clear R.
  remember sm2_N as n eqn:En. clear En.
  assert (D1 : (n | (r + s) * D - (k - s))).
  { assert (A1 : (n | (1 + D) * s - (k - r * D))) by (apply Z.mod_divide; [lia|]; rewrite Zminus_mod, ES, Z.sub_diag; apply Z.mod_0_l; lia).
    replace ((r + s) * D - (k - s)) with ((1 + D) * s - (k - r * D)) by ring. exact A1. }
  assert (T : (r + s) mod n <> 0).
  { intros T. apply Z.mod_divide in T; [|lia].
    assert (D2 : (n | k - s)).
    { replace (k - s) with ((r + s) * D - ((r + s) * D - (k - s))) by ring. apply Z.divide_sub_r; auto. apply Z.divide_mul_l; auto. }
    assert (D3 : (n | r + k)) by (replace (r + k) with ((r + s) + (k - s)) by ring; apply Z.divide_add_r; auto).
    destruct D3 as [q Hq]. assert (q = 1) by nia. subst q. lia. }
  destruct (ModInverse_prime _ _ PN T) as (i & Ei & Hi & Ei1). exists i. split; [exact A|]. split; [exact L|]. split; [exact Ei|].
  assert (D5 : (n | (k - s) * i - D)).
  { assert (A' : (n | i * (r + s) - 1)) by (apply Z.mod_divide; [lia|]; rewrite Zminus_mod, Ei1, (Z.mod_small 1) by lia; apply Z.mod_0_l; lia).
    replace ((k - s) * i - D) with (D * (i * (r + s) - 1) - i * ((r + s) * D - (k - s))) by ring.
    apply Z.divide_sub_r; apply Z.divide_mul_r; auto. }
  apply Z.mod_divide in D5; [|lia]. rewrite <- (Z.sub_add D ((k - s) * i)). rewrite Zplus_mod, D5, Z.add_0_l, Z.mod_mod by lia.
  symmetry. apply Z.mod_small. lia.
Qed.
Print Assumptions C127_nonce_known.

Lemma xor_bytes_common : forall a x y, List.length x = List.length a -> List.length y = List.length a ->
  xor_bytes (xor_bytes a x) (xor_bytes a y) = xor_bytes x y.
Proof.
  unfold xor_bytes. induction a as [|a0 a IH]; intros [|x0 x] [|y0 y] Hx Hy; cbn in *; try lia; auto.
  f_equal; [|apply IH; lia]. rewrite Z.lxor_assoc, <- (Z.lxor_assoc x0), (Z.lxor_comm x0), Z.lxor_assoc, <- (Z.lxor_assoc a0), Z.lxor_nilpotent.
  apply Z.lxor_0_l.
Qed.
(** Two messages of one length encrypted for one key with the same random bytes: the two ciphertexts use the same bytes and agree
    in C1, and the xor of their last parts is the xor of the messages. *)
Theorem C127_keystream_reuse : forall rand pub m1 m2 c1 c2 rest1 rest2,
  bytes_ok m1 -> bytes_ok m2 -> List.length m1 = List.length m2 ->
  Encryt rand pub m1 = Ret (c1, rest1) -> Encryt rand pub m2 = Ret (c2, rest2) ->
  rest1 = rest2 /\ firstn 65 c1 = firstn 65 c2 /\ xor_bytes (skipn 97 c1) (skipn 97 c2) = xor_bytes m1 m2.
Proof.
  intros rand pub m1 m2 c1 c2 rest1 rest2 H1 H2 HL. induction rand as [l Hl|b tl Hb IH] using reads_ind.
  - intros E. exfalso. destruct (Encryt_short l pub m1 Hl) as [F|F]; rewrite F in E; discriminate E.
  - destruct (shared_exists pub (nonce_of b)) as [S HS].
    rewrite (Encryt_read b tl pub m1 S Hb H1 HS), (Encryt_read b tl pub m2 S Hb H2 HS). rewrite <- HL.
    destruct (nonzero (stream (List.length m1) S)); [|exact IH].
    destruct (good_lenb (List.length m1) && full_coords (nonce_of b ⊗ G)) eqn:OK; [|discriminate].
    apply andb_true_iff in OK. destruct OK as [OK1 _]. apply good_lenb_spec in OK1.
    pose proof (kdf_code_len_good _ (b32 (xcoord S) ++ b32 (ycoord S)) OK1) as Lt. fold (stream (List.length m1) S) in Lt.
    set (X := b32 (xcoord (nonce_of b ⊗ G))). set (Y := b32 (ycoord (nonce_of b ⊗ G))).
    assert (LX : List.length X = 32%nat) by apply b32_len. assert (LY : List.length Y = 32%nat) by apply b32_len.
    assert (LC : forall m, List.length (c3_of S m) = 32%nat) by (intros m; apply SM3_length).
    assert (L1 := LC m1). assert (L2 := LC m2). set (t := stream (List.length m1) S) in *. set (h1 := c3_of S m1) in *. set (h2 := c3_of S m2) in *.
    clearbody X Y t h1 h2. intros [= <- <-] [= <- <-]. split; [reflexivity|].
    assert (F : forall h c : bytes, firstn 65 (4 :: X ++ Y ++ h ++ c) = 4 :: X ++ Y).
    { intros h c. rewrite app_assoc. assert (G1 : forall l : bytes, firstn 65 (4 :: l) = 4 :: firstn 64 l) by reflexivity.
      rewrite G1. f_equal. rewrite firstn_app, app_length, LX, LY.
      rewrite firstn_all2 by (rewrite app_length; lia). cbn [Nat.sub Nat.add firstn]. apply app_nil_r. }
    assert (K : forall h c : bytes, List.length h = 32%nat -> skipn 97 (4 :: X ++ Y ++ h ++ c) = c).
    { intros h c Lh. assert (G1 : forall l : bytes, skipn 97 (4 :: l) = skipn 96 l) by reflexivity. rewrite G1, !app_assoc. rewrite skipn_app. rewrite skipn_all2 by (rewrite !app_length; lia).
      rewrite !app_length, LX, LY, Lh. reflexivity. }
    split; [rewrite !F; reflexivity|]. rewrite !K by assumption. apply xor_bytes_common; lia.
Qed.
Print Assumptions C127_keystream_reuse.

(** two digests signed, two messages encrypted with the same 40 zero bytes (nonce 1) *)
Definition sig_a : Z * Z := Eval vm_compute in match SignDigestRS (repeat 0 40) key1 [7] with Ret (r, s, _) => (r, s) | _ => (0, 0) end.
Definition sig_b : Z * Z := Eval vm_compute in match SignDigestRS (repeat 0 40) key1 [8] with Ret (r, s, _) => (r, s) | _ => (0, 0) end.
Example C127_nonvacuous : 0 <= sk_D key1 < sm2_N /\ SignDigestRS (repeat 0 40) key1 [7] = Ret (fst sig_a, snd sig_a, []) /\ SignDigestRS (repeat 0 40) key1 [8] = Ret (fst sig_b, snd sig_b, []) /\ be_to_Z [7] mod sm2_N <> be_to_Z [8] mod sm2_N /\ sk_D key1 <> 0.
Proof. split; [now compute|]. split; [vm_compute; reflexivity|]. split; [vm_compute; reflexivity|]. split; now compute. Qed.
Definition enc_a : bytes := Eval vm_compute in match Encryt (repeat 0 40) (sk_Pub key1) [1; 2; 3] with Ret (c, _) => c | _ => [] end.
Definition enc_b : bytes := Eval vm_compute in match Encryt (repeat 0 40) (sk_Pub key1) [4; 4; 4] with Ret (c, _) => c | _ => [] end.
Example C127_nonvacuous_enc : Encryt (repeat 0 40) (sk_Pub key1) [1; 2; 3] = Ret (enc_a, []) /\ Encryt (repeat 0 40) (sk_Pub key1) [4; 4; 4] = Ret (enc_b, []) /\ xor_bytes (skipn 97 enc_a) (skipn 97 enc_b) = [5; 6; 7].
Proof. split; [vm_compute; reflexivity|]. split; [vm_compute; reflexivity|]. reflexivity. Qed.
