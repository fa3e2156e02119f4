(** * Property C83 continued (package x509): the octets MarshalPKCS1PrivateKey writes are RFC 8017's RSAPrivateKey *)
From Coq Require Import String Znumtheory.
From Verif Require Import Base Words ECModel NumTheory SM2Model CryptoByte Asn1 Asn1Proofs KeysModel KeysProofs P12Enc.
From Coq Require Import ZifyBool ZifyNat.
Open Scope Z_scope.

(** ** Specification.  DER INTEGER and SEQUENCE (el writes identifier, length and contents octets) *)
Definition INT (n : Z) : bytes := el 0 2 false (bigint_content n).
Definition SEQ (b : bytes) : bytes := el 0 16 true b.
(** RFC 8017 A.1.2: OtherPrimeInfo (r_i, d_i, t_i) of the primes after the second one.  R is the product of all earlier
    primes; d_i = d mod (r_i - 1); t_i is the inverse of R modulo r_i. *)
Inductive otherPrimeInfos (d : Z) : Z -> list Z -> bytes -> Prop :=
  | opi_nil R : otherPrimeInfos d R [] []
  | opi_cons R r rs t tl : 0 <= t < r -> (t * R) mod r = 1 -> otherPrimeInfos d (R * r) rs tl ->
      otherPrimeInfos d R (r :: rs) (SEQ (INT r ++ INT (d mod (r - 1)) ++ INT t) ++ tl).

Lemma mk_big n : makeField cBig noP (Some n) = Ret (INT n). Proof. reflexivity. Qed.
Lemma mk_big_opt n : makeField cBig optP (Some n) = Ret (INT n). Proof. reflexivity. Qed.
Lemma crt_enc d : forall add R, Forall prime add -> NoDup add -> (forall r, In r add -> rel_prime r R) ->
  exists es, mapM (makeField cAP noP) (crt_values d R add) = Ret es /\ otherPrimeInfos d R add (List.concat es).
Proof.
  induction add as [|r add IH]; intros R Hp Hn Hr.
  - exists []. split; [reflexivity|constructor].
  - inversion Hp as [|? ? Pr Hp']; subst. inversion Hn as [|? ? Nr Hn']; subst. pose proof (prime_ge_2 _ Pr).
    assert (Hc : rel_prime r R) by (apply Hr; left; reflexivity).
    destruct (ModInverse_prime R r Pr) as (t & Et & Rt & It).
    { intros Z0. apply Z.mod_divide in Z0; [|lia]. destruct Hc as [_ _ Hg]. specialize (Hg r ltac:(apply Z.divide_refl) Z0). apply Z.divide_1_r in Hg. lia. }
    destruct (IH (R * r) Hp' Hn') as (es & Ees & Hes).
    { intros s Hs. apply rel_prime_mult; [apply Hr; right; exact Hs|]. apply prime_rel_prime; [rewrite Forall_forall in Hp'; auto|].
      intros Hd. apply prime_div_prime in Hd; [|rewrite Forall_forall in Hp'; auto|exact Pr]. subst. contradiction. }
    cbn [crt_values mapM]. rewrite Et.
    assert (E1 : makeField cAP noP (mkAP (Some r) (Some (d mod (r - 1))) (Some t)) = Ret (SEQ (INT r ++ INT (d mod (r - 1)) ++ INT t))).
    { apply mk_struct. cbn [ap_Prime ap_Exp ap_Coeff]. apply f_cons; [apply mk_big|]. apply f_cons; [apply mk_big|]. apply f_one. apply mk_big. }
    rewrite E1. cbn [bind]. rewrite Ees. cbn [bind]. exists (SEQ (INT r ++ INT (d mod (r - 1)) ++ INT t) :: es). split; [reflexivity|].
    cbn [List.concat]. econstructor; eauto.
Qed.

(** A key whose primes are distinct primes is always encoded, as version (0 for two primes, 1 for more), N, E, D, p, q,
    D mod (p-1), D mod (q-1), the inverse of q modulo p, and, only for more than two primes, the other prime infos. *)
Theorem C83_encoding : forall N E D p q add, Forall prime (p :: q :: add) -> NoDup (p :: q :: add) ->
  exists der qinv infos, MarshalPKCS1PrivateKey (mkRsa N E D (p :: q :: add)) = Ret der /\
    0 <= qinv < p /\ (qinv * q) mod p = 1 /\ otherPrimeInfos D (p * q) add infos /\
    der = SEQ (INT (match add with [] => 0 | _ => 1 end) ++ INT N ++ INT E ++ INT D ++ INT p ++ INT q ++
               INT (D mod (p - 1)) ++ INT (D mod (q - 1)) ++ INT qinv ++ match add with [] => [] | _ => SEQ infos end).
Proof.
  intros N E D p q add Hp Hn. inversion Hp as [|? ? Pp Hp']; subst. inversion Hp' as [|? ? Pq Ha]; subst.
  inversion Hn as [|? ? Np Hn']; subst. inversion Hn' as [|? ? Nq Hna]; subst. pose proof (prime_ge_2 _ Pp).
  assert (Dist : forall a b, prime a -> prime b -> a <> b -> rel_prime a b).
  { intros a b A B Nab. apply prime_rel_prime; [exact A|]. intros Hd. apply prime_div_prime in Hd; auto. }
  destruct (ModInverse_prime q p Pp) as (qi & Eq1 & Rq & Iq).
  { intros Z0. apply Z.mod_divide in Z0; [|lia]. apply prime_div_prime in Z0; [|exact Pp|exact Pq]. subst. apply Np. left; reflexivity. }
  destruct (crt_enc D add (p * q) Ha Hna) as (es & Ees & Hes).
  { intros r Hr. rewrite Forall_forall in Ha. apply rel_prime_mult; apply Dist; auto; intros ->; [apply Np; right; exact Hr|apply Nq; exact Hr]. }
  unfold MarshalPKCS1PrivateKey. cbn [rsa_Primes rsa_N rsa_D rsa_E]. cbv zeta. rewrite Eq1.
  assert (EA : makeField (cSeqOf false cAP) omitP (Some (crt_values D (p * q) add)) = Ret (match add with [] => [] | _ => SEQ (List.concat es) end)).
  { destruct add as [|r add]; [reflexivity|]. unfold SEQ. transitivity (makeField (cSeqOf false cAP) noP (Some (crt_values D (p * q) (r :: add)))); [|exact (mk_seq cAP _ _ Ees)]. reflexivity. }
  set (infos := match add with [] => [] | _ => SEQ (List.concat es) end) in *.
  match goal with |- context [Marshal cP1 ?k] => assert (EM : Marshal cP1 k = Ret (SEQ (INT (match add with [] => 0 | _ => 1 end) ++ INT N ++ INT E ++ INT D ++ INT p ++ INT q ++
     INT (D mod (p - 1)) ++ INT (D mod (q - 1)) ++ INT qi ++ infos))) end.
  { unfold Marshal. apply mk_struct. cbn [p1_Version p1_N p1_E p1_D p1_P p1_Q p1_Dp p1_Dq p1_Qinv p1_Add].
    apply f_cons; [apply mk_int|]. apply f_cons; [apply mk_big|]. apply f_cons; [apply mk_int|]. do 3 (apply f_cons; [apply mk_big|]).
    do 3 (apply f_cons; [apply mk_big_opt|]). apply f_one. exact EA. }
  rewrite EM. exists (SEQ (INT (match add with [] => 0 | _ => 1 end) ++ INT N ++ INT E ++ INT D ++ INT p ++ INT q ++
     INT (D mod (p - 1)) ++ INT (D mod (q - 1)) ++ INT qi ++ infos)), qi, (List.concat es).
  split; [reflexivity|]. split; [exact Rq|]. split; [exact Iq|]. split; [exact Hes|]. reflexivity.
Qed.
Print Assumptions C83_encoding.
(** the toy key of C83_instance, with three primes: 33 * 7 = 231 = 1 modulo 23 *)
Example C83_encoding_instance : MarshalPKCS1PrivateKey (mkRsa 759 7 63 [3; 11; 23]) =
  Ret (SEQ (INT 1 ++ INT 759 ++ INT 7 ++ INT 63 ++ INT 3 ++ INT 11 ++ INT 1 ++ INT 3 ++ INT 2 ++ SEQ (SEQ (INT 23 ++ INT 19 ++ INT 7)))).
Proof. vm_compute. reflexivity. Qed.
