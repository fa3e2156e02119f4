(** * Properties C01-C04 (package sm3) *)
From Verif Require Import Base SM3Spec SM3Model SM3Proofs.
From Coq Require Import ZifyBool ZifyNat.

(** C01: sm3.Sum is the SM3 function of GB/T 32905, for every byte string (the standard
    defines it below 2^61 bytes; beyond that both sides use the length modulo 2^64). *)
Theorem C01_sum_is_SM3 : forall data, bytes_ok data -> sm3_Sum data = Ret (SM3 data).
Proof. exact sm3_Sum_correct. Qed.
Print Assumptions C01_sum_is_SM3.

(** known-answer test of both sides: GB/T 32905 example 1 *)
Example C01_abc : bytes_ok [97; 98; 99] /\
  SM3 [97; 98; 99] = Z_to_be 32 0x66c7f0f462eeedd9d1f2d46bdc10e4e24167c4875cf2f7a2297da02b8f4ba8e0.
Proof. split; [apply bytes_okb_spec; reflexivity | vm_compute; reflexivity]. Qed.
(** GB/T 32905 example 2: 16 times "abcd", a message of exactly one block *)
Example C01_abcd16 :
  SM3 (List.concat (repeat [97; 98; 99; 100] 16))
  = Z_to_be 32 0xdebe9ff92275b8a138604889c18e5a4d6fdb70e5387e5765293dcba39c0c5732.
Proof. vm_compute; reflexivity. Qed.

(** C02: chunking is irrelevant *)
Theorem C02_chunking : forall (chunks : list bytes) (inp : bytes),
  Forall bytes_ok chunks ->
  sm3_run sm3_New (map OpWrite chunks ++ [OpSum inp])
  = map (fun p => OutCount (zlen p)) chunks ++ [OutBytes (inp ++ SM3 (List.concat chunks))].
Proof. exact sm3_chunking. Qed.
Print Assumptions C02_chunking.
Example C02_nonvacuous : Forall bytes_ok [[1; 2]; []; repeat 7 200; [255]].
Proof. ok_list. Qed.

(** C03: every history refines "the bytes written since the last Reset" *)
Theorem C03_history : forall ops, Forall op_ok ops ->
  sm3_run sm3_New ops = sm3_history_spec [] ops.
Proof. exact sm3_history. Qed.
Print Assumptions C03_history.
Example C03_nonvacuous :
  Forall op_ok [OpWrite [1]; OpSum []; OpReset; OpWrite (repeat 3 70); OpSum [9]; OpWrite [2]; OpSum []].
Proof. ok_list; exact I. Qed.

(** C04: no call of any history panics; Write reports its length; Sum appends 32 bytes *)
Theorem C04_no_panic_sizes : forall ops, Forall op_ok ops ->
  Forall2 (fun op out =>
    match op, out with
    | OpWrite p, OutCount n => n = zlen p
    | OpSum i, OutBytes b => exists h, b = i ++ h /\ List.length h = 32%nat /\ bytes_ok h
    | OpReset, OutUnit => True
    | _, _ => False
    end) ops (sm3_run sm3_New ops).
Proof. exact sm3_sizes. Qed.
Print Assumptions C04_no_panic_sizes.
(** The exported constants, which Size() and BlockSize() return (sm3.go:53-55): every digest has Size bytes, and the
    standard's padding fills whole blocks of BlockSize bytes, as few as the nine octets it must add allow. *)
Theorem C04_constants : forall data, bytes_ok data ->
  (forall d, sm3_Sum data = Ret d -> zlen d = sm3_Size) /\
  zlen (spec_pad data) mod sm3_BlockSize = 0 /\ zlen data + 9 <= zlen (spec_pad data) < zlen data + 9 + sm3_BlockSize.
Proof.
  intros data H. split.
  - intros d E. rewrite (sm3_Sum_correct data H) in E. injection E as <-. pose proof (sm3_sizes [OpWrite data; OpSum []]) as Q.
    rewrite sm3_history in Q by (repeat constructor; assumption). specialize (Q ltac:(repeat constructor; assumption)).
    cbn [sm3_history_spec] in Q. assert (K : forall A B (R : A -> B -> Prop) a b l m, Forall2 R (a :: l) (b :: m) -> R a b /\ Forall2 R l m) by (intros A B R a b l m F; inversion F; auto).
    apply K in Q as [_ Q]. apply K in Q as [(h & Eh & Lh & _) _]. cbn [app] in Eh. rewrite Eh. unfold zlen. rewrite Lh. reflexivity.
  - assert (L : zlen (spec_pad data) = zlen data + 1 + spec_zeros (zlen data) + 8).
    { unfold spec_pad. rewrite !zlen_app, Z_to_be_zlen. replace (zlen (repeat 0 (Z.to_nat (spec_zeros (zlen data))))) with (spec_zeros (zlen data)) by (unfold zlen at 2; rewrite repeat_length; unfold spec_zeros; lia). change (zlen [128]) with 1. lia. }
    rewrite L. unfold sm3_BlockSize. unfold spec_zeros. split; lia.
Qed.
Print Assumptions C04_constants.
Example C04_constants_instance : bytes_ok (repeat 5 55) /\ zlen (spec_pad (repeat 5 55)) = 64 /\ zlen (spec_pad (repeat 5 56)) = 128.
Proof. split; [apply bytes_okb_spec; reflexivity|]. split; vm_compute; reflexivity. Qed.
