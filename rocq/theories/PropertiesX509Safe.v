(** * C90: the certificate parser never panics *)
From Coq Require Import String ZifyBool ZifyNat.
From Verif Require Import Base Words Utf8 BMPModel ECModel SM2Model CryptoByte Asn1 Asn1Proofs Asn1Safe KeysModel KeysProofs P12Enc X509Model X509Sig X509Build X509Proofs X509ExtProofs X509CertProofs X509Safe PropertiesX509Cert.
Open Scope Z_scope.

Lemma np_AI : np cAI. Proof. apply np_struct. apply fnp_cons; [apply np_oid|]. apply fnp_cons; [apply np_raw|apply fnp_nil]. Qed.
Lemma np_PSS : np cPSS. Proof. apply np_struct. repeat (apply fnp_cons; [try apply np_AI; apply np_int|]). apply fnp_nil. Qed.

(** whatever the bytes and whatever the IP and URL parsers answer, parsing one or many certificates returns or reports
    an error: no index out of range, no nil dereference, no slice beyond its end *)
Theorem C90_no_panic : forall net der, bytes_ok der -> ParseCertificate net der <> Panic /\ ParseCertificates net der <> Panic.
Proof.
  intros net der Hb. split.
  - unfold ParseCertificate. apply bind_np; [now apply parseCertificate_np|]. intros c _. destruct (negb _); discriminate.
  - unfold ParseCertificates. apply many_safe; [|exact Hb]. split.
    + intros s Hs. apply bind_np; [now apply parseCertificate_np|]. discriminate.
    + intros s c r Hs E. apply bind_inv in E as (c' & P & E). assert (skipn (List.length (c_Raw c')) s = r) as <- by congruence.
      apply parse_inv in P as (rest & ? & ? & ? & ? & ? & ? & ? & ? & ? & ? & E' & L & _); [|exact Hs]. subst s. rewrite skipn_len_app. apply bytes_ok_app in Hs as [_ Hr]. split; [exact Hr|].
      rewrite app_length, (lo_raw _ _ _ _ _ _ _ _ _ _ _ _ L). unfold tlv. cbn [List.length]. lia.
Qed.
Print Assumptions C90_no_panic.
(** the parameters of a signature algorithm, which the parser decodes when it classifies an RSA-PSS signature, cannot
    make it panic either *)
Theorem C90_parameters : forall s, Unmarshal cPSS s <> Panic /\ Unmarshal cAI s <> Panic.
Proof. intros s. split; apply np_unmarshal; [apply np_PSS|apply np_AI]. Qed.
Print Assumptions C90_parameters.
(** the parser does meet both outcomes *)
Example C90_instance : (exists c, ParseCertificate net0 example_der = Ret c) /\ ParseCertificate net0 [0x30; 0x82] = Err "x509: malformed certificate".
Proof. split; [eexists|]; vm_compute; reflexivity. Qed.
