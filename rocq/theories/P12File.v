(** * pkcs12/pkcs12.go: writing and reading the PFX file *)
From Coq Require Import String.
From Verif Require Import Base SM2Model KeysModel P12Spec P12Model.
Open Scope Z_scope.

(** what happens to one ioutil.WriteFile (pkcs12.go:556, mode 0666): the file is opened with O_TRUNC, then written.  [NotOpened]: open
    fails, or the process dies before it.  [Torn n]: the file was truncated and n bytes reached it, then a write or the close failed, or
    the process died.  [Written]: nil is returned.  Simplification: a file keeps a prefix of what was written to it, and nobody else
    writes to it. *)
Inductive fate := NotOpened | Torn (n : nat) | Written.
(** the file afterwards (None: it does not exist), and whether nil was returned *)
Definition WriteFile (f : fate) (data : bytes) (old : option bytes) : option bytes * outcome unit :=
  match f with
  | NotOpened => (old, Err "open")
  | Torn n => (Some (firstn n data), Err "write")
  | Written => (Some data, Ret tt)
  end.
(** pkcs12.go:551-558 *)
Definition SM2P12Encrypt (P : prims) (rnd : bytes) (key : privKey) (certRaw pwd : bytes) (f : fate) (old : option bytes) : option bytes * outcome unit :=
  match Encode P rnd key certRaw [] pwd with
  | Panic => (old, Panic)
  | Err e => (old, Err e)
  | Ret pfxDataNew => WriteFile f pfxDataNew old
  end.
(** a history of calls with the same file name, each with its own fate *)
Record encryptCall := mkCall { ec_rnd : bytes; ec_D : Z; ec_cert : bytes; ec_pwd : bytes; ec_fate : fate }.
Definition run_call (P : prims) (key_of : Z -> privKey) (file : option bytes) (c : encryptCall) : option bytes :=
  fst (SM2P12Encrypt P (ec_rnd c) (key_of (ec_D c)) (ec_cert c) (ec_pwd c) (ec_fate c) file).
Definition run_history (P : prims) (key_of : Z -> privKey) (file : option bytes) (h : list encryptCall) : option bytes := fold_left (run_call P key_of) h file.
