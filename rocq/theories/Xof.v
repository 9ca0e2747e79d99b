(** golang.org/x/crypto/sha3 (external): a SHAKE256 object is an arbitrary state
    machine with Write and a Read that fills a two-byte buffer. *)
From Verif Require Import GoBase.

Record XOF : Type := {
  xst : Type;
  xnew : xst;
  xwrite : xst -> list Z -> xst;
  xread2 : xst -> Z * Z * xst;
  xread2_bytes : forall s, is_byte (fst (fst (xread2 s))) /\ is_byte (snd (fst (xread2 s)))
}.
