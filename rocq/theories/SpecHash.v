(** Specification of hashing to a point: the stream of big-endian 16-bit words
    of an extendable-output function and the coefficients it determines. *)
From Verif Require Import GoBase Xof Spec.

Section SpecHash.
Variable X : XOF.

(** the next word of the stream *)
Definition word_of (r : Z * Z * xst X) : Z := 256 * fst (fst r) + snd (fst r).
(** the first k words of the stream *)
Fixpoint xwords (k : nat) (s : xst X) : list Z :=
  match k with
  | O => []
  | S k => word_of (xread2 X s) :: xwords k (snd (xread2 X s))
  end.
(** the state after absorbing the salt, then the message *)
Definition absorbed (message salt : list Z) : xst X :=
  xwrite X (xwrite X (xnew X) salt) message.

(** c consists of the first n coefficients the stream determines *)
Definition hash_point (n : nat) (message salt c : list Z) : Prop :=
  length c = n /\ exists k, c = accepted (xwords k (absorbed message salt)).

(** What Verify decides: the body of the signature (bytes 41..) starts with the
    code of some 512 integers; with s1 these integers as int16 values, c the hash
    point of the message under the salt (bytes 1..40) and s0 = c - s1*h centred,
    the squared norm of (s0, s1), MODULO 2^32, is at most the bound. *)
Definition verify_accepts (h msg sig : list Z) : Prop :=
  exists ss1 c, decodes (skipn 41 sig) 625 512 ss1 /\
    hash_point 512 msg (firstn 40 (skipn 1 sig)) c /\
    let s1 := map int16_of ss1 in
    (sqnorm (falcon_s0 512 (firstn 512 h) c s1) + sqnorm s1) mod 2 ^ 32 <= beta2_512.

End SpecHash.
