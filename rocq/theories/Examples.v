(** Concrete extendable-output functions and inputs used by the non-vacuity
    examples and the refutations. *)
From Verif Require Import GoBase Util Ntt Encoding Params Xof Falcon Spec SpecHash.

(** constant zero output *)
Lemma zero_bytes (s : unit) : is_byte (fst (fst (0, 0, s))) /\ is_byte (snd (fst (0, 0, s))).
Proof. cbn [fst snd]. unfold is_byte. lia. Qed.
Definition zeroXOF : XOF :=
  {| xst := unit; xnew := tt; xwrite := fun _ _ => tt; xread2 := fun s => (0, 0, s); xread2_bytes := zero_bytes |}.

(** a small hash with a linear congruential output stream *)
Definition toy_step (s : Z) : Z := (s * 25173 + 13849) mod 65536.
Lemma toy_bytes (s : Z) : is_byte (fst (fst (s mod 65536 / 256, s mod 256, toy_step s))) /\
  is_byte (snd (fst (s mod 65536 / 256, s mod 256, toy_step s))).
Proof.
  cbn [fst snd]. unfold is_byte. clear. pose proof (Z.mod_pos_bound s 65536 ltac:(lia)).
  pose proof (Z.mod_pos_bound s 256 ltac:(lia)).
  split; [|lia]. split; [apply Z.div_pos; lia|].
  assert (s mod 65536 / 256 < 256) by (apply Z.div_lt_upper_bound; lia). lia.
Qed.
Definition toyXOF : XOF :=
  {| xst := Z; xnew := 1; xwrite := fun s l => fold_left (fun s b => (s * 31 + b + 7) mod 65536) l s;
     xread2 := fun s => (s mod 65536 / 256, s mod 256, toy_step s); xread2_bytes := toy_bytes |}.

Definition ex_salt : list Z := map (fun i => Z.of_nat i * 5 mod 256) (seq 0 40).
Definition ex_msg : list Z := [104; 101; 108; 108; 111].
