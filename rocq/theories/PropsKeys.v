(** Property theorems about keys and parameters (C20-C24). *)
From Verif Require Import GoBase Util Ntt Params Falcon Spec PolyZ BaseProofs NttProofs FalconProofs
  KeyProofs VerifyProofs2 Witness NttProps.

(** C20 *)
Theorem C20_public_key : forall sk n, valid_degree n ->
  length (sk_f sk) = n -> length (sk_g sk) = n -> int16s (sk_f sk) -> int16s (sk_g sk) ->
  invertible_mod_q n (sk_f sk) ->
  exists h, GetPublicKey wrap64 sk = Ok {| pk_n := sk_n sk; pk_h := h |} /\
    length h = n /\ Forall (fun c => 0 <= c < q) h /\
    pmod q (negacyc n h (sk_f sk)) = pmod q (sk_g sk) /\
    (forall h', length h' = n -> Forall (fun c => 0 <= c < q) h' ->
       pmod q (negacyc n h' (sk_f sk)) = pmod q (sk_g sk) -> h' = h).
Proof. exact (GetPublicKey_ok wrap64 id64). Qed.
Print Assumptions C20_public_key.
Definition C20_sk := {| sk_n := 4; sk_f := [1; 2; 0; -1]; sk_g := [3; -1; 4; 1]; sk_F := []; sk_G := [] |}.
Example C20_nonvacuous : valid_degree 4 /\ int16s (sk_f C20_sk) /\ int16s (sk_g C20_sk) /\ invertible_mod_q 4 (sk_f C20_sk).
Proof.
  assert (D : valid_degree 4) by (exists 2%nat; split; [lia|reflexivity]).
  split; [exact D|]. split; [apply int16s_dec; reflexivity|]. split; [apply int16s_dec; reflexivity|].
  destruct (invertible_mod_q_dec 4 (sk_f C20_sk) D eq_refl) as [H|H]; [exact H|exfalso].
  pose proof (DivZq64_err 4 [1; 2; 3; 4] (sk_f C20_sk) D eq_refl eq_refl ltac:(apply int16s_dec; reflexivity) ltac:(apply int16s_dec; reflexivity) H) as E.
  vm_compute in E. discriminate.
Qed.

(** C21: false. For EVERY key whose f is not invertible GetPublicKey returns a
    public key with h = nil. *)
Theorem C21_unusable_key_refuted : forall sk n, valid_degree n ->
  length (sk_f sk) = n -> length (sk_g sk) = n -> int16s (sk_f sk) -> int16s (sk_g sk) ->
  ~ invertible_mod_q n (sk_f sk) ->
  GetPublicKey wrap64 sk = Ok {| pk_n := sk_n sk; pk_h := [] |}.
Proof. exact (GetPublicKey_noninv wrap64 id64). Qed.
Print Assumptions C21_unusable_key_refuted.
Theorem C21_witness_refuted : exists sk, GetPrivateKey 2 (sk_f sk) (sk_g sk) (sk_F sk) (sk_G sk) = Ok sk /\
  ~ invertible_mod_q 2 (sk_f sk) /\ GetPublicKey wrap64 sk = Ok {| pk_n := 2; pk_h := [] |}.
Proof.
  exists {| sk_n := 2; sk_f := [0; 0]; sk_g := [1; 2]; sk_F := [3; 4]; sk_G := [5; 6] |}.
  assert (D2 : valid_degree 2) by (exists 1%nat; split; [lia|reflexivity]).
  split; [reflexivity|]. split; [|reflexivity]. intros H.
  destruct (DivZq64 2 [1; 2] [0; 0] D2 eq_refl eq_refl ltac:(apply int16s_dec; reflexivity) ltac:(apply int16s_dec; reflexivity) H) as [h [E _]].
  vm_compute in E. discriminate.
Qed.
Print Assumptions C21_witness_refuted.

(** C22 (the part about lookups and GetPrivateKey; key pairs are in PropsKeyGen) *)
Theorem C22_valid_degree : forall n, 0 <= n -> isValidDegree n = true <-> valid_degree (Z.to_nat n).
Proof. exact isValidDegree_spec. Qed.
Print Assumptions C22_valid_degree.
Theorem C22_degrees : forall n, valid_degree n <-> In (Z.of_nat n) [2; 4; 8; 16; 32; 64; 128; 256; 512; 1024].
Proof. exact valid_degree_list. Qed.
Print Assumptions C22_degrees.
Theorem C22_get_private_key : forall n f g F G, 0 <= n ->
  GetPrivateKey n f g F G = Err ErrInvalidDegree <-> ~ valid_degree (Z.to_nat n).
Proof. exact GetPrivateKey_degree. Qed.
Print Assumptions C22_get_private_key.
Theorem C22_param_set : forall n, 0 <= n ->
  (valid_degree (Z.to_nat n) -> p_n (GetParamSet n) = n) /\
  (~ valid_degree (Z.to_nat n) -> GetParamSet n = zero_params).
Proof. exact GetParamSet_spec. Qed.
Print Assumptions C22_param_set.
(** sigma = m * 2^-45 exactly; sigbound = floor(1.21 * 2n * sigma^2) *)
Theorem C22_sigbound : forall n, 0 <= n -> valid_degree (Z.to_nat n) ->
  let p := GetParamSet n in
  snd (p_sigma p) = -45 /\ fst (p_sigma p) > 0 /\
  p_sigbound p = (121 * (2 * n) * (fst (p_sigma p) * fst (p_sigma p))) / (100 * 2 ^ 90).
Proof. exact sigbound_spec. Qed.
Print Assumptions C22_sigbound.
Example C22_nonvacuous : isValidDegree 512 = true /\ isValidDegree 513 = false /\
  p_sigbound (GetParamSet 512) = 34034726 /\ p_sigbound (GetParamSet 3) = 0.
Proof. repeat split. Qed.

(** C23: false. Full statement: GetPrivateKey n f g F G = Ok sk -> all four have length n. *)
Theorem C23_lengths_refuted : exists n f g F G sk, GetPrivateKey n f g F G = Ok sk /\
  valid_degree (Z.to_nat n) /\
  Z.of_nat (length f) <> n /\ Z.of_nat (length g) <> n /\ Z.of_nat (length F) <> n /\ Z.of_nat (length G) <> n.
Proof.
  exists 2, [1; 2; 3; 4; 5; 6; 7; 8], [], [], []. eexists. split; [reflexivity|].
  split; [apply valid_degree_list; cbn; tauto|]. cbn [length]. lia.
Qed.
Print Assumptions C23_lengths_refuted.
(** What is checked, exactly. Missing: the individual lengths. *)
Theorem C23_lengths_partial : forall n f g F G sk, 0 <= n ->
  GetPrivateKey n f g F G = Ok sk <->
  valid_degree (Z.to_nat n) /\
  (Z.of_nat (length f + length g + length F + length G)) mod (4 * n) = 0 /\
  sk = {| sk_n := n; sk_f := f; sk_g := g; sk_F := F; sk_G := G |}.
Proof. exact GetPrivateKey_iff. Qed.
Print Assumptions C23_lengths_partial.

(** C24 *)
Theorem C24_accepts : forall n f g F G, 0 <= n -> valid_degree (Z.to_nat n) ->
  length f = Z.to_nat n -> length g = Z.to_nat n -> length F = Z.to_nat n -> length G = Z.to_nat n ->
  GetPrivateKey n f g F G = Ok {| sk_n := n; sk_f := f; sk_g := g; sk_F := F; sk_G := G |}.
Proof. exact GetPrivateKey_accepts. Qed.
Print Assumptions C24_accepts.
Example C24_nonvacuous : GetPrivateKey 2 [1; 2] [3; 4] [5; 6] [7; 8] =
  Ok {| sk_n := 2; sk_f := [1; 2]; sk_g := [3; 4]; sk_F := [5; 6]; sk_G := [7; 8] |}.
Proof. reflexivity. Qed.
