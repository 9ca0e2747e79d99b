(** Keys and parameter sets. *)
From Verif Require Import GoBase Util Ntt Params Falcon Spec PolyZ BaseProofs NttProofs.

(** ** degrees *)
Lemma valid_degree_list n : valid_degree n <-> In (Z.of_nat n) [2; 4; 8; 16; 32; 64; 128; 256; 512; 1024].
Proof.
  split.
  - intros [k [Hk ->]]. destruct Hk as [H1 H2].
    do 11 (destruct k as [|k]; [try lia; cbn; tauto|]). lia.
  - intros H. cbn [In] in H.
    assert (E : (n = 2 ^ 1 \/ n = 2 ^ 2 \/ n = 2 ^ 3 \/ n = 2 ^ 4 \/ n = 2 ^ 5 \/ n = 2 ^ 6 \/ n = 2 ^ 7 \/ n = 2 ^ 8 \/ n = 2 ^ 9 \/ n = 2 ^ 10)%nat).
    { cbn [Nat.pow Nat.mul Nat.add]. lia. }
    unfold valid_degree. repeat (destruct E as [->|E]; [eexists; split; [|reflexivity]; lia|]).
    subst n. eexists. split; [|reflexivity]. lia.
Qed.

Lemma isValidDegree_spec n : 0 <= n -> isValidDegree n = true <-> valid_degree (Z.to_nat n).
Proof.
  intros Hn. rewrite valid_degree_list, Z2Nat.id by assumption. unfold isValidDegree, ParamSets. cbn [In].
  repeat (match goal with |- context [n =? ?c] => destruct (Z.eqb_spec n c); [subst n; split; [tauto|reflexivity]|] end).
  split; [discriminate|]. intros H. lia.
Qed.

Lemma GetParamSet_spec n : 0 <= n ->
  (valid_degree (Z.to_nat n) -> p_n (GetParamSet n) = n) /\
  (~ valid_degree (Z.to_nat n) -> GetParamSet n = zero_params).
Proof.
  intros Hn. split; intros H.
  - apply valid_degree_list in H. rewrite Z2Nat.id in H by assumption. cbn [In] in H.
    repeat (destruct H as [<-|H]; [reflexivity|]). contradiction.
  - rewrite <- isValidDegree_spec in H by assumption. unfold GetParamSet.
    destruct (isValidDegree n); [contradiction H; reflexivity|reflexivity].
Qed.

(** sigma = m * 2^(-45) exactly; sigbound = floor (1.21 * 2n * sigma^2) *)
Lemma sigbound_spec n : 0 <= n -> valid_degree (Z.to_nat n) ->
  let p := GetParamSet n in
  snd (p_sigma p) = -45 /\ fst (p_sigma p) > 0 /\
  p_sigbound p = (121 * (2 * n) * (fst (p_sigma p) * fst (p_sigma p))) / (100 * 2 ^ 90).
Proof.
  intros Hn H. apply valid_degree_list in H. rewrite Z2Nat.id in H by assumption. cbn [In] in H.
  repeat (destruct H as [<-|H]; [cbv zeta; repeat split|]). contradiction.
Qed.

(** ** GetPrivateKey *)
Definition len4 (f g F G : list Z) : Z := Z.of_nat (length f + length g + length F + length G).

Lemma four_n n : 0 <= n -> valid_degree (Z.to_nat n) -> wrap16u (4 * n) = 4 * n /\ 8 <= 4 * n <= 4096.
Proof.
  intros Hn H. apply valid_degree_list in H. rewrite Z2Nat.id in H by assumption. cbn [In] in H.
  assert (R : 2 <= n <= 1024) by lia. unfold wrap16u, wrapu. change (2 ^ 16) with 65536. split; [apply Z.mod_small|]; lia.
Qed.

Lemma GetPrivateKey_eq n f g F G : 0 <= n ->
  GetPrivateKey n f g F G =
  if isValidDegree n then
    if (len4 f g F G) mod (4 * n) =? 0
    then Ok {| sk_n := n; sk_f := f; sk_g := g; sk_F := F; sk_G := G |}
    else Err ErrInvalidPolysLength
  else Err ErrInvalidDegree.
Proof.
  intros Hn. unfold GetPrivateKey. destruct (isValidDegree n) eqn:V; cbn [negb]; [|reflexivity].
  apply isValidDegree_spec in V; [|assumption]. destruct (four_n n Hn V) as [E R].
  unfold isValidPolysLength. rewrite E. destruct (Z.eqb_spec (4 * n) 0); [lia|]. cbn [bind].
  fold (len4 f g F G).
  assert (M : Z.rem (wrap16u (len4 f g F G)) (4 * n) = len4 f g F G mod (4 * n)).
  { unfold wrap16u, wrapu. rewrite Z.rem_mod_nonneg by (try apply Z.mod_pos_bound; lia).
    (* 4n divides 2^16 *)
    assert (D : (4 * n | 2 ^ 16)).
    { apply valid_degree_list in V. rewrite Z2Nat.id in V by assumption. cbn [In] in V.
      exists (2 ^ 16 / (4 * n)).
      repeat (destruct V as [<-|V]; [reflexivity|]). contradiction. }
    rewrite <- Znumtheory.Zmod_div_mod; [reflexivity|lia|lia|assumption]. }
  rewrite M. destruct (_ =? 0); reflexivity.
Qed.

(** ** GetPublicKey *)
Section PK.
Variable iw : Z -> Z.
Hypothesis iw_id : forall z, is_int64 z -> iw z = z.

Lemma valid_pow n : valid_degree n -> exists k, (1 <= k <= 10)%nat /\ n = (2 ^ k)%nat.
Proof. intros H. exact H. Qed.

Lemma GetPublicKey_ok sk n : valid_degree n ->
  length (sk_f sk) = n -> length (sk_g sk) = n -> int16s (sk_f sk) -> int16s (sk_g sk) ->
  invertible_mod_q n (sk_f sk) ->
  exists h, GetPublicKey iw sk = Ok {| pk_n := sk_n sk; pk_h := h |} /\
    length h = n /\ Forall (fun c => 0 <= c < q) h /\
    pmod q (negacyc n h (sk_f sk)) = pmod q (sk_g sk) /\
    (forall h', length h' = n -> Forall (fun c => 0 <= c < q) h' ->
       pmod q (negacyc n h' (sk_f sk)) = pmod q (sk_g sk) -> h' = h).
Proof.
  intros [k [Hk ->]] Lf Lg If Ig Inv.
  apply (evals_nz_invertible iw iw_id k) in Inv; [|assumption|assumption].
  exists (quotP k (sk_g sk) (sk_f sk)). unfold GetPublicKey.
  rewrite (DivZq_ok_nz iw iw_id k) by assumption. split; [reflexivity|].
  split; [apply quotP_length; lia|]. split; [apply (quotP_inq k)|].
  split; [apply (quotP_spec iw iw_id k); assumption|].
  intros h' Lh Ih E. apply (quot_unique iw iw_id k); assumption.
Qed.

Lemma GetPublicKey_noninv sk n : valid_degree n ->
  length (sk_f sk) = n -> length (sk_g sk) = n -> int16s (sk_f sk) -> int16s (sk_g sk) ->
  ~ invertible_mod_q n (sk_f sk) ->
  GetPublicKey iw sk = Ok {| pk_n := sk_n sk; pk_h := [] |}.
Proof.
  intros [k [Hk ->]] Lf Lg If Ig Inv.
  rewrite <- (evals_nz_invertible iw iw_id k) in Inv by assumption.
  unfold GetPublicKey. rewrite (DivZq_err_z iw iw_id k) by assumption. reflexivity.
Qed.

End PK.

Lemma GetPrivateKey_iff n f g F G sk : 0 <= n ->
  GetPrivateKey n f g F G = Ok sk <->
  valid_degree (Z.to_nat n) /\
  (Z.of_nat (length f + length g + length F + length G)) mod (4 * n) = 0 /\
  sk = {| sk_n := n; sk_f := f; sk_g := g; sk_F := F; sk_G := G |}.
Proof.
  intros Hn. rewrite GetPrivateKey_eq by assumption. rewrite <- isValidDegree_spec by assumption.
  unfold len4. destruct (isValidDegree n).
  - destruct (Z.eqb_spec (Z.of_nat (length f + length g + length F + length G) mod (4 * n)) 0) as [E|E].
    + split; [intros H; injection H as <-; auto|]. intros (_ & _ & ->). reflexivity.
    + split; [discriminate|]. intros (_ & H & _). contradiction.
  - split; [discriminate|]. intros (H & _). discriminate.
Qed.

Lemma GetPrivateKey_degree n f g F G : 0 <= n ->
  GetPrivateKey n f g F G = Err ErrInvalidDegree <-> ~ valid_degree (Z.to_nat n).
Proof.
  intros Hn. rewrite GetPrivateKey_eq by assumption. rewrite <- isValidDegree_spec by assumption.
  destruct (isValidDegree n); [|split; [intros _; discriminate|reflexivity]].
  split; [|intros H; contradiction H; reflexivity].
  destruct (_ =? 0); discriminate.
Qed.

Lemma GetPrivateKey_accepts n f g F G : 0 <= n -> valid_degree (Z.to_nat n) ->
  length f = Z.to_nat n -> length g = Z.to_nat n -> length F = Z.to_nat n -> length G = Z.to_nat n ->
  GetPrivateKey n f g F G = Ok {| sk_n := n; sk_f := f; sk_g := g; sk_F := F; sk_G := G |}.
Proof.
  intros Hn V A B C D. apply GetPrivateKey_iff; [assumption|]. split; [assumption|]. split; [|reflexivity].
  rewrite A, B, C, D. replace (Z.of_nat _) with (1 * (4 * n)) by lia. apply Z.mod_mul.
  apply valid_degree_list in V. cbn [In] in V. lia.
Qed.
