(** The statements of NttProofs with [valid_degree] in place of an exponent. *)
From Verif Require Import GoBase Util Ntt Spec PolyZ BaseProofs NttProofs FalconProofs VerifyProofs2 Witness.

Lemma NTT_spec64 n : valid_degree n -> exists ws, length ws = n /\ NoDup ws /\
  Forall (fun w => 0 < w < q /\ (w ^ Z.of_nat n + 1) mod q = 0) ws /\
  forall f, length f = n -> int16s f -> NTT wrap64 f = Ok (map (fun w => eval f w mod q) ws).
Proof.
  intros H. destruct (NTT_spec n H) as [ws [A [B [C D]]]]. exists ws.
  split; [exact A|]. split; [exact B|]. split; [exact C|]. exact (D wrap64 id64).
Qed.

Lemma INTT_NTT64 n f : valid_degree n -> length f = n -> int16s f ->
  exists F, NTT wrap64 f = Ok F /\ INTT wrap64 F = Ok (pmod q f).
Proof. intros [k [Hk ->]]. apply (INTT_NTT wrap64 id64); assumption. Qed.
Lemma NTT_INTT64 n f : valid_degree n -> length f = n -> int16s f ->
  exists F, INTT wrap64 f = Ok F /\ NTT wrap64 F = Ok (pmod q f).
Proof. intros [k [Hk ->]]. apply (NTT_INTT wrap64 id64); assumption. Qed.
Lemma MulZq64 n f g : valid_degree n -> length f = n -> length g = n -> int16s f -> int16s g ->
  MulZq wrap64 f g = Ok (pmod q (negacyc n f g)).
Proof. intros [k [Hk ->]]. apply (MulZq_ok wrap64 id64); assumption. Qed.

Lemma invertible_mod_q_dec n g : valid_degree n -> length g = n -> {invertible_mod_q n g} + {~ invertible_mod_q n g}.
Proof.
  intros V L.
  destruct (in_dec Z.eq_dec 0 (evalsP (Nat.log2 n) g)) as [I|I].
  - right. destruct V as [k [Hk ->]]. rewrite Nat.log2_pow2 in I by lia.
    rewrite <- (evals_nz_invertible wrap64 id64 k) by assumption. intros H. contradiction.
  - left. destruct V as [k [Hk ->]]. rewrite Nat.log2_pow2 in I by lia.
    rewrite <- (evals_nz_invertible wrap64 id64 k) by assumption. exact I.
Qed.

Section D.
Context (iw : Z -> Z) (iw_id : forall z, is_int64 z -> iw z = z).
Lemma DivZq_any n f g : valid_degree n -> length f = n -> length g = n -> int16s f -> int16s g ->
  invertible_mod_q n g ->
  exists h, DivZq iw f g = Ok h /\ length h = n /\ Forall (fun c => 0 <= c < q) h /\
    pmod q (negacyc n h g) = pmod q f /\
    (forall h', length h' = n -> Forall (fun c => 0 <= c < q) h' -> pmod q (negacyc n h' g) = pmod q f -> h' = h).
Proof.
  intros [k [Hk ->]] Lf Lg If Ig Inv.
  rewrite <- (evals_nz_invertible iw iw_id k) in Inv by assumption.
  exists (quotP k f g). split; [apply (DivZq_ok_nz iw iw_id); assumption|].
  split; [apply quotP_length; lia|]. split; [apply quotP_inq|].
  split; [apply (quotP_spec iw iw_id); assumption|].
  intros h' L' I' E'. apply (quot_unique iw iw_id); assumption.
Qed.
Lemma DivZq_any_err n f g : valid_degree n -> length f = n -> length g = n -> int16s f -> int16s g ->
  ~ invertible_mod_q n g -> DivZq iw f g = Err ErrDivByZero.
Proof.
  intros [k [Hk ->]] Lf Lg If Ig Inv.
  rewrite <- (evals_nz_invertible iw iw_id k) in Inv by assumption.
  apply (DivZq_err_z iw iw_id k); assumption.
Qed.
End D.
Definition DivZq64 := DivZq_any wrap64 id64.
Definition DivZq64_err := DivZq_any_err wrap64 id64.

Lemma ntt_no_overflow iw : (forall z, -2 ^ 63 <= z < 2 ^ 63 -> iw z = z) ->
  forall n f g, valid_degree n -> length f = n -> length g = n -> int16s f -> int16s g ->
  NTT iw f = NTT (fun z => z) f /\ INTT iw f = INTT (fun z => z) f /\
  MulZq iw f g = MulZq (fun z => z) f g /\ DivZq iw f g = DivZq (fun z => z) f g.
Proof.
  intros H n f g [k [Hk ->]] Lf Lg If Ig.
  assert (A : forall z, is_int64 z -> iw z = z) by (intros z Hz; apply H; unfold is_int64 in Hz; lia).
  assert (B : forall z, is_int64 z -> (fun z => z) z = z) by reflexivity.
  split; [rewrite (NTT_ok iw A k), (NTT_ok _ B k) by assumption; reflexivity|].
  split; [rewrite (INTT_ok iw A k), (INTT_ok _ B k) by assumption; reflexivity|].
  split; [rewrite (MulZq_ok iw A k), (MulZq_ok _ B k) by assumption; reflexivity|].
  destruct (in_dec Z.eq_dec 0 (evalsP k g)) as [I|I].
  - rewrite (DivZq_err_z iw A k), (DivZq_err_z _ B k); try assumption; try reflexivity; intros N; contradiction.
  - rewrite (DivZq_ok_nz iw A k), (DivZq_ok_nz _ B k) by assumption. reflexivity.
Qed.

Lemma negZq_gen g : negZq g = Ok (map (fun c => (wrap16 (- c)) mod Q) g).
Proof.
  unfold negZq. rewrite (mapM_Ok _ (fun i => wrap16 (- nth i g 0) mod Q)).
  - f_equal. transitivity (map (fun c => wrap16 (- c) mod Q) (map (fun i => nth i g 0) (seq 0 (length g)))).
    + rewrite map_map. reflexivity.
    + f_equal. apply map_seq_nth.
  - intros i Hi. apply in_seq in Hi. rewrite (idx_nth g i 0) by lia. cbn [bind].
    rewrite Pmod_Q. cbn [bind]. f_equal. apply wrap16_id.
    pose proof (modQ_range (wrap16 (- nth i g 0))). unfold is_int16, Q in *. lia.
Qed.

Lemma SubZq_entries n f g : length f = n -> length g = n -> int16s f -> int16s g ->
  exists r, SubZq f g = Ok r /\ length r = n /\
    forall i, (i < n)%nat ->
      (coef r i = (coef f i - coef g i) mod q <->
       coef g i <> -32768 /\ coef f i + (- coef g i) mod q <= 32767).
Proof.
  intros Lf Lg If Ig. unfold SubZq. rewrite negZq_gen. cbn [bind]. unfold addZq.
  rewrite map_length, Lf, Lg, Nat.eqb_refl. cbn [negb].
  eexists. split; [apply (mapM_Ok _ (fun i => wrap16 (nth i f 0 + wrap16 (- nth i g 0) mod Q) mod Q))|].
  { intros i Hi. apply in_seq in Hi. rewrite (idx_nth f i 0) by lia.
    rewrite (idx_nth (map (fun c => wrap16 (- c) mod Q) g) i 0) by (rewrite map_length; lia). cbn [bind].
    rewrite (nth_indep (map (fun c => wrap16 (- c) mod Q) g) 0 (wrap16 (- 0) mod Q)) by (rewrite map_length; lia).
    rewrite (map_nth (fun c => wrap16 (- c) mod Q)).
    rewrite Pmod_Q. cbn [bind]. f_equal. apply wrap16_id.
    pose proof (modQ_range (wrap16 (nth i f 0 + wrap16 (- nth i g 0) mod Q))). unfold is_int16, Q in *. lia. }
  split; [rewrite map_length, seq_length; reflexivity|].
  intros i Hi. unfold coef at 1. rewrite (nth_indep _ 0 (wrap16 (nth 0 f 0 + wrap16 (- nth 0 g 0) mod Q) mod Q)) by (rewrite map_length, seq_length; lia).
  rewrite (map_nth (fun i => wrap16 (nth i f 0 + wrap16 (- nth i g 0) mod Q) mod Q)), seq_nth by assumption.
  cbn [Nat.add]. unfold coef.
  assert (Ra : is_int16 (nth i f 0)) by (apply Forall_nth; [exact If|lia]).
  assert (Rb : is_int16 (nth i g 0)) by (apply Forall_nth; [exact Ig|lia]).
  set (a := nth i f 0) in *. set (b := nth i g 0) in *. clearbody a b. clear - Ra Rb.
  unfold is_int16 in *. change q with 12289. unfold Q.
  assert (W : forall z, wrap16 z = (z + 32768) mod 65536 - 32768) by reflexivity. rewrite !W. clear W.
  Z.div_mod_to_equations. lia.
Qed.
