(** Property theorems about the distribution and the termination of Samplerz
    (C69, C70). *)
From Coq Require Import Reals Lra.
From Flocq Require Import Core BinarySingleNaN.
From Verif Require Import GoBase Util BaseProofs Float Samplerz SamplerProofs SamplerCount Binary64 B64Proofs ExactReal.
Local Open Scope Z_scope.

(** [chi k] is the number of nine-byte inputs for which BaseSampler returns k. *)
Theorem C69_base_sampler : forall z0, 0 <= z0 <= 18 ->
  exists L, NoDup L /\ Z.of_nat (length L) = chi z0 /\
    forall l, In l L <-> (bytes l /\ length l = 9%nat /\ BaseSampler l = z0).
Proof. exact chi_count. Qed.
Print Assumptions C69_base_sampler.

Section Start.
Context (ci cu : b64 -> Z) (mu sigma : b64).
Hypothesis Fm : is_finite mu = true.
Hypothesis Hm : (Rabs (B2R mu) <= 2 ^ 62)%R.

(** the three floats that Samplerz computes before its loop, samplerz.go:161-163 *)
Definition s_r : b64 := b_sub mu (b_of_int (Zfloor (B2R mu))).
Definition s_dss : b64 := b_div (b_of_int 1) (b_mul (b_mul (b_of_int 2) sigma) sigma).
Definition s_ccs (sigmin : b64) : b64 := b_div sigmin sigma.

Lemma Hm62 : (Rabs (B2R mu) <= bpow radix2 62)%R.
Proof. rewrite bpow_powerRZ. exact Hm. Qed.

Lemma start_s : to_int (binary64 ci cu) (b_floor mu) = Zfloor (B2R mu).
Proof. exact (proj1 (floor_int ci cu mu Fm Hm62)). Qed.
Lemma start_r : is_finite s_r = true /\ (0 <= B2R s_r <= 1)%R.
Proof.
  pose proof (frac_part ci cu mu Fm Hm62) as A. unfold s_r. rewrite <- start_s. exact A.
Qed.

Lemma Samplerz_loop rb fuel sigmin k : Samplerz (binary64 ci cu) rb fuel mu sigma sigmin k =
  sampler_loop (binary64 ci cu) rb fuel (Zfloor (B2R mu)) s_r s_dss (s_ccs sigmin) k.
Proof.
  unfold Samplerz. change (f_floor (binary64 ci cu) mu) with (b_floor mu). rewrite start_s. reflexivity.
Qed.

Hypothesis Fs : is_finite sigma = true.
Hypothesis Hs : (0 < B2R sigma <= B2R (maxSigma (binary64 ci cu)))%R.
Lemma cand_count z : -18 <= z <= 19 -> 0 <= shift_count (binary64 ci cu) (cand_exp (binary64 ci cu) s_r s_dss z) <= 63.
Proof.
  intros Hz. apply ok_count63. destruct start_r as [Fr Hr].
  pose proof (arg_ok ci cu s_r sigma (z_abs z) (z_bit z) Fr Hr Fs Hs) as A.
  replace (z_bit z + (2 * z_bit z - 1) * z_abs z) with z in A
    by (unfold z_bit, z_abs; destruct (Z.leb_spec 1 z); lia).
  apply A; unfold z_bit, z_abs; destruct (Z.leb_spec 1 z); lia.
Qed.
End Start.

Lemma small_mu (mu : b64) : -110 <= Zfloor (B2R mu) <= 108 -> (Rabs (B2R mu) <= 2 ^ 62)%R.
Proof.
  intros Hf. pose proof (Zfloor_lb (B2R mu)) as A. pose proof (Zfloor_ub (B2R mu)) as C.
  assert (IZR (-110) <= IZR (Zfloor (B2R mu)) <= IZR 108)%R as [D1 D2] by (split; apply IZR_le; lia).
  apply Rle_trans with 128%R; [apply Rabs_le; lra|]. replace 128%R with (2 ^ 7)%R by lra.
  apply Rle_pow; [lra|lia].
Qed.

(** C69.  The blocks of eleven random bytes for which the first round returns
    floor(mu) + z, counted exactly.  [cand_exp] is the exponent that the code
    computes for the candidate z, [accepted] the number of bytes for which berexp
    then says yes (C39). *)
Theorem C69_round_counts : forall ci cu (mu sigma sigmin : b64),
  is_finite mu = true -> -110 <= Zfloor (B2R mu) <= 108 ->
  is_finite sigma = true -> (0 < B2R sigma <= B2R (maxSigma (binary64 ci cu)))%R ->
  forall z, -18 <= z <= 19 ->
  exists L, NoDup L /\
    Z.of_nat (length L) = chi (z_abs z) * 128 *
      accepted (binary64 ci cu) (cand_exp (binary64 ci cu) (s_r mu) (s_dss sigma) z) (s_ccs sigma sigmin) /\
    forall l, In l L <-> (bytes l /\ length l = 11%nat /\
      Samplerz (binary64 ci cu) (fun _ => Some l) 1 mu sigma sigmin 0 = Ok (Zfloor (B2R mu) + z, 1%nat)).
Proof.
  intros ci cu mu sigma sigmin Fm Hf Fs Hs z Hz.
  pose proof (small_mu mu Hf) as Hm.
  destruct (loop_counts (binary64 ci cu) (s_r mu) (s_dss sigma) (s_ccs sigma sigmin) (b64_small_exact ci cu)
    (cand_count ci cu mu sigma Fm Hm Fs Hs) (Zfloor (B2R mu)) z Hf Hz) as (L & N & C & H).
  exists L. split; [exact N|]. split; [exact C|]. intros l.
  rewrite (Samplerz_loop ci cu mu sigma Fm Hm). apply H.
Qed.
Print Assumptions C69_round_counts.

(** Of the 2^(88 m) streams of m blocks, exactly reject_weight^m are used up
    without a result. *)
Theorem C69_unfinished_counts : forall ci cu (mu sigma sigmin : b64) m,
  is_finite mu = true -> (Rabs (B2R mu) <= 2 ^ 62)%R ->
  is_finite sigma = true -> (0 < B2R sigma <= B2R (maxSigma (binary64 ci cu)))%R ->
  exists LL, NoDup LL /\
    Z.of_nat (length LL) = reject_weight (binary64 ci cu) (s_r mu) (s_dss sigma) (s_ccs sigma sigmin) ^ Z.of_nat m /\
    forall ls, In ls LL <-> (length ls = m /\ Forall (fun l => bytes l /\ length l = 11%nat) ls /\
      Samplerz (binary64 ci cu) (stream ls) m mu sigma sigmin 0 = Diverge).
Proof.
  intros ci cu mu sigma sigmin m Fm Hm Fs Hs.
  destruct (diverge_count (binary64 ci cu) (s_r mu) (s_dss sigma) (s_ccs sigma sigmin) (b64_small_exact ci cu)
    (cand_count ci cu mu sigma Fm Hm Fs Hs) (Zfloor (B2R mu)) m) as (LL & N & C & H).
  exists LL. split; [exact N|]. split; [exact C|]. intros ls.
  rewrite (Samplerz_loop ci cu mu sigma Fm Hm). apply H.
Qed.
Print Assumptions C69_unfinished_counts.

(** The whole distribution: among the streams of m + 1 blocks, the number of those
    for which Samplerz returns floor(mu) + z after reading all of them. *)
Theorem C69_result_counts : forall ci cu (mu sigma sigmin : b64) m,
  is_finite mu = true -> -110 <= Zfloor (B2R mu) <= 108 ->
  is_finite sigma = true -> (0 < B2R sigma <= B2R (maxSigma (binary64 ci cu)))%R ->
  forall z, -18 <= z <= 19 ->
  exists LL, NoDup LL /\
    Z.of_nat (length LL) =
      reject_weight (binary64 ci cu) (s_r mu) (s_dss sigma) (s_ccs sigma sigmin) ^ Z.of_nat m *
      (chi (z_abs z) * 128 *
       accepted (binary64 ci cu) (cand_exp (binary64 ci cu) (s_r mu) (s_dss sigma) z) (s_ccs sigma sigmin)) /\
    forall ls, In ls LL <-> (length ls = S m /\ Forall (fun l => bytes l /\ length l = 11%nat) ls /\
      Samplerz (binary64 ci cu) (stream ls) (S m) mu sigma sigmin 0 = Ok (Zfloor (B2R mu) + z, S m)).
Proof.
  intros ci cu mu sigma sigmin m Fm Hf Fs Hs z Hz. pose proof (small_mu mu Hf) as Hm.
  destruct (result_count (binary64 ci cu) (s_r mu) (s_dss sigma) (s_ccs sigma sigmin) (b64_small_exact ci cu)
    (cand_count ci cu mu sigma Fm Hm Fs Hs) (Zfloor (B2R mu)) z m Hf Hz) as (LL & N & C & H).
  exists LL. split; [exact N|]. split; [exact C|]. intros ls.
  rewrite (Samplerz_loop ci cu mu sigma Fm Hm). apply H.
Qed.
Print Assumptions C69_result_counts.

(** For 1/2 < ccs < 1 the first block ending in the byte 0 ends the loop. *)
Theorem C69_returns : forall ci cu (mu sigma sigmin : b64) rb fuel k j fb b,
  is_finite mu = true -> (Rabs (B2R mu) <= 2 ^ 62)%R ->
  is_finite sigma = true -> (0 < B2R sigma <= B2R (maxSigma (binary64 ci cu)))%R ->
  is_finite (b_div sigmin sigma) = true -> (/ 2 < B2R (b_div sigmin sigma) < 1)%R ->
  (forall i, rb i <> None) ->
  rb j = Some (fb ++ [b; 0]) -> length fb = 9%nat -> is_byte b -> (k <= j < k + fuel)%nat ->
  exists v k', Samplerz (binary64 ci cu) rb fuel mu sigma sigmin k = Ok (v, k') /\ (k' <= S j)%nat.
Proof.
  intros ci cu mu sigma sigmin rb fuel k j fb b Fm Hm Fs Hs Fc Hc Hrb Ej Lf Bb Hk.
  rewrite (Samplerz_loop ci cu mu sigma Fm Hm).
  apply (returns_by (binary64 ci cu) (s_r mu) (s_dss sigma) (s_ccs sigma sigmin)
    (cand_count ci cu mu sigma Fm Hm Fs Hs)
    (fun x => approxexp_ccs_big ci cu x (s_ccs sigma sigmin) Fc Hc) _ rb fuel k j fb b); assumption.
Qed.
Print Assumptions C69_returns.
(** It need not end: blocks ending in 255 are always rejected. *)
Theorem C69_never_returns : forall ci cu (mu sigma sigmin : b64) rb fuel k,
  is_finite mu = true -> (Rabs (B2R mu) <= 2 ^ 62)%R ->
  is_finite sigma = true -> (0 < B2R sigma <= B2R (maxSigma (binary64 ci cu)))%R ->
  is_finite (b_div sigmin sigma) = true -> (/ 2 < B2R (b_div sigmin sigma) < 1)%R ->
  (forall i, exists fb b, rb i = Some (fb ++ [b; 255]) /\ length fb = 9%nat /\ is_byte b) ->
  Samplerz (binary64 ci cu) rb fuel mu sigma sigmin k = Diverge.
Proof.
  intros ci cu mu sigma sigmin rb fuel k Fm Hm Fs Hs Fc Hc Hrb.
  rewrite (Samplerz_loop ci cu mu sigma Fm Hm).
  apply (never_returns (binary64 ci cu) (s_r mu) (s_dss sigma) (s_ccs sigma sigmin)
    (cand_count ci cu mu sigma Fm Hm Fs Hs)
    (fun x => approxexp_ccs_big ci cu x (s_ccs sigma sigmin) Fc Hc)). exact Hrb.
Qed.
Print Assumptions C69_never_returns.
(** At least one block in 256 is accepted, so the fraction of streams left
    unfinished after m blocks is at most (255/256)^m. *)
Theorem C69_reject_bound : forall ci cu (mu sigma sigmin : b64),
  is_finite mu = true -> (Rabs (B2R mu) <= 2 ^ 62)%R ->
  is_finite sigma = true -> (0 < B2R sigma <= B2R (maxSigma (binary64 ci cu)))%R ->
  is_finite (b_div sigmin sigma) = true -> (/ 2 < B2R (b_div sigmin sigma) < 1)%R ->
  256 * reject_weight (binary64 ci cu) (s_r mu) (s_dss sigma) (s_ccs sigma sigmin) <= 255 * 256 ^ 11.
Proof.
  intros ci cu mu sigma sigmin Fm Hm Fs Hs Fc Hc.
  pose proof (cand_count ci cu mu sigma Fm Hm Fs Hs) as CC.
  assert (A : forall z, -18 <= z <= 19 -> answers (binary64 ci cu) false
    (cand_exp (binary64 ci cu) (s_r mu) (s_dss sigma) z) (s_ccs sigma sigmin) <= 255).
  { intros z Hz. unfold answers. rewrite accepted_spec by apply (CC z Hz). specialize (CC z Hz).
    rewrite (approxexp_ccs_big ci cu _ (s_ccs sigma sigmin) Fc Hc). cbn [Z.eqb].
    set (n := shift_count _ _) in *. clearbody n. destruct (n =? 0); [lia|].
    destruct (Z.ltb_spec n 8); [pose proof (Z.pow_pos_nonneg 2 (8 - n)); lia|].
    destruct (Z.ltb_spec n 64); lia. }
  unfold reject_weight.
  assert (G : forall zs, (forall z, In z zs -> -18 <= z <= 19 /\ 0 <= chi (z_abs z)) ->
    fold_right Z.add 0 (map (fun z => chi (z_abs z) * 128 * answers (binary64 ci cu) false
      (cand_exp (binary64 ci cu) (s_r mu) (s_dss sigma) z) (s_ccs sigma sigmin)) zs) <=
    255 * 128 * fold_right Z.add 0 (map (fun z => chi (z_abs z)) zs)).
  { induction zs as [|z zs IH]; intros Hz; [cbn; lia|]. cbn [map fold_right].
    specialize (IH ltac:(intros; apply Hz; right; assumption)). destruct (Hz z (or_introl eq_refl)) as [H1 H2].
    specialize (A z H1). nia. }
  specialize (G candidates). 
  replace (fold_right Z.add 0 (map (fun z => chi (z_abs z)) candidates)) with (2 * 256 ^ 9) in G by reflexivity.
  assert (P : forall z, In z candidates -> -18 <= z <= 19 /\ 0 <= chi (z_abs z)).
  { intros z Hz. split; [apply candidates_spec, Hz|].
    assert (Q : forallb (fun z => 0 <=? chi (z_abs z)) candidates = true) by reflexivity.
    rewrite forallb_forall in Q. apply Z.leb_le, Q, Hz. }
  specialize (G P). lia.
Qed.
Print Assumptions C69_reject_bound.

Lemma gen_ccs ci cu : is_finite (b_div (sigmin_gen (binary64 ci cu)) (sigma_gen (binary64 ci cu))) = true /\
  (/ 2 < B2R (b_div (sigmin_gen (binary64 ci cu)) (sigma_gen (binary64 ci cu))) < 1)%R.
Proof.
  split; [reflexivity|].
  assert (Eh : B2R (b_const 5 1) = (/ 2)%R).
  { rewrite <- SF2R_B2SF. change (B2SF (b_const 5 1)) with (SpecFloat.S754_finite false 4503599627370496 (-53)).
    cbn -[bpow]. unfold F2R. cbn [Fnum Fexp]. change 4503599627370496 with (Zpower radix2 52).
    rewrite IZR_Zpower by lia. rewrite <- bpow_plus. reflexivity. }
  destruct (of_int_exact 1 ltac:(lia)) as [E1 F1]. rewrite <- Eh, <- E1.
  assert (L : forall a b : b64, is_finite a = true -> is_finite b = true -> Bltb a b = true -> (B2R a < B2R b)%R).
  { intros a b Fa Fb H. rewrite Bltb_correct in H by assumption. revert H. case Rlt_bool_spec; [auto|discriminate]. }
  split; apply L; reflexivity.
Qed.

(** GenPoly's parameters meet every hypothesis. *)
Example C69_nonvacuous : forall ci cu, is_finite (b_of_int 0) = true /\ (Rabs (B2R (b_of_int 0)) <= 2 ^ 62)%R /\
  -110 <= Zfloor (B2R (b_of_int 0)) <= 108 /\
  is_finite (sigma_gen (binary64 ci cu)) = true /\
  (0 < B2R (sigma_gen (binary64 ci cu)) <= B2R (maxSigma (binary64 ci cu)))%R /\
  is_finite (b_div (sigmin_gen (binary64 ci cu)) (sigma_gen (binary64 ci cu))) = true /\
  (/ 2 < B2R (b_div (sigmin_gen (binary64 ci cu)) (sigma_gen (binary64 ci cu))) < 1)%R.
Proof.
  intros ci cu. destruct (of_int_exact 0 ltac:(lia)) as [E0 F0].
  split; [exact F0|]. rewrite E0. split; [rewrite Rabs_R0; apply pow_le; lra|]. rewrite (Zfloor_IZR 0).
  split; [lia|]. split; [reflexivity|]. split; [|apply gen_ccs].
  split; [apply pos_const; reflexivity|apply le_const; reflexivity].
Qed.

(** C70.  The exact weights, out of 2^88, of the values -18, .., 19 that the
    sampler of GenPoly gives in one round. *)
Definition gen_weights : list Z :=
  [128; 25216; 3664128; 393638656; 31273295488; 1837425847936; 79837380199296; 2565446823079424;
   60964924455466752; 1071414072985771904; 13924991430326999296; 535368483836198261760;
   15221973092393729382400; 160036625810605006192640; 1244308609354704494698496;
   7154793591882619529117696; 30305859907787880884649600; 47652554424824679001866240;
   55412283090610339392979200; 55412283090610339392979200; 23919713593637485930348544;
   7606176604307546574970880; 1788698397970654882279424; 155538576169338061837312;
   10002289113162812887040; 951373318274608086400; 133842120959049565440; 13924991430326999296;
   1071414072985771904; 60964924455466752; 2565446823079424; 79837380199296; 1837425847936;
   31273295488; 393638656; 3664128; 25216; 128].
Definition gen_weight (z : Z) : Z := nth (Z.to_nat (z + 18)) gen_weights 0.

(** the shift counts for the 38 candidates *)
Definition gen_shifts : list Z :=
  [43; 38; 34; 30; 26; 22; 19; 16; 13; 10; 8; 6; 4; 3; 2; 1; 0; 0;
   0; 0; 1; 2; 3; 5; 7; 9; 11; 14; 17; 20; 24; 28; 32; 36; 40; 45; 50; 56].

Lemma gen_shift ci cu z : -18 <= z <= 19 ->
  shift_count (binary64 ci cu) (cand_exp (binary64 ci cu) (b_sub (b_of_int 0) (b_of_int 0)) (s_dss (sigma_gen (binary64 ci cu))) z) =
  nth (Z.to_nat (z + 18)) gen_shifts 0.
Proof.
  intros Hz.
  assert (Q : map (fun z => shift_count (binary64 ci cu) (cand_exp (binary64 ci cu) (b_sub (b_of_int 0) (b_of_int 0))
    (s_dss (sigma_gen (binary64 ci cu))) z)) candidates = gen_shifts) by reflexivity.
  rewrite <- Q. unfold candidates. rewrite map_map. rewrite nth_map_seq by lia. f_equal. f_equal. lia.
Qed.

Lemma gen_value ci cu z : -18 <= z <= 19 ->
  chi (z_abs z) * 128 * accepted (binary64 ci cu)
    (cand_exp (binary64 ci cu) (s_r (b_of_int 0)) (s_dss (sigma_gen (binary64 ci cu))) z)
    (s_ccs (sigma_gen (binary64 ci cu)) (sigmin_gen (binary64 ci cu))) = gen_weight z.
Proof.
  intros Hz. destruct (of_int_exact 0 ltac:(lia)) as [E0 F0].
  unfold s_r. rewrite E0, (Zfloor_IZR 0). destruct (gen_ccs ci cu) as [Fc Hc].
  rewrite accepted_spec by (rewrite gen_shift by exact Hz;
    apply Forall_nth; [repeat (apply Forall_cons; [lia|]); apply Forall_nil|cbn [gen_shifts length]; lia]).
  rewrite (approxexp_ccs_big ci cu _ _ Fc Hc). rewrite gen_shift by exact Hz.
  assert (Q : map (fun z => chi (z_abs z) * 128 *
    (if 0 =? 0 then let n := nth (Z.to_nat (z + 18)) gen_shifts 0 in
      if n =? 0 then 255 else if n <? 8 then 2 ^ (8 - n) else if n <? 64 then 1 else 0 else 0)) candidates = gen_weights)
    by reflexivity.
  unfold gen_weight. rewrite <- Q. unfold candidates. rewrite map_map, nth_map_seq by lia.
  replace (Z.of_nat (Z.to_nat (z + 18)) - 18) with z by lia. reflexivity.
Qed.

Theorem C70_weights : forall ci cu z, -18 <= z <= 19 ->
  exists L, NoDup L /\ Z.of_nat (length L) = gen_weight z /\
    forall l, In l L <-> (bytes l /\ length l = 11%nat /\
      Samplerz (binary64 ci cu) (fun _ => Some l) 1 (b_of_int 0) (sigma_gen (binary64 ci cu))
        (sigmin_gen (binary64 ci cu)) 0 = Ok (z, 1%nat)).
Proof.
  intros ci cu z Hz. destruct (C69_nonvacuous ci cu) as (A & _ & B & C & D & _).
  destruct (C69_round_counts ci cu (b_of_int 0) _ (sigmin_gen (binary64 ci cu)) A B C D z Hz) as (L & N & E & H).
  destruct (of_int_exact 0 ltac:(lia)) as [E0 _].
  exists L. split; [exact N|]. split; [rewrite E; apply gen_value, Hz|].
  intros l. rewrite H, E0, (Zfloor_IZR 0), Z.add_0_l. reflexivity.
Qed.
Print Assumptions C70_weights.

(** The centred Gaussian gives z and -z the same weight; the sampler does not. *)
Theorem C70_symmetric_refuted : forall ci cu, exists z L L', -18 <= - z /\ - z < z <= 18 /\
  (forall y M, In (y, M) [(z, L); (- z, L')] -> NoDup M /\
    forall l, In l M <-> (bytes l /\ length l = 11%nat /\
      Samplerz (binary64 ci cu) (fun _ => Some l) 1 (b_of_int 0) (sigma_gen (binary64 ci cu))
        (sigmin_gen (binary64 ci cu)) 0 = Ok (y, 1%nat))) /\
  length L <> length L'.
Proof.
  intros ci cu. destruct (C70_weights ci cu 1 ltac:(lia)) as (L & N & E & H).
  destruct (C70_weights ci cu (-1) ltac:(lia)) as (L' & N' & E' & H').
  exists 1, L, L'. split; [lia|]. split; [lia|]. split.
  - intros y M [Eq|[Eq|F]]; [injection Eq as <- <-|injection Eq as <- <-|destruct F]; auto.
  - intros Q. apply (f_equal Z.of_nat) in Q. rewrite E, E' in Q. discriminate.
Qed.
Print Assumptions C70_symmetric_refuted.
(** 0 and 1 have the same weight, where the Gaussian has exp (-1 / (2 sigma^2)) < 1;
    the mean is not 0 *)
Theorem C70_not_gaussian : gen_weight 0 = gen_weight 1 /\
  fold_right Z.add 0 (map (fun z => z * gen_weight z) candidates) = -1530666292031944717070464 /\
  fold_right Z.add 0 (map gen_weight candidates) = 230839121479129981686078720.
Proof. repeat split. Qed.
Print Assumptions C70_not_gaussian.

(** The two parameters GenPoly passes to Samplerz are those of ntrugen.go:286-292: the documented
    sigma to 14 decimals, and a minimum 0.001 below it. *)
Theorem C70_parameters :
  (Rabs (sigma_gen exactR - 117 / 100 * sqrt (12289 / 8192)) <= / 10 ^ 14 /\
   sigmin_gen exactR = sigma_gen exactR - / 1000 /\ sigma_gen exactR = 143300980528773 / 10 ^ 14)%R.
Proof.
  assert (E : (sigma_gen exactR = 143300980528773 / 10 ^ 14)%R) by (cbn; lra).
  split; [|split; [cbn; lra|exact E]]. rewrite E.
  assert (S : (sqrt (12289 / 8192) * sqrt (12289 / 8192) = 12289 / 8192)%R) by (apply sqrt_sqrt; lra).
  pose proof (sqrt_pos (12289 / 8192)) as P. revert S P. generalize (sqrt (12289 / 8192)). intros x S P.
  assert (H : (/ 10 ^ 14 = 1 / 100000000000000)%R) by (cbn; lra). rewrite H.
  replace (10 ^ 14)%R with 100000000000000%R by (cbn; lra).
  apply Rabs_le. split; [apply Rnot_lt_le; intros Q|apply Rnot_lt_le; intros Q]; nra.
Qed.
Print Assumptions C70_parameters.
