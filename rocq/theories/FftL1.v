(** The error of [FFT] (fft/fft.go:40-57) in binary64 arithmetic on exact inputs,
    in terms of the sum of the coefficients rather than their maximum. *)
From Coq Require Import Reals Lra Lia ZArith List.
From Flocq Require Import Core BinarySingleNaN.
From Verif Require Import GoBase Util BaseProofs Spec Float FftTables Fft FftShape SpecFft SpecBabai ExactReal FftProofs
  RootsProofs RootsTable Binary64 B64Proofs FloatErr FftErr Babai.
Local Open Scope R_scope.

Definition lsum (v : list R) : R := rsum (length v) (fun i => Rabs (nth i v 0) + 1).
Lemma rsum_ge n f : (forall i, (i < n)%nat -> 1 <= f i) -> INR n <= rsum n f.
Proof.
  induction n as [|n IH]; intros H; [cbn; lra|]. rewrite S_INR. cbn [rsum].
  pose proof (IH ltac:(intros; apply H; lia)). pose proof (H n ltac:(lia)). lra.
Qed.
Lemma lsum_ge v : INR (length v) <= lsum v.
Proof. apply rsum_ge. intros i _. pose proof (Rabs_pos (nth i v 0)). lra. Qed.
Lemma lsum_split m v : length v = (2 * m)%nat -> lsum v = lsum (evens 0 v) + lsum (odds 0 v).
Proof.
  intros L. assert (D : Nat.div (length v) 2 = m) by (rewrite L, Nat.mul_comm, Nat.div_mul; lia).
  unfold lsum. rewrite evens_length, odds_length, D, L, rsum_double, <- rsum_plus.
  apply rsum_ext. intros i Hi. rewrite evens_nth, odds_nth by (rewrite D; exact Hi). reflexivity.
Qed.
Lemma Cle_lsum v z : Cle z 1 -> Cle (ceval v z) (lsum v).
Proof.
  intros Hz. unfold ceval, lsum.
  assert (A : forall n, Cle (Csum n (fun i => Cmul (RtoC (nth i v 0)) (Cpow z i))) (rsum n (fun i => Rabs (nth i v 0) + 1))).
  { induction n as [|n IH]; cbn [Csum rsum]; [apply Cle_0|].
    replace (Rabs (nth n v 0) + 1) with ((Rabs (nth n v 0) + 1) * 1) by ring.
    apply Cle_add; [exact IH|]. apply Cle_mul; [apply Cle_real; lra|apply Cle_pow, Hz]. }
  apply A.
Qed.

Section Err.
Context (ci cu : b64 -> Z).
Notation FO := (binary64 ci cu).
Notation roots := (roots_dict FO).
Notation near := (near ci cu).
Notation cnear := (cnear ci cu).

Lemma merge_two w a b W A B E Ma Mb : 1 <= Ma -> 1 <= Mb -> 0 <= E <= 1 / 100 -> 8 * (Ma + Mb) <= big ->
  capprox (20 * u53) w W -> Cle W 1 -> capprox (Ma * E) a A -> capprox (Mb * E) b B -> Cle A Ma -> Cle B Mb ->
  capprox ((Ma + Mb) * (E + 30 * u53)) (c_add FO (c_mul FO w b) a) (Cadd (Cmul W B) A) /\
  capprox ((Ma + Mb) * (E + 30 * u53)) (c_sub FO a (c_mul FO w b)) (Csub A (Cmul W B)).
Proof.
  intros HA1 HB1 HE HB Hw HW Ha Hb HA HBB.
  assert (EA : 0 <= Ma * E <= Ma / 100).
  { split; [apply Rmult_le_pos; lra|]. unfold Rdiv. apply Rmult_le_compat_l; lra. }
  assert (EB : 0 <= Mb * E <= Mb / 100).
  { split; [apply Rmult_le_pos; lra|]. unfold Rdiv. apply Rmult_le_compat_l; lra. }
  rewrite Rmult_plus_distr_l, Rmult_plus_distr_r.
  set (e := Ma * E) in *. set (d := Mb * E) in *. clearbody e d.
  pose proof (cmul_approx ci cu _ _ _ _ _ _ 1 Mb (11 / 10 * Mb) Hw Hb HW HBB) as P.
  assert (P' : capprox (d + 27 * (Mb * u53)) (c_mul FO w b) (Cmul W B)).
  { eapply capprox_le; [|apply P]; unfold u53; lra. }
  pose proof (Cle_mul _ _ _ _ HW HBB) as HP.
  split.
  - eapply capprox_le; [|apply (cadd_approx ci cu _ _ _ _ _ _ (1 * Mb + Ma) P' Ha (Cle_add _ _ _ _ HP HA))]; unfold u53; lra.
  - eapply capprox_le; [|apply (csub_approx ci cu _ _ _ _ _ _ (Ma + 1 * Mb) Ha P' (Cle_sub _ _ _ _ HA HP))]; unfold u53; lra.
Qed.

Lemma FFT_fuel_l1 k : (1 <= k <= 10)%nat -> forall f v fuel B,
  near (2 ^ k) 0 B f v -> (2 ^ k <= fuel)%nat -> 8 * lsum v <= big ->
  exists Fl, FFT_fuel FO roots fuel f = Ok Fl /\
    cnear (2 ^ k) (lsum v * (INR k * (30 * u53))) (lsum v) Fl (map (ceval v) (exact_roots (2 ^ k))).
Proof.
  induction k as [|k IH]; intros Hk f v fuel B N Hf HBB; [lia|].
  destruct fuel as [|fuel]; [pose proof (pow2_ge1 (S k)); lia|].
  assert (MAG : forall i, (i < 2 ^ S k)%nat -> Cle (nth i (map (ceval v) (exact_roots (2 ^ S k))) C0) (lsum v)).
  { intros i Hi. rewrite nth_map_ceval by (rewrite (gr_len _ exact_good) by lia; exact Hi).
    apply Cle_lsum, exact_unit; [lia|exact Hi]. }
  assert (LM : length (map (ceval v) (exact_roots (2 ^ S k))) = (2 ^ S k)%nat) by (rewrite map_length; apply (gr_len _ exact_good); lia).
  destruct k as [|k].
  - clear IH. change (2 ^ 1)%nat with 2%nat in *. destruct N as (L1 & L2 & N).
    destruct f as [|x [|y [|? f]]]; cbn [length] in L1; try lia. destruct v as [|a [|b [|? v]]]; cbn [length] in L2; try lia.
    destruct (N 0%nat ltac:(lia)) as [X _]. destruct (N 1%nat ltac:(lia)) as [Y _]. cbn [nth] in X, Y.
    cbn [FFT_fuel length Nat.ltb Nat.leb Nat.eqb idx nth_error bind].
    eexists. split; [reflexivity|]. split; [reflexivity|]. split; [exact LM|]. intros i Hi. split; [|apply MAG, Hi]. clear MAG LM.
    rewrite (gr_two _ exact_good). cbn [map].
    replace (ceval [a; b] Ci) with (Cadd (RtoC a) (Cmul Ci (RtoC b)))
      by (unfold ceval, Ci; cbn [length Csum Cpow nth]; unfold Cadd, Cmul, RtoC, C0, C1; cbn [fst snd]; apply f_equal2; ring).
    replace (ceval [a; b] (Copp Ci)) with (Csub (RtoC a) (Cmul Ci (RtoC b)))
      by (unfold ceval, Ci, Copp; cbn [length Csum Cpow nth]; unfold Cadd, Csub, Cmul, RtoC, C0, C1; cbn [fst snd]; apply f_equal2; ring).
    pose proof (capprox_real _ _ _ X) as CX. pose proof (capprox_real _ _ _ Y) as CY.
    assert (LE : lsum [a; b] = (Rabs a + 1) + (Rabs b + 1)) by (unfold lsum; cbn [length rsum nth]; ring).
    rewrite LE in *. change (INR 1) with 1.
    pose proof (Rabs_pos a). pose proof (Rabs_pos b).
    pose proof (Cle_real a (Rabs a + 1) ltac:(lra)) as MX. pose proof (Cle_real b (Rabs b + 1) ltac:(lra)) as MY.
    set (Ma := Rabs a + 1) in *. set (Mb := Rabs b + 1) in *. assert (1 <= Ma) by (unfold Ma; lra). assert (1 <= Mb) by (unfold Mb; lra). clearbody Ma Mb.
    assert (MI : Cle Ci 1) by (unfold Cle, Csqnorm, Ci; cbn [fst snd]; lra).
    assert (PI : capprox (7 * (Mb * u53)) (c_mul FO (c_i FO) (c_real FO y)) (Cmul Ci (RtoC b))).
    { eapply capprox_le; [|apply (cmul_approx ci cu _ _ _ _ _ _ 1 Mb (13 / 10 * Mb) (ci_exact ci cu) CY MI MY)]; unfold u53; lra. }
    pose proof (Cle_mul _ _ _ _ MI MY) as MM.
    destruct i as [|[|i]]; [| |lia]; cbn [nth].
    + eapply capprox_le; [|apply (cadd_approx ci cu _ _ _ _ _ _ _ CX PI (Cle_add _ _ _ _ MX MM))]; unfold u53; lra.
    + eapply capprox_le; [|apply (csub_approx ci cu _ _ _ _ _ _ _ CX PI (Cle_sub _ _ _ _ MX MM))]; unfold u53; lra.
  - assert (P2 : (2 <= 2 ^ S k)%nat) by (pose proof (pow2_ge1 k); rewrite pow2_S; lia).
    set (m := (2 ^ S k)%nat) in *. assert (EM : (2 ^ S (S k) = 2 * m)%nat) by reflexivity.
    rewrite EM in *. cbn [FFT_fuel]. change (F FO) with b64. pose proof N as (L1 & L2 & _).
    destruct (Nat.ltb_spec 2 (length f)); [|lia].
    rewrite (@SplitPolys_ok b64 (f0 FO)). cbn [bind fst snd].
    pose proof (lsum_split m v L2) as LS. rewrite LS in *.
    assert (D2 : Nat.div (length v) 2 = m) by (rewrite L2, Nat.mul_comm, Nat.div_mul; lia).
    pose proof (lsum_ge (evens 0 v)) as GA. pose proof (lsum_ge (odds 0 v)) as GD. rewrite evens_length, D2 in GA. rewrite odds_length, D2 in GD.
    assert (I2 : 1 <= INR m) by (apply (le_INR 1); lia).
    destruct (IH ltac:(lia) _ _ fuel B (near_evens ci cu _ _ _ _ _ N) ltac:(lia) ltac:(lra)) as (A & EA & NA).
    destruct (IH ltac:(lia) _ _ fuel B (near_odds ci cu _ _ _ _ _ N) ltac:(lia) ltac:(lra)) as (D & ED & ND).
    rewrite EA. cbn [bind]. rewrite ED. cbn [bind].
    pose proof (roots_dict_full FO (S (S k)) ltac:(lia)) as LR. rewrite EM in LR.
    destruct NA as (LA & _ & NA). destruct ND as (LD & _ & ND).
    rewrite (MergeFFT_ok FO roots A D m LA (Nat.eq_le_incl _ _ (eq_sym LD)) ltac:(rewrite LR; lia)).
    eexists. split; [reflexivity|]. split; [apply interleave_length|]. split; [exact LM|].
    set (Ta := lsum (evens 0 v)) in *. set (Td := lsum (odds 0 v)) in *.
    assert (STEP : forall i, (i < m)%nat ->
      let W := nth (2 * i) (exact_roots (2 * m)) C0 in
      let a := nth i A (c0 FO) in let z := c_mul FO (nth (2 * i) (roots (2 * m)%nat) (c0 FO)) (nth i D (c0 FO)) in
      capprox ((Ta + Td) * (INR (S (S k)) * (30 * u53))) (c_add FO z a) (ceval v W) /\
      capprox ((Ta + Td) * (INR (S (S k)) * (30 * u53))) (c_sub FO a z) (ceval v (Copp W))).
    { intros i Hi W a z. unfold z.
      pose proof (root_approx ci cu (S (S k)) (2 * i) ltac:(lia) ltac:(lia)) as RA. rewrite EM in RA. fold W in RA.
      pose proof (exact_unit (S (S k)) (2 * i) ltac:(lia) ltac:(lia)) as RU. rewrite EM in RU. fold W in RU.
      destruct (NA i Hi) as [NAi MAi]. destruct (ND i Hi) as [NDi MDi].
      pose proof (gr_len _ exact_good (S k) ltac:(lia)) as LE. fold m in LE.
      rewrite nth_map_ceval in NAi, MAi, NDi, MDi by lia.
      pose proof (gr_sqr _ exact_good (S k) i ltac:(lia) Hi) as Q. fold m in Q. fold W in Q.
      rewrite !(ceval_even_odd m v) by exact L2.
      replace (Cmul (Copp W) (Copp W)) with (Cmul W W) by ring. rewrite Q.
      set (CA := ceval (evens 0 v) _) in *. set (CD := ceval (odds 0 v) _) in *. fold a in NAi.
      assert (HE : 0 <= INR (S k) * (30 * u53) <= 1 / 100).
      { assert (IK : 0 <= INR (S k) <= 10). { split; [apply pos_INR|]. replace 10 with (INR 10) by (cbn; lra). apply le_INR. lia. }
        split; [apply Rmult_le_pos; [|unfold u53]; lra|].
        apply Rle_trans with (10 * (30 * u53)); [apply Rmult_le_compat_r; [unfold u53|]; lra|unfold u53; lra]. }
      destruct (merge_two _ _ _ _ _ _ _ Ta Td ltac:(lra) ltac:(lra) HE ltac:(lra) RA RU NAi NDi MAi MDi) as [S1 S2].
      assert (EE : INR (S k) * (30 * u53) + 30 * u53 = INR (S (S k)) * (30 * u53)) by (rewrite (S_INR (S k)); ring).
      rewrite EE in S1, S2. replace (Cadd CA (Cmul W CD)) with (Cadd (Cmul W CD) CA) by ring.
      replace (Cadd CA (Cmul (Copp W) CD)) with (Csub CA (Cmul W CD)) by ring. split; assumption. }
    intros i Hi. split; [|apply MAG, Hi].
    pose proof (gr_len _ exact_good (S (S k)) ltac:(lia)) as LE. rewrite EM in LE.
    rewrite nth_map_ceval by lia.
    destruct (Nat.Even_or_Odd i) as [[j ->]|[j ->]].
    + rewrite interleave_even by lia. apply (STEP j). lia.
    + rewrite interleave_odd by lia. pose proof (gr_opp _ exact_good (S k) j ltac:(lia) ltac:(fold m; lia)) as O.
      fold m in O. rewrite O. apply (STEP j). lia.
Qed.

(** fft.go:40-57 *)
Lemma FFT_l1 k f v B : (1 <= k <= 10)%nat -> near (2 ^ k) 0 B f v -> 8 * lsum v <= big ->
  exists Fl, FFT FO roots f = Ok Fl /\
    cnear (2 ^ k) (lsum v * (INR k * (30 * u53))) (lsum v) Fl (map (ceval v) (exact_roots (2 ^ k))).
Proof. intros Hk N HB. apply (FFT_fuel_l1 k Hk f v _ B N); [|exact HB]. destruct N as (L & _). change (F FO) with b64. lia. Qed.
End Err.
