(** The FFT, its inverse and the ring operations in binary64 with the
    repository's tables of roots: distance from the exact results. *)
From Coq Require Import Reals Lra Lia ZArith List.
From Flocq Require Import Core BinarySingleNaN.
From Verif Require Import GoBase Util BaseProofs Float FftTables Fft FftShape SpecFft ExactReal FftProofs
  RootsProofs RootsTable Binary64 B64Proofs FloatErr Spec.
Local Open Scope R_scope.

(** ** The tables *)
Lemma roots_dict_lits FO k : (k < 10)%nat -> roots_dict FO (2 ^ S k) = map (c_literal FO) (nth k tables []).
Proof.
  intros Hk. unfold roots_dict, tables.
  do 10 (destruct k as [|k]; [
    cbn -[phi4_roots phi8_roots phi16_roots phi32_roots phi64_roots phi128_roots phi256_roots
      phi512_roots phi1024_roots phi2048_roots map]; reflexivity|]). lia.
Qed.
Lemma tables_exps : forallb (forallb (fun w : lit => (0 <=? snd (fst w))%Z && (0 <=? snd (snd w))%Z)) tables = true.
Proof. vm_compute. reflexivity. Qed.
Lemma tables_lit k i d : (k < 10)%nat -> (i < length (nth k tables []))%nat ->
  let w := nth i (nth k tables []) d in (0 <= snd (fst w))%Z /\ (0 <= snd (snd w))%Z.
Proof.
  intros Hk Hi w. pose proof tables_exps as T. rewrite forallb_forall in T.
  specialize (T (nth k tables []) (nth_In tables [] Hk)). rewrite forallb_forall in T.
  specialize (T w (nth_In _ d Hi)). lia.
Qed.

Lemma exact_unit k i : (1 <= k)%nat -> (i < 2 ^ k)%nat -> Cle (nth i (exact_roots (2 ^ k)) C0) 1.
Proof.
  intros Hk Hi. pose proof (gr_unit _ exact_good k i Hk Hi) as U. split; [lra|].
  set (w := nth i (exact_roots (2 ^ k)) C0) in *. unfold Csqnorm, Cmul, Cconj, C1 in *. cbn [fst snd] in U.
  injection U as U1 U2. lra.
Qed.

Section Err.
Context (ci cu : b64 -> Z).
Notation FO := (binary64 ci cu).
Notation roots := (roots_dict FO).

Lemma root_approx k i : (1 <= k <= 10)%nat -> (i < 2 ^ k)%nat ->
  capprox (20 * u53) (nth i (roots (2 ^ k)) (c0 FO)) (nth i (exact_roots (2 ^ k)) C0).
Proof.
  intros Hk Hi. destruct (roots_dict_close k i Hk Hi) as [L D].
  pose proof (exact_unit k i ltac:(lia) Hi) as HU. set (W := nth i (exact_roots (2 ^ k)) C0) in *. clearbody W.
  destruct k as [|k]; [lia|]. rewrite (roots_dict_lits exactR) in L, D by lia. rewrite (roots_dict_lits FO) by lia.
  rewrite map_length in L. rewrite <- L in Hi.
  assert (N : forall FO', nth i (map (c_literal FO') (nth k tables [])) (c0 FO') = c_literal FO' (nth i (nth k tables []) ((0, 0), (0, 0))%Z)).
  { intros FO'. rewrite (nth_indep _ (c0 FO') (c_literal FO' ((0, 0), (0, 0))%Z)) by (rewrite map_length; exact Hi). apply map_nth. }
  change C0 with (c0 exactR) in D. rewrite N in D. rewrite N.
  destruct (tables_lit k i ((0, 0), (0, 0))%Z ltac:(lia) Hi) as [E1 E2].
  set (l := nth i (nth k tables []) ((0, 0), (0, 0))%Z) in *. clearbody l.
  destruct l as [[m1 e1] [m2 e2]]. unfold c_literal in *. cbn [fst snd] in *.
  change (f_const exactR m1 e1) with (IZR m1 / IZR (10 ^ e1)) in D. change (f_const exactR m2 e2) with (IZR m2 / IZR (10 ^ e2)) in D.
  set (x := IZR m1 / IZR (10 ^ e1)) in *. set (y := IZR m2 / IZR (10 ^ e2)) in *.
  assert (DD : Cle (Csub (x, y) W) (2 / 10 ^ 15)) by (split; [|eapply Rle_trans; [exact D|]]; lra).
  assert (BX : Cle (x, y) (1 + 2 / 10 ^ 15)).
  { replace (x, y) with (Cadd W (Csub (x, y) W)); [apply Cle_add; assumption|].
    unfold Cadd, Csub. cbn [fst snd]. apply f_equal2; ring. }
  pose proof (Cle_fst _ _ BX) as B1. pose proof (Cle_snd _ _ BX) as B2. cbn [fst snd] in B1, B2.
  assert (P52 : 2 <= IZR (2 ^ 52)) by (apply IZR_le; lia).
  destruct (const_correct m1 e1 E1 ltac:(fold x; lra)) as [F1 V1]. destruct (const_correct m2 e2 E2 ltac:(fold y; lra)) as [F2 V2].
  fold x in V1. fold y in V2.
  eapply capprox_le; [|apply capprox_round with (v := (x, y)) (r := 11 / 10 * u53); [| |exact DD]].
  - unfold u53. lra.
  - split; [exact F1|]. cbn [fst]. change (f_const FO m1 e1) with (b_const m1 e1). rewrite V1. apply rnd_err; lra.
  - split; [exact F2|]. cbn [snd]. change (f_const FO m2 e2) with (b_const m2 e2). rewrite V2. apply rnd_err; lra.
Qed.

(** ** One butterfly *)
Lemma merge_step w a b W A B E M : 1 <= M -> 0 <= E <= M / 4 -> 8 * M <= big ->
  capprox (20 * u53) w W -> Cle W 1 -> capprox E a A -> capprox E b B -> Cle A M -> Cle B M ->
  capprox (2 * E + 40 * (M * u53)) (c_add FO (c_mul FO w b) a) (Cadd (Cmul W B) A) /\
  capprox (2 * E + 40 * (M * u53)) (c_sub FO a (c_mul FO w b)) (Csub A (Cmul W B)).
Proof.
  intros HM HE HB Hw HW Ha Hb HA HBB.
  pose proof (cmul_approx ci cu _ _ _ _ _ _ 1 M (13 / 10 * M) Hw Hb HW HBB) as P.
  assert (P' : capprox (E + 32 * (M * u53)) (c_mul FO w b) (Cmul W B)).
  { eapply capprox_le; [|apply P]; unfold u53; lra. }
  pose proof (Cle_mul _ _ _ _ HW HBB) as HP.
  split.
  - eapply capprox_le; [|apply (cadd_approx ci cu _ _ _ _ _ _ (1 * M + M) P' Ha (Cle_add _ _ _ _ HP HA))]; unfold u53; lra.
  - eapply capprox_le; [|apply (csub_approx ci cu _ _ _ _ _ _ (M + 1 * M) Ha P' (Cle_sub _ _ _ _ HA HP))]; unfold u53; lra.
Qed.

Lemma half_exact : capprox 0 (c_half FO) (RtoC (/ 2)).
Proof.
  unfold c_half. apply capprox_real. destruct (const_correct 5 1 ltac:(lia)) as [F1 V1].
  { change (10 ^ 1)%Z with 10%Z. rewrite Rabs_pos_eq by lra. assert (1 <= IZR (2 ^ 52)) by (apply IZR_le; lia). lra. }
  split; [exact F1|]. change (f_const FO 5 1) with (b_const 5 1). rewrite V1. change (10 ^ 1)%Z with 10%Z.
  replace (5 / 10) with (bpow radix2 (-1)) by (cbn; lra).
  unfold rnd. rewrite round_generic; [|auto with typeclass_instances|].
  - replace (bpow radix2 (-1) - / 2) with 0 by (cbn; lra). rewrite Rabs_R0. lra.
  - apply generic_format_bpow. unfold SpecFloat.fexp, SpecFloat.emin. lia.
Qed.

Lemma split_step w a b W A B E M : 1 <= M -> 0 <= E <= M / 4 -> 8 * M <= big ->
  capprox (20 * u53) w W -> Cle W 1 -> capprox E a A -> capprox E b B -> Cle A M -> Cle B M ->
  capprox (E + 50 * (M * u53)) (c_mul FO (c_add FO a b) (c_half FO)) (Cmul (Cadd A B) (RtoC (/ 2))) /\
  Cle (Cmul (Cadd A B) (RtoC (/ 2))) M /\
  capprox (E + 50 * (M * u53)) (c_mul FO (c_mul FO (c_sub FO a b) (c_half FO)) (c_conj FO w))
    (Cmul (Cmul (Csub A B) (RtoC (/ 2))) (Cconj W)) /\
  Cle (Cmul (Cmul (Csub A B) (RtoC (/ 2))) (Cconj W)) M.
Proof.
  intros HM HE HB Hw HW Ha Hb HA HBB.
  pose proof (Cle_add _ _ _ _ HA HBB) as HAB. pose proof (Cle_sub _ _ _ _ HA HBB) as HSB.
  assert (HH : Cle (RtoC (/ 2)) (/ 2)) by (apply Cle_real; rewrite Rabs_pos_eq; lra).
  assert (PA : capprox (2 * E + 4 * (M * u53)) (c_add FO a b) (Cadd A B)).
  { eapply capprox_le; [|apply (cadd_approx ci cu _ _ _ _ _ _ _ Ha Hb HAB)]; unfold u53; lra. }
  assert (PS : capprox (2 * E + 4 * (M * u53)) (c_sub FO a b) (Csub A B)).
  { eapply capprox_le; [|apply (csub_approx ci cu _ _ _ _ _ _ _ Ha Hb HSB)]; unfold u53; lra. }
  assert (QA : capprox (E + 10 * (M * u53)) (c_mul FO (c_add FO a b) (c_half FO)) (Cmul (Cadd A B) (RtoC (/ 2)))).
  { eapply capprox_le; [|apply (cmul_approx ci cu _ _ _ _ _ _ _ _ (13 / 10 * M) PA half_exact HAB HH)]; unfold u53; lra. }
  assert (QS : capprox (E + 10 * (M * u53)) (c_mul FO (c_sub FO a b) (c_half FO)) (Cmul (Csub A B) (RtoC (/ 2)))).
  { eapply capprox_le; [|apply (cmul_approx ci cu _ _ _ _ _ _ _ _ (13 / 10 * M) PS half_exact HSB HH)]; unfold u53; lra. }
  assert (MA : Cle (Cmul (Cadd A B) (RtoC (/ 2))) M) by (eapply Cle_le; [|apply (Cle_mul _ _ _ _ HAB HH)]; lra).
  assert (MS : Cle (Cmul (Csub A B) (RtoC (/ 2))) M) by (eapply Cle_le; [|apply (Cle_mul _ _ _ _ HSB HH)]; lra).
  pose proof (cconj_approx ci cu _ _ _ Hw) as Hc. pose proof (Cle_conj _ _ HW) as HC.
  split; [|split; [exact MA|split]].
  - eapply capprox_le; [|exact QA]. unfold u53. lra.
  - eapply capprox_le; [|apply (cmul_approx ci cu _ _ _ _ _ _ _ _ (13 / 10 * M) QS Hc MS HC)]; unfold u53; lra.
  - eapply Cle_le; [|apply (Cle_mul _ _ _ _ MS HC)]. lra.
Qed.

(** ** The transforms *)
Lemma Cle_pow z i : Cle z 1 -> Cle (Cpow z i) 1.
Proof.
  intros H. induction i as [|i IH]; cbn [Cpow]; [unfold Cle, Csqnorm, C1; cbn [fst snd]; lra|].
  replace 1 with (1 * 1) by ring. apply Cle_mul; assumption.
Qed.
Lemma Cle_ceval v z B : Cle z 1 -> (forall i, (i < length v)%nat -> Rabs (nth i v 0) <= B) ->
  Cle (ceval v z) (INR (length v) * B).
Proof.
  intros Hz HB. unfold ceval.
  assert (A : forall n, (n <= length v)%nat -> Cle (Csum n (fun i => Cmul (RtoC (nth i v 0)) (Cpow z i))) (INR n * B)).
  { induction n as [|n IH]; intros Hn; cbn [Csum].
    - rewrite Rmult_0_l. apply Cle_0.
    - rewrite S_INR. replace ((INR n + 1) * B) with (INR n * B + B * 1) by ring.
      apply Cle_add; [apply IH; lia|]. apply Cle_mul; [apply Cle_real, HB; lia|apply Cle_pow, Hz]. }
  apply A. lia.
Qed.
Lemma INR_pow2 k : INR (2 ^ k) = 2 ^ k.
Proof. rewrite pow_INR. reflexivity. Qed.
Lemma pow2_pos k : 1 <= 2 ^ k.
Proof. apply pow_R1_Rle. lra. Qed.

(** the first n floats of f are within e of those of v, which are at most B *)
Definition near (n : nat) (e B : R) (f : list b64) (v : list R) : Prop :=
  length f = n /\ length v = n /\
  forall i, (i < n)%nat -> approx e (nth i f (f0 FO)) (nth i v 0) /\ Rabs (nth i v 0) <= B.
Definition cnear (n : nat) (E M : R) (f : list (b64 * b64)) (v : list Cx) : Prop :=
  length f = n /\ length v = n /\
  forall i, (i < n)%nat -> capprox E (nth i f (c0 FO)) (nth i v C0) /\ Cle (nth i v C0) M.

Lemma near_evens m e B f v : near (2 * m) e B f v -> near m e B (evens (f0 FO : b64) f) (evens 0 v).
Proof.
  intros (L1 & L2 & H).
  assert (D1 : Nat.div (length f) 2 = m) by (rewrite L1, Nat.mul_comm, Nat.div_mul; lia).
  assert (D2 : Nat.div (length v) 2 = m) by (rewrite L2, Nat.mul_comm, Nat.div_mul; lia).
  split; [rewrite evens_length; exact D1|]. split; [rewrite evens_length; exact D2|].
  intros i Hi. pose proof (evens_nth (f0 FO : b64) f i ltac:(rewrite D1; exact Hi)) as X1.
  pose proof (evens_nth 0 v i ltac:(rewrite D2; exact Hi)) as X2. rewrite X1, X2. apply H. lia.
Qed.
Lemma near_odds m e B f v : near (2 * m) e B f v -> near m e B (odds (f0 FO : b64) f) (odds 0 v).
Proof.
  intros (L1 & L2 & H).
  assert (D1 : Nat.div (length f) 2 = m) by (rewrite L1, Nat.mul_comm, Nat.div_mul; lia).
  assert (D2 : Nat.div (length v) 2 = m) by (rewrite L2, Nat.mul_comm, Nat.div_mul; lia).
  split; [rewrite odds_length; exact D1|]. split; [rewrite odds_length; exact D2|].
  intros i Hi. pose proof (odds_nth (f0 FO : b64) f i ltac:(rewrite D1; exact Hi)) as X1.
  pose proof (odds_nth 0 v i ltac:(rewrite D2; exact Hi)) as X2. rewrite X1, X2. apply H. lia.
Qed.

Lemma ci_exact : capprox 0 (c_i FO) Ci.
Proof.
  split; [split; reflexivity|]. replace (Csub (toC (c_i FO)) Ci) with C0; [apply Cle_0|].
  unfold Csub, toC, Ci, C0, c_i. cbn [fst snd f_of_int binary64].
  change (B2R (b_of_int 0)) with 0. rewrite (proj1 (of_int_exact 1 ltac:(lia))). apply f_equal2; ring.
Qed.

Lemma FFT_fuel_err k : (1 <= k <= 10)%nat -> forall f v fuel e B,
  near (2 ^ k) e B f v -> (2 ^ k <= fuel)%nat -> 1 <= B -> 0 <= e <= B / 8 -> 8 * (2 ^ k * B) <= big ->
  exists Fl, FFT_fuel FO roots fuel f = Ok Fl /\
    cnear (2 ^ k) (2 ^ k * (e + INR k * (20 * (B * u53)))) (2 ^ k * B) Fl (map (ceval v) (exact_roots (2 ^ k))).
Proof.
  induction k as [|k IH]; intros Hk f v fuel e B N Hf HB He HBB; [lia|].
  destruct fuel as [|fuel]; [pose proof (pow2_ge1 (S k)); lia|].
  assert (MAG : forall i, (i < 2 ^ S k)%nat -> Cle (nth i (map (ceval v) (exact_roots (2 ^ S k))) C0) (2 ^ S k * B)).
  { intros i Hi. rewrite nth_map_ceval by (rewrite (gr_len _ exact_good) by lia; exact Hi).
    destruct N as (_ & L2 & N). pose proof (Cle_ceval v _ B (exact_unit (S k) i ltac:(lia) Hi)) as Q.
    rewrite L2, INR_pow2 in Q. apply Q. intros j Hj. apply N, Hj. }
  assert (LM : length (map (ceval v) (exact_roots (2 ^ S k))) = (2 ^ S k)%nat) by (rewrite map_length; apply (gr_len _ exact_good); lia).
  destruct k as [|k].
  - clear IH. change (2 ^ 1)%nat with 2%nat in *. destruct N as (L1 & L2 & N).
    destruct f as [|x [|y [|? f]]]; cbn [length] in L1; try lia. destruct v as [|a [|b [|? v]]]; cbn [length] in L2; try lia.
    destruct (N 0%nat ltac:(lia)) as [X HX]. destruct (N 1%nat ltac:(lia)) as [Y HY]. cbn [nth] in X, HX, Y, HY.
    cbn [FFT_fuel length Nat.ltb Nat.leb Nat.eqb idx nth_error bind].
    eexists. split; [reflexivity|]. split; [reflexivity|]. split; [exact LM|]. intros i Hi. split; [|apply MAG, Hi]. clear MAG LM.
    rewrite (gr_two _ exact_good). cbn [map].
    replace (ceval [a; b] Ci) with (Cadd (RtoC a) (Cmul Ci (RtoC b)))
      by (unfold ceval, Ci; cbn [length Csum Cpow nth]; unfold Cadd, Cmul, RtoC, C0, C1; cbn [fst snd]; apply f_equal2; ring).
    replace (ceval [a; b] (Copp Ci)) with (Csub (RtoC a) (Cmul Ci (RtoC b)))
      by (unfold ceval, Ci, Copp; cbn [length Csum Cpow nth]; unfold Cadd, Csub, Cmul, RtoC, C0, C1; cbn [fst snd]; apply f_equal2; ring).
    pose proof (capprox_real _ _ _ X) as CX. pose proof (capprox_real _ _ _ Y) as CY.
    pose proof (Cle_real _ _ HX) as MX. pose proof (Cle_real _ _ HY) as MY.
    assert (MI : Cle Ci 1) by (unfold Cle, Csqnorm, Ci; cbn [fst snd]; lra).
    replace (2 ^ 1) with 2 in * by ring. change (INR 1) with 1.
    assert (PI : capprox (e + 7 * (B * u53)) (c_mul FO (c_i FO) (c_real FO y)) (Cmul Ci (RtoC b))).
    { eapply capprox_le; [|apply (cmul_approx ci cu _ _ _ _ _ _ 1 B (13 / 10 * B) ci_exact CY MI MY)]; unfold u53; lra. }
    pose proof (Cle_mul _ _ _ _ MI MY) as MM.
    destruct i as [|[|i]]; [| |lia]; cbn [nth].
    + eapply capprox_le; [|apply (cadd_approx ci cu _ _ _ _ _ _ _ CX PI (Cle_add _ _ _ _ MX MM))]; unfold u53; lra.
    + eapply capprox_le; [|apply (csub_approx ci cu _ _ _ _ _ _ _ CX PI (Cle_sub _ _ _ _ MX MM))]; unfold u53; lra.
  - assert (P2 : (2 <= 2 ^ S k)%nat) by (pose proof (pow2_ge1 k); rewrite pow2_S; lia).
    set (m := (2 ^ S k)%nat) in *. assert (EM : (2 ^ S (S k) = 2 * m)%nat) by reflexivity.
    rewrite EM in *. cbn [FFT_fuel]. change (F FO) with b64. pose proof N as (L1 & L2 & _).
    destruct (Nat.ltb_spec 2 (length f)); [|lia].
    rewrite (@SplitPolys_ok b64 (f0 FO)). cbn [bind fst snd].
    assert (RP : 2 ^ S (S k) = 2 * 2 ^ S k) by reflexivity. rewrite RP in *.
    pose proof (pow2_pos (S k)) as PP. set (mr := 2 ^ S k) in *.
    assert (MB : 1 <= mr * B) by (replace 1 with (1 * 1) by ring; apply Rmult_le_compat; lra).
    destruct (IH ltac:(lia) _ _ fuel e B (near_evens _ _ _ _ _ N) ltac:(lia) HB He ltac:(lra)) as (A & EA & NA).
    destruct (IH ltac:(lia) _ _ fuel e B (near_odds _ _ _ _ _ N) ltac:(lia) HB He ltac:(lra)) as (D & ED & ND).
    rewrite EA. cbn [bind]. rewrite ED. cbn [bind].
    pose proof (roots_dict_full FO (S (S k)) ltac:(lia)) as LR. rewrite EM in LR.
    destruct NA as (LA & _ & NA). destruct ND as (LD & _ & ND).
    rewrite (MergeFFT_ok FO roots A D m LA (Nat.eq_le_incl _ _ (eq_sym LD)) ltac:(rewrite LR; lia)).
    eexists. split; [reflexivity|]. split; [apply interleave_length|]. split; [exact LM|].
    assert (STEP : forall i, (i < m)%nat ->
      let W := nth (2 * i) (exact_roots (2 * m)) C0 in
      let a := nth i A (c0 FO) in let z := c_mul FO (nth (2 * i) (roots (2 * m)%nat) (c0 FO)) (nth i D (c0 FO)) in
      capprox (2 * mr * (e + INR (S (S k)) * (20 * (B * u53)))) (c_add FO z a) (ceval v W) /\
      capprox (2 * mr * (e + INR (S (S k)) * (20 * (B * u53)))) (c_sub FO a z) (ceval v (Copp W))).
    { intros i Hi W a z. unfold z.
      pose proof (root_approx (S (S k)) (2 * i) ltac:(lia) ltac:(lia)) as RA. rewrite EM in RA. fold W in RA.
      pose proof (exact_unit (S (S k)) (2 * i) ltac:(lia) ltac:(lia)) as RU. rewrite EM in RU. fold W in RU.
      destruct (NA i Hi) as [NAi MAi]. destruct (ND i Hi) as [NDi MDi].
      pose proof (gr_len _ exact_good (S k) ltac:(lia)) as LE. fold m in LE.
      rewrite nth_map_ceval in NAi, MAi, NDi, MDi by lia.
      pose proof (gr_sqr _ exact_good (S k) i ltac:(lia) Hi) as Q. fold m in Q. fold W in Q.
      rewrite !(ceval_even_odd m v) by exact L2.
      replace (Cmul (Copp W) (Copp W)) with (Cmul W W) by ring. rewrite Q.
      set (CA := ceval (evens 0 v) _) in *. set (CD := ceval (odds 0 v) _) in *. fold a in NAi.
      set (E := mr * (e + INR (S k) * (20 * (B * u53)))) in *.
      assert (HE : 0 <= E <= mr * B / 4).
      { assert (IK : 0 <= INR (S k) <= 10). { split; [apply pos_INR|]. replace 10 with (INR 10) by (cbn; lra). apply le_INR. lia. }
        assert (U : 0 <= B * u53 <= B / 8000) by (unfold u53; lra).
        assert (V : 0 <= INR (S k) * (20 * (B * u53)) <= 10 * (20 * (B / 8000))).
        { split; [apply Rmult_le_pos|apply Rmult_le_compat]; lra. }
        unfold E. split; [apply Rmult_le_pos; lra|].
        apply Rle_trans with (mr * (B / 4)); [apply Rmult_le_compat_l|]; lra. }
      destruct (merge_step _ _ _ _ _ _ E (mr * B) MB HE ltac:(lra) RA RU NAi NDi MAi MDi) as [S1 S2].
      assert (EE : 2 * E + 40 * (mr * B * u53) = 2 * mr * (e + INR (S (S k)) * (20 * (B * u53)))).
      { unfold E. rewrite (S_INR (S k)). ring. }
      rewrite EE in S1, S2. replace (Cadd CA (Cmul W CD)) with (Cadd (Cmul W CD) CA) by ring.
      replace (Cadd CA (Cmul (Copp W) CD)) with (Csub CA (Cmul W CD)) by ring. split; assumption. }
    intros i Hi. split; [|apply MAG, Hi].
    pose proof (gr_len _ exact_good (S (S k)) ltac:(lia)) as LE. rewrite EM in LE.
    rewrite nth_map_ceval by lia.
    destruct (Nat.Even_or_Odd i) as [[j ->]|[j ->]].
    + rewrite interleave_even by lia. apply (STEP j). lia.
    + rewrite interleave_odd by lia. pose proof (gr_opp _ exact_good (S k) j ltac:(lia) ltac:(fold m; lia)) as O.
      fold m in O. rewrite O. apply (STEP j). lia.
Qed.

Lemma IFFT_fuel_err k : (1 <= k <= 10)%nat -> forall Fl v fuel E M,
  cnear (2 ^ k) E M Fl (map (ceval v) (exact_roots (2 ^ k))) -> length v = (2 ^ k)%nat ->
  (2 ^ k <= fuel)%nat -> 1 <= M -> E + INR k * (50 * (M * u53)) <= M / 4 -> 8 * M <= big ->
  exists f, IFFT_fuel FO roots fuel Fl = Ok f /\ near (2 ^ k) (E + INR k * (50 * (M * u53))) M f v.
Proof.
  induction k as [|k IH]; intros Hk Fl v fuel E M N L Hf HM HE HBB; [lia|].
  destruct fuel as [|fuel]; [pose proof (pow2_ge1 (S k)); lia|].
  assert (U : 0 <= M * u53) by (unfold u53; lra).
  assert (IK : 0 <= INR k * (50 * (M * u53))) by (apply Rmult_le_pos; [apply pos_INR|lra]).
  rewrite S_INR in HE |- *.
  assert (E0 : 0 <= E).
  { destruct N as (_ & _ & N). destruct (N 0%nat (pow2_ge1 (S k))) as [N0 _]. apply capprox_pos in N0. exact N0. }
  destruct k as [|k].
  - clear IH. change (2 ^ 1)%nat with 2%nat in *. destruct N as (L1 & _ & N).
    destruct Fl as [|z [|z' [|? Fl]]]; cbn [length] in L1; try lia. destruct v as [|a [|b [|? v]]]; cbn [length] in L; try lia.
    destruct (N 0%nat ltac:(lia)) as [X HX]. rewrite (gr_two _ exact_good) in X, HX. cbn [map nth] in X, HX.
    replace (ceval [a; b] Ci) with ((a, b) : Cx) in X, HX
      by (unfold ceval, Ci; cbn [length Csum Cpow nth]; unfold Cadd, Cmul, RtoC, C0, C1; cbn [fst snd]; apply f_equal2; ring).
    cbn [IFFT_fuel length Nat.ltb Nat.leb Nat.eqb idx nth_error bind].
    eexists. split; [reflexivity|]. split; [reflexivity|]. split; [reflexivity|]. change (INR 0) with 0 in *.
    pose proof (capprox_fst _ _ _ X) as X1. pose proof (capprox_snd _ _ _ X) as X2. cbn [fst snd] in X1, X2.
    pose proof (Cle_fst _ _ HX) as M1. pose proof (Cle_snd _ _ HX) as M2. cbn [fst snd] in M1, M2.
    intros i Hi. destruct i as [|[|i]]; [| |lia]; cbn [nth]; (split; [eapply approx_le; [|eassumption]; lra|assumption]).
  - assert (P2 : (2 <= 2 ^ S k)%nat) by (pose proof (pow2_ge1 k); rewrite pow2_S; lia).
    set (m := (2 ^ S k)%nat) in *. assert (EM : (2 ^ S (S k) = 2 * m)%nat) by reflexivity.
    rewrite EM in *. cbn [IFFT_fuel]. pose proof N as (L1 & L2 & NN).
    change (cplx FO) with (b64 * b64)%type. destruct (Nat.ltb_spec 2 (length Fl)); [|lia].
    pose proof (roots_dict_full FO (S (S k)) ltac:(lia)) as LR. rewrite EM in LR.
    rewrite (SplitFFT_ok FO roots Fl m L1 ltac:(rewrite LR; lia)). cbn [bind fst snd].
    pose proof (SplitFFT_eval _ exact_good (S k) v ltac:(lia) L) as SE. fold m in SE.
    rewrite (SplitFFT_ok exactR exact_roots _ m) in SE
      by (try exact L2; pose proof (gr_len _ exact_good (S (S k)) ltac:(lia)) as LE; rewrite EM in LE; unfold cplx; cbn [F exactR]; fold Cx; lia).
    rewrite c_half_eq in SE. change (c0 exactR) with C0 in SE.
    assert (SE1 := f_equal (fun r => match r with Ok p => fst p | _ => [] end) SE).
    assert (SE2 := f_equal (fun r => match r with Ok p => snd p | _ => [] end) SE).
    cbn [fst snd] in SE1, SE2. clear SE.
    assert (STEP : forall i, (i < m)%nat ->
      let a := nth (2 * i) Fl (c0 FO) in let b := nth (2 * i + 1) Fl (c0 FO) in
      let w := nth (2 * i) (roots (2 * m)%nat) (c0 FO) in
      (capprox (E + 50 * (M * u53)) (c_mul FO (c_add FO a b) (c_half FO)) (nth i (map (ceval (evens 0 v)) (exact_roots m)) C0) /\
       Cle (nth i (map (ceval (evens 0 v)) (exact_roots m)) C0) M) /\
      (capprox (E + 50 * (M * u53)) (c_mul FO (c_mul FO (c_sub FO a b) (c_half FO)) (c_conj FO w))
        (nth i (map (ceval (odds 0 v)) (exact_roots m)) C0) /\
       Cle (nth i (map (ceval (odds 0 v)) (exact_roots m)) C0) M)).
    { intros i Hi a b w. rewrite <- SE1, <- SE2.
      rewrite (nth_map_seq _ m i C0 Hi). rewrite (nth_map_seq _ m i C0 Hi).
      pose proof (root_approx (S (S k)) (2 * i) ltac:(lia) ltac:(lia)) as RA. rewrite EM in RA.
      pose proof (exact_unit (S (S k)) (2 * i) ltac:(lia) ltac:(lia)) as RU. rewrite EM in RU.
      destruct (NN (2 * i)%nat ltac:(lia)) as [Na Ma]. destruct (NN (2 * i + 1)%nat ltac:(lia)) as [Nb Mb].
      destruct (split_step _ _ _ _ _ _ E M HM ltac:(lra) ltac:(lra) RA RU Na Nb Ma Mb) as (S1 & S2 & S3 & S4).
      split; split; assumption. }
    assert (Hd : Nat.div (length v) 2 = m) by (rewrite L, Nat.mul_comm, Nat.div_mul; lia).
    pose proof (gr_len _ exact_good (S k) ltac:(lia)) as LE1. fold m in LE1.
    assert (KE : E + 50 * (M * u53) + INR (S k) * (50 * (M * u53)) = E + (INR (S k) + 1) * (50 * (M * u53))) by ring.
    match goal with |- context [IFFT_fuel FO roots fuel ?x] =>
      destruct (IH ltac:(lia) x (evens 0 v) fuel (E + 50 * (M * u53)) M) as (fa & EA & LA & _ & NA) end;
      [split; [rewrite map_length, seq_length; reflexivity|]; split; [rewrite map_length; exact LE1|];
       intros i Hi; rewrite (nth_map_seq _ m i (c0 FO) Hi); apply (STEP i Hi)
      |rewrite evens_length; exact Hd|lia|exact HM|rewrite KE; exact HE|exact HBB|].
    rewrite EA. cbn [bind].
    match goal with |- context [IFFT_fuel FO roots fuel ?x] =>
      destruct (IH ltac:(lia) x (odds 0 v) fuel (E + 50 * (M * u53)) M) as (fb & EB & LB & _ & NB) end;
      [split; [rewrite map_length, seq_length; reflexivity|]; split; [rewrite map_length; exact LE1|];
       intros i Hi; rewrite (nth_map_seq _ m i (c0 FO) Hi); apply (STEP i Hi)
      |rewrite odds_length; exact Hd|lia|exact HM|rewrite KE; exact HE|exact HBB|].
    rewrite EB. cbn [bind]. change (F FO) with b64.
    rewrite (@MergePolys_ok b64 (f0 FO) fa fb) by (rewrite LA, LB; lia). rewrite LA.
    eexists. split; [reflexivity|]. split; [apply interleave_length|]. split; [exact L|].
    rewrite KE in NA, NB.
    intros i Hi. destruct (Nat.Even_or_Odd i) as [[j ->]|[j ->]].
    + rewrite (interleave_even _ _ m j) by lia. rewrite <- (evens_nth 0 v) by (rewrite Hd; lia). apply NA. lia.
    + rewrite (interleave_odd _ _ m j) by lia. rewrite <- (odds_nth 0 v) by (rewrite Hd; lia). apply NB. lia.
Qed.

(** ** The ring operations *)
Lemma FFT_err k f v e B : (1 <= k <= 10)%nat ->
  near (2 ^ k) e B f v -> 1 <= B -> 0 <= e <= B / 8 -> 8 * (2 ^ k * B) <= big ->
  exists Fl, FFT FO roots f = Ok Fl /\
    cnear (2 ^ k) (2 ^ k * (e + INR k * (20 * (B * u53)))) (2 ^ k * B) Fl (map (ceval v) (exact_roots (2 ^ k))).
Proof.
  intros Hk N. intros. apply FFT_fuel_err; auto. destruct N as (L & _). change (F FO) with b64. lia.
Qed.
Lemma IFFT_err k Fl v E M : (1 <= k <= 10)%nat ->
  cnear (2 ^ k) E M Fl (map (ceval v) (exact_roots (2 ^ k))) -> length v = (2 ^ k)%nat ->
  1 <= M -> E + INR k * (50 * (M * u53)) <= M / 4 -> 8 * M <= big ->
  exists f, IFFT FO roots Fl = Ok f /\ near (2 ^ k) (E + INR k * (50 * (M * u53))) M f v.
Proof.
  intros Hk N. intros. apply IFFT_fuel_err; auto. destruct N as (L & _). change (cplx FO) with (b64 * b64)%type. lia.
Qed.

Lemma INR_le10 k : (1 <= k <= 10)%nat -> 1 <= INR k <= 10.
Proof.
  intros H. split; [change 1 with (INR 1)|replace 10 with (INR 10) by (cbn; lra)]; apply le_INR; lia.
Qed.
(** 50 k M u is small *)
Lemma small_ku k : (1 <= k <= 10)%nat -> 0 < u53 <= INR k * u53 /\ INR k * u53 <= / 100000000000000.
Proof. intros H. pose proof (INR_le10 k H) as K. unfold u53. lra. Qed.

(** the inputs with relative errors r and s *)
Lemma Mul_err k f g v w r s B D : (1 <= k <= 10)%nat ->
  near (2 ^ k) (B * r) B f v -> near (2 ^ k) (D * s) D g w -> 1 <= B -> 1 <= D ->
  0 <= r <= / 1000 -> 0 <= s <= / 1000 -> 8 * (2 ^ k * B * (2 ^ k * D)) <= big ->
  exists p, Mul FO roots f g = Ok p /\
    near (2 ^ k) (2 ^ k * B * (2 ^ k * D) * (101 / 100 * (r + s) + 100 * (INR k * u53))) (2 ^ k * B * (2 ^ k * D)) p
      (rmul (2 ^ k) v w).
Proof.
  intros Hk Nf Ng HB HD Hr Hs HBB.
  pose proof (pow2_pos k) as PP. pose proof (small_ku k Hk) as KU. set (n := 2 ^ k) in *.
  assert (MB : 1 <= n * B) by (replace 1 with (1 * 1) by ring; apply Rmult_le_compat; lra).
  assert (MD : 1 <= n * D) by (replace 1 with (1 * 1) by ring; apply Rmult_le_compat; lra).
  set (MF := n * B) in *. set (MG := n * D) in *.
  assert (MM : 1 <= MF * MG) by (replace 1 with (1 * 1) by ring; apply Rmult_le_compat; lra).
  assert (MF1 : MF <= MF * MG) by (rewrite <- (Rmult_1_r MF) at 1; apply Rmult_le_compat_l; lra).
  assert (MG1 : MG <= MF * MG) by (rewrite <- (Rmult_1_l MG) at 1; apply Rmult_le_compat_r; lra).
  assert (SM : forall X t, 1 <= X -> 0 <= t <= / 1000 -> 0 <= X * t <= X / 8).
  { intros X t HX Ht. split; [apply Rmult_le_pos; lra|]. unfold Rdiv. apply Rmult_le_compat_l; lra. }
  destruct (FFT_err k f v _ B Hk Nf HB (SM B r HB Hr)) as (Fl & EF & LF & LF' & NF). { fold n MF. lra. }
  destruct (FFT_err k g w _ D Hk Ng HD (SM D s HD Hs)) as (Gl & EG & LG & _ & NG). { fold n MG. lra. }
  fold n MF in NF. fold n MG in NG.
  pose proof Nf as (_ & Lv & _). pose proof Ng as (_ & Lw & _).
  unfold Mul. rewrite EF. cbn [bind]. rewrite EG. cbn [bind].
  rewrite (MulFFT_ok FO Fl Gl (Nat.eq_le_incl _ _ (eq_trans LF (eq_sym LG)))). cbn [bind].
  change (length (Fl : list (cplx FO))) with (length (Fl : list (b64 * b64))). rewrite LF.
  set (R1 := r + 20 * (INR k * u53)). set (R2 := s + 20 * (INR k * u53)).
  assert (EF' : n * (B * r + INR k * (20 * (B * u53))) = MF * R1) by (unfold MF, R1; ring).
  assert (EG' : n * (D * s + INR k * (20 * (D * u53))) = MG * R2) by (unfold MG, R2; ring).
  rewrite EF' in NF. rewrite EG' in NG.
  assert (H1 : 0 <= R1 <= 2 / 1000) by (unfold R1; lra). assert (H2 : 0 <= R2 <= 2 / 1000) by (unfold R2; lra).
  assert (H12 : 0 <= R1 * R2 <= 2 / 1000 * R2) by (split; [apply Rmult_le_pos|apply Rmult_le_compat_r]; lra).
  set (M := MF * MG) in *.
  set (E := M * (R1 + R2 + R1 * R2 + 7 * u53)).
  assert (EE : 0 <= E <= M / 8).
  { assert (Q : 0 <= R1 + R2 + R1 * R2 + 7 * u53 <= / 8) by (unfold u53 in *; lra).
    unfold E. split; [apply Rmult_le_pos; lra|]. unfold Rdiv. apply Rmult_le_compat_l; lra. }
  destruct (IFFT_err k (map (fun i => c_mul FO (nth i Fl (c0 FO)) (nth i Gl (c0 FO))) (seq 0 (2 ^ k))) (rmul (2 ^ k) v w) E M Hk)
    as (p & EP & LP & LP' & NP).
  - split; [rewrite map_length, seq_length; reflexivity|]. split; [rewrite map_length; apply (gr_len _ exact_good); lia|].
    intros i Hi. rewrite (nth_map_seq _ (2 ^ k) i (c0 FO) Hi).
    pose proof (gr_len _ exact_good k ltac:(lia)) as LR.
    destruct (NF i Hi) as [F1 F2]. destruct (NG i Hi) as [G1 G2].
    rewrite nth_map_ceval in F1, F2, G1, G2 |- * by lia.
    rewrite ceval_rmul; auto. 2:{ apply (roots_in _ exact_good k); [lia|]. apply nth_In. lia. }
    set (a := ceval v _) in *. set (b := ceval w _) in *.
    split; [|exact (Cle_mul _ _ _ _ F2 G2)].
    eapply capprox_le; [|apply (cmul_approx ci cu _ _ _ _ _ _ MF MG (13 / 10 * M) F1 G1 F2 G2)].
    + unfold E, M. replace ((MF + MF * R1) * (MG * R2) + MF * R1 * MG) with (MF * MG * (R1 + R2 + R1 * R2)) by ring.
      fold M. unfold u53. lra.
    + replace ((MF + MF * R1) * (MG + MG * R2)) with (M * (1 + R1 + R2 + R1 * R2)) by (unfold M; ring).
      rewrite (Rmult_comm (13 / 10)). apply Rmult_le_compat_l; lra.
    + lra.
    + lra.
  - apply rmul_length.
  - exact MM.
  - assert (Q : M * (INR k * u53) <= M * / 100000000000000) by (apply Rmult_le_compat_l; lra). lra.
  - lra.
  - exists p. split; [exact EP|]. split; [exact LP|]. split; [exact LP'|]. intros i Hi. destruct (NP i Hi) as [N1 N2].
    split; [|exact N2]. eapply approx_le; [|exact N1]. unfold E.
    replace (M * (R1 + R2 + R1 * R2 + 7 * u53) + INR k * (50 * (M * u53)))
      with (M * (R1 + R2 + R1 * R2 + 7 * u53 + 50 * (INR k * u53))) by ring.
    apply Rmult_le_compat_l; [lra|]. unfold R1, R2 in *. lra.
Qed.

Lemma rsum_le n f B : (forall i, (i < n)%nat -> Rabs (f i) <= B) -> Rabs (rsum n f) <= INR n * B.
Proof.
  induction n as [|n IH]; intros H; cbn [rsum].
  - rewrite Rabs_R0. cbn. lra.
  - rewrite S_INR. pose proof (Rabs_triang (rsum n f) (f n)). pose proof (H n ltac:(lia)).
    pose proof (IH (fun i Hi => H i ltac:(lia))). lra.
Qed.
Lemma rmul_bound n v w B D : 0 <= D -> length v = n -> length w = n ->
  (forall i, (i < n)%nat -> Rabs (nth i v 0) <= B) -> (forall i, (i < n)%nat -> Rabs (nth i w 0) <= D) ->
  forall i, (i < n)%nat -> Rabs (nth i (rmul n v w) 0) <= INR n * (B * D).
Proof.
  intros HD Lv Lw HB HW i Hi. unfold rmul. rewrite (nth_map_seq _ n i 0 Hi). unfold rmul_coef. apply rsum_le. intros j Hj.
  assert (A : forall x, Rabs (nth j v 0 * nth x w 0) <= B * D).
  { intros x. rewrite Rabs_mult. apply Rmult_le_compat; auto using Rabs_pos.
    destruct (Nat.lt_ge_cases x n); [auto|]. rewrite nth_overflow by lia. rewrite Rabs_R0. exact HD. }
  destruct (Nat.leb j i); [|rewrite Rabs_Ropp]; apply A.
Qed.
Lemma radj_bound n v B : length v = n -> (forall i, (i < n)%nat -> Rabs (nth i v 0) <= B) ->
  forall i, (i < n)%nat -> Rabs (nth i (radj n v) 0) <= B.
Proof.
  intros L H i Hi. unfold radj. rewrite (nth_map_seq _ n i 0 Hi). destruct i as [|i]; [apply H, Hi|].
  rewrite Rabs_Ropp. apply H. lia.
Qed.

Lemma Adj_err k f v r B : (1 <= k <= 10)%nat -> near (2 ^ k) (B * r) B f v -> 1 <= B -> 0 <= r <= / 1000 ->
  8 * (2 ^ k * B) <= big ->
  exists p, Adj FO roots f = Ok p /\
    near (2 ^ k) (2 ^ k * B * (r + 70 * (INR k * u53))) B p (radj (2 ^ k) v).
Proof.
  intros Hk N HB Hr HBB. pose proof (pow2_pos k) as PP. pose proof (small_ku k Hk) as KU. set (n := 2 ^ k) in *.
  assert (MB : 1 <= n * B) by (replace 1 with (1 * 1) by ring; apply Rmult_le_compat; lra).
  assert (R8 : 0 <= B * r <= B / 8).
  { split; [apply Rmult_le_pos; lra|]. unfold Rdiv. apply Rmult_le_compat_l; lra. }
  destruct (FFT_err k f v _ B Hk N HB R8 HBB) as (Fl & EF & LF & _ & NF). fold n in NF.
  unfold Adj. rewrite EF. cbn [bind]. pose proof N as (_ & Lv & NV).
  set (E := n * (B * r + INR k * (20 * (B * u53)))) in *.
  assert (EE : E = n * B * (r + 20 * (INR k * u53))) by (unfold E; ring).
  set (M := n * B) in *.
  destruct (IFFT_err k (AdjFFT FO Fl) (radj (2 ^ k) v) E M Hk) as (p & EP & LP & LP' & NP).
  - split; [unfold AdjFFT; rewrite map_length; exact LF|]. split; [rewrite map_length; apply (gr_len _ exact_good); lia|].
    intros i Hi. pose proof (gr_len _ exact_good k ltac:(lia)) as LR.
    destruct (NF i Hi) as [F1 F2]. rewrite nth_map_ceval in F1, F2 |- * by lia.
    assert (IN : In (nth i (exact_roots (2 ^ k)) C0) (exact_roots (2 ^ k))) by (apply nth_In; lia).
    rewrite ceval_radj; [|exact Lv|apply (roots_in _ exact_good k); [lia|exact IN]|apply (roots_unit _ exact_good k); [lia|exact IN]].
    split; [|apply Cle_conj, F2].
    assert (X : nth i (AdjFFT FO Fl) (c0 FO) = c_conj FO (nth i Fl (c0 FO))).
    { transitivity (nth i (map (c_conj FO) Fl) (c_conj FO (c0 FO))); [|apply map_nth].
      apply nth_indep. rewrite map_length. refine (eq_ind_r (fun m => (i < m)%nat) Hi LF). }
    refine (eq_ind_r (fun z => capprox _ z _) (cconj_approx ci cu _ _ _ F1) X).
  - apply radj_length.
  - exact MB.
  - rewrite EE. replace (M * (r + 20 * (INR k * u53)) + INR k * (50 * (M * u53))) with (M * (r + 70 * (INR k * u53))) by ring.
    unfold Rdiv. apply Rmult_le_compat_l; lra.
  - exact HBB.
  - exists p. split; [exact EP|]. split; [exact LP|]. split; [exact LP'|]. intros i Hi. destruct (NP i Hi) as [N1 N2].
    split; [|apply radj_bound; auto; intros j Hj; apply NV, Hj].
    eapply approx_le; [|exact N1]. rewrite EE.
    replace (M * (r + 20 * (INR k * u53)) + INR k * (50 * (M * u53))) with (M * (r + 70 * (INR k * u53))) by ring. lra.
Qed.

Lemma near_exact n B f : length f = n -> (forall i, (i < n)%nat -> is_finite (nth i f (f0 FO)) = true) ->
  (forall i, (i < n)%nat -> Rabs (B2R (nth i f (f0 FO))) <= B) -> near n 0 B f (map B2R f).
Proof.
  intros L HF HB. split; [exact L|]. split; [rewrite map_length; exact L|]. intros i Hi.
  assert (E : nth i (map B2R f) 0 = B2R (nth i f (f0 FO))) by (change 0 with (B2R (f0 FO : b64)); apply map_nth).
  rewrite E. split; [apply approx_exact, HF, Hi|apply HB, Hi].
Qed.
Lemma near_le n e e' B B' f v : e <= e' -> B <= B' -> near n e B f v -> near n e' B' f v.
Proof.
  intros He HB (L1 & L2 & H). split; [exact L1|]. split; [exact L2|]. intros i Hi. destruct (H i Hi) as [A C].
  split; [eapply approx_le; eassumption|lra].
Qed.

(** ** Rounding to the nearest integer *)
Lemma round_approx e x z : approx e x (IZR z) -> e < / 2 -> (Z.abs z <= 2 ^ 62)%Z ->
  wrap64 (f_to_int FO (f_round FO x)) = z.
Proof.
  intros [Fx H] He Hz. cbn [f_round f_to_int binary64].
  destruct (Bnearbyint_correct 53 1024 _ mode_NA x) as (E & Fe & _). fold (b_round x) in E, Fe.
  assert (E' : B2R (b_round x) = IZR z).
  { rewrite E. unfold round, scaled_mantissa, F2R, cexp, FIX_exp. cbn [Fnum Fexp]. change (bpow radix2 (- 0)) with 1.
    change (bpow radix2 0) with 1. rewrite !Rmult_1_r. f_equal. unfold round_mode.
    apply Znearest_imp. lra. }
  rewrite Fx in Fe.
  pose proof (Btrunc_correct 53 1024 _ (b_round x)) as T. rewrite round_FIX_IZR, E', Ztrunc_IZR in T. apply eq_IZR in T.
  unfold b_conv. rewrite Fe, T.
  destruct (Z.leb_spec (- 2 ^ 63) z); [|lia]. destruct (Z.ltb_spec z (2 ^ 63)); [|lia].
  cbn [andb]. unfold wrap64. apply wrap_id; lia.
Qed.
Lemma near_round n e B f zs : near n e B f (map IZR zs) -> e < / 2 -> B <= IZR (2 ^ 62) ->
  map (fun v => wrap64 (f_to_int FO (f_round FO v))) f = zs.
Proof.
  intros (L1 & L2 & H) He HB. rewrite map_length in L2.
  assert (A : forall i, (i < n)%nat -> wrap64 (f_to_int FO (f_round FO (nth i f (f0 FO)))) = nth i zs 0%Z).
  { intros i Hi. destruct (H i Hi) as [A C].
    assert (E : nth i (map IZR zs) 0 = IZR (nth i zs 0%Z)) by (change 0 with (IZR 0); apply map_nth).
    rewrite E in A, C. apply (round_approx e); auto. apply le_IZR. rewrite abs_IZR. lra. }
  clear H. cbn [f_round f_to_int binary64] in *. change (F FO) with b64 in *.
  revert n zs L1 L2 A. induction f as [|x f IH]; intros n zs L1 L2 A; destruct zs as [|z zs]; cbn [length] in *; try lia; [reflexivity|].
  cbn [map]. f_equal; [apply (A 0%nat); lia|]. apply (IH (n - 1)%nat); try lia. intros i Hi. apply (A (S i)). lia.
Qed.
Lemma near_ints n B zs : length zs = n -> Forall (fun z => (Z.abs z <= B)%Z) zs -> (B < 2 ^ 53)%Z ->
  near n 0 (IZR B) (map b_of_int zs) (map IZR zs).
Proof.
  intros L H HB. split; [rewrite map_length; exact L|]. split; [rewrite map_length; exact L|]. intros i Hi.
  assert (E : nth i (map IZR zs) 0 = IZR (nth i zs 0%Z)) by (change 0 with (IZR 0); apply map_nth).
  assert (E' : nth i (map b_of_int zs) (f0 FO) = b_of_int (nth i zs 0%Z)) by (apply (map_nth b_of_int zs 0%Z)).
  rewrite E, E'. pose proof (proj1 (Forall_nth _ _) H i 0%Z ltac:(lia)) as Hz. cbv beta in Hz.
  destruct (of_int_exact (nth i zs 0%Z) ltac:(lia)) as [V F1].
  split; [|rewrite <- abs_IZR; apply IZR_le, Hz]. rewrite <- V. apply approx_exact, F1.
Qed.
End Err.

Lemma rsum_IZR n f g : (forall i, (i < n)%nat -> g i = IZR (f i)) -> rsum n g = IZR (Spec.sumn n f).
Proof.
  induction n as [|n IH]; intros H; [reflexivity|]. cbn [rsum Spec.sumn]. rewrite IH by (intros; apply H; lia).
  rewrite (H n) by lia. rewrite plus_IZR. reflexivity.
Qed.
Lemma nth_IZR l i : nth i (map IZR l) 0 = IZR (nth i l 0%Z).
Proof. change 0 with (IZR 0). apply map_nth. Qed.
Lemma rmul_IZR n f g : rmul n (map IZR f) (map IZR g) = map IZR (Spec.negacyc n f g).
Proof.
  unfold rmul, Spec.negacyc. rewrite map_map. apply map_seq_ext. intros i Hi. unfold rmul_coef, Spec.negacyc_coef.
  apply rsum_IZR. intros j Hj. unfold Spec.coef. rewrite !nth_IZR. destruct (Nat.leb j i).
  - rewrite mult_IZR. reflexivity.
  - rewrite opp_IZR, mult_IZR. reflexivity.
Qed.
