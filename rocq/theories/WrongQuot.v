(** The quotient of reduce (ntrugen.go:166-205) in binary64 when g = F = 0: the
    transforms of 0 are exactly 0, so the quotient is 0. *)
From Coq Require Import Reals Lra Lia ZArith List.
From Flocq Require Import Core BinarySingleNaN.
From Verif Require Import GoBase Util BaseProofs Float Fft FftShape SpecFft ExactReal FftProofs RootsProofs FftErr
  Ntrugen NtruProofs NtruProofs3 KeyGen Binary64 B64Proofs FloatErr QuotErr CdivErr BadAlg BadGs.
Local Open Scope R_scope.

Lemma big200 (x : R) : x <= 2 ^ 200 -> x <= big.
Proof.
  intros H. apply Rle_trans with (1 := H). unfold big.
  apply Rle_trans with (bpow radix2 200); [|apply bpow_le; lia]. cbn; lra.
Qed.

Section Zero.
Context (ci cu : b64 -> Z).
Notation FO := (binary64 ci cu).
Notation roots := (roots_dict FO).

Definition zval (z : b64 * b64) : Prop := isval (fst z) 0 /\ isval (snd z) 0.
Lemma mul_0_l x y : isval x 0 -> is_finite y = true -> isval (b_mul x y) 0.
Proof.
  intros [Fx Vx] Fy. pose proof (Bmult_correct 53 1024 _ _ mode_NE x y) as A.
  change (round radix2 fexp64 (round_mode mode_NE) (B2R x * B2R y)) with (rnd (B2R x * B2R y)) in A.
  rewrite Vx, Rmult_0_l, rnd_0, fits_0 in A. destruct A as (A & Fa & _). rewrite Fx, Fy in Fa. split; assumption.
Qed.
Lemma add_00 x y : isval x 0 -> isval y 0 -> isval (b_add x y) 0.
Proof. intros [Fx Vx] Hy. pose proof (add_0 x y Fx Hy) as H. rewrite Vx in H. exact H. Qed.
Lemma sub_00 x y : isval x 0 -> isval y 0 -> isval (b_sub x y) 0.
Proof. intros [Fx Vx] Hy. pose proof (sub_0 x y Fx Hy) as H. rewrite Vx in H. exact H. Qed.
Lemma zval_fin z : zval z -> cfin z.
Proof. intros [[A _] [B _]]. split; assumption. Qed.
Lemma zval_add z w : zval z -> zval w -> zval (c_add FO z w).
Proof. intros [A B] [C D]. split; apply add_00; assumption. Qed.
Lemma zval_sub z w : zval z -> zval w -> zval (c_sub FO z w).
Proof. intros [A B] [C D]. split; apply sub_00; assumption. Qed.
Lemma zval_mul_r z w : cfin z -> zval w -> zval (c_mul FO z w).
Proof. intros [A B] [C D]. split; [apply sub_00|apply add_00]; apply mul_0_r; assumption. Qed.
Lemma zval_mul_l z w : zval z -> cfin w -> zval (c_mul FO z w).
Proof. intros [A B] [C D]. split; [apply sub_00|apply add_00]; apply mul_0_l; assumption. Qed.
Lemma zval_conj z : zval z -> zval (c_conj FO z).
Proof.
  intros [A [F1 V]]. split; [exact A|]. split; [exact (eq_trans (is_finite_Bopp 53 1024 _) F1)|].
  change (B2R (Bopp (snd z)) = 0). rewrite B2R_Bopp, V. ring.
Qed.
Lemma cfin_conj z : cfin z -> cfin (c_conj FO z).
Proof. intros [A B]. split; [exact A|exact (eq_trans (is_finite_Bopp 53 1024 _) B)]. Qed.
Lemma zval_real x : isval x 0 -> zval (c_real FO x).
Proof. intros H. split; [exact H|]. split; reflexivity. Qed.

Lemma FFT_fuel_zero k : (1 <= k <= 10)%nat -> forall f fuel, length f = (2 ^ k)%nat ->
  (forall i, (i < 2 ^ k)%nat -> isval (nth i f (f0 FO)) 0) -> (2 ^ k <= fuel)%nat ->
  exists Fl, FFT_fuel FO roots fuel f = Ok Fl /\ length Fl = (2 ^ k)%nat /\
    forall i, (i < 2 ^ k)%nat -> zval (nth i Fl (c0 FO)).
Proof.
  induction k as [|k IH]; intros Hk f fuel L N Hf; [lia|].
  destruct fuel as [|fuel]; [pose proof (pow2_ge1 (S k)); lia|].
  destruct k as [|k].
  - clear IH. change (2 ^ 1)%nat with 2%nat in *.
    destruct f as [|x [|y [|? f]]]; cbn [length] in L; try lia.
    pose proof (N 0%nat ltac:(lia)) as X. pose proof (N 1%nat ltac:(lia)) as Y. cbn [nth] in X, Y.
    cbn [FFT_fuel length Nat.ltb Nat.leb Nat.eqb idx nth_error bind].
    eexists. split; [reflexivity|]. split; [reflexivity|].
    assert (PI : zval (c_mul FO (c_i FO) (c_real FO y))) by (apply zval_mul_r; [apply (ci_exact ci cu)|apply zval_real, Y]).
    intros i Hi. destruct i as [|[|i]]; [| |lia]; cbn [nth]; [apply zval_add|apply zval_sub]; auto using zval_real.
  - assert (P2 : (2 <= 2 ^ S k)%nat) by (pose proof (pow2_ge1 k); rewrite pow2_S; lia).
    set (m := (2 ^ S k)%nat) in *. assert (EM : (2 ^ S (S k) = 2 * m)%nat) by reflexivity.
    rewrite EM in *. cbn [FFT_fuel]. change (F FO) with b64 in *.
    destruct (Nat.ltb_spec 2 (length f)); [|lia].
    rewrite (@SplitPolys_ok b64 (f0 FO)). cbn [bind fst snd].
    assert (D1 : Nat.div (length f) 2 = m) by (rewrite L, Nat.mul_comm, Nat.div_mul; lia).
    destruct (IH ltac:(lia) (evens (f0 FO : b64) f) fuel) as (A & EA & LA & NA);
      [rewrite evens_length; exact D1| |lia|].
    { intros i Hi. pose proof (evens_nth (f0 FO : b64) f i ltac:(rewrite D1; exact Hi)) as X1. rewrite X1. apply N. lia. }
    destruct (IH ltac:(lia) (odds (f0 FO : b64) f) fuel) as (D & ED & LD & ND);
      [rewrite odds_length; exact D1| |lia|].
    { intros i Hi. pose proof (odds_nth (f0 FO : b64) f i ltac:(rewrite D1; exact Hi)) as X1. rewrite X1. apply N. lia. }
    rewrite EA. cbn [bind]. rewrite ED. cbn [bind].
    pose proof (roots_dict_full FO (S (S k)) ltac:(lia)) as LR. rewrite EM in LR.
    rewrite (MergeFFT_ok FO roots A D m LA (Nat.eq_le_incl _ _ (eq_sym LD)) ltac:(rewrite LR; lia)).
    eexists. split; [reflexivity|]. split; [apply interleave_length|].
    assert (Z : forall j, (j < m)%nat -> zval (c_mul FO (nth (2 * j) (roots (2 * m)%nat) (c0 FO)) (nth j D (c0 FO)))).
    { intros j Hj. apply zval_mul_r; [|apply ND, Hj].
      pose proof (root_approx ci cu (S (S k)) (2 * j) ltac:(lia) ltac:(lia)) as RA. rewrite EM in RA. apply RA. }
    intros i Hi. destruct (Nat.Even_or_Odd i) as [[j ->]|[j ->]].
    + rewrite interleave_even by lia. apply zval_add; [apply Z; lia|apply NA; lia].
    + rewrite interleave_odd by lia. apply zval_sub; [apply NA; lia|apply Z; lia].
Qed.
Lemma of_int_0 : isval (b_of_int 0) 0.
Proof. split; reflexivity. Qed.
Lemma FFT_zeros k : (1 <= k <= 10)%nat -> exists Fl, FFT FO roots (map (f_of_int FO) (repeat 0%Z (2 ^ k))) = Ok Fl /\
  length Fl = (2 ^ k)%nat /\ forall i, (i < 2 ^ k)%nat -> zval (nth i Fl (c0 FO)).
Proof.
  intros Hk. apply (FFT_fuel_zero k Hk).
  - rewrite map_length, repeat_length. reflexivity.
  - intros i Hi. assert (E : nth i (map (f_of_int FO) (repeat 0%Z (2 ^ k))) (f0 FO) = b_of_int 0).
    { change (f0 FO) with (f_of_int FO 0). rewrite (map_nth (f_of_int FO)), nth_repeat. reflexivity. }
    rewrite E. exact of_int_0.
  - rewrite map_length, repeat_length. lia.
Qed.

Lemma cmul_conj v : Cmul v (Cconj v) = RtoC (Csqnorm v).
Proof. destruct v as [x y]. unfold Cmul, Cconj, RtoC, Csqnorm. cbn [fst snd]. apply f_equal2; ring. Qed.
Lemma Cle_conj' v M : Cle v M -> Cle (Cconj v) M.
Proof. destruct v as [x y]. unfold Cle, Cconj, Csqnorm. cbn [fst snd]. intros [A B]. split; [exact A|lra]. Qed.
Lemma capprox_conj' e z v : capprox e z v -> capprox e (c_conj FO z) (Cconj v).
Proof.
  intros [Fz A]. split; [apply cfin_conj, Fz|].
  replace (Csub (toC (c_conj FO z)) (Cconj v)) with (Cconj (Csub (toC z) v)); [apply Cle_conj', A|].
  destruct z as [x y]. change (toC (c_conj FO (x, y))) with ((B2R x, B2R (Bopp y)) : Cx). rewrite B2R_Bopp.
  unfold Csub, Cconj, toC. cbn [fst snd]. apply f_equal2; ring.
Qed.

(** the quotient is 0 when f is an approximation of one monomial *)
Lemma quo_zero k f G B : (1 <= k <= 10)%nat -> length f = (2 ^ k)%nat -> length G = (2 ^ k)%nat ->
  Forall (fun z => (Z.abs z <= B)%Z) f -> Forall (fun z => (Z.abs z <= 2 ^ 53)%Z) G -> (1 <= B <= 2 ^ 53)%Z ->
  (forall i, (i < 2 ^ k)%nat -> let v := ceval (map IZR f) (nth i (exact_roots (2 ^ k)) C0) in
    Cle v (2 * IZR B) /\ IZR B * IZR B / 4 <= Csqnorm v) ->
  reduce_quotient FO f (repeat 0%Z (2 ^ k)) (repeat 0%Z (2 ^ k)) G = Ok (repeat 0%Z (2 ^ k)).
Proof.
  intros Hk Lf LG Bf BG HB Hv. set (n := (2 ^ k)%nat) in *.
  destruct (FFT_ints ci cu k Hk f f Lf Lf (map IZR f) ltac:(rewrite map_length; exact Lf) f B Lf Bf HB) as (Ff & Ef & L1 & L1' & Nf).
  destruct (FFT_ints ci cu k Hk f f Lf Lf (map IZR f) ltac:(rewrite map_length; exact Lf) G (2 ^ 53)%Z LG BG ltac:(lia)) as (FB & EB & L2 & _ & NB).
  destruct (FFT_zeros k Hk) as (Fz & Ez & L3 & Nz). fold n in Ez, L3, Nz, L1, L2, Nf, NB, L1'.
  unfold reduce_quotient.
  rewrite (quotient_shape FO roots n f _ _ G Ff Fz Fz FB Ef Ez Ez EB L1 L3 L3 L2). cbv zeta.
  set (Fl := map _ (seq 0 n)).
  assert (B1 : 1 <= IZR B) by (apply (IZR_le 1); lia). assert (B53 : IZR B <= IZR (2 ^ 53)) by (apply IZR_le; lia).
  set (b := IZR B) in *. assert (BB0 : 1 <= b * b) by nra. assert (BBu : b * b <= 2 ^ 110).
  { replace (2 ^ 110) with (2 ^ 55 * 2 ^ 55) by (rewrite <- pow_add; reflexivity).
    assert (b <= 2 ^ 55) by (apply Rle_trans with (1 := B53); rewrite <- (pow_IZR 2 53) || idtac; cbn; lra). apply Rmult_le_compat; lra. }
  assert (CN : cnear ci cu n (15 / 10 * u53) 1 Fl (map (ceval (map IZR (repeat 0%Z n))) (exact_roots n))).
  { split; [unfold Fl; rewrite map_length, seq_length; reflexivity|]. rewrite map_length in L1'.
    split; [rewrite map_length; exact L1'|]. intros i Hi.
    rewrite nth_map_ceval by lia. rewrite ceval_zeros.
    split; [|unfold Cle, Csqnorm, C0; cbn [fst snd]; lra].
    unfold Fl. rewrite nth_map_seq by exact Hi.
    destruct (Nf i Hi) as [Ai _]. rewrite nth_map_ceval in Ai by lia. destruct (NB i Hi) as [[FBf _] _].
    pose proof (Nz i Hi) as Zi. destruct (Hv i Hi) as [V1 V2]. cbv zeta in V1, V2. fold n in V1, V2.
    change (cplx FO) with (b64 * b64)%type in *. set (v := ceval (map IZR f) (nth i (exact_roots n) C0)) in *. set (z := nth i Ff (c0 FO)) in *. set (w := nth i Fz (c0 FO)) in *.
    set (t := nth i FB (c0 FO)) in *. clearbody v z w t. clear Fl.
    pose proof (proj1 Ai) as Fz'.
    set (num := c_add FO (c_mul FO w (c_conj FO z)) (c_mul FO t (c_conj FO w))).
    assert (ZN : zval num) by (apply zval_add; [apply zval_mul_l; [exact Zi|apply cfin_conj, Fz']|apply zval_mul_r; [exact FBf|apply zval_conj, Zi]]).
    set (p := c_mul FO z (c_conj FO z)). assert (ZW : zval (c_mul FO w (c_conj FO w))) by (apply zval_mul_r; [apply zval_fin, Zi|apply zval_conj, Zi]).
    set (E := 204800 * (b * u53)) in *. assert (HE : 0 <= E <= b / 1000) by (unfold E, u53; lra).
    assert (PA : capprox ((2 * b + E) * E + E * (2 * b) + 5 * ((5 * (b * b)) * u53)) p (RtoC (Csqnorm v))).
    { unfold p. rewrite <- cmul_conj. apply cmul_approx; [exact Ai|apply capprox_conj', Ai|exact V1|apply Cle_conj', V1|nra|nra|].
      apply big200. apply Rle_trans with (10 * 2 ^ 110); [lra|]. cbn; lra. }
    assert (SP : B2R (snd p) = 0).
    { unfold p. apply (norm_real ci cu z (2 * b + E) Fz' (capprox_bound _ _ _ _ Ai V1)). apply big200.
      apply Rle_trans with (5 * (b * b)); [nra|]. apply Rle_trans with (5 * 2 ^ 110); [lra|]. cbn; lra. }
    assert (PD : 0 < B2R (fst p)).
    { destruct (capprox_fst _ _ _ PA) as [_ D]. cbn [RtoC fst] in D. apply Rabs_le_inv in D.
      assert ((2 * b + E) * E + E * (2 * b) + 5 * ((5 * (b * b)) * u53) <= b * b / 8).
      { assert (b * b * u53 <= b * b / 1000) by (unfold u53; lra). nra. }
      set (e := (2 * b + E) * E + E * (2 * b) + 5 * ((5 * (b * b)) * u53)) in *. clearbody e. clearbody p. clear - D H V2 BB0. enough (- e <= B2R (fst p) - Csqnorm v) by lra. exact (proj1 D). }
    pose proof (proj1 PA) as FP. set (den := c_add FO p (c_mul FO w (c_conj FO w))).
    assert (D1 : isval (fst den) (B2R (fst p))) by (apply add_0; [apply FP|apply ZW]).
    assert (D2 : isval (snd den) (B2R (snd p))) by (apply add_0; [apply FP|apply ZW]).
    destruct ZN as [[N1 N1v] [N2 N2v]]. destruct D1 as [D1 D1v]. destruct D2 as [D2 D2v].
    assert (Q0 : forall x d, x = 0 -> Rabs (x / d) <= 1) by (intros x d ->; unfold Rdiv; rewrite Rmult_0_l, Rabs_R0; lra).
    destruct (cdiv_real num den 1) as [A1 A2].
    - split; assumption.
    - split; assumption.
    - exact (eq_trans D2v SP).
    - intros X. pose proof (eq_trans (eq_sym D1v) X) as Y. rewrite Y in PD. exact (Rlt_irrefl 0 PD).
    - apply Q0. exact N1v.
    - apply Q0. exact N2v.
    - split; [lra|]. apply big200. cbn; lra.
    - assert (Q1 : forall x d, x = 0 -> x / d = 0) by (intros x d ->; unfold Rdiv; apply Rmult_0_l).
      rewrite (Q1 _ _ N1v) in A1. rewrite (Q1 _ _ N2v) in A2.
      replace (15 / 10 * u53) with (0 + 15 / 10 * (1 * u53)) by ring.
      apply capprox_round with (v := C0); [exact A1|exact A2|].
      replace (Csub C0 C0) with C0 by (unfold Csub, C0; cbn [fst snd]; apply f_equal2; ring). apply Cle_0. }
  pose proof (INR_le10 k Hk) as K10.
  assert (KU : 0 <= INR k * (50 * (1 * u53)) <= / 8).
  { assert (0 <= 50 * (1 * u53) <= / 80) by (unfold u53; lra). pose proof (pos_INR k). split; [apply Rmult_le_pos; lra|].
    replace (/ 8) with (10 * / 80) by field. apply Rmult_le_compat; lra. }
  assert (U8 : 15 / 10 * u53 <= / 8) by (unfold u53; lra).
  destruct (IFFT_err ci cu k Fl (map IZR (repeat 0%Z n)) (15 / 10 * u53) 1 Hk CN) as (r & Er & Nr).
  - rewrite map_length, repeat_length. reflexivity.
  - lra.
  - lra.
  - apply big200. cbn; lra.
  - rewrite Er. cbn [bind]. f_equal. unfold RoundAll. apply (FftErr.near_round ci cu n (15 / 10 * u53 + INR k * (50 * (1 * u53))) 1); [exact Nr|lra|apply IZR_le; lia].
Qed.
End Zero.
