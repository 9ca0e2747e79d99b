(** Division of binary64 complex numbers by a number with imaginary part 0, the
    only complex divisions of [reduce] and [GsNorm], and squared absolute values. *)
From Coq Require Import Reals Lra Lia ZArith List.
From Flocq Require Import Core BinarySingleNaN.
From Verif Require Import GoBase BaseProofs Float Binary64 B64Proofs SpecFft FloatErr.
Local Open Scope R_scope.

Lemma rnd_0 : rnd 0 = 0.
Proof. unfold rnd. apply round_0. auto with typeclass_instances. Qed.
Lemma rnd_opp x : rnd (- x) = - rnd x.
Proof. unfold rnd. apply round_NE_opp. Qed.
Lemma fits_0 : Rlt_bool (Rabs 0) (bpow radix2 1024) = true.
Proof. apply Rlt_bool_true. rewrite Rabs_R0. apply bpow_gt_0. Qed.
Lemma fits_B2R (x : b64) : Rlt_bool (Rabs (B2R x)) (bpow radix2 1024) = true.
Proof. apply Rlt_bool_true. apply (abs_B2R_lt_emax 53 1024 x). Qed.

(** x is finite with value v *)
Definition isval (x : b64) (v : R) : Prop := is_finite x = true /\ B2R x = v.
Lemma isval_self x : is_finite x = true -> isval x (B2R x).
Proof. split; auto. Qed.

Lemma add_0 x y : is_finite x = true -> isval y 0 -> isval (b_add x y) (B2R x).
Proof.
  intros Fx [Fy Vy]. pose proof (Bplus_correct 53 1024 _ _ mode_NE x y Fx Fy) as A.
  change (round radix2 fexp64 (round_mode mode_NE) (B2R x + B2R y)) with (rnd (B2R x + B2R y)) in A.
  rewrite Vy, Rplus_0_r, rnd_B2R, fits_B2R in A. destruct A as (A & Fa & _). split; assumption.
Qed.
Lemma sub_0 x y : is_finite x = true -> isval y 0 -> isval (b_sub x y) (B2R x).
Proof.
  intros Fx [Fy Vy]. pose proof (Bminus_correct 53 1024 _ _ mode_NE x y Fx Fy) as A.
  change (round radix2 fexp64 (round_mode mode_NE) (B2R x - B2R y)) with (rnd (B2R x - B2R y)) in A.
  rewrite Vy, Rminus_0_r, rnd_B2R, fits_B2R in A. destruct A as (A & Fa & _). split; assumption.
Qed.
Lemma add_opp x y v : isval x (- v) -> isval y v -> isval (b_add x y) 0.
Proof.
  intros [Fx Vx] [Fy Vy]. pose proof (Bplus_correct 53 1024 _ _ mode_NE x y Fx Fy) as A.
  change (round radix2 fexp64 (round_mode mode_NE) (B2R x + B2R y)) with (rnd (B2R x + B2R y)) in A.
  rewrite Vx, Vy, Rplus_opp_l, rnd_0, fits_0 in A. destruct A as (A & Fa & _). split; assumption.
Qed.
Lemma mul_0_r x y : is_finite x = true -> isval y 0 -> isval (b_mul x y) 0.
Proof.
  intros Fx [Fy Vy]. pose proof (Bmult_correct 53 1024 _ _ mode_NE x y) as A.
  change (round radix2 fexp64 (round_mode mode_NE) (B2R x * B2R y)) with (rnd (B2R x * B2R y)) in A.
  rewrite Vy, Rmult_0_r, rnd_0, fits_0 in A. destruct A as (A & Fa & _). rewrite Fx, Fy in Fa. split; assumption.
Qed.
Lemma div_0_l x y : isval x 0 -> B2R y <> 0 -> isval (b_div x y) 0.
Proof.
  intros [Fx Vx] Hy. pose proof (Bdiv_correct 53 1024 _ _ mode_NE x y Hy) as A.
  change (round radix2 fexp64 (round_mode mode_NE) (B2R x / B2R y)) with (rnd (B2R x / B2R y)) in A.
  rewrite Vx in A. unfold Rdiv in A. rewrite Rmult_0_l, rnd_0, fits_0 in A. destruct A as (A & Fa & _).
  split; [unfold b_div; rewrite Fa; exact Fx|exact A].
Qed.
Lemma div_approx x y X : is_finite x = true -> B2R y <> 0 -> Rabs (B2R x / B2R y) <= X -> 1 <= X <= big ->
  approx (X * u53) (b_div x y) (B2R x / B2R y).
Proof.
  intros Fx Hy HX HB. pose proof (Bdiv_correct 53 1024 _ _ mode_NE x y Hy) as A.
  change (round radix2 fexp64 (round_mode mode_NE) (B2R x / B2R y)) with (rnd (B2R x / B2R y)) in A.
  rewrite (fits _ X HX (proj2 HB)) in A. destruct A as (A & Fa & _). split; [unfold b_div; rewrite Fa; exact Fx|].
  unfold b_div. rewrite A. apply rnd_err; [exact HX|apply HB].
Qed.
Lemma finite_nan (x : b64) : is_finite x = true -> is_nan x = false.
Proof. destruct x; [reflexivity|discriminate|discriminate|reflexivity]. Qed.

(** With a divisor (c, 0), each component is divided by c. *)
Lemma cdiv_real z m X : cfin z -> cfin m -> B2R (snd m) = 0 -> B2R (fst m) <> 0 ->
  Rabs (B2R (fst z) / B2R (fst m)) <= X -> Rabs (B2R (snd z) / B2R (fst m)) <= X -> 1 <= X <= big ->
  approx (X * u53) (fst (b_cdiv z m)) (B2R (fst z) / B2R (fst m)) /\
  approx (X * u53) (snd (b_cdiv z m)) (B2R (snd z) / B2R (fst m)).
Proof.
  destruct z as [a b], m as [c d]. cbn [fst snd]. intros [Fa Fb] [Fc Fd] D0 C0' Ha Hb HB. cbn [fst snd] in *.
  assert (LE : Bleb (Babs d) (Babs c) = true).
  { rewrite Bleb_correct by (rewrite is_finite_Babs; assumption). apply Rle_bool_true. rewrite !B2R_Babs, D0, Rabs_R0. apply Rabs_pos. }
  assert (R0 : isval (b_div d c) 0) by (apply div_0_l; [split; assumption|exact C0']).
  assert (DN : isval (b_add c (b_mul (b_div d c) d)) (B2R c)).
  { apply add_0; [exact Fc|]. apply mul_0_r; [apply R0|split; assumption]. }
  assert (N1 : isval (b_add a (b_mul b (b_div d c))) (B2R a)) by (apply add_0; [exact Fa|]; apply mul_0_r; assumption).
  assert (N2 : isval (b_sub b (b_mul a (b_div d c))) (B2R b)) by (apply sub_0; [exact Fb|]; apply mul_0_r; assumption).
  assert (E1 : approx (X * u53) (b_div (b_add a (b_mul b (b_div d c))) (b_add c (b_mul (b_div d c) d))) (B2R a / B2R c)).
  { destruct N1 as [F1 V1], DN as [F2 V2]. rewrite <- V1, <- V2. apply div_approx; [exact F1|now rewrite V2|now rewrite V1, V2|exact HB]. }
  assert (E2 : approx (X * u53) (b_div (b_sub b (b_mul a (b_div d c))) (b_add c (b_mul (b_div d c) d))) (B2R b / B2R c)).
  { destruct N2 as [F1 V1], DN as [F2 V2]. rewrite <- V1, <- V2. apply div_approx; [exact F1|now rewrite V2|now rewrite V1, V2|exact HB]. }
  unfold b_cdiv. rewrite LE. cbn [fst snd].
  rewrite (finite_nan _ (proj1 E1)), (finite_nan _ (proj1 E2)). cbn [orb fst snd]. split; assumption.
Qed.

Section C64.
Context (ci cu : b64 -> Z).
Notation FO := (binary64 ci cu).

Lemma mul_val x y Y : is_finite x = true -> is_finite y = true -> Rabs (B2R x * B2R y) <= Y -> Y <= big ->
  isval (b_mul x y) (rnd (B2R x * B2R y)).
Proof.
  intros Fx Fy H HY. pose proof (Bmult_correct 53 1024 _ _ mode_NE x y) as A.
  change (round radix2 fexp64 (round_mode mode_NE) (B2R x * B2R y)) with (rnd (B2R x * B2R y)) in A.
  rewrite (fits _ Y H HY) in A. destruct A as (A & Fa & _). rewrite Fx, Fy in Fa. split; assumption.
Qed.
(** z times its conjugate is exactly real *)
Lemma norm_real z M : cfin z -> Cle (toC z) M -> M * M <= big -> B2R (snd (c_mul FO z (c_conj FO z))) = 0.
Proof.
  destruct z as [a b]. intros [Fa Fb] HM HB. cbn [fst snd] in *. pose proof (Cle_fst _ _ HM) as H1. pose proof (Cle_snd _ _ HM) as H2.
  cbn [toC fst snd] in H1, H2.
  change (snd (c_mul FO (a, b) (c_conj FO (a, b)))) with (b_add (b_mul a (Bopp b)) (b_mul b a)).
  assert (H : Rabs (B2R a * B2R b) <= M * M).
  { rewrite Rabs_mult. apply Rmult_le_compat; auto using Rabs_pos. }
  apply (add_opp _ _ (rnd (B2R b * B2R a))).
  - rewrite <- rnd_opp. replace (- (B2R b * B2R a)) with (B2R a * B2R (Bopp b)) by (rewrite B2R_Bopp; ring).
    apply (mul_val _ _ (M * M)); [exact Fa|now rewrite is_finite_Bopp| |exact HB].
    rewrite B2R_Bopp. replace (B2R a * - B2R b) with (- (B2R a * B2R b)) by ring. now rewrite Rabs_Ropp.
  - apply (mul_val _ _ (M * M)); [exact Fb|exact Fa| |exact HB]. now rewrite Rmult_comm.
Qed.

(** c approximates a/l, with l real: the error of the quotient *)
Lemma cdiv_approx e d z m a l c L Mc X : capprox e z a -> capprox d m (RtoC l) -> B2R (snd m) = 0 ->
  a = Cmul c (RtoC l) -> Cle c Mc -> 0 < L -> L + d <= l -> 1 <= X <= big -> Mc + (e + Mc * d) / L <= X ->
  capprox ((e + Mc * d) / L + 15 / 10 * (X * u53)) (c_div FO z m) c.
Proof.
  intros HZ HM S0 Ea Hc HL Hl HX HXX.
  pose proof (capprox_pos _ _ _ HZ) as e0. pose proof (capprox_pos _ _ _ HM) as d0.
  destruct (capprox_fst _ _ _ HM) as [Fm Dm]. cbn [RtoC fst] in Dm.
  set (D := B2R (fst m)) in *. assert (LD : L <= D). { unfold Rabs in Dm. destruct (Rcase_abs (D - l)); lra. }
  assert (ID : 0 < / D <= / L). { split; [apply Rinv_0_lt_compat; lra|apply Rinv_le_contravar; lra]. }
  set (v := Cmul (toC z) (RtoC (/ D))).
  assert (DV : Cle (Csub v c) ((e + Mc * d) / L)).
  { replace (Csub v c) with (Cmul (Cadd (Csub (toC z) a) (Cmul c (RtoC (l - D)))) (RtoC (/ D))).
    - unfold Rdiv. apply Cle_mul.
      + apply Cle_add; [apply HZ|]. apply Cle_mul; [exact Hc|]. apply Cle_real. rewrite Rabs_minus_sym. exact Dm.
      + apply Cle_real. rewrite Rabs_pos_eq; lra.
    - unfold v. rewrite Ea. destruct (toC z) as [x y], c as [p q]. unfold Cmul, Csub, Cadd, RtoC. cbn [fst snd].
      apply f_equal2; field; lra. }
  assert (BV : Cle v X).
  { replace v with (Cadd c (Csub v c)).
    - eapply Cle_le; [exact HXX|]. apply Cle_add; assumption.
    - destruct v, c. unfold Cadd, Csub. cbn [fst snd]. apply f_equal2; ring. }
  pose proof (Cle_fst _ _ BV) as B1. pose proof (Cle_snd _ _ BV) as B2.
  assert (V1 : fst v = B2R (fst z) / D) by (unfold v, Cmul, toC, RtoC, Rdiv; cbn [fst snd]; ring).
  assert (V2 : snd v = B2R (snd z) / D) by (unfold v, Cmul, toC, RtoC, Rdiv; cbn [fst snd]; ring).
  rewrite V1 in B1. rewrite V2 in B2.
  destruct (cdiv_real z m X) as [A1 A2]; auto; [apply HZ|apply HM|fold D; lra|]. fold D in A1, A2.
  apply capprox_round with (v := v); [rewrite V1; exact A1|rewrite V2; exact A2|exact DV].
Qed.
End C64.
