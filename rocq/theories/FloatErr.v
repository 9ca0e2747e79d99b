(** Rounding errors of binary64 operations, and of the complex operations of the
    FFT, in absolute value. *)
From Coq Require Import Reals Lra Lia ZArith List Psatz.
From Flocq Require Import Core BinarySingleNaN Relative.
From Verif Require Import GoBase BaseProofs Float Binary64 B64Proofs SpecFft.
Local Open Scope R_scope.

(** 2^-53 *)
Definition u53 : R := / 9007199254740992.
Lemma u53_bpow : u53 = bpow radix2 (-53).
Proof. reflexivity. Qed.
(** a bound far below overflow *)
Definition big : R := bpow radix2 1000.

Lemma rnd_err x X : Rabs x <= X -> 1 <= X -> Rabs (rnd x - x) <= X * u53.
Proof.
  intros Hx HX.
  destruct (error_N_FLT radix2 (-1074) 53 ltac:(lia) (fun x => negb (Z.even x)) x) as (eps & eta & He & Ht & Z0 & E).
  assert (Er : rnd x = x * (1 + eps) + eta) by exact E.
  rewrite Er. replace (x * (1 + eps) + eta - x) with (x * eps + eta) by ring.
  assert (He' : Rabs eps <= u53).
  { rewrite u53_bpow. replace (bpow radix2 (-53)) with (/ 2 * bpow radix2 (-53 + 1)); [exact He|].
    rewrite bpow_plus. change (bpow radix2 1) with 2. field. }
  assert (Ht' : Rabs eta <= u53).
  { rewrite u53_bpow. apply Rle_trans with (1 := Ht). apply Rle_trans with (bpow radix2 (-1074)).
    - pose proof (bpow_ge_0 radix2 (-1074)). lra.
    - apply bpow_le. lia. }
  apply Rmult_integral in Z0. destruct Z0 as [-> | ->].
  - rewrite Rmult_0_r, Rplus_0_l. pose proof (Rabs_pos eta). nra.
  - rewrite Rplus_0_r, Rabs_mult. apply Rmult_le_compat; auto using Rabs_pos.
Qed.

Lemma fits x X : Rabs x <= X -> X <= big -> Rlt_bool (Rabs (rnd x)) (bpow radix2 1024) = true.
Proof.
  intros Hx HX. apply Rlt_bool_true. apply Rle_lt_trans with (bpow radix2 1000).
  - apply abs_round_le_generic; auto with typeclass_instances.
    + apply generic_format_bpow. unfold SpecFloat.fexp, SpecFloat.emin. lia.
    + unfold big in HX. lra.
  - apply bpow_lt. lia.
Qed.

(** x is a finite float within e of v *)
Definition approx (e : R) (x : b64) (v : R) : Prop := is_finite x = true /\ Rabs (B2R x - v) <= e.

Lemma approx_le e e' x v : e <= e' -> approx e x v -> approx e' x v.
Proof. intros H [A B]. split; [exact A|lra]. Qed.
Lemma approx_exact x : is_finite x = true -> approx 0 x (B2R x).
Proof. intros H. split; [exact H|]. rewrite Rminus_diag_eq by reflexivity. rewrite Rabs_R0. lra. Qed.
Lemma approx_bound e x v : approx e x v -> Rabs (B2R x) <= Rabs v + e.
Proof. intros [_ H]. pose proof (Rabs_triang (B2R x - v) v) as T. replace (B2R x - v + v) with (B2R x) in T by ring. lra. Qed.

Lemma tri3 a b c : Rabs (a - c) <= Rabs (a - b) + Rabs (b - c).
Proof. replace (a - c) with ((a - b) + (b - c)) by ring. apply Rabs_triang. Qed.

Lemma add_approx ea eb x y a b X : approx ea x a -> approx eb y b ->
  Rabs (a + b) + ea + eb <= X -> 1 <= X <= big -> approx (ea + eb + X * u53) (b_add x y) (a + b).
Proof.
  intros [Fx Hx] [Fy Hy] HX HB.
  assert (D : Rabs ((B2R x + B2R y) - (a + b)) <= ea + eb).
  { replace (B2R x + B2R y - (a + b)) with ((B2R x - a) + (B2R y - b)) by ring.
    pose proof (Rabs_triang (B2R x - a) (B2R y - b)). lra. }
  assert (S : Rabs (B2R x + B2R y) <= X).
  { pose proof (Rabs_triang ((B2R x + B2R y) - (a + b)) (a + b)) as T.
    replace (B2R x + B2R y - (a + b) + (a + b)) with (B2R x + B2R y) in T by ring. lra. }
  pose proof (Bplus_correct 53 1024 _ _ mode_NE x y Fx Fy) as A.
  change (round radix2 fexp64 (round_mode mode_NE) (B2R x + B2R y)) with (rnd (B2R x + B2R y)) in A.
  rewrite (fits _ X S (proj2 HB)) in A. destruct A as (A & Fa & _). split; [exact Fa|].
  unfold b_add. rewrite A. pose proof (tri3 (rnd (B2R x + B2R y)) (B2R x + B2R y) (a + b)).
  pose proof (rnd_err _ X S (proj1 HB)). lra.
Qed.
Lemma opp_approx e x a : approx e x a -> approx e (Bopp x) (- a).
Proof.
  intros [Fx Hx]. split; [rewrite is_finite_Bopp; exact Fx|]. rewrite B2R_Bopp.
  replace (- B2R x - - a) with (- (B2R x - a)) by ring. rewrite Rabs_Ropp. exact Hx.
Qed.
Lemma sub_approx ea eb x y a b X : approx ea x a -> approx eb y b ->
  Rabs (a - b) + ea + eb <= X -> 1 <= X <= big -> approx (ea + eb + X * u53) (b_sub x y) (a - b).
Proof.
  intros [Fx Hx] [Fy Hy] HX HB.
  assert (D : Rabs ((B2R x - B2R y) - (a - b)) <= ea + eb).
  { replace (B2R x - B2R y - (a - b)) with ((B2R x - a) - (B2R y - b)) by ring.
    pose proof (Rabs_triang (B2R x - a) (- (B2R y - b))) as T. rewrite Rabs_Ropp in T.
    replace (B2R x - a - (B2R y - b)) with (B2R x - a + - (B2R y - b)) by ring. lra. }
  assert (S : Rabs (B2R x - B2R y) <= X).
  { pose proof (Rabs_triang ((B2R x - B2R y) - (a - b)) (a - b)) as T.
    replace (B2R x - B2R y - (a - b) + (a - b)) with (B2R x - B2R y) in T by ring. lra. }
  pose proof (Bminus_correct 53 1024 _ _ mode_NE x y Fx Fy) as A.
  change (round radix2 fexp64 (round_mode mode_NE) (B2R x - B2R y)) with (rnd (B2R x - B2R y)) in A.
  rewrite (fits _ X S (proj2 HB)) in A. destruct A as (A & Fa & _). split; [exact Fa|].
  unfold b_sub. rewrite A. pose proof (tri3 (rnd (B2R x - B2R y)) (B2R x - B2R y) (a - b)).
  pose proof (rnd_err _ X S (proj1 HB)). lra.
Qed.
(** the error of a product before rounding *)
Definition mul_err (ea eb a b : R) : R := (Rabs a + ea) * eb + ea * Rabs b.
Lemma mul_approx ea eb x y a b X : approx ea x a -> approx eb y b ->
  Rabs a * Rabs b + mul_err ea eb a b <= X -> 1 <= X <= big ->
  approx (mul_err ea eb a b + X * u53) (b_mul x y) (a * b).
Proof.
  intros [Fx Hx] [Fy Hy] HX HB. pose proof (approx_bound ea x a (conj Fx Hx)) as Bx.
  assert (D : Rabs (B2R x * B2R y - a * b) <= mul_err ea eb a b).
  { replace (B2R x * B2R y - a * b) with (B2R x * (B2R y - b) + (B2R x - a) * b) by ring.
    pose proof (Rabs_triang (B2R x * (B2R y - b)) ((B2R x - a) * b)) as T. rewrite !Rabs_mult in T.
    unfold mul_err. pose proof (Rabs_pos (B2R x)). pose proof (Rabs_pos (B2R y - b)). pose proof (Rabs_pos b).
    pose proof (Rabs_pos (B2R x - a)). nra. }
  assert (S : Rabs (B2R x * B2R y) <= X).
  { pose proof (Rabs_triang (B2R x * B2R y - a * b) (a * b)) as T. rewrite (Rabs_mult a b) in T.
    replace (B2R x * B2R y - a * b + a * b) with (B2R x * B2R y) in T by ring. lra. }
  pose proof (Bmult_correct 53 1024 _ _ mode_NE x y) as A.
  change (round radix2 fexp64 (round_mode mode_NE) (B2R x * B2R y)) with (rnd (B2R x * B2R y)) in A.
  rewrite (fits _ X S (proj2 HB)) in A. destruct A as (A & Fa & _). rewrite Fx, Fy in Fa. split; [exact Fa|].
  unfold b_mul. rewrite A. pose proof (tri3 (rnd (B2R x * B2R y)) (B2R x * B2R y) (a * b)).
  pose proof (rnd_err _ X S (proj1 HB)). lra.
Qed.

(** ** Complex numbers, in absolute value *)
(** the absolute value is at most M *)
Definition Cle (c : Cx) (M : R) : Prop := 0 <= M /\ Csqnorm c <= M * M.

Lemma sq_le a M : 0 <= M -> a * a <= M * M -> Rabs a <= M.
Proof. intros HM H. apply Rabs_le. split; [apply Rsqr_neg_pos_le_0 | apply Rsqr_incr_0_var]; auto. Qed.
Lemma Cle_fst c M : Cle c M -> Rabs (fst c) <= M.
Proof.
  intros [HM H]. unfold Csqnorm in H. apply sq_le; [exact HM|].
  pose proof (Rle_0_sqr (fst c)). pose proof (Rle_0_sqr (snd c)). unfold Rsqr in *. lra.
Qed.
Lemma Cle_snd c M : Cle c M -> Rabs (snd c) <= M.
Proof.
  intros [HM H]. unfold Csqnorm in H. apply sq_le; [exact HM|].
  pose proof (Rle_0_sqr (fst c)). pose proof (Rle_0_sqr (snd c)). unfold Rsqr in *. lra.
Qed.
Lemma Cle_le c M M' : M <= M' -> Cle c M -> Cle c M'.
Proof. intros H [A B]. split; [lra|]. apply Rle_trans with (1 := B). apply Rmult_le_compat; lra. Qed.
Lemma Csqnorm_mul a b : Csqnorm (Cmul a b) = Csqnorm a * Csqnorm b.
Proof. unfold Csqnorm, Cmul. cbn [fst snd]. ring. Qed.
Lemma Csqnorm_pos a : 0 <= Csqnorm a.
Proof. unfold Csqnorm. pose proof (Rle_0_sqr (fst a)). pose proof (Rle_0_sqr (snd a)). unfold Rsqr in *. lra. Qed.
Lemma Cle_mul a b M N : Cle a M -> Cle b N -> Cle (Cmul a b) (M * N).
Proof.
  intros [A1 A2] [B1 B2]. split; [apply Rmult_le_pos; assumption|]. rewrite Csqnorm_mul.
  pose proof (Csqnorm_pos a). pose proof (Csqnorm_pos b).
  replace (M * N * (M * N)) with ((M * M) * (N * N)) by ring. apply Rmult_le_compat; auto.
Qed.
Lemma Cle_add a b M N : Cle a M -> Cle b N -> Cle (Cadd a b) (M + N).
Proof.
  intros [A1 A2] [B1 B2]. split; [lra|]. unfold Csqnorm, Cadd in *. cbn [fst snd].
  destruct a as [x y], b as [z w]. cbn [fst snd] in *.
  (* Cauchy-Schwarz *)
  assert (CS : x * z + y * w <= M * N).
  { apply Rsqr_incr_0_var; [|apply Rmult_le_pos; assumption]. unfold Rsqr.
    apply Rle_trans with ((x * x + y * y) * (z * z + w * w)).
    - pose proof (Rle_0_sqr (x * w - y * z)) as Q. unfold Rsqr in Q. lra.
    - replace (M * N * (M * N)) with ((M * M) * (N * N)) by ring.
      pose proof (Csqnorm_pos (x, y)). pose proof (Csqnorm_pos (z, w)). unfold Csqnorm in *. cbn [fst snd] in *.
      apply Rmult_le_compat; lra. }
  lra.
Qed.
Lemma Cle_opp a M : Cle a M -> Cle (Copp a) M.
Proof. unfold Cle, Csqnorm, Copp. cbn [fst snd]. intros [A B]. split; [exact A|lra]. Qed.
Lemma Cle_conj a M : Cle a M -> Cle (Cconj a) M.
Proof. unfold Cle, Csqnorm, Cconj. cbn [fst snd]. intros [A B]. split; [exact A|lra]. Qed.
Lemma Csub_opp a b : Csub a b = Cadd a (Copp b).
Proof. unfold Csub, Cadd, Copp. cbn [fst snd]. apply f_equal2; ring. Qed.
Lemma Cle_sub a b M N : Cle a M -> Cle b N -> Cle (Csub a b) (M + N).
Proof. intros HA HB. rewrite Csub_opp. apply Cle_add; [exact HA|apply Cle_opp, HB]. Qed.
Lemma Cle_tri a b c M N : Cle (Csub a b) M -> Cle (Csub b c) N -> Cle (Csub a c) (M + N).
Proof.
  intros A B. replace (Csub a c) with (Cadd (Csub a b) (Csub b c)); [apply Cle_add; assumption|].
  unfold Csub, Cadd. cbn [fst snd]. apply f_equal2; ring.
Qed.
Lemma Cle_0 : Cle C0 0.
Proof. unfold Cle, Csqnorm, C0. cbn [fst snd]. lra. Qed.
Lemma Cle_real x M : Rabs x <= M -> Cle (RtoC x) M.
Proof.
  intros H. pose proof (Rabs_pos x). split; [lra|]. unfold Csqnorm, RtoC. cbn [fst snd].
  replace (x * x + 0 * 0) with (Rabs x * Rabs x); [apply Rmult_le_compat; lra|].
  rewrite <- Rabs_mult, Rabs_pos_eq; [ring|]. apply Rle_0_sqr.
Qed.
(** two components within r *)
Lemma Cle_comp c r : Rabs (fst c) <= r -> Rabs (snd c) <= r -> Cle c (15 / 10 * r).
Proof.
  intros A B. pose proof (Rabs_pos (fst c)). split; [lra|]. unfold Csqnorm.
  assert (Q : forall x, Rabs x <= r -> x * x <= r * r).
  { intros x Hx. pose proof (Rabs_pos x). replace (x * x) with (Rabs x * Rabs x); [apply Rmult_le_compat; lra|].
    rewrite <- Rabs_mult, Rabs_pos_eq; [reflexivity|apply Rle_0_sqr]. }
  pose proof (Q _ A). pose proof (Q _ B). pose proof (Rle_0_sqr r) as R2. unfold Rsqr in R2. lra.
Qed.

(** the complex number a pair of floats stands for *)
Definition toC (z : b64 * b64) : Cx := (B2R (fst z), B2R (snd z)).
Definition cfin (z : b64 * b64) : Prop := is_finite (fst z) = true /\ is_finite (snd z) = true.
(** z is finite and within e of c *)
Definition capprox (e : R) (z : b64 * b64) (c : Cx) : Prop := cfin z /\ Cle (Csub (toC z) c) e.

Lemma capprox_le e e' z c : e <= e' -> capprox e z c -> capprox e' z c.
Proof. intros H [A B]. split; [exact A|]. eapply Cle_le; eassumption. Qed.
Lemma capprox_pos e z c : capprox e z c -> 0 <= e.
Proof. intros [_ [H _]]. exact H. Qed.
Lemma capprox_exact z : cfin z -> capprox 0 z (toC z).
Proof.
  intros H. split; [exact H|]. replace (Csub (toC z) (toC z)) with C0; [apply Cle_0|].
  unfold Csub, C0. apply f_equal2; ring.
Qed.
Lemma capprox_bound e z c M : capprox e z c -> Cle c M -> Cle (toC z) (M + e).
Proof.
  intros [_ A] B. replace (toC z) with (Cadd c (Csub (toC z) c)); [apply Cle_add; assumption|].
  destruct (toC z). unfold Csub, Cadd. cbn [fst snd]. apply f_equal2; ring.
Qed.
Lemma capprox_fst e z c : capprox e z c -> approx e (fst z) (fst c).
Proof. intros [[F _] A]. split; [exact F|]. apply Cle_fst in A. exact A. Qed.
Lemma capprox_snd e z c : capprox e z c -> approx e (snd z) (snd c).
Proof. intros [[_ F] A]. split; [exact F|]. apply Cle_snd in A. exact A. Qed.
Lemma capprox_round r z v e c : approx r (fst z) (fst v) -> approx r (snd z) (snd v) ->
  Cle (Csub v c) e -> capprox (e + 15 / 10 * r) z c.
Proof.
  intros [F1 A1] [F2 A2] H. split; [split; assumption|]. rewrite Rplus_comm.
  apply Cle_tri with v; [|exact H]. apply Cle_comp; assumption.
Qed.
Lemma capprox_real e x a : approx e x a -> capprox e (x, b_of_int 0) (RtoC a).
Proof.
  intros [Fx H]. split; [split; [exact Fx|reflexivity]|].
  replace (Csub (toC (x, b_of_int 0)) (RtoC a)) with (RtoC (B2R x - a)); [apply Cle_real, H|].
  unfold Csub, toC, RtoC. cbn [fst snd]. apply f_equal2; [reflexivity|]. change (B2R (b_of_int 0)) with 0. ring.
Qed.

Section C64.
Context (ci cu : b64 -> Z).
Notation FO := (binary64 ci cu).

Lemma cadd_approx ea eb z w a b M : capprox ea z a -> capprox eb w b ->
  Cle (Cadd a b) M -> 1 <= M + ea + eb <= big ->
  capprox (ea + eb + 15 / 10 * ((M + ea + eb) * u53)) (c_add FO z w) (Cadd a b).
Proof.
  intros [[Z1 Z2] A] [[W1 W2] B] H HB. set (X := M + ea + eb) in *.
  assert (E : Cle (Csub (Cadd (toC z) (toC w)) (Cadd a b)) (ea + eb)).
  { replace (Csub (Cadd (toC z) (toC w)) (Cadd a b)) with (Cadd (Csub (toC z) a) (Csub (toC w) b));
      [apply Cle_add; assumption|]. unfold Csub, Cadd. cbn [fst snd]. apply f_equal2; ring. }
  assert (B1 : Cle (Cadd (toC z) (toC w)) X).
  { replace (Cadd (toC z) (toC w)) with (Cadd (Cadd a b) (Csub (Cadd (toC z) (toC w)) (Cadd a b))).
    - unfold X. rewrite Rplus_assoc. apply Cle_add; assumption.
    - unfold Csub, Cadd. cbn [fst snd]. apply f_equal2; ring. }
  pose proof (Cle_fst _ _ B1) as C1. pose proof (Cle_snd _ _ B1) as C2. unfold Cadd in C1, C2. cbn [fst snd toC] in C1, C2.
  apply capprox_round with (v := Cadd (toC z) (toC w)); [| |exact E].
  - eapply approx_le; [|apply (add_approx 0 0 _ _ _ _ X)]; try (apply approx_exact; assumption); cbn [toC fst snd]; lra.
  - eapply approx_le; [|apply (add_approx 0 0 _ _ _ _ X)]; try (apply approx_exact; assumption); cbn [toC fst snd]; lra.
Qed.
Lemma csub_approx ea eb z w a b M : capprox ea z a -> capprox eb w b ->
  Cle (Csub a b) M -> 1 <= M + ea + eb <= big ->
  capprox (ea + eb + 15 / 10 * ((M + ea + eb) * u53)) (c_sub FO z w) (Csub a b).
Proof.
  intros [[Z1 Z2] A] [[W1 W2] B] H HB. set (X := M + ea + eb) in *.
  assert (E : Cle (Csub (Csub (toC z) (toC w)) (Csub a b)) (ea + eb)).
  { replace (Csub (Csub (toC z) (toC w)) (Csub a b)) with (Csub (Csub (toC z) a) (Csub (toC w) b));
      [apply Cle_sub; assumption|]. unfold Csub, Cadd. cbn [fst snd]. apply f_equal2; ring. }
  assert (B1 : Cle (Csub (toC z) (toC w)) X).
  { replace (Csub (toC z) (toC w)) with (Cadd (Csub a b) (Csub (Csub (toC z) (toC w)) (Csub a b))).
    - unfold X. rewrite Rplus_assoc. apply Cle_add; assumption.
    - unfold Csub, Cadd. cbn [fst snd]. apply f_equal2; ring. }
  pose proof (Cle_fst _ _ B1) as C1. pose proof (Cle_snd _ _ B1) as C2. unfold Csub in C1, C2. cbn [fst snd toC] in C1, C2.
  apply capprox_round with (v := Csub (toC z) (toC w)); [| |exact E].
  - eapply approx_le; [|apply (sub_approx 0 0 _ _ _ _ X)]; try (apply approx_exact; assumption); cbn [toC fst snd]; lra.
  - eapply approx_le; [|apply (sub_approx 0 0 _ _ _ _ X)]; try (apply approx_exact; assumption); cbn [toC fst snd]; lra.
Qed.
Lemma cconj_approx e z a : capprox e z a -> capprox e (c_conj FO z) (Cconj a).
Proof.
  intros [[F1 F2] A]. split.
  - split; cbn [c_conj fst snd f_neg binary64]; [exact F1|rewrite is_finite_Bopp; exact F2].
  - replace (Csub (toC (c_conj FO z)) (Cconj a)) with (Cconj (Csub (toC z) a)); [apply Cle_conj, A|].
    destruct z as [x y]. change (toC (c_conj FO (x, y))) with ((B2R x, B2R (Bopp y)) : Cx). rewrite B2R_Bopp.
    unfold Csub, Cconj, toC. cbn [fst snd]. apply f_equal2; ring.
Qed.
Lemma cneg_approx e z a : capprox e z a -> capprox e (c_neg FO z) (Copp a).
Proof.
  intros [[F1 F2] A]. split.
  - split; cbn [c_neg fst snd f_neg binary64]; rewrite is_finite_Bopp; assumption.
  - replace (Csub (toC (c_neg FO z)) (Copp a)) with (Copp (Csub (toC z) a)); [apply Cle_opp, A|].
    destruct z as [x y]. change (toC (c_neg FO (x, y))) with ((B2R (Bopp x), B2R (Bopp y)) : Cx). rewrite !B2R_Bopp.
    unfold Csub, Copp, toC. cbn [fst snd]. apply f_equal2; ring.
Qed.

(** A product of two approximate complex numbers |a| <= M, |b| <= N. *)
Lemma cmul_approx ea eb z w a b M N P : capprox ea z a -> capprox eb w b ->
  Cle a M -> Cle b N -> (M + ea) * (N + eb) <= P -> 1 <= P -> 2 * P <= big ->
  capprox ((M + ea) * eb + ea * N + 5 * (P * u53)) (c_mul FO z w) (Cmul a b).
Proof.
  intros HA HB Ha Hb HP P1 PB.
  pose proof (capprox_bound _ _ _ _ HA Ha) as Bz. pose proof (capprox_bound _ _ _ _ HB Hb) as Bw.
  assert (E : Cle (Csub (Cmul (toC z) (toC w)) (Cmul a b)) ((M + ea) * eb + ea * N)).
  { replace (Csub (Cmul (toC z) (toC w)) (Cmul a b))
      with (Cadd (Cmul (toC z) (Csub (toC w) b)) (Cmul (Csub (toC z) a) b)).
    - apply Cle_add; apply Cle_mul; try assumption; [apply HB|apply HA].
    - unfold Csub, Cadd, Cmul. cbn [fst snd]. apply f_equal2; ring. }
  pose proof (Cle_mul _ _ _ _ Bz Bw) as BM. pose proof (Cle_le _ _ _ HP BM) as BP.
  pose proof (Cle_fst _ _ BP) as M1. pose proof (Cle_snd _ _ BP) as M2. unfold Cmul in M1, M2. cbn [fst snd toC] in M1, M2.
  pose proof (Cle_fst _ _ Bz) as A1. pose proof (Cle_snd _ _ Bz) as A2.
  pose proof (Cle_fst _ _ Bw) as B1. pose proof (Cle_snd _ _ Bw) as B2. cbn [fst snd toC] in A1, A2, B1, B2.
  destruct HA as [[Z1 Z2] _]. destruct HB as [[W1 W2] _].
  assert (U : 0 < u53 < / 1000) by (unfold u53; lra).
  assert (PU : 0 <= P * u53 <= P * / 1000) by (split; [apply Rmult_le_pos|apply Rmult_le_compat_l]; lra).
  assert (G : forall x y, is_finite x = true -> is_finite y = true -> Rabs (B2R x) <= M + ea -> Rabs (B2R y) <= N + eb ->
    approx (P * u53) (b_mul x y) (B2R x * B2R y)).
  { intros x y Fx Fy Hx Hy. eapply approx_le; [|apply (mul_approx 0 0 _ _ _ _ P)];
      try (apply approx_exact; assumption); unfold mul_err; try lra.
    pose proof (Rabs_pos (B2R x)). pose proof (Rabs_pos (B2R y)).
    assert (Rabs (B2R x) * Rabs (B2R y) <= (M + ea) * (N + eb)) by (apply Rmult_le_compat; assumption). lra. }
  pose proof (G _ _ Z1 W1 A1 B1) as P11. pose proof (G _ _ Z2 W2 A2 B2) as P22.
  pose proof (G _ _ Z1 W2 A1 B2) as P12. pose proof (G _ _ Z2 W1 A2 B1) as P21.
  assert (PU2 : 11 / 10 * P * u53 = 11 / 10 * (P * u53)) by ring.
  eapply capprox_le; [|apply capprox_round with (v := Cmul (toC z) (toC w)) (r := 31 / 10 * (P * u53)); [| |exact E]].
  - lra.
  - eapply approx_le; [|apply (sub_approx _ _ _ _ _ _ (11 / 10 * P) P11 P22)]; cbn [toC fst snd]; lra.
  - eapply approx_le; [|apply (add_approx _ _ _ _ _ _ (11 / 10 * P) P12 P21)]; cbn [toC fst snd]; lra.
Qed.
End C64.
