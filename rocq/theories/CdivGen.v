(** Division of binary64 complex numbers in general: the error of Smith's
    algorithm (complex128 division). *)
From Coq Require Import Reals Lra Lia ZArith List.
From Flocq Require Import Core BinarySingleNaN.
From Verif Require Import GoBase BaseProofs Float Binary64 B64Proofs SpecFft FloatErr CdivErr.
Local Open Scope R_scope.

(** quotient of two approximations *)
Lemma div_err e d x y X Y M Z : approx e x X -> approx d y Y -> d < Rabs Y -> Rabs (X / Y) <= M ->
  M + (e + M * d) / (Rabs Y - d) <= Z -> 1 <= Z <= big ->
  approx ((e + M * d) / (Rabs Y - d) + Z * u53) (b_div x y) (X / Y).
Proof.
  intros [Fx Hx] [Fy Hy] HL HM HZ HB. pose proof (Rabs_pos (B2R x - X)) as e0. pose proof (Rabs_pos (B2R y - Y)) as d0.
  set (x' := B2R x) in *. set (y' := B2R y) in *.
  assert (LD : Rabs Y - d <= Rabs y').
  { pose proof (Rabs_triang (Y - y') y') as T. rewrite Rabs_minus_sym in T. replace (Y - y' + y') with Y in T by ring. lra. }
  assert (Y0 : Y <> 0) by (intros ->; rewrite Rabs_R0 in HL; lra).
  assert (Y0' : y' <> 0) by (intros E; rewrite E, Rabs_R0 in LD; lra).
  assert (D : Rabs (x' / y' - X / Y) <= (e + M * d) / (Rabs Y - d)).
  { replace (x' / y' - X / Y) with (((x' - X) - X / Y * (y' - Y)) * / y') by (field; auto).
    rewrite Rabs_mult. unfold Rdiv at 2. apply Rmult_le_compat; auto using Rabs_pos.
    - pose proof (Rabs_triang (x' - X) (- (X / Y * (y' - Y)))) as T. rewrite Rabs_Ropp, Rabs_mult in T.
      assert (Rabs (X / Y) * Rabs (y' - Y) <= M * d) by (apply Rmult_le_compat; auto using Rabs_pos).
      unfold Rminus at 1. lra.
    - rewrite Rabs_inv. apply Rinv_le_contravar; lra. }
  assert (B : Rabs (x' / y') <= Z).
  { pose proof (Rabs_triang (x' / y' - X / Y) (X / Y)) as T. replace (x' / y' - X / Y + X / Y) with (x' / y') in T by ring. lra. }
  destruct (div_approx x y Z Fx Y0' B HB) as [F1 E1]. split; [exact F1|]. fold x' y' in E1.
  pose proof (tri3 (B2R (b_div x y)) (x' / y') (X / Y)). lra.
Qed.

Lemma inv_bnd a c k : 0 < c -> a <= k * c -> a / c <= k.
Proof. intros Hc H. apply Rmult_le_reg_r with c; [exact Hc|]. replace (a / c * c) with a by (field; lra). exact H. Qed.

(** Smith's algorithm: the four quantities that occur, with |d| <= |c| *)
Section Smith.
Context (c d : b64) (Fc : is_finite c = true) (Fd : is_finite d = true) (A : R) (HA : 1 <= A).
Notation vc := (B2R c).
Notation vd := (B2R d).
Notation L := (Rabs vc).
Notation r := (vd / vc).
Context (HL : / 10 <= L) (Hd : Rabs vd <= L) (HB1 : 1000 * A <= big) (HB2 : 1000 * L <= big).

Let c0 : vc <> 0. Proof. intros E. rewrite E, Rabs_R0 in HL. lra. Qed.
Let U0 : 0 < u53 <= 1 / 1000000000. Proof. unfold u53. lra. Qed.
Let UC : 0 <= u53 * L <= L / 1000000000. Proof. split; [apply Rmult_le_pos; lra|unfold u53; lra]. Qed.
Let UV : u53 <= 10 * (u53 * L). Proof. assert (0 <= u53 * (L - / 10)) by (apply Rmult_le_pos; lra). lra. Qed.
Let UA : 0 <= u53 * A <= A / 1000000000. Proof. split; [apply Rmult_le_pos; lra|unfold u53; lra]. Qed.
Let UAA : u53 <= u53 * A. Proof. assert (0 <= u53 * (A - 1)) by (apply Rmult_le_pos; lra). lra. Qed.

Lemma smith_r : Rabs r <= 1.
Proof. unfold Rdiv. rewrite Rabs_mult, Rabs_inv. apply inv_bnd; lra. Qed.
Lemma smith_R : approx (1 * u53) (b_div d c) r.
Proof. apply (div_approx d c 1 Fd c0 smith_r). lra. Qed.
Lemma smith_den : L <= Rabs (vc + r * vd) <= 2 * L.
Proof.
  assert (E : vc + r * vd = vc * (1 + r * r)) by (field; exact c0).
  pose proof (Rle_0_sqr r) as R0. unfold Rsqr in R0. pose proof smith_r as R1.
  assert (R2 : r * r <= 1).
  { replace (r * r) with (Rabs r * Rabs r) by (rewrite <- Rabs_mult; apply Rabs_pos_eq, R0).
    replace 1 with (1 * 1) by ring. apply Rmult_le_compat; auto using Rabs_pos. }
  rewrite E, Rabs_mult, (Rabs_pos_eq (1 + r * r)) by lra. pose proof (Rabs_pos vc).
  assert (0 <= L * (r * r) <= L * 1) by (split; [apply Rmult_le_pos|apply Rmult_le_compat_l]; lra). lra.
Qed.
Lemma smith_D : approx (26 * (u53 * L)) (b_add c (b_mul (b_div d c) d)) (vc + r * vd).
Proof.
  pose proof smith_r as Hr. pose proof (Rabs_pos r) as r0. pose proof (Rabs_pos vd) as d0.
  assert (M1 : approx (u53 * L + (1 + 2 * L) * u53) (b_mul (b_div d c) d) (r * vd)).
  { assert (T1 : u53 * Rabs vd <= u53 * L) by (apply Rmult_le_compat_l; [lra|exact Hd]).
    assert (T2 : Rabs r * Rabs vd <= 1 * L) by (apply Rmult_le_compat; assumption).
    eapply approx_le; [|apply (mul_approx (1 * u53) 0 _ _ r vd (1 + 2 * L) smith_R (approx_exact d Fd))]; unfold mul_err; try lra. }
  pose proof smith_den. eapply approx_le; [|apply (add_approx 0 _ _ _ vc (r * vd) (1 + 3 * L) (approx_exact c Fc) M1)]; lra.
Qed.
Lemma smith_M y vy : approx 0 y vy -> Rabs vy <= A ->
  approx (3 * (u53 * A)) (b_mul y (b_div d c)) (vy * r) /\ Rabs (vy * r) <= A.
Proof.
  intros Hy By. pose proof (Rabs_pos vy) as y0. pose proof (Rabs_pos r) as r0. pose proof smith_r as Hr.
  assert (T1 : Rabs vy * u53 <= u53 * A) by (rewrite Rmult_comm; apply Rmult_le_compat_l; [lra|exact By]).
  assert (T2 : Rabs vy * Rabs r <= A * 1) by (apply Rmult_le_compat; assumption).
  split; [|rewrite Rabs_mult; lra].
  eapply approx_le; [|apply (mul_approx 0 (1 * u53) _ _ vy r (2 * A) Hy smith_R)]; unfold mul_err; lra.
Qed.
Lemma smith_Q x X : approx (6 * (u53 * A)) x X -> Rabs X <= 2 * A ->
  approx (u53 * (64 * (A / L) + 1)) (b_div x (b_add c (b_mul (b_div d c) d))) (X / (vc + r * vd)).
Proof.
  intros HX BX. pose proof smith_den as DD. set (D := vc + r * vd) in *.
  assert (IC : 0 < / L) by (apply Rinv_0_lt_compat; lra).
  assert (AL : 0 <= A / L <= 10 * A).
  { split; [apply Rmult_le_pos; lra|]. apply inv_bnd; [lra|]. assert (0 <= A * (L - / 10)) by (apply Rmult_le_pos; lra). lra. }
  assert (UAC : 0 <= u53 * (A / L) <= A / L / 1000000000).
  { split; [apply Rmult_le_pos; lra|]. unfold u53. lra. }
  assert (T : (6 * (u53 * A) + 2 * (A / L) * (26 * (u53 * L))) / (Rabs D - 26 * (u53 * L)) <= 60 * (u53 * (A / L))).
  { replace (6 * (u53 * A) + 2 * (A / L) * (26 * (u53 * L))) with ((u53 * (A / L)) * (58 * L)) by (field; lra).
    apply inv_bnd; [lra|].
    replace (60 * (u53 * (A / L)) * (Rabs D - 26 * (u53 * L))) with ((u53 * (A / L)) * (60 * (Rabs D - 26 * (u53 * L)))) by ring.
    apply Rmult_le_compat_l; lra. }
  eapply approx_le; [|apply (div_err _ _ _ _ X D (2 * (A / L)) (1 + 3 * (A / L)) HX smith_D)]; try lra.
  unfold Rdiv at 1. rewrite Rabs_mult, Rabs_inv. apply inv_bnd; [lra|].
  replace (2 * (A / L) * Rabs D) with (2 * A + 2 * (A / L) * (Rabs D - L)) by (field; lra).
  assert (0 <= 2 * (A / L) * (Rabs D - L)) by (apply Rmult_le_pos; lra). lra.
Qed.
Lemma smith_add x y vx vy : approx 0 x vx -> approx 0 y vy -> Rabs vx <= A -> Rabs vy <= A ->
  approx (u53 * (64 * (A / L) + 1)) (b_div (b_add x (b_mul y (b_div d c))) (b_add c (b_mul (b_div d c) d))) ((vx + vy * r) / (vc + r * vd)).
Proof.
  intros Hx Hy Bx By. destruct (smith_M y vy Hy By) as [MM MB]. pose proof (Rabs_triang vx (vy * r)) as T. apply smith_Q; [|lra].
  eapply approx_le; [|apply (add_approx 0 _ _ _ vx (vy * r) (3 * A) Hx MM)]; lra.
Qed.
Lemma smith_add' x y vx vy : approx 0 x vx -> approx 0 y vy -> Rabs vx <= A -> Rabs vy <= A ->
  approx (u53 * (64 * (A / L) + 1)) (b_div (b_add (b_mul y (b_div d c)) x) (b_add c (b_mul (b_div d c) d))) ((vy * r + vx) / (vc + r * vd)).
Proof.
  intros Hx Hy Bx By. destruct (smith_M y vy Hy By) as [MM MB]. pose proof (Rabs_triang (vy * r) vx) as T. apply smith_Q; [|lra].
  eapply approx_le; [|apply (add_approx _ 0 _ _ (vy * r) vx (3 * A) MM Hx)]; lra.
Qed.
Lemma smith_sub x y vx vy : approx 0 x vx -> approx 0 y vy -> Rabs vx <= A -> Rabs vy <= A ->
  approx (u53 * (64 * (A / L) + 1)) (b_div (b_sub x (b_mul y (b_div d c))) (b_add c (b_mul (b_div d c) d))) ((vx - vy * r) / (vc + r * vd)).
Proof.
  intros Hx Hy Bx By. destruct (smith_M y vy Hy By) as [MM MB].
  pose proof (Rabs_triang vx (- (vy * r))) as T. rewrite Rabs_Ropp in T.
  replace (vx + - (vy * r)) with (vx - vy * r) in T by ring. apply smith_Q; [|lra].
  eapply approx_le; [|apply (sub_approx 0 _ _ _ vx (vy * r) (3 * A) Hx MM)]; lra.
Qed.
Lemma smith_sub' x y vx vy : approx 0 x vx -> approx 0 y vy -> Rabs vx <= A -> Rabs vy <= A ->
  approx (u53 * (64 * (A / L) + 1)) (b_div (b_sub (b_mul y (b_div d c)) x) (b_add c (b_mul (b_div d c) d))) ((vy * r - vx) / (vc + r * vd)).
Proof.
  intros Hx Hy Bx By. destruct (smith_M y vy Hy By) as [MM MB].
  pose proof (Rabs_triang (vy * r) (- vx)) as T. rewrite Rabs_Ropp in T.
  replace (vy * r + - vx) with (vy * r - vx) in T by ring. apply smith_Q; [|lra].
  eapply approx_le; [|apply (sub_approx _ 0 _ _ (vy * r) vx (3 * A) MM Hx)]; lra.
Qed.
End Smith.

(** the exact quotient *)
Definition cquo (z m : Cx) : Cx :=
  ((fst z * fst m + snd z * snd m) / Csqnorm m, (snd z * fst m - fst z * snd m) / Csqnorm m).
Lemma cquo_mul z m : Csqnorm m <> 0 -> Cmul (cquo z m) m = z.
Proof.
  intros H. destruct z as [a b], m as [c d]. unfold cquo, Cmul, Csqnorm in *. cbn [fst snd] in *.
  apply f_equal2; field; exact H.
Qed.

(** complex128 division, in all cases *)
Lemma cdiv_gen z m A S : cfin z -> cfin m -> Rabs (B2R (fst z)) <= A -> Rabs (B2R (snd z)) <= A -> 1 <= A -> 1000 * A <= big ->
  S = Rmax (Rabs (B2R (fst m))) (Rabs (B2R (snd m))) -> / 10 <= S -> 1000 * S <= big ->
  approx (u53 * (64 * (A / S) + 1)) (fst (b_cdiv z m)) (fst (cquo (toC z) (toC m))) /\
  approx (u53 * (64 * (A / S) + 1)) (snd (b_cdiv z m)) (snd (cquo (toC z) (toC m))).
Proof.
  destruct z as [a b], m as [c d]. intros [Fa Fb] [Fc Fd] Ha Hb HA HBA ES HS HBS. cbn [fst snd toC cquo] in *.
  unfold cquo, Csqnorm, toC. cbn [fst snd].
  assert (AA : approx 0 a (B2R a)) by (apply approx_exact, Fa). assert (AB : approx 0 b (B2R b)) by (apply approx_exact, Fb).
  assert (LE : Bleb (Babs d) (Babs c) = Rle_bool (Rabs (B2R d)) (Rabs (B2R c))).
  { rewrite Bleb_correct by (rewrite is_finite_Babs; assumption). now rewrite !B2R_Babs. }
  unfold b_cdiv. rewrite LE. destruct (Rle_bool_spec (Rabs (B2R d)) (Rabs (B2R c))) as [H|H].
  - rewrite Rmax_left in ES by exact H. subst S.
    assert (c0 : B2R c <> 0) by (intros E; rewrite E, Rabs_R0 in HS; lra).
    assert (N0 : B2R c * B2R c + B2R d * B2R d <> 0).
    { pose proof (Rle_0_sqr (B2R d)). pose proof (Rsqr_pos_lt _ c0). unfold Rsqr in *. lra. }
    pose proof (smith_add c d Fc Fd A HA HS H HBA HBS a b _ _ AA AB Ha Hb) as E1.
    pose proof (smith_sub c d Fc Fd A HA HS H HBA HBS b a _ _ AB AA Hb Ha) as E2. cbn [fst snd].
    rewrite (finite_nan _ (proj1 E1)), (finite_nan _ (proj1 E2)). cbn [orb fst snd].
    assert (N1 : B2R c + B2R d / B2R c * B2R d <> 0).
    { intros E. apply N0. replace (B2R c * B2R c + B2R d * B2R d) with (B2R c * (B2R c + B2R d / B2R c * B2R d)) by (field; exact c0).
      rewrite E. ring. }
    split.
    + replace ((B2R a * B2R c + B2R b * B2R d) / (B2R c * B2R c + B2R d * B2R d)) with
        ((B2R a + B2R b * (B2R d / B2R c)) / (B2R c + B2R d / B2R c * B2R d)) by (field; repeat split; assumption). exact E1.
    + replace ((B2R b * B2R c - B2R a * B2R d) / (B2R c * B2R c + B2R d * B2R d)) with
        ((B2R b - B2R a * (B2R d / B2R c)) / (B2R c + B2R d / B2R c * B2R d)) by (field; repeat split; assumption). exact E2.
  - rewrite Rmax_right in ES by lra. subst S.
    assert (c0 : B2R d <> 0) by (intros E; rewrite E, Rabs_R0 in HS; lra).
    assert (N0 : B2R c * B2R c + B2R d * B2R d <> 0).
    { pose proof (Rle_0_sqr (B2R c)). pose proof (Rsqr_pos_lt _ c0). unfold Rsqr in *. lra. }
    assert (H' : Rabs (B2R c) <= Rabs (B2R d)) by lra.
    pose proof (smith_add' d c Fd Fc A HA HS H' HBA HBS b a _ _ AB AA Hb Ha) as E1.
    pose proof (smith_sub' d c Fd Fc A HA HS H' HBA HBS a b _ _ AA AB Ha Hb) as E2. cbn [fst snd].
    rewrite (finite_nan _ (proj1 E1)), (finite_nan _ (proj1 E2)). cbn [orb fst snd].
    assert (N1 : B2R d + B2R c / B2R d * B2R c <> 0).
    { intros E. apply N0. replace (B2R c * B2R c + B2R d * B2R d) with (B2R d * (B2R d + B2R c / B2R d * B2R c)) by (field; exact c0).
      rewrite E. ring. }
    split.
    + replace ((B2R a * B2R c + B2R b * B2R d) / (B2R c * B2R c + B2R d * B2R d)) with
        ((B2R a * (B2R c / B2R d) + B2R b) / (B2R d + B2R c / B2R d * B2R c)) by (field; repeat split; assumption). exact E1.
    + replace ((B2R b * B2R c - B2R a * B2R d) / (B2R c * B2R c + B2R d * B2R d)) with
        ((B2R b * (B2R c / B2R d) - B2R a) / (B2R d + B2R c / B2R d * B2R c)) by (field; repeat split; assumption). exact E2.
Qed.
