(** C90: the constants of samplerz.go against exp and ln 2. *)
From Coq Require Import Reals Lra Lia ZArith List.
From Verif Require Import GoBase Float Samplerz HalfGauss ExpPoly ExactReal.
Import ListNotations.
Local Open Scope R_scope.

(** samplerz.go:47-51 describes C by (2^-63) sum C[12-i] x^i; with the sign (-x)^i the
    value is exp(-x) up to 2^-51. *)
Theorem C90_table : forall x, 0 <= x <= ln 2 ->
  Rabs (/ 2 ^ 63 * sum_f_R0 (fun i => IZR (nth (12 - i) expC 0%Z) * (- x) ^ i) 12 - exp (- x)) <= / 2 ^ 51.
Proof.
  intros x Hx. pose proof ln2_bounds as [_ L]. rewrite <- altC_eq. pose proof (expC_close x ltac:(lra)) as A.
  assert (P : 0 < 2 ^ 63) by (apply pow_lt; lra).
  replace (/ 2 ^ 63 * pev altC x - exp (- x)) with (/ 2 ^ 63 * (pev altC x - 2 ^ 63 * exp (- x))) by (field; lra).
  rewrite Rabs_mult, (Rabs_pos_eq (/ 2 ^ 63)) by (apply Rlt_le, Rinv_0_lt_compat, P).
  apply Rmult_le_reg_l with (2 ^ 63); [exact P|]. rewrite <- Rmult_assoc, Rinv_r, Rmult_1_l by lra.
  eapply Rle_trans; [exact A|]. lra.
Qed.
Print Assumptions C90_table.
(** Read literally, without the sign, the comment is wrong. *)
Theorem C90_comment_refuted : exists x, 0 <= x <= ln 2 /\
  / 2 ^ 63 * sum_f_R0 (fun i => IZR (nth (12 - i) expC 0%Z) * x ^ i) 12 - exp (- x) > 1 / 2.
Proof.
  exists (1 / 2). pose proof ln2_bounds as [L _]. split; [lra|].
  pose proof (exp_increasing (- (1 / 2)) 0 ltac:(lra)) as E. rewrite exp_0 in E.
  set (e := exp _) in *. clearbody e. cbn [sum_f_R0 Nat.sub]. unfold expC. cbn [nth]. lra.
Qed.
Print Assumptions C90_comment_refuted.
(** The algorithm in the comment of approxexp (samplerz.go:93-103), on integers without
    bound: its result is 2^63 ccs exp(-x) up to 3633, a relative 2^-51 of 2^63.  The code
    differs from it by the products modulo 2^64 (C38). *)
Theorem C90_documented_algorithm : forall x ccs z c, 0 <= x <= ln 2 -> 0 <= ccs <= 1 ->
  IZR z <= 2 ^ 63 * x < IZR z + 1 -> IZR c <= 2 ^ 63 * ccs < IZR c + 1 ->
  let y := fold_left (fun y elt => elt - Z.shiftr (z * y) 63)%Z (tl expC) (hd 0%Z expC) in
  Rabs (IZR (Z.shiftr (c * y) 63) - 2 ^ 63 * (ccs * exp (- x))) <= 3633.
Proof.
  intros x ccs z c Hx Hc Hz Hcc. cbv zeta. pose proof ln2_bounds as [_ L].
  assert (P : 0 < 2 ^ 63) by (apply pow_lt; lra).
  assert (Z0 : (0 <= z)%Z). { assert (Q : -1 < IZR z) by nra. apply lt_IZR in Q. lia. }
  assert (C0 : (0 <= c)%Z). { assert (Q : -1 < IZR c) by nra. apply lt_IZR in Q. lia. }
  pose proof (doc_close x z ltac:(lra) Hz Z0) as A. unfold horner_doc in A.
  set (y := fold_left _ _ _) in *. clearbody y.
  assert (E : 0 < exp (- x) <= 1).
  { split; [apply exp_pos|]. destruct (Req_dec x 0) as [->|N]; [rewrite Ropp_0, exp_0; lra|]. pose proof (exp_increasing (- x) 0 ltac:(lra)) as E. rewrite exp_0 in E. lra. }
  rewrite Z.shiftr_div_pow2 by lia.
  assert (T63 : IZR (2 ^ 63) = 2 ^ 63) by (rewrite pow_IZR; reflexivity).
  pose proof (Z.div_mod (c * y) (2 ^ 63) ltac:(lia)) as D. pose proof (Z.mod_pos_bound (c * y) (2 ^ 63) ltac:(lia)) as [M1 M2].
  apply (f_equal IZR) in D. rewrite plus_IZR, !mult_IZR, T63 in D. apply IZR_le in M1. apply IZR_lt in M2. rewrite T63 in M2.
  set (k := IZR (c * y / 2 ^ 63)) in *. set (m := IZR ((c * y) mod 2 ^ 63)) in *. clearbody k m. apply IZR_le in C0.
  set (w := IZR c / 2 ^ 63). assert (Ew : IZR c = 2 ^ 63 * w) by (unfold w; field; lra). clearbody w.
  rewrite Ew in *. set (M := 2 ^ 63) in *. clearbody M. set (e := exp (- x)) in *. clearbody e. set (Y := IZR y) in *. clearbody Y.
  pose proof (Rle_abs (Y - M * e)) as Q1. pose proof (Rle_abs (- (Y - M * e))) as Q2. rewrite Rabs_Ropp in Q2.
  assert (K : w * Y - 1 <= k <= w * Y) by (split; nra).
  assert (W : 0 <= w <= 1) by nra. assert (W2 : 0 <= M * (ccs - w) <= 1) by nra.
  assert (W3 : 0 <= M * (ccs - w) * e <= 1) by nra.
  apply Rabs_le. split; nra.
Qed.
Print Assumptions C90_documented_algorithm.
(** LN2 and ILN2 (samplerz.go:21-22) *)
Theorem C90_ln2 : 0 < LN2 exactR - ln 2 < / 10 ^ 13 /\ 0 < ILN2 exactR - / ln 2 < 2 / 10 ^ 12.
Proof.
  pose proof ln2_bounds as [A B]. unfold LN2, ILN2. cbn [f_const exactR].
  replace (IZR (10 ^ 11)) with 100000000000 by (f_equal; reflexivity).
  split; [lra|].
  assert (I : / (69314718056 / 100000000000) < / ln 2 < / (69314718055994 / 100000000000000))
    by (split; apply Rinv_lt_contravar; nra).
  set (i := / ln 2) in *. clearbody i. clear A B. lra.
Qed.
Print Assumptions C90_ln2.
Example C90_nonvacuous : 0 <= 1 / 2 <= ln 2 /\ 2 ^ 62 <= 2 ^ 63 * (1 / 2) < 2 ^ 62 + 1 /\
  horner_doc (2 ^ 62) = 5594257926288581473%Z.
Proof. pose proof ln2_bounds. repeat split; try lra; try (vm_compute; reflexivity). Qed.
