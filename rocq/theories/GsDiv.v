(** GsNorm (ntrugen.go:276-283) in binary64 arithmetic: the Gram value and the
    quotients. *)
From Coq Require Import Reals Lra Lia ZArith List.
From Flocq Require Import Core BinarySingleNaN.
From Verif Require Import GoBase Util BaseProofs Spec Float FftTables Fft FftShape SpecFft SpecBabai ExactReal FftProofs
  RootsProofs RootsTable Binary64 B64Proofs FloatErr FftErr Ntrugen KeyGen Babai GsExact GsBound GsReduce CdivErr FftL1 QuotErr
  IfftAvg CdivGen GsFloat GsGram.
Local Open Scope R_scope.

(** from the product with a number of absolute value at least L *)
Lemma Cle_cancel z m N L : 0 < L -> L * L <= Csqnorm m -> Cle (Cmul z m) N -> Cle z (N / L).
Proof.
  intros HL Hm [N0 H]. rewrite Csqnorm_mul in H. pose proof (Csqnorm_pos z) as Z0.
  split; [apply Rmult_le_pos; [exact N0|left; apply Rinv_0_lt_compat, HL]|].
  apply Rmult_le_reg_r with (L * L); [apply Rmult_lt_0_compat; exact HL|].
  replace (N / L * (N / L) * (L * L)) with (N * N) by (field; lra).
  apply Rle_trans with (Csqnorm z * Csqnorm m); [apply Rmult_le_compat_l; assumption|exact H].
Qed.
(** squares of close numbers *)
Lemma Csq_both z w e t : 0 < t -> Cle (Csub z w) e -> Rabs (Csqnorm z - Csqnorm w) <= e * e + t * Csqnorm w + e * e / t.
Proof.
  intros Ht [e0 He]. destruct z as [a b], w as [c d]. unfold Csub, Csqnorm in *. cbn [fst snd] in *.
  set (p := a - c) in *. set (q := b - d) in *.
  replace (a * a + b * b - (c * c + d * d)) with ((p * p + q * q) + 2 * (p * c + q * d)) by (unfold p, q; ring).
  assert (IT : 0 < / t) by (apply Rinv_0_lt_compat, Ht).
  assert (K : forall s x y : R, s = 1 \/ s = -1 -> s * (2 * (x * y)) <= t * (y * y) + x * x * / t).
  { intros s x y Hs. assert (Q : 0 <= (s * x - t * y) * (s * x - t * y)) by apply Rle_0_sqr.
    assert (SS : s * s = 1) by (destruct Hs as [-> | ->]; ring).
    apply Rmult_le_reg_r with t; [exact Ht|].
    replace ((t * (y * y) + x * x * / t) * t) with (t * t * (y * y) + s * s * (x * x)) by (rewrite SS; field; lra). lra. }
  pose proof (K 1 p c ltac:(lra)). pose proof (K 1 q d ltac:(lra)). pose proof (K (-1) p c ltac:(lra)). pose proof (K (-1) q d ltac:(lra)).
  assert (D : (p * p + q * q) * / t <= e * e * / t) by (apply Rmult_le_compat_r; lra).
  pose proof (Rle_0_sqr p). pose proof (Rle_0_sqr q). unfold Rsqr in *. unfold Rdiv. apply Rabs_le. lra.
Qed.

Section Two.
Context (ci cu : b64 -> Z) (k : nat) (Hk : (1 <= k <= 10)%nat).
Notation FO := (binary64 ci cu).
Notation roots := (roots_dict FO).
Notation n := (2 ^ k)%nat.
Context (f g : list Z) (Lf : length f = n) (Lg : length g = n).
Notation rf := (map IZR f).
Notation rg := (map IZR g).
Notation lam j := (lam (map IZR f) (map IZR g) (P k j)).
Context (Hs : sqnorm n rf + sqnorm n rg <= 17000) (Hlam : forall j, (j < n)%nat -> 147 / 1000 <= lam j).
Let k1 : (1 <= k)%nat. Proof. lia. Qed.
Let Lrf : length rf = n. Proof. now rewrite map_length. Qed.
Let Lrg : length rg = n. Proof. now rewrite map_length. Qed.
Let Hf : sqnorm n rf <= 17000. Proof. pose proof (sqnorm_pos n rg). lra. Qed.
Let Hg : sqnorm n rg <= 17000. Proof. pose proof (sqnorm_pos n rf). lra. Qed.

Lemma lam_avg : avg k (fun j => lam j) <= 17000.
Proof.
  unfold GsExact.lam. rewrite avg_plus. rewrite (parseval exact_roots G0 k rf Lrf), (parseval exact_roots G0 k rg Lrg). exact Hs.
Qed.
Lemma lam_hi j : (j < n)%nat -> 0 <= lam j <= 54017618.
Proof.
  intros Hj. pose proof (sq_le27 ci cu k Hk f Lf Hf j Hj). pose proof (sq_le27 ci cu k Hk g Lg Hg j Hj). unfold GsExact.lam. lra.
Qed.

Lemma Add_gram (y z : list b64) : length y = n -> length z = n -> fins y -> fins z ->
  (forall j, (j < n)%nat -> Cle (Csub (ceval (vals y) (P k j)) (RtoC (Csqnorm (ceval rf (P k j))))) (92 / 1000000)) ->
  (forall j, (j < n)%nat -> Cle (Csub (ceval (vals z) (P k j)) (RtoC (Csqnorm (ceval rg (P k j))))) (92 / 1000000)) ->
  exists d : list b64, Add FO y z = Ok d /\ length d = n /\ fins d /\
    forall j, (j < n)%nat -> Cle (Csub (ceval (vals d) (P k j)) (RtoC (lam j))) (185 / 1000000).
Proof.
  intros Ly Lz Fy Fz Hy Hz.
  pose proof (coef_y ci cu k Hk f Lf Hf y Ly Hy) as By. pose proof (coef_y ci cu k Hk g Lg Hg z Lz Hz) as Bz.
  assert (EL : @length (F FO) y = @length (F FO) z) by (exact (eq_trans Ly (eq_sym Lz))).
  rewrite (Add_ok FO y z EL). set (d := map _ _). exists d. split; [reflexivity|].
  assert (Ld : length d = n) by (unfold d; rewrite map_length, seq_length; exact Ly). split; [exact Ld|].
  assert (AP : forall i, (i < n)%nat -> approx (2000000 * u53) (nth i d (f0 FO)) (nth i (radd n (vals y) (vals z)) 0)).
  { intros i Hi. unfold d. rewrite nth_map_seq by (replace (@length (F FO) y) with n by (symmetry; exact Ly); exact Hi).
    unfold radd. rewrite nth_map_seq by exact Hi.
    rewrite <- (nth_f0 ci cu y i) by (rewrite Ly; exact Hi). rewrite <- (nth_f0 ci cu z i) by (rewrite Lz; exact Hi).
    pose proof (approx_exact _ (fin_nth y (f0 FO) i Fy eq_refl)) as A1.
    pose proof (approx_exact _ (fin_nth z (f0 FO) i Fz eq_refl)) as A2.
    pose proof (By i Hi) as B1. pose proof (Bz i Hi) as B2.
    rewrite <- (nth_f0 ci cu y i) in B1 by (rewrite Ly; exact Hi). rewrite <- (nth_f0 ci cu z i) in B2 by (rewrite Lz; exact Hi).
    eapply approx_le; [|apply (add_approx 0 0 _ _ _ _ 2000000 A1 A2)].
    - lra.
    - pose proof (Rabs_triang (B2R (nth i y (f0 FO))) (B2R (nth i z (f0 FO)))). lra.
    - split; [lra|]. apply big_le. cbn; lra. }
  split; [apply (approx_fins ci cu d _ _ n Ld AP)|]. intros j Hj.
  assert (C1' : Cle (Csub (ceval (vals d) (P k j)) (ceval (radd n (vals y) (vals z)) (P k j))) (INR n * (2000000 * u53))).
  { apply ceval_close; [now rewrite map_length|unfold radd; now rewrite map_length, seq_length|apply Pk_unit; assumption|].
    intros i Hi. rewrite <- (nth_f0 ci cu d i) by (apply (Nat.lt_le_trans _ n); [exact Hi|apply Nat.eq_le_incl, eq_sym, Ld]). apply (AP i Hi). }
  rewrite ceval_radd' in C1' by (now rewrite map_length).
  pose proof (Cle_add _ _ _ _ C1' (Cle_add _ _ _ _ (Hy j Hj) (Hz j Hj))) as C.
  apply Cle_le with (INR n * (2000000 * u53) + (92 / 1000000 + 92 / 1000000)).
  - pose proof (n_bound k Hk). unfold u53. lra.
  - replace (Csub (ceval (vals d) (P k j)) (RtoC (lam j))) with
      (Cadd (Csub (ceval (vals d) (P k j)) (Cadd (ceval (vals y) (P k j)) (ceval (vals z) (P k j))))
        (Cadd (Csub (ceval (vals y) (P k j)) (RtoC (Csqnorm (ceval rf (P k j))))) (Csub (ceval (vals z) (P k j)) (RtoC (Csqnorm (ceval rg (P k j))))))); [exact C|].
    unfold GsExact.lam. destruct (ceval (vals d) (P k j)), (ceval (vals y) (P k j)), (ceval (vals z) (P k j)).
    unfold Cadd, Csub, RtoC. cbn [fst snd]. apply f_equal2; ring.
Qed.

Context (d : list b64) (Ld : length d = n) (Fd : fins d)
  (Hd : forall j, (j < n)%nat -> Cle (Csub (ceval (vals d) (P k j)) (RtoC (lam j))) (185 / 1000000)).
Lemma FFT_gram : exists D : list (b64 * b64), FFT FO roots d = Ok D /\ length D = n /\
  forall j, (j < n)%nat -> capprox (187 / 1000000) (nth j D (c0 FO)) (RtoC (lam j)).
Proof.
  assert (SQ : sqnorm n (vals d) <= 920000000000).
  { eapply Rle_trans; [apply (sqnorm_vals k (vals d) (fun j => 54017619 * lam j + 1))|].
    - now rewrite map_length.
    - intros j Hj. pose proof (lam_hi j Hj) as LH. pose proof (Hd j Hj) as HD. set (s := lam j) in *.
      assert (M : Cle (RtoC s) s) by (apply Cle_real; rewrite Rabs_pos_eq; lra).
      pose proof (Csq_close _ _ _ _ HD M) as S. rewrite Csqnorm_RtoC in S.
      assert (s * s <= 54017618 * s) by (apply Rmult_le_compat_r; lra). lra.
    - rewrite avg_lin. pose proof lam_avg. lra. }
  assert (LS : lsum (vals d) <= 31000000).
  { eapply Rle_trans; [apply (lsum_sq (vals d) n 30000); [now rewrite map_length|lra]|]. pose proof (n_bound k Hk). lra. }
  destruct (FFT_f ci cu k Hk d 31000000 Ld Fd LS ltac:(cbn; lra)) as (X & E & LX & C).
  exists X. split; [exact E|]. split; [exact LX|]. intros j Hj.
  eapply capprox_le; [|apply (capprox_tri _ _ _ _ _ (C j Hj) (Hd j Hj))]. unfold u53. lra.
Qed.

(** 1/sqrt(lam) *)
Definition mj (j : nat) : R := sqrt (/ lam j).
Lemma mj_facts j : (j < n)%nat -> 0 < lam j /\ mj j * mj j = / lam j /\ 136 / 1000000 <= mj j <= 261 / 100.
Proof.
  intros Hj. pose proof (Hlam j Hj) as L1. pose proof (lam_hi j Hj) as L2. assert (L0 : 0 < lam j) by lra.
  assert (I0 : 0 < / lam j) by (apply Rinv_0_lt_compat, L0). assert (SQ : mj j * mj j = / lam j) by (apply sqrt_sqrt; lra).
  assert (M0 : 0 <= mj j) by apply sqrt_pos.
  split; [exact L0|]. split; [exact SQ|].
  assert (I1 : / lam j <= 1000 / 147).
  { replace (1000 / 147) with (/ (147 / 1000)) by field. apply Rinv_le_contravar; lra. }
  assert (I2 : / 54017618 <= / lam j) by (apply Rinv_le_contravar; lra).
  split; (apply Rsqr_incr_0_var; [unfold Rsqr; lra|lra]).
Qed.

(** one quotient *)
Section Quo.
Context (a : list Z) (La : length a = n) (Ha : sqnorm n (map IZR a) <= 17000)
  (Hal : forall j, (j < n)%nat -> Csqnorm (ceval (map IZR a) (P k j)) <= lam j).
Notation av j := (ceval (map IZR a) (P k j)).
Definition cf (j : nat) : Cx := Cmul (Cconj (av j)) (RtoC (/ lam j)).

Lemma cf_sq j : Csqnorm (cf j) = Csqnorm (av j) * (/ lam j * / lam j).
Proof. unfold cf. rewrite Csqnorm_mul, Csqnorm_conj, Csqnorm_RtoC. reflexivity. Qed.
Lemma cf_le j : (j < n)%nat -> Cle (cf j) (mj j).
Proof.
  intros Hj. destruct (mj_facts j Hj) as (L0 & SQ & M1 & M2). split; [lra|]. rewrite cf_sq, SQ.
  assert (I0 : 0 < / lam j) by (apply Rinv_0_lt_compat, L0).
  apply Rle_trans with (lam j * (/ lam j * / lam j)); [|right; field; lra].
  apply Rmult_le_compat_r; [apply Rmult_le_pos; lra|apply Hal, Hj].
Qed.
Lemma lam_conj i j : P k j = Cconj (P k i) -> lam j = lam i.
Proof. intros E. unfold GsExact.lam. now rewrite E, !ceval_conj, !Csqnorm_conj. Qed.
(** the exact quotient *)
Lemma cf_eval j : (j < n)%nat -> ceval (cinv k cf) (P k j) = cf j.
Proof.
  intros Hj. destruct (cinv_eval k k1 j Hj) as [A|(i & Hi & CJ & A)]; rewrite A; [reflexivity|].
  unfold cf. rewrite (lam_conj j i CJ), CJ, ceval_conj. destruct (av j). unfold Cmul, Cconj, RtoC. cbn [fst snd]. apply f_equal2; ring.
Qed.

Lemma quo_point j z m : (j < n)%nat -> capprox (17 / 1000000000) z (Cconj (av j)) -> capprox (187 / 1000000) m (RtoC (lam j)) ->
  capprox (13 / 10000 * mj j) (c_div FO z m) (cf j).
Proof.
  intros Hj Hz Hm. destruct (mj_facts j Hj) as (L0 & SQ & M1 & M2). pose proof (Hlam j Hj) as L1. pose proof (lam_hi j Hj) as L2.
  pose proof (cf_le j Hj) as CM. set (mm := mj j) in *. set (l := lam j) in *.
  pose proof (Cle_conj _ _ (av_le ci cu k Hk a La Ha j Hj)) as AV.
  pose proof (capprox_bound _ _ _ _ Hz AV) as BZ.
  pose proof (Cle_fst _ _ BZ) as Z1. pose proof (Cle_snd _ _ BZ) as Z2. cbn [toC fst snd] in Z1, Z2.
  destruct (capprox_fst _ _ _ Hm) as [_ D1]. destruct (capprox_snd _ _ _ Hm) as [_ D2]. cbn [RtoC fst snd] in D1, D2.
  set (re := B2R (fst m)) in *. set (im := B2R (snd m)) in *. apply abs_inv in D1.
  set (S := Rmax (Rabs re) (Rabs im)).
  assert (RE : Rabs re = re) by (apply Rabs_pos_eq; lra).
  assert (S1 : l - 187 / 1000000 <= S) by (unfold S; rewrite RE; apply Rle_trans with re; [lra|apply Rmax_l]).
  assert (S2 : S <= 60000000).
  { unfold S. apply Rmax_lub; [rewrite RE; lra|]. replace (im - 0) with im in D2 by ring. lra. }
  destruct (cdiv_gen z m 5200 S) as [E1 E2]; try lra; try apply Hz; try apply Hm; try (apply big_le; cbn; lra).
  { reflexivity. }
  set (v := cquo (toC z) (toC m)) in *.
  assert (QM : Csqnorm (toC m) = re * re + im * im) by reflexivity.
  assert (RL : (l - 187 / 1000000) * (l - 187 / 1000000) <= re * re) by (apply Rmult_le_compat; lra).
  pose proof (Rle_0_sqr im) as I0. unfold Rsqr in I0.
  assert (Q0 : 0 < (l - 187 / 1000000) * (l - 187 / 1000000)) by (apply Rmult_lt_0_compat; lra).
  assert (VM : Cmul v (toC m) = toC z) by (apply cquo_mul; rewrite QM; lra).
  assert (DV : Cle (Csub v (cf j)) ((17 / 1000000000 + mm * (187 / 1000000)) / (l - 187 / 1000000))).
  { apply (Cle_cancel _ (toC m)); [lra|rewrite QM; lra|].
    replace (Cmul (Csub v (cf j)) (toC m)) with (Csub (Csub (toC z) (Cconj (av j))) (Cmul (cf j) (Csub (toC m) (RtoC l)))).
    - apply Cle_sub; [apply Hz|]. apply Cle_mul; [exact CM|apply Hm].
    - assert (CL : Cmul (cf j) (RtoC l) = Cconj (av j)).
      { unfold cf. fold l. destruct (Cconj (av j)). unfold Cmul, RtoC. cbn [fst snd]. apply f_equal2; field; lra. }
      rewrite <- VM, <- CL. ring. }
  pose proof (capprox_round _ _ v _ _ E1 E2 DV) as R.
  change (c_div FO z m) with (b_cdiv z m). eapply capprox_le; [|exact R].
  (* 1/l = mm^2 *)
  assert (T1 : (17 / 1000000000 + mm * (187 / 1000000)) / (l - 187 / 1000000) <= 1291 / 1000000 * mm).
  { apply inv_bnd; [lra|].
    assert (ML : mm * l = mm * mm * l * / mm) by (field; lra). rewrite SQ in ML. rewrite Rinv_l in ML by lra.
    assert (IM : 1 <= mm * (mm * l)) by (replace (mm * (mm * l)) with (mm * mm * l) by ring; rewrite SQ, Rinv_l; lra).
    assert (M3 : mm * (147 / 1000) <= mm * l) by (apply Rmult_le_compat_l; lra).
    (* 1 <= 2.61 * mm * l *)
    assert (M4 : mm * (mm * l) <= 261 / 100 * (mm * l)).
    { apply Rmult_le_compat_r; [|lra]. apply Rmult_le_pos; lra. }
    replace (1291 / 1000000 * mm * (l - 187 / 1000000)) with (1291 / 1000000 * (mm * l) - 1291 / 1000000 * (187 / 1000000) * mm) by ring.
    lra. }
  assert (T2 : u53 * (64 * (5200 / S) + 1) <= 38 / 100000000000).
  { assert (5200 / S <= 52000) by (apply inv_bnd; lra). unfold u53. lra. }
  lra.
Qed.

Context (x : list b64) (Lx : length x = n) (Fx : fins x)
  (Hx : forall j, (j < n)%nat -> Cle (Csub (ceval (vals x) (P k j)) (Cconj (av j))) (16 / 1000000000)).
Lemma Div_a : exists (p : list b64) (c : list R), Div FO roots x d = Ok p /\ length p = n /\ fins p /\ length c = n /\
  (forall i, (i < n)%nat -> Rabs (nth i (vals p) 0 - nth i c 0) <= 6 / 10000000000000) /\
  (forall j, (j < n)%nat -> Cle (Csub (ceval c (P k j)) (cf j)) (13 / 10000 * mj j)).
Proof.
  destruct (FFT_adj ci cu k Hk a La Ha x Lx Fx Hx) as (X & EX & LX & CX). destruct FFT_gram as (D & ED & LD & CD).
  unfold Div. rewrite EX. cbn [bind]. rewrite ED. cbn [bind].
  rewrite (list_seq X n (c0 FO) LX), (list_seq D n (c0 FO) LD), DivFFT_seq. cbn [bind].
  set (Fl := map (fun i => c_div FO (nth i X (c0 FO)) (nth i D (c0 FO))) (seq 0 n)).
  assert (Hn : forall j, (j < n)%nat -> nth j Fl (c0 FO) = c_div FO (nth j X (c0 FO)) (nth j D (c0 FO))) by (intros j Hj; unfold Fl; now rewrite nth_map_seq).
  assert (CQ : forall j, (j < n)%nat -> capprox (13 / 10000 * mj j) (nth j Fl (c0 FO)) (cf j)).
  { intros j Hj. rewrite Hn by exact Hj. apply quo_point; auto. }
  destruct (IFFT_f ci cu k Hk Fl (fun _ => 5)) as (p & E & Lp & Fp & Cp).
  - unfold Fl. now rewrite map_length, seq_length.
  - intros j Hj. apply (CQ j Hj).
  - intros j Hj. split; [|lra]. eapply Cle_le; [|apply (capprox_bound _ _ _ _ (CQ j Hj) (cf_le j Hj))].
    destruct (mj_facts j Hj) as (_ & _ & M). lra.
  - rewrite avg_const. cbn. lra.
  - exists p, (cinv k (fun j => toC (nth j Fl (c0 FO)))). split; [exact E|]. split; [exact Lp|]. split; [exact Fp|].
    split; [apply cinv_length, k1|]. split.
    + intros i Hi. eapply Rle_trans; [apply Cp, Hi|]. rewrite avg_const. unfold u53. lra.
    + intros j Hj. rewrite <- cf_eval by exact Hj.
      apply (cinv_close k (cinv k cf) (fun j => toC (nth j Fl (c0 FO))) (fun j => 13 / 10000 * mj j) k1); [| |exact Hj].
      * intros i i' _ _ CJ. unfold mj. now rewrite (lam_conj i i' CJ).
      * intros i Hi. rewrite cf_eval by exact Hi. apply (CQ i Hi).
Qed.
End Quo.
End Two.
