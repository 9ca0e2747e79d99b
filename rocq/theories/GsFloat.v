(** GsNorm (ntrugen.go:276-283) in binary64 arithmetic: the vectors it computes,
    compared at the roots with the exact ones. *)
From Coq Require Import Reals Lra Lia ZArith List.
From Flocq Require Import Core BinarySingleNaN.
From Verif Require Import GoBase Util BaseProofs Spec Float FftTables Fft FftShape SpecFft SpecBabai ExactReal FftProofs
  RootsProofs RootsTable Binary64 B64Proofs FloatErr FftErr Ntrugen KeyGen Babai GsExact GsBound GsReduce CdivErr FftL1 QuotErr
  IfftAvg CdivGen.
Local Open Scope R_scope.

Notation G0 := exact_good.
Notation vals := (map (fun x : b64 => B2R x)).

Lemma u53_pos : 0 < u53.
Proof. unfold u53. lra. Qed.
Lemma big_le (x : R) : x <= 2 ^ 200 -> x <= big.
Proof.
  intros H. apply Rle_trans with (1 := H). unfold big.
  apply Rle_trans with (bpow radix2 200); [|apply bpow_le; lia]. cbn; lra.
Qed.
Lemma Pk k i : (1 <= k)%nat -> P k i = nth i (exact_roots (2 ^ k)) C0.
Proof. intros Hk. unfold Babai.P, pts. destruct k; [lia|reflexivity]. Qed.
Lemma Pk_unit k i : (1 <= k)%nat -> (i < 2 ^ k)%nat -> Cle (P k i) 1.
Proof. intros Hk Hi. rewrite Pk by exact Hk. apply exact_unit; assumption. Qed.
Lemma nth_evk k (a : list R) i : (1 <= k)%nat -> (i < 2 ^ k)%nat -> nth i (map (ceval a) (exact_roots (2 ^ k))) C0 = ceval a (P k i).
Proof. intros Hk Hi. rewrite Pk by exact Hk. apply nth_map_ceval. rewrite (gr_len _ G0) by exact Hk. exact Hi. Qed.

(** ** Sums *)
Lemma lsum_sq (x : list R) n t : length x = n -> 0 < t -> lsum x <= sqnorm n x / (2 * t) + INR n * (t / 2 + 1).
Proof.
  intros L Ht. unfold lsum, sqnorm. rewrite L. clear L. induction n as [|n IH]; [cbn; unfold Rdiv; rewrite Rmult_0_l; lra|].
  rewrite S_INR. cbn [rsum]. set (y := nth n x 0) in *.
  assert (A : Rabs y <= y * y / (2 * t) + t / 2).
  { assert (Q : 0 <= (Rabs y - t) * (Rabs y - t)) by apply Rle_0_sqr.
    replace (y * y) with (Rabs y * Rabs y) by (rewrite <- Rabs_mult; apply Rabs_pos_eq, Rle_0_sqr).
    apply Rmult_le_reg_r with (2 * t); [lra|].
    replace ((Rabs y * Rabs y / (2 * t) + t / 2) * (2 * t)) with (Rabs y * Rabs y + t * t) by (field; lra). lra. }
  unfold Rdiv in *. rewrite Rmult_plus_distr_r, Rmult_plus_distr_r. lra.
Qed.
Lemma ceval_close n (a b : list R) r z : length a = n -> length b = n -> Cle z 1 ->
  (forall i, (i < n)%nat -> Rabs (nth i a 0 - nth i b 0) <= r) -> Cle (Csub (ceval a z) (ceval b z)) (INR n * r).
Proof.
  intros La Lb Hz H. unfold ceval. rewrite La, Lb. clear La Lb. induction n as [|n IH].
  - cbn [Csum INR]. rewrite Rmult_0_l. replace (Csub C0 C0) with C0 by ring. apply Cle_0.
  - cbn [Csum]. rewrite S_INR.
    match goal with |- Cle (Csub (Cadd ?x (Cmul (RtoC ?p) ?w)) (Cadd ?y (Cmul (RtoC ?q) ?w))) _ =>
      replace (Csub (Cadd x (Cmul (RtoC p) w)) (Cadd y (Cmul (RtoC q) w))) with (Cadd (Csub x y) (Cmul (RtoC (p - q)) w)) end.
    + replace ((INR n + 1) * r) with (INR n * r + r * 1) by ring. apply Cle_add; [apply IH; intros; apply H; lia|].
      apply Cle_mul; [apply Cle_real, H; lia|apply Cle_pow, Hz].
    + match goal with |- Cadd (Csub ?x ?y) (Cmul _ ?w) = _ => destruct x, y, w end.
      unfold Cadd, Csub, Cmul, RtoC. cbn [fst snd]. apply f_equal2; ring.
Qed.
(** |z + w|^2 <= |z|^2 + e (2 M + e) *)
Lemma Csq_close z w e M : Cle (Csub z w) e -> Cle w M -> Csqnorm z <= Csqnorm w + e * (2 * M + e).
Proof.
  intros [e0 He] [M0 HM]. destruct z as [a b], w as [c d]. unfold Csub, Csqnorm in *. cbn [fst snd] in *.
  set (p := a - c) in *. set (q := b - d) in *.
  replace (a * a + b * b) with ((p * p + q * q) + 2 * (p * c + q * d) + (c * c + d * d)) by (unfold p, q; ring).
  assert (K : p * c + q * d <= e * M).
  { destruct (Rle_dec (p * c + q * d) 0) as [N|N]; [assert (0 <= e * M) by (apply Rmult_le_pos; assumption); lra|].
    apply Rsqr_incr_0_var; [|apply Rmult_le_pos; assumption]. unfold Rsqr.
    pose proof (Rle_0_sqr (p * d - q * c)) as S. unfold Rsqr in S.
    apply Rle_trans with ((p * p + q * q) * (c * c + d * d)); [lra|].
    replace (e * M * (e * M)) with ((e * e) * (M * M)) by ring.
    pose proof (Rle_0_sqr p). pose proof (Rle_0_sqr q). pose proof (Rle_0_sqr c). pose proof (Rle_0_sqr d). unfold Rsqr in *.
    apply Rmult_le_compat; lra. }
  lra.
Qed.
Lemma Cle_lin z t : 0 < t -> Cle z (Csqnorm z / (2 * t) + t / 2).
Proof.
  intros Ht. pose proof (Csqnorm_pos z) as S0. set (s := Csqnorm z) in *. split.
  - assert (0 <= s / (2 * t)) by (apply Rmult_le_pos; [exact S0|left; apply Rinv_0_lt_compat; lra]). lra.
  - fold s. replace ((s / (2 * t) + t / 2) * (s / (2 * t) + t / 2)) with (s + (s / (2 * t) - t / 2) * (s / (2 * t) - t / 2)) by (field; lra).
    pose proof (Rle_0_sqr (s / (2 * t) - t / 2)) as Q. unfold Rsqr in Q. lra.
Qed.
Lemma avg_const k c : avg k (fun _ => c) = c.
Proof.
  unfold avg. assert (0 < INR (2 ^ k)) by (apply lt_0_INR; pose proof (pow2_ge1 k); lia).
  rewrite rsum_const. field. lra.
Qed.
Lemma n_bound k : (1 <= k <= 10)%nat -> 0 < INR (2 ^ k) <= 1024.
Proof. intros Hk. split; [apply lt_0_INR; pose proof (pow2_ge1 k); lia|apply pow2_1024; lia]. Qed.

(** the sum of squares, from the values *)
Lemma sqnorm_vals k x b : length x = (2 ^ k)%nat -> (forall i, (i < 2 ^ k)%nat -> Csqnorm (ceval x (P k i)) <= b i) ->
  sqnorm (2 ^ k) x <= avg k b.
Proof. intros L H. rewrite <- (parseval exact_roots G0 k x L). apply avg_le. exact H. Qed.

(** ** Transforms *)
Definition fins (x : list b64) : Prop := Forall (fun y => is_finite y = true) x.
Lemma nth_vals x i : nth i (vals x) 0 = B2R (nth i x (B754_zero false)).
Proof. change 0 with (B2R (B754_zero false : b64)). apply (map_nth (fun y : b64 => B2R y)). Qed.
Section T.
Context (ci cu : b64 -> Z) (k : nat) (Hk : (1 <= k <= 10)%nat).
Notation FO := (binary64 ci cu).
Notation roots := (roots_dict FO).
Notation n := (2 ^ k)%nat.
Let k1 : (1 <= k)%nat. Proof. lia. Qed.

Lemma fin_nth x d i : fins x -> is_finite d = true -> is_finite (nth i x d) = true.
Proof.
  intros H Hd. destruct (Nat.lt_ge_cases i (length x)) as [Hi|Hi].
  - exact (proj1 (Forall_nth _ _) H i d Hi).
  - now rewrite nth_overflow.
Qed.
Lemma f0_fin : is_finite (f0 FO : b64) = true.
Proof. reflexivity. Qed.
Lemma approx_fins (x : list b64) (v : list R) r m : length x = m ->
  (forall i, (i < m)%nat -> approx r (nth i x (f0 FO)) (nth i v 0)) -> fins x.
Proof.
  intros L H. apply Forall_nth. intros i d Hi. assert (Hm : (i < m)%nat) by (rewrite <- L; exact Hi). destruct (H i Hm) as [F1 _].
  refine (eq_trans (f_equal is_finite (nth_indep x d (f0 FO) Hi)) F1).
Qed.
Lemma nth_f0 (x : list b64) i : (i < length x)%nat -> B2R (nth i x (f0 FO)) = nth i (vals x) 0.
Proof. intros Hi. rewrite nth_vals. reflexivity. Qed.

Lemma FFT_f (x : list b64) S : length x = n -> fins x -> lsum (vals x) <= S -> S <= 2 ^ 100 ->
  exists Fl : list (b64 * b64), FFT FO roots x = Ok Fl /\ length Fl = n /\
    forall i, (i < n)%nat -> capprox (S * (300 * u53)) (nth i Fl (c0 FO)) (ceval (vals x) (P k i)).
Proof.
  intros L Fx HS HB. pose proof (lsum_ge (vals x)) as LG. pose proof (pos_INR (length (vals x))) as LP.
  assert (N : near ci cu n 0 (lsum (vals x)) x (vals x)).
  { split; [exact L|]. split; [now rewrite map_length|]. intros i Hi.
    assert (Hx : (i < length x)%nat) by (rewrite L; exact Hi). rewrite <- (nth_f0 x i Hx). split.
    - apply approx_exact, fin_nth; [exact Fx|reflexivity].
    - rewrite (nth_f0 x i Hx). unfold lsum. apply Rle_trans with (Rabs (nth i (vals x) 0) + 1); [lra|].
      apply (rsum_one _ (fun i => Rabs (nth i (vals x) 0) + 1)); [|rewrite map_length; lia].
      intros j _. pose proof (Rabs_pos (nth j (vals x) 0)). lra. }
  destruct (FFT_l1 ci cu k x (vals x) _ Hk N) as (Fl & E & L1 & L2 & C).
  { apply big_le. apply Rle_trans with (8 * 2 ^ 100); [lra|]. cbn. lra. }
  exists Fl. split; [exact E|]. split; [exact L1|]. intros i Hi. destruct (C i Hi) as [C1' _].
  rewrite nth_evk in C1' by lia. eapply capprox_le; [|exact C1'].
  pose proof (INR_le10 k Hk) as K10. pose proof u53_pos. pose proof (pos_INR k).
  apply Rmult_le_compat; try lra; [apply Rmult_le_pos; lra|].
  apply Rle_trans with (10 * (30 * u53)); [apply Rmult_le_compat_r; lra|lra].
Qed.
Lemma IFFT_f (Fl : list (b64 * b64)) Mf : length Fl = n -> (forall i, (i < n)%nat -> cfin (nth i Fl (c0 FO))) ->
  (forall i, (i < n)%nat -> Cle (toC (nth i Fl (c0 FO))) (Mf i) /\ 1 <= Mf i) -> avg k Mf <= 2 ^ 100 ->
  exists f : list b64, IFFT FO roots Fl = Ok f /\ length f = n /\ fins f /\
    forall i, (i < n)%nat -> Rabs (nth i (vals f) 0 - nth i (cinv k (fun j => toC (nth j Fl (c0 FO)))) 0) <= avg k Mf * (1000 * u53).
Proof.
  intros L HF HM HA. set (X := fun j => toC (nth j Fl (c0 FO))). pose proof (n_bound k Hk) as NB. pose proof u53_pos as U0.
  assert (RS : rsum n Mf = INR n * avg k Mf) by (unfold avg; field; lra).
  assert (R0 : 0 <= rsum n Mf) by (apply rsum_nonneg; intros i Hi; destruct (HM i Hi); lra).
  assert (A0 : 0 <= avg k Mf) by (unfold avg; apply Rmult_le_pos; [exact R0|left; apply Rinv_0_lt_compat; lra]).
  pose proof (INR_le10 k Hk) as K10. pose proof (pos_INR k) as K0.
  assert (KU : INR k * (50 * u53) <= 500 * u53).
  { replace (500 * u53) with (10 * (50 * u53)) by ring. apply Rmult_le_compat_r; lra. }
  destruct (IFFT_fuel_avg ci cu k Hk Fl X Mf (S (length Fl)) 0 L) as (f & E & Lf & C).
  - intros i Hi. destruct (HM i Hi) as [H1 H2]. split; [|split; assumption]. rewrite Rmult_0_r. split; [apply HF, Hi|].
    unfold X. replace (Csub _ _) with C0 by (destruct (toC _); unfold Csub, C0; cbn [fst snd]; apply f_equal2; ring). apply Cle_0.
  - lia.
  - lra.
  - unfold u53 in *. lra.
  - rewrite RS. apply big_le. apply Rle_trans with (8 * (1024 * 2 ^ 100)); [|cbn; lra].
    apply Rmult_le_compat_l; [lra|]. apply Rmult_le_compat; lra.
  - exists f. split; [exact E|]. split; [exact Lf|]. split; [apply (approx_fins f (cinv k X) _ n Lf C)|].
    intros i Hi. destruct (C i Hi) as [_ D]. rewrite (nth_f0 f i) in D by (rewrite Lf; exact Hi). eapply Rle_trans; [exact D|].
    replace (avg k Mf * (1000 * u53)) with (2 * avg k Mf * (500 * u53)) by ring. apply Rmult_le_compat_l; lra.
Qed.
(** the same, for a vector near the values of a real polynomial *)
Lemma IFFT_at (Fl : list (b64 * b64)) Mf v e A : length Fl = n -> (forall i, (i < n)%nat -> 1 <= Mf i) ->
  (forall i, (i < n)%nat -> capprox e (nth i Fl (c0 FO)) (ceval v (P k i)) /\ Cle (ceval v (P k i)) (Mf i - e)) -> avg k Mf <= A -> A <= 2 ^ 100 ->
  exists f : list b64, IFFT FO roots Fl = Ok f /\ length f = n /\ fins f /\
    forall i, (i < n)%nat -> Cle (Csub (ceval (vals f) (P k i)) (ceval v (P k i))) (e + 1024 * (A * (1000 * u53))).
Proof.
  intros L HM H HA HB. pose proof (n_bound k Hk) as NB. pose proof u53_pos as U0.
  destruct (IFFT_f Fl Mf L) as (f & E & Lf & Ff & C).
  - intros i Hi. apply H, Hi.
  - intros i Hi. split; [|apply HM, Hi]. destruct (H i Hi) as [H1 H2]. replace (Mf i) with (Mf i - e + e) by ring.
    apply (capprox_bound _ _ _ _ H1 H2).
  - lra.
  - exists f. split; [exact E|]. split; [exact Lf|]. split; [exact Ff|]. intros i Hi. set (X := fun j => toC (nth j Fl (c0 FO))) in *.
    replace (Csub (ceval (vals f) (P k i)) (ceval v (P k i))) with
      (Cadd (Csub (ceval (cinv k X) (P k i)) (ceval v (P k i))) (Csub (ceval (vals f) (P k i)) (ceval (cinv k X) (P k i)))).
    + apply Cle_add.
      * apply (cinv_close k v X (fun _ => e) k1); [reflexivity| |exact Hi]. intros j Hj. apply (proj2 (proj1 (H j Hj))).
      * apply Cle_le with (INR n * (A * (1000 * u53))).
        { assert (0 <= A). { apply Rle_trans with (avg k Mf); [|exact HA]. apply Rle_trans with (avg k (fun _ => 1)); [rewrite avg_const; lra|apply avg_le; exact HM]. }
          apply Rmult_le_compat_r; [apply Rmult_le_pos; lra|lra]. }
        apply ceval_close; [now rewrite map_length|apply cinv_length, k1|apply Pk_unit; [exact k1|exact Hi]|].
        intros j Hj. eapply Rle_trans; [apply C, Hj|]. apply Rmult_le_compat_r; lra.
    + destruct (ceval (cinv k X) (P k i)), (ceval v (P k i)), (ceval (vals f) (P k i)). unfold Cadd, Csub. cbn [fst snd]. apply f_equal2; ring.
Qed.
End T.
