(** C89: BaseSampler and the half-Gaussian of parameter 1.8205. *)
From Coq Require Import Reals Lra Lia ZArith List.
From Verif Require Import GoBase Util BaseProofs Float Samplerz SamplerProofs SamplerCount PropsSampler HalfGauss.
Import ListNotations.
Local Open Scope R_scope.

(** the weight of z, and the probability of a value above k: [total] is the sum of
    all the weights *)
Definition weight (z : nat) : R := exp (- (INR z ^ 2 / (2 * (18205 / 10000) ^ 2))).
Definition above (total : R) (k : nat) : R := (total - sum_f_R0 weight k) / total.

(** The sum of the weights exists, and the number of the 2^72 inputs for which
    BaseSampler returns a value above k is at most 2^72 times the probability of
    such a value under the half-Gaussian, and at most 9 less. *)
Theorem C89_total : exists total, infinite_sum weight total.
Proof. exact rho_sum. Qed.
Print Assumptions C89_total.
Lemma table_ok total k : infinite_sum weight total -> (k < 18)%nat ->
  IZR (nth k RCDT 0%Z) <= 2 ^ 72 * above total k <= IZR (nth k RCDT 0%Z) + 9.
Proof.
  intros H Hk. apply (checkk_ok 9 (nth k RCDT 0%Z) k total); [lia|exact H|lia|].
  assert (A : forallb (fun k => checkk 9 (nth k RCDT 0%Z) k) (seq 0 18) = true) by (vm_compute; reflexivity).
  rewrite forallb_forall in A. apply A, in_seq. lia.
Qed.
Theorem C89_half_gaussian : forall total k, infinite_sum weight total -> (k < 18)%nat ->
  exists L, NoDup L /\
    (forall l, In l L <-> (bytes l /\ length l = 9%nat /\ (BaseSampler l > Z.of_nat k)%Z)) /\
    INR (length L) <= 2 ^ 72 * above total k <= INR (length L) + 9.
Proof.
  intros total k H Hk. destruct (C37_distribution k Hk) as (L & N & E & M). exists L. split; [exact N|]. split; [exact M|].
  rewrite INR_IZR_INZ, E. apply table_ok; assumption.
Qed.
Print Assumptions C89_half_gaussian.
(** values above 18, never returned, have probability at most 2^-72 *)
Theorem C89_above_18 : forall total, infinite_sum weight total -> 0 <= 2 ^ 72 * above total 18 <= 1.
Proof.
  intros total H. pose proof (checkk_ok 1 0 18 total ltac:(lia) H ltac:(lia)) as A. rewrite Rplus_0_l in A. apply A.
  vm_compute. reflexivity.
Qed.
Print Assumptions C89_above_18.
(** The number of inputs giving k is 2^72 times the probability of k, rounded down,
    for every k from 1 to 18; what is left, more than 8 and less than 9 inputs, goes to 0. *)
Theorem C89_values : forall total k, infinite_sum weight total -> (k <= 18)%nat ->
  exists L, NoDup L /\
    (forall l, In l L <-> (bytes l /\ length l = 9%nat /\ BaseSampler l = Z.of_nat k)) /\
    if (k =? 0)%nat then 8 <= INR (length L) - 2 ^ 72 * (weight k / total) <= 9
    else INR (length L) <= 2 ^ 72 * (weight k / total) < INR (length L) + 1.
Proof.
  intros total k H Hk. destruct (chi_count (Z.of_nat k) ltac:(lia)) as (L & N & E & M). exists L. split; [exact N|]. split; [exact M|].
  rewrite INR_IZR_INZ, E. clear L N E M. pose proof (total_pos total H) as T0.
  destruct k as [|j]; cbn [Nat.eqb].
  - pose proof (checkk_ok 1 (nth 0 RCDT 0%Z + 8) 0 total ltac:(lia) H ltac:(lia) ltac:(vm_compute; reflexivity)) as A.
    replace (chi (Z.of_nat 0)) with (2 ^ 72 - nth 0 RCDT 0)%Z by reflexivity. rewrite plus_IZR in A.
    rewrite minus_IZR. replace (IZR (2 ^ 72)) with (2 ^ 72) by (rewrite pow_IZR; reflexivity).
    replace (weight 0 / total) with (1 - (total - sum_f_R0 rho 0) / total) by (cbn [sum_f_R0]; unfold rho, weight, sigma_max; field; lra).
    set (x := (total - sum_f_R0 rho 0) / total) in *. clearbody x. set (c := IZR (nth 0 RCDT 0%Z)) in *. clearbody c. split; lra.
  - apply (checkp_ok (chi (Z.of_nat (S j))) (S j) total H); [lia|].
    assert (A : forallb (fun k => checkp (chi (Z.of_nat k)) k) (seq 1 18) = true) by (vm_compute; reflexivity).
    rewrite forallb_forall in A. apply A, in_seq. lia.
Qed.
Print Assumptions C89_values.
Example C89_nonvacuous : BaseSampler [255; 0; 0; 0; 0; 0; 0; 0; 255]%Z = 0%Z /\ BaseSampler [0; 0; 0; 0; 0; 0; 0; 0; 0]%Z = 18%Z /\ weight 0 = 1.
Proof. split; [reflexivity|]. split; [reflexivity|exact rho_0]. Qed.
