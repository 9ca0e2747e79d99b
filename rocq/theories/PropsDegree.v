(** C102: at degrees 2, 4 and 8 the test d.Int64() != 1 of NtruSolve (ntrugen.go:252) is exact. *)
From Coq Require Import Reals Lra Lia ZArith List.
From Verif Require Import GoBase Util BaseProofs PolyZ PolyEval Spec Float SpecFft ExactReal
  Ntrugen NtruProofs NtruProofs3 NtruProps NormSize KeyGen KeyGenProofs KeyWitness Falcon KeyProofs Binary64 NttProps Witness PropsFft PropsBabai PropsNtru PropsKeyGen
  PropsGs PropsReduce PropsGsFloat PropsUsable.
Import ListNotations.
Local Open Scope Z_scope.


(** The norm of f down to Z, from any degree 2^(k+1). *)
Theorem C102_norm_size : forall k f m, is_norm (S k) f m -> 0 <= m <= norm_bound k (sqnorm f).
Proof. intros k f m H. split; [exact (is_norm_nonneg k f m H)|exact (norm_size k f m H)]. Qed.
Print Assumptions C102_norm_size.

Lemma small_norm k f m : (1 <= k <= 3)%nat -> is_norm k f m -> sqnorm f <= 27000 -> 0 <= m < 2 ^ 64 - 1.
Proof.
  intros Hk N S. destruct k as [|k]; [lia|]. destruct (C102_norm_size k f m N) as [P U]. split; [exact P|].
  assert (B : norm_bound k (sqnorm f) <= norm_bound k 27000).
  { apply norm_bound_mono. split; [apply sqnorm_nonneg|exact S]. }
  assert (D : norm_bound k 27000 < 2 ^ 64 - 1) by (destruct k as [|[|[|k]]]; [reflexivity|reflexivity|reflexivity|lia]).
  lia.
Qed.
Lemma gcd_small nf ng : 0 <= nf < 2 ^ 64 - 1 -> 0 <= ng < 2 ^ 64 - 1 -> Z.gcd nf ng < 2 ^ 64 - 1.
Proof.
  intros Hf Hg. destruct (Z.eq_dec nf 0) as [->|N]; [rewrite Z.gcd_0_l_nonneg; lia|].
  pose proof (Z.divide_pos_le (Z.gcd nf ng) nf ltac:(lia) (Z.gcd_divide_l nf ng)). lia.
Qed.

(** NtruSolve is right at these degrees, whatever the quotients that reduce computes, for f and g of
    squared norm up to 27000 ... *)
Theorem C102_solve : forall quo fuel k f g F G, (1 <= k <= 3)%nat ->
  length f = (2 ^ k)%nat -> length g = (2 ^ k)%nat -> sqnorm f <= 27000 -> sqnorm g <= 27000 ->
  NtruSolve quo fuel f g = Ok (F, G) -> ntru_equation (2 ^ k) f g F G.
Proof.
  intros quo fuel k f g F G Hk Lf Lg Sf Sg E.
  destruct (is_norm_exists k f Lf) as (nf & Nf). destruct (is_norm_exists k g Lg) as (ng & Ng).
  apply (C33_ntru_solve_partial quo fuel k f g F G nf ng Lf Lg Nf Ng); [|exact E].
  apply gcd_small; [apply (small_norm k f)|apply (small_norm k g)]; assumption.
Qed.
Print Assumptions C102_solve.

Lemma generated_gcd ci cu quo rb sf rf fuel n sk : n = 2 \/ n = 4 \/ n = 8 ->
  GeneratePrivateKey wrap64 (binary64 ci cu) quo rb sf rf fuel n = Ok sk ->
  let k := Nat.log2 (Z.to_nat n) in
  (1 <= k <= 3)%nat /\ Z.to_nat n = (2 ^ k)%nat /\ sqnorm (sk_f sk) <= 27000 /\ sqnorm (sk_g sk) <= 27000.
Proof.
  intros Hn E k. pose proof (C81_short wrap64 id64 ci cu quo rb sf rf fuel n sk ltac:(lia) E) as S.
  change (fold_right (fun z s => z * z + s) 0 (sk_f sk)) with (sqnorm (sk_f sk)) in S.
  change (fold_right (fun z s => z * z + s) 0 (sk_g sk)) with (sqnorm (sk_g sk)) in S.
  pose proof (sqnorm_nonneg (sk_f sk)). pose proof (sqnorm_nonneg (sk_g sk)).
  assert (K : (1 <= k <= 3)%nat /\ Z.to_nat n = (2 ^ k)%nat).
  { unfold k. destruct Hn as [-> |[-> | ->]]; (split; [split; vm_compute; repeat constructor|reflexivity]). }
  destruct K as [K1 K2]. repeat split; try assumption; lia.
Qed.

(** ... in particular for what NtruGen passes to it in binary64: F and G of a generated key are the
    int16 conversions of a solution ... *)
Theorem C102_generated : forall ci cu quo rb sf rf fuel n sk, n = 2 \/ n = 4 \/ n = 8 ->
  GeneratePrivateKey wrap64 (binary64 ci cu) quo rb sf rf fuel n = Ok sk ->
  exists BF BG, ntru_equation (Z.to_nat n) (sk_f sk) (sk_g sk) BF BG /\
    sk_F sk = map int16_of BF /\ sk_G sk = map int16_of BG.
Proof.
  intros ci cu quo rb sf rf fuel n sk Hn E.
  destruct (generated_gcd ci cu quo rb sf rf fuel n sk Hn E) as (Hk & En & Sf & Sg).
  destruct (Generate_ok wrap64 id64 _ quo rb sf rf fuel n sk ltac:(lia) E) as (k & Hk' & En' & _ & EG).
  assert (Ek : Nat.log2 (Z.to_nat n) = k) by (rewrite En', Nat2Z.id; apply Nat.log2_pow2; lia).
  rewrite Ek in *. rewrite En' in EG.
  destruct (NtruGen_ok wrap64 id64 _ quo rb sf rf k fuel Hk' _ _ _ _ _ EG) as (Lf & Lg & _ & _ & _ & _ & BF & BG & ES & EF & EGG).
  exists BF, BG. split; [|split; assumption]. rewrite En.
  exact (C102_solve quo rf k _ _ BF BG Hk Lf Lg Sf Sg ES).
Qed.
Print Assumptions C102_generated.
(** ... and, unless the exact Gram-Schmidt norm is beyond 10^6, they are that solution. *)
Theorem C102_keys : forall ci cu rb sf rf fuel n sk v, n = 2 \/ n = 4 \/ n = 8 ->
  let FO := binary64 ci cu in
  GeneratePrivateKey wrap64 FO (reduce_quotient FO) rb sf rf fuel n = Ok sk ->
  exact_GsNorm (sk_f sk) (sk_g sk) = Ok v -> (v <= 1000000)%R ->
  (v <= 16891)%R /\ ntru_equation (Z.to_nat n) (sk_f sk) (sk_g sk) (sk_F sk) (sk_G sk) /\
  Forall (fun x => Z.abs x <= 2220) (sk_F sk) /\ Forall (fun x => Z.abs x <= 2220) (sk_G sk).
Proof.
  intros ci cu rb sf rf fuel n sk v Hn FO E EV Hv.
  destruct (generated_gcd ci cu _ rb sf rf fuel n sk Hn E) as (Hk & En & Sf & Sg).
  destruct (C36_generated_partial FO _ rb sf rf fuel n sk ltac:(lia) E) as (_ & _ & Lf & Lg & _).
  rewrite En in Lf, Lg. destruct (is_norm_exists _ _ Lf) as (nf & Nf). destruct (is_norm_exists _ _ Lg) as (ng & Ng).
  apply (C81_keys ci cu rb sf rf fuel n sk nf ng v ltac:(lia) E Nf Ng); [|exact EV|exact Hv].
  apply gcd_small; [exact (small_norm _ _ _ Hk Nf Sf)|exact (small_norm _ _ _ Hk Ng Sg)].
Qed.
Print Assumptions C102_keys.
Example C102_nonvacuous : forall ci cu, exists rb sf rf fuel sk v,
  let FO := binary64 ci cu in
  GeneratePrivateKey wrap64 FO (reduce_quotient FO) rb sf rf fuel 2 = Ok sk /\ sk_F sk = [-50; 49] /\
  exact_GsNorm (sk_f sk) (sk_g sk) = Ok v /\ (v <= 1000000)%R.
Proof.
  intros ci cu. destruct (C95_generated_nonvacuous ci cu) as (rb & sf & rf & fuel & sk & nf & ng & v & E & EF & _ & _ & _ & EV & B).
  exists rb, sf, rf, fuel, sk, v. split; [exact E|]. split; [exact EF|]. split; [exact EV|exact B].
Qed.
(** the bound is within a factor 32 of the truth at degree 8: the norm of a constant c is c^8 *)
Example C102_sharp : is_norm 3 (pconst 8 129) (129 ^ 8) /\ sqnorm (pconst 8 129) = 129 ^ 2 /\ norm_bound 2 (129 ^ 2) = 32 * 129 ^ 8 /\
  norm_bound 1 16822 = 2 * 16822 ^ 2 /\ norm_bound 2 16822 = 32 * 16822 ^ 4 /\ norm_bound 2 27000 < 2 ^ 64 - 1 /\ 2 ^ 64 < norm_bound 3 16822.
Proof. split; [exact (norm_const 3 129)|]. repeat split. Qed.
