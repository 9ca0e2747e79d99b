(** The statements of the NTRU properties in the form used by PropsNtru.v. *)
From Coq Require Import Ring Znumtheory.
From Verif Require Import GoBase Util Spec PolyZ PolyEval BaseProofs Ntrugen
  NtruProofs NtruProofs2 NtruProofs3.

Lemma big_Int64_one d : big_Int64 d = 1 <-> d mod 2 ^ 64 = 1.
Proof.
  pose proof (wrap_congr 64 d ltac:(lia)) as C. fold wrap64 in C. fold (big_Int64 d) in C.
  pose proof (wrap_range 64 d ltac:(lia)) as R. fold wrap64 in R. fold (big_Int64 d) in R.
  split; intros H.
  - rewrite <- C, H. reflexivity.
  - rewrite H in C. pose proof (Z.div_mod (big_Int64 d) (2 ^ 64) ltac:(lia)).
    change (64 - 1) with 63 in R. assert (2 ^ 64 = 2 * 2 ^ 63) by reflexivity. nia.
Qed.

Lemma pconst_inj n a b : (0 < n)%nat -> pconst n a = pconst n b -> a = b.
Proof.
  intros Hn E. rewrite <- (eval_pconst n a 0 Hn), E. apply eval_pconst. exact Hn.
Qed.

(** the solved equation, its right-hand side, and the return code *)
Theorem solve_eq quo fuel k f g F G :
  length f = (2 ^ k)%nat -> length g = (2 ^ k)%nat ->
  NtruSolve quo fuel f g = Ok (F, G) ->
  exists nf ng d, is_norm k f nf /\ is_norm k g ng /\ Z.abs d = Z.gcd nf ng /\
    (0 <= nf -> 0 <= ng -> 0 <= d) /\ d mod 2 ^ 64 = 1 /\
    length F = (2 ^ k)%nat /\ length G = (2 ^ k)%nat /\
    psub (2 ^ k) (negacyc (2 ^ k) f G) (negacyc (2 ^ k) g F) = pconst (2 ^ k) (q * d).
Proof.
  intros Lf Lg E.
  destruct (NtruSolve_ok quo fuel k f g Lf Lg) as (nf & ng & d & Nf & Ng & Ed & Sd & HOk & _).
  destruct (HOk _ E) as (H1 & LF & LG & Eq). cbn [fst snd] in *.
  exists nf, ng, d. refine (conj Nf (conj Ng (conj Ed (conj Sd (conj _ (conj LF (conj LG Eq))))))).
  apply big_Int64_one. exact H1.
Qed.

Theorem solve_small quo fuel k f g F G nf ng :
  length f = (2 ^ k)%nat -> length g = (2 ^ k)%nat ->
  is_norm k f nf -> is_norm k g ng -> Z.gcd nf ng < 2 ^ 64 - 1 ->
  NtruSolve quo fuel f g = Ok (F, G) -> ntru_equation (2 ^ k) f g F G.
Proof.
  intros Lf Lg Nf Ng B E.
  destruct (solve_eq quo fuel k f g F G Lf Lg E) as (nf' & ng' & d & Nf' & Ng' & Ed & _ & Hm & _ & _ & Eq).
  rewrite (is_norm_fun _ _ _ _ Nf' Nf), (is_norm_fun _ _ _ _ Ng' Ng) in Ed.
  assert (d = 1).
  { pose proof (Z.div_mod d (2 ^ 64) ltac:(lia)) as D. rewrite Hm in D.
    assert (d / 2 ^ 64 = 0) by nia. lia. }
  subst d. unfold ntru_equation. rewrite Eq. reflexivity.
Qed.

Theorem solve_err_iff quo fuel k f g nf ng :
  (forall j, (1 <= j <= S k)%nat -> quo_noerr quo j) ->
  length f = (2 ^ S k)%nat -> length g = (2 ^ S k)%nat ->
  is_norm (S k) f nf -> is_norm (S k) g ng ->
  (NtruSolve quo fuel f g = Err ErrEquation <-> Z.gcd nf ng mod 2 ^ 64 <> 1) /\
  (forall e, NtruSolve quo fuel f g = Err e -> e = ErrEquation).
Proof.
  intros Hq Lf Lg Nf Ng.
  destruct (NtruSolve_ok quo fuel (S k) f g Lf Lg)
    as (nf' & ng' & d & Nf' & Ng' & Ed & Sd & _ & HErr & HNo & _).
  rewrite (is_norm_fun _ _ _ _ Nf' Nf), (is_norm_fun _ _ _ _ Ng' Ng) in *.
  specialize (Sd (is_norm_nonneg _ _ _ Nf) (is_norm_nonneg _ _ _ Ng)).
  rewrite Z.abs_eq in Ed by exact Sd. rewrite <- Ed. rewrite <- big_Int64_one.
  split; [split|].
  - intros E. apply (HErr Hq _ E).
  - apply HNo.
  - intros e E. apply (HErr Hq _ E).
Qed.

Theorem solve_err quo fuel k f g nf ng :
  (forall j, (1 <= j <= S k)%nat -> quo_noerr quo j) ->
  length f = (2 ^ S k)%nat -> length g = (2 ^ S k)%nat ->
  is_norm (S k) f nf -> is_norm (S k) g ng ->
  NtruSolve quo fuel f g = Err ErrEquation -> Z.gcd nf ng <> 1.
Proof.
  intros Hq Lf Lg Nf Ng E G.
  apply (proj1 (proj1 (solve_err_iff quo fuel k f g nf ng Hq Lf Lg Nf Ng))) in E. rewrite G in E. apply E. reflexivity.
Qed.

Theorem solve_no_panic quo fuel k f g :
  (forall j, (1 <= j <= k)%nat -> quo_total quo j) ->
  length f = (2 ^ k)%nat -> length g = (2 ^ k)%nat -> NtruSolve quo fuel f g <> Panic.
Proof.
  intros Hq Lf Lg.
  destruct (NtruSolve_ok quo fuel k f g Lf Lg) as (nf & ng & d & _ & _ & _ & _ & _ & _ & _ & H).
  apply H, Hq.
Qed.

(** the norm of a constant *)
Lemma plift_const n c : (0 < n)%nat -> plift (pconst n c) = pconst (2 * n) c.
Proof.
  intros Hn. apply (poly_eq (2 * n)); [rewrite plift_length, pconst_length; lia|apply pconst_length|].
  intros x _. rewrite eval_plift, !eval_pconst by lia. reflexivity.
Qed.
Lemma pconj_const n c : (0 < n)%nat -> pconj (pconst n c) = pconst n c.
Proof.
  intros Hn. apply (poly_eq n); [rewrite pconj_length; apply pconst_length|apply pconst_length|].
  intros x _. rewrite eval_pconj, !eval_pconst by lia. reflexivity.
Qed.
Lemma negacyc_const n a b : (0 < n)%nat -> negacyc n (pconst n a) (pconst n b) = pconst n (a * b).
Proof.
  intros Hn. apply (poly_eq n); [apply negacyc_length|apply pconst_length|]. intros x _.
  pose proof (nega_eval n (pconst n a) (pconst n b) x (pconst_length _ _) (pconst_length _ _)) as H.
  rewrite !eval_pconst in * by lia. exact H.
Qed.
Lemma norm_const k : forall c, is_norm k (pconst (2 ^ k) c) (c ^ Z.of_nat (2 ^ k)).
Proof.
  induction k as [|k IH]; intros c.
  - cbn [Nat.pow]. change (Z.of_nat 1) with 1. rewrite Z.pow_1_r. constructor.
  - pose proof (pow2_pos k).
    apply (norm_half k _ (pconst (2 ^ k) (c * c))); [apply pconst_length..| |].
    + cbn [Nat.pow]. rewrite plift_const, pconj_const, negacyc_const by lia. reflexivity.
    + replace (c ^ Z.of_nat (2 ^ S k)) with ((c * c) ^ Z.of_nat (2 ^ k)); [apply IH|].
      cbn [Nat.pow]. rewrite <- pow_sq. f_equal.
Qed.

(** for every degree n = 2^k >= 2 and every quotient function: the pair
    f = 2^63+1, g = 0 is either not solved or wrongly solved *)
Theorem solve_wrong quo fuel k F G :
  let f := pconst (2 ^ S k) (2 ^ 63 + 1) in
  let g := pconst (2 ^ S k) 0 in
  NtruSolve quo fuel f g = Ok (F, G) -> ~ ntru_equation (2 ^ S k) f g F G.
Proof.
  cbv zeta. intros E H. pose proof (pow2_pos (S k)) as P.
  destruct (solve_eq quo fuel (S k) _ _ F G (pconst_length _ _) (pconst_length _ _) E)
    as (nf & ng & d & Nf & Ng & Ed & Sd & _ & _ & _ & Eq).
  rewrite (is_norm_fun _ _ _ _ Nf (norm_const (S k) _)) in *.
  rewrite (is_norm_fun _ _ _ _ Ng (norm_const (S k) _)) in *.
  unfold ntru_equation in H. rewrite H in Eq. apply pconst_inj in Eq; [|exact P].
  assert (D1 : d = 1) by (unfold q in Eq; lia). subst d.
  rewrite Z.pow_0_l in Ed by lia. rewrite Z.gcd_0_r in Ed.
  assert (2 ^ 1 <= (2 ^ 63 + 1) ^ Z.of_nat (2 ^ S k)); [|lia].
  transitivity ((2 ^ 63 + 1) ^ 1); [lia|]. apply Z.pow_le_mono_r; lia.
Qed.

Definition zero_quo : quotient := fun f _ _ _ => Ok (map (fun _ => 0) f).
