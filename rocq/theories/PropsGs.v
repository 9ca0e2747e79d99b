(** C74, C75, C76: the Gram-Schmidt norm test of key generation and the reduction
    of (F, G), in exact real arithmetic with the exact roots of x^n+1; and, for
    C76, also in binary64. *)
From Coq Require Import Reals Lra Lia ZArith List.
From Verif Require Import GoBase Util BaseProofs PolyZ PolyEval Spec Float Fft FftShape SpecFft SpecBabai ExactReal FftProofs RootsProofs FftErr
  Ntt Ntrugen NtruProofs NtruProofs2 NtruProofs3 NtruProps Ffsampling FfExact Babai Samplerz KeyGen KeyGenProofs Falcon Binary64 GsExact GsBound GsReduce Hang.
Local Open Scope R_scope.

(** the code's quotient and GsNorm, computed exactly *)
Notation exact_quo := (reduce_quotient_at exactR exact_roots).
Notation exact_GsNorm f g := (GsNorm_at exactR exact_roots (map IZR f) (map IZR g) 12289).

(** arithmetic at degree 2 *)
Ltac two := cbv [best_mult halfway rntru gdist gram2 rmul rmul_coef rsub radd radj rconst sqnorm rsum map seq nth Nat.leb Nat.sub Nat.add
  Nat.pow Nat.mul length].
Lemma list2 {A} (l : list A) : length l = 2%nat -> exists a b, l = [a; b].
Proof. destruct l as [|a [|b [|? ?]]]; try discriminate. intros _. eauto. Qed.

(** C74: what GsNorm computes.  f f* + g g* is invertible, [h] is its inverse. *)
Theorem C74_gs_norm : forall k (f g h : list R) q, (1 <= k)%nat ->
  let n := (2 ^ k)%nat in
  length f = n -> length g = n -> length h = n -> rmul n (gram2 n f g f g) h = rconst n 1 ->
  exists M, GsNorm_at exactR exact_roots f g q = Ok (Rmax (sqnorm n f + sqnorm n g) M) /\
    (exists F G, length F = n /\ length G = n /\ rntru n q f g F G) /\
    forall F G, length F = n -> length G = n -> rntru n q f g F G -> gs_dist n f g F G M.
Proof.
  cbv zeta. intros k f g h q Hk Lf Lg Lh Inv. exists (gs2 exact_roots k f g q).
  split; [apply (GsNorm_exact exact_roots exact_good k Hk f g Lf Lg h Lh Inv)|].
  split; [apply (rntru_exists exact_roots exact_good k Hk f g Lf Lg h Lh Inv)|].
  intros F G LF LG E. apply (gs_dist_exact exact_roots exact_good k Hk f g Lf Lg h Lh Inv); assumption.
Qed.
Print Assumptions C74_gs_norm.
(** the inverse exists when the NTRU equation has a solution *)
Theorem C74_invertible : forall k (f g F G : list R) q, (1 <= k)%nat ->
  let n := (2 ^ k)%nat in
  length f = n -> length g = n -> length F = n -> length G = n -> q <> 0 -> rntru n q f g F G ->
  exists h, length h = n /\ rmul n (gram2 n f g f g) h = rconst n 1.
Proof. cbv zeta. intros k f g F G q Hk Lf Lg LF LG Hq E. exact (gram_inv k Hk q f g F G Lf Lg LF LG Hq E). Qed.
Print Assumptions C74_invertible.
Example C74_nonvacuous : rmul 2 (gram2 2 [1; 2] [3; 1] [1; 2] [3; 1]) [/ 15; 0] = rconst 2 1 /\
  rntru 2 5 [1; 2] [3; 1] [0; 0] [1; -2].
Proof. split; two; repeat f_equal; field. Qed.

(** C75: reduce is Babai's rounding.  [c] is the real multiplier for which
    (F, G) - c (f, g) is shortest. *)
Theorem C75_reduce_rounds : forall k f g F G F' G' v c fuel, (1 <= k <= 10)%nat ->
  let n := (2 ^ k)%nat in
  length f = n -> length g = n -> length F = n -> length G = n -> ntru_equation n f g F G ->
  exact_GsNorm f g = Ok v -> INR n * v <= 2 ^ 30 ->
  best_mult n (map IZR f) (map IZR g) (map IZR F) (map IZR G) c ->
  reduce exact_quo fuel f g F G = Ok (F', G') ->
  exists z, length z = n /\ (forall i, (i < n)%nat -> Rabs (nth i c 0 - IZR (nth i z 0%Z)) < / 2) /\
    F' = psub n F (negacyc n f z) /\ G' = psub n G (negacyc n g z).
Proof.
  cbv zeta. intros k f g F G F' G' v c fuel Hk Lf Lg LF LG E EV Hv Bc R1.
  assert (Hv' : INR (2 ^ k) * v <= 1073741824) by lra.
  destruct (reduce_exact k f g F G v c Hk Lf Lg LF LG E EV Hv' Bc) as [D T].
  assert (NT : ~ halfway (2 ^ k) c) by (intros H; rewrite (D H fuel) in R1; discriminate).
  destruct (T NT) as (F1 & G1 & z & Lz & HZ & EF & EG & fuel0 & H).
  exists z. split; [exact Lz|]. split; [exact HZ|].
  specialize (H (Nat.max fuel0 fuel) ltac:(lia)).
  unfold reduce in R1, H. destruct (max_bitsize f g) as [s| | |]; cbn [bind] in R1, H; try discriminate.
  pose proof (reduce_fuel exact_quo f g s fuel F G (F', G') (Nat.max fuel0 fuel) R1 ltac:(lia)) as R2.
  rewrite R2 in H. apply Ok_inj in H. injection H as -> ->. auto.
Qed.
Print Assumptions C75_reduce_rounds.
(** the size of the result *)
Theorem C75_reduce_size : forall k f g F G F' G' v fuel, (1 <= k <= 10)%nat ->
  let n := (2 ^ k)%nat in
  length f = n -> length g = n -> length F = n -> length G = n -> ntru_equation n f g F G ->
  exact_GsNorm f g = Ok v -> INR n * v <= 2 ^ 30 ->
  reduce exact_quo fuel f g F G = Ok (F', G') -> forall i, (i < n)%nat ->
  Rabs (IZR (nth i F' 0%Z)) <= (1 + sqrt (INR n) / 2) * sqrt v /\
  Rabs (IZR (nth i G' 0%Z)) <= (1 + sqrt (INR n) / 2) * sqrt v.
Proof.
  cbv zeta. intros k f g F G F' G' v fuel Hk Lf Lg LF LG E EV Hv R1.
  pose proof (reduce_ok exact_quo fuel k f g F G (F', G') Lf Lg LF LG R1) as RD.
  destruct (reduced_equation (2 ^ k) f g F G (F', G') ltac:(pose proof (pow2_ge1 k); lia) Lf Lg LF LG RD) as (LF' & LG' & E').
  cbn [fst snd] in *. unfold ntru_equation in E. rewrite E in E'.
  apply (reduce_bound k f g F G F' G' v fuel Hk Lf Lg LF' LG' E' EV); [lra|exact R1].
Qed.
Print Assumptions C75_reduce_size.
Lemma solve_reduce quo fuel k f g F G : (1 <= k)%nat -> length f = (2 ^ k)%nat ->
  NtruSolve quo fuel f g = Ok (F, G) -> exists F0 G0, reduce quo fuel f g F0 G0 = Ok (F, G).
Proof.
  intros Hk Lf. unfold NtruSolve. pose proof (pow2_ge1 (k - 1)) as P. assert (E2 : (2 ^ k = 2 * 2 ^ (k - 1))%nat).
  { replace k with (S (k - 1)) at 1 by lia. reflexivity. }
  rewrite Lf. destruct (2 ^ k)%nat as [|d] eqn:Ed; [lia|]. cbn [NtruSolve_depth].
  destruct (Nat.eqb_spec (length f) 1) as [N1|_]; [lia|].
  destruct (fieldNorm f) as [fp| | |]; cbn [bind]; try discriminate.
  destruct (fieldNorm g) as [gp| | |]; cbn [bind]; try discriminate.
  destruct (NtruSolve_depth _ _ _ _ _) as [[Fp Gp]| | |]; cbn [bind]; try discriminate.
  destruct (galoisConjugate g) as [cg| | |]; cbn [bind]; try discriminate.
  destruct (karamul _ cg) as [F0| | |]; cbn [bind]; try discriminate.
  destruct (galoisConjugate f) as [cf| | |]; cbn [bind]; try discriminate.
  destruct (karamul _ cf) as [G0| | |]; cbn [bind]; try discriminate.
  eauto.
Qed.
(** With the bound of key generation, 1.17^2 q < 16823, the solution fits int16 *)
Theorem C75_solve_size : forall k f g F G nf ng v fuel, (1 <= k <= 10)%nat ->
  let n := (2 ^ k)%nat in
  length f = n -> length g = n -> is_norm k f nf -> is_norm k g ng -> (Z.gcd nf ng < 2 ^ 64 - 1)%Z ->
  exact_GsNorm f g = Ok v -> v <= 16823 ->
  NtruSolve exact_quo fuel f g = Ok (F, G) ->
  ntru_equation n f g F G /\ forall i, (Z.abs (nth i F 0) <= 2205 /\ Z.abs (nth i G 0) <= 2205)%Z.
Proof.
  cbv zeta. intros k f g F G nf ng v fuel Hk Lf Lg Nf Ng GC EV Hv R1.
  pose proof (solve_small _ _ _ _ _ _ _ _ _ Lf Lg Nf Ng GC R1) as E.
  destruct (solve_eq _ _ _ _ _ _ _ Lf Lg R1) as (_ & _ & _ & _ & _ & _ & _ & _ & LF & LG & _).
  destruct (solve_reduce exact_quo fuel k f g F G ltac:(lia) Lf R1) as (F0 & G0 & R2).
  pose proof (pow2_1024 k ltac:(lia)) as N10. pose proof (pos_INR (2 ^ k)) as N0.
  split; [exact E|]. intros i. destruct (Nat.lt_ge_cases i (2 ^ k)) as [Hi|Hi]; [|rewrite !nth_overflow by lia; lia].
  assert (NV : INR (2 ^ k) * v <= 1073741824).
  { apply Rle_trans with (INR (2 ^ k) * 16823); [apply Rmult_le_compat_l; lra|]. lra. }
  pose proof (reduce_bound k f g F0 G0 F G v fuel Hk Lf Lg LF LG E EV NV R2 i Hi) as [B1 B2].
  assert (S1 : sqrt (INR (2 ^ k)) <= 32) by (replace 32 with (sqrt (32 * 32)) by (apply sqrt_square; lra); apply sqrt_le_1_alt; lra).
  assert (S2 : sqrt v <= 129.71) by (replace 129.71 with (sqrt (129.71 * 129.71)) by (apply sqrt_square; lra); apply sqrt_le_1_alt; lra).
  assert (SS : (1 + sqrt (INR (2 ^ k)) / 2) * sqrt v <= 17 * 129.71).
  { pose proof (sqrt_pos (INR (2 ^ k))). apply Rmult_le_compat; try lra. apply sqrt_pos. }
  split; apply Z.lt_succ_r; apply lt_IZR; rewrite abs_IZR; unfold Z.succ; rewrite plus_IZR; lra.
Qed.
Print Assumptions C75_solve_size.

(** a pair at degree 2 for the theorems on reduce: f = 12 + x, g = 5 + 11x *)
Definition ex_f : list Z := [12; 1]%Z.
Definition ex_g : list Z := [5; 11]%Z.
Definition ex_F : list Z := [-61445; 135179]%Z.
Definition ex_G : list Z := [-147468; 12289]%Z.
Definition ex_c : list R := [- 1204322 / 291; 3367186 / 291].
Lemma ex_equation : ntru_equation 2 ex_f ex_g ex_F ex_G.
Proof. reflexivity. Qed.
Lemma ex_best : best_mult 2 (map IZR ex_f) (map IZR ex_g) (map IZR ex_F) (map IZR ex_G) ex_c.
Proof.
  split; [reflexivity|]. intros d Ld. destruct (list2 d Ld) as (x & y & ->). unfold ex_f, ex_g, ex_F, ex_G, ex_c. two.
  pose proof (Rle_0_sqr (x + 1204322 / 291)) as S1. pose proof (Rle_0_sqr (y - 3367186 / 291)) as S2. unfold Rsqr in *. lra.
Qed.
Lemma ex_norm : exists v, exact_GsNorm ex_f ex_g = Ok v /\ INR 2 * v <= 2 ^ 30.
Proof.
  destruct (C74_gs_norm 1 (map IZR ex_f) (map IZR ex_g) [/ 291; 0] 12289 (le_n 1) eq_refl eq_refl eq_refl) as (M & E & _ & H).
  { unfold ex_f, ex_g. cbn [Nat.pow Nat.mul Nat.add]. two. repeat f_equal; field. }
  eexists. split; [exact E|].
  destruct (H (map IZR ex_F) (map IZR ex_G) eq_refl eq_refl) as [_ L].
  { apply (ntru_real 1); reflexivity. }
  specialize (L ex_c eq_refl). clear H E. cbn [Nat.pow Nat.mul Nat.add] in L. unfold ex_f, ex_g, ex_F, ex_G, ex_c in *.
  revert L. two. intros L.
  replace (INR 2) with 2 by reflexivity.
  match goal with |- 2 * Rmax ?a M <= _ => assert (Rmax a M <= 2 ^ 29); [|lra] end. apply Rmax_lub; lra.
Qed.
Example C75_nonvacuous : ntru_equation 2 ex_f ex_g ex_F ex_G /\ (exists v, exact_GsNorm ex_f ex_g = Ok v /\ INR 2 * v <= 2 ^ 30) /\
  best_mult 2 (map IZR ex_f) (map IZR ex_g) (map IZR ex_F) (map IZR ex_G) ex_c /\
  exists fuel F' G', reduce exact_quo fuel ex_f ex_g ex_F ex_G = Ok (F', G').
Proof.
  split; [exact ex_equation|]. split; [exact ex_norm|]. split; [exact ex_best|].
  destruct ex_norm as (v & EV & Hv).
  destruct (reduce_exact 1 ex_f ex_g ex_F ex_G v ex_c ltac:(lia) eq_refl eq_refl eq_refl eq_refl ex_equation EV ltac:(change (2 ^ 1)%nat with 2%nat; lra) ex_best)
    as [_ T].
  destruct T as (F' & G' & _ & _ & _ & _ & _ & fuel0 & H).
  - intros (i & z & Hi & E). assert (K : exists m, (582 * z + 291 = m)%Z /\ (m = -2408644 \/ m = 6734372)%Z).
    { destruct i as [|[|i]]; [| |cbn in Hi; lia]; unfold ex_c in E; cbn [nth] in E; (eexists; split; [reflexivity|]); [left|right];
        apply eq_IZR; rewrite plus_IZR, mult_IZR; lra. }
    destruct K as (m & K1 & K2). lia.
  - exists fuel0, F', G'. apply H, le_n.
Qed.

(** C76: does reduce return?  In exact arithmetic, exactly when no coefficient of
    the best multiplier is halfway between two integers: math.Round rounds
    halves away from zero, so c = 1/2 becomes c - 1 = -1/2 and back. *)
Theorem C76_reduce_terminates_iff : forall k f g F G v c, (1 <= k <= 10)%nat ->
  let n := (2 ^ k)%nat in
  length f = n -> length g = n -> length F = n -> length G = n -> ntru_equation n f g F G ->
  exact_GsNorm f g = Ok v -> INR n * v <= 2 ^ 30 ->
  best_mult n (map IZR f) (map IZR g) (map IZR F) (map IZR G) c ->
  ((exists fuel F' G', reduce exact_quo fuel f g F G = Ok (F', G')) <-> ~ halfway n c) /\
  (halfway n c -> forall fuel, reduce exact_quo fuel f g F G = Diverge).
Proof.
  cbv zeta. intros k f g F G v c Hk Lf Lg LF LG E EV Hv Bc.
  destruct (reduce_exact k f g F G v c Hk Lf Lg LF LG E EV ltac:(lra) Bc) as [D T]. split; [split|exact D].
  - intros (fuel & F' & G' & R1) H. rewrite (D H fuel) in R1. discriminate.
  - intros H. destruct (T H) as (F' & G' & _ & _ & _ & _ & _ & fuel0 & H0). exists fuel0, F', G'. apply H0, le_n.
Qed.
Print Assumptions C76_reduce_terminates_iff.
(** both cases occur: above, and f = g = 1, F = 0, G = q *)
Example C76_tie_nonvacuous : ntru_equation 2 [1; 0]%Z [1; 0]%Z [0; 0]%Z [12289; 0]%Z /\
  (exists v, exact_GsNorm [1; 0]%Z [1; 0]%Z = Ok v /\ INR 2 * v <= 2 ^ 30) /\
  best_mult 2 (map IZR [1; 0]%Z) (map IZR [1; 0]%Z) (map IZR [0; 0]%Z) (map IZR [12289; 0]%Z) [12289 / 2; 0] /\
  halfway 2 [12289 / 2; 0].
Proof.
  split; [reflexivity|]. split; [|split].
  - destruct (C74_gs_norm 1 (map IZR [1; 0]%Z) (map IZR [1; 0]%Z) [/ 2; 0] 12289 (le_n 1) eq_refl eq_refl eq_refl) as (M & E & _ & H).
    { cbn [Nat.pow Nat.mul Nat.add]. two. repeat f_equal; field. }
    eexists. split; [exact E|]. destruct (H (map IZR [0; 0]%Z) (map IZR [12289; 0]%Z) eq_refl eq_refl) as [_ L].
    { apply (ntru_real 1); reflexivity. }
    specialize (L [12289 / 2; 0] eq_refl). clear H E. cbn [Nat.pow Nat.mul Nat.add] in L. revert L. two. intros L.
    replace (INR 2) with 2 by reflexivity.
    match goal with |- 2 * Rmax ?a M <= _ => assert (Rmax a M <= 2 ^ 29); [|lra] end. apply Rmax_lub; lra.
  - split; [reflexivity|]. intros d Ld. destruct (list2 d Ld) as (x & y & ->). two.
    pose proof (Rle_0_sqr (x - 12289 / 2)) as S1. pose proof (Rle_0_sqr y) as S2. unfold Rsqr in *. lra.
  - exists 0%nat, 6144%Z. split; [lia|]. cbn [nth]. lra.
Qed.

(** In binary64: NtruSolve does not return when f and g are both units *)
Theorem C76_units_diverge : forall ci cu fuel k f g, (1 <= k)%nat ->
  length f = (2 ^ k)%nat -> is_norm k f 1 -> is_norm k g 1 ->
  NtruSolve (reduce_quotient (binary64 ci cu)) fuel f g = Diverge.
Proof.
  intros ci cu fuel [|k] f g Hk Lf Nf Ng; [lia|]. unfold NtruSolve. apply (units_hang ci cu fuel k); auto.
  rewrite Lf. apply Nat.pow_gt_lin_r. lia.
Qed.
Print Assumptions C76_units_diverge.
(** although a solution exists and (f, g) passes both tests of NtruGen *)
Theorem C76_terminates_refuted : forall ci cu, let FO := binary64 ci cu in
  exists f g F G, length f = 8%nat /\ length g = 8%nat /\ ntru_equation 8 f g F G /\
    (exists gs, GsNorm FO (Int16ToFloat64 FO f) (Int16ToFloat64 FO g) (f_of_int FO 12289) = Ok gs /\ f_ltb FO (gs_bound FO) gs = false) /\
    (exists v, NTT wrap64 f = Ok v /\ AnyZeroes v = false) /\
    forall fuel, NtruSolve (reduce_quotient FO) fuel f g = Diverge.
Proof.
  cbv zeta. intros ci cu. exists unit_f, unit_g, (repeat 0%Z 8), (map (Z.mul 12289) [419979; 388010; 296970; 160719; 0; -160719; -296970; -388010]%Z).
  split; [reflexivity|]. split; [reflexivity|]. split; [vm_compute; reflexivity|].
  split; [apply unit_gs|]. split; [apply unit_ntt|]. intros fuel. apply unit_solve.
Qed.
Print Assumptions C76_terminates_refuted.
(** Key generation at degree 8 then never ends, on a stream of random bytes on
    which every call of Samplerz returns in its first round *)
Theorem C76_keygen_refuted : forall ci cu, let FO := binary64 ci cu in
  exists rb, (forall k, exists b, rb k = Some b /\ length b = 11%nat /\ Forall (fun x => (0 <= x < 256)%Z) b) /\
    (forall sf, exists f c, GenPoly FO rb (S sf) 8 0 = Ok (f, c)) /\
    forall sf rf fuel, GeneratePrivateKey wrap64 FO (reduce_quotient FO) rb (S sf) rf fuel 8 = Diverge.
Proof.
  cbv zeta. intros ci cu. exists (stream3 unit_t). split; [|split].
  - intros k. eexists. split; [reflexivity|]. destruct (unit_t k =? 1)%Z, (unit_t k =? 0)%Z;
      (split; [reflexivity|]); repeat constructor; lia.
  - intros sf. eexists _, _. apply unit_GenPoly_f.
  - intros sf rf fuel. apply unit_Generate.
Qed.
Print Assumptions C76_keygen_refuted.
