(** Property theorems about src/internal/ntrugen.go (C29-C35, C56). *)
From Verif Require Import GoBase Util Spec Ntrugen NtruProofs NtruProofs2 NtruProofs3 NtruProps.

(** C29 *)
Theorem C29_karatsuba : forall k a b, length a = (2 ^ k)%nat -> length b = (2 ^ k)%nat ->
  Karatsuba a b (2 ^ k) = Ok (map (conv_coef a b) (seq 0 (2 * 2 ^ k))).
Proof. exact Karatsuba_conv. Qed.
Print Assumptions C29_karatsuba.
(** the other lengths: a panic, or no return at all for n = 0 *)
Theorem C29_other_lengths : forall a b n,
  (n <= length a)%nat -> (n <= length b)%nat -> (forall k, n <> (2 ^ k)%nat) ->
  ((0 < n)%nat -> Karatsuba a b n = Panic) /\
  (n = O -> forall fuel, Karatsuba_fuel fuel a b n = Diverge).
Proof.
  exact (fun a b n La Lb Hp => conj (fun Hn => Karatsuba_other a b n Hn Hp La Lb)
    (fun E fuel => eq_ind_r (fun n => Karatsuba_fuel fuel a b n = Diverge) (Karatsuba_zero fuel a b) E)).
Qed.
Print Assumptions C29_other_lengths.
Example C29_nonvacuous :
  Karatsuba [1; 2; 3; 4] [5; -6; 7; 8] 4 = Ok [5; 4; 10; 24; 13; 52; 32; 0] /\
  Karatsuba [1; 2; 3] [1; 2; 3] 3 = Panic.
Proof. split; reflexivity. Qed.

(** C30 *)
Theorem C30_karamul : forall k a b, length a = (2 ^ k)%nat -> length b = (2 ^ k)%nat ->
  karamul a b = Ok (negacyc (2 ^ k) a b).
Proof. exact (fun k a b La Lb => karamul_ok k a b La (Nat.eq_le_incl _ _ (eq_sym Lb))). Qed.
Print Assumptions C30_karamul.
(** operands of different lengths *)
Theorem C30_lengths : forall k a b, length a = (2 ^ k)%nat ->
  karamul a b = (if Nat.leb (2 ^ k) (length b) then Ok (negacyc (2 ^ k) a b) else Panic).
Proof. exact karamul_cases. Qed.
Print Assumptions C30_lengths.
Example C30_nonvacuous : karamul [1; 2; 3; 4] [5; -6; 7; 8] = Ok [-8; -48; -22; 24].
Proof. reflexivity. Qed.

(** C31 *)
Theorem C31_field_norm : forall k a, length a = (2 ^ S k)%nat ->
  exists r, fieldNorm a = Ok r /\ length r = (2 ^ k)%nat /\
    plift r = negacyc (2 ^ S k) a (pconj a).
Proof. exact fieldNorm_ok. Qed.
Print Assumptions C31_field_norm.
Theorem C31_lift_conj : forall a, lift a = plift a /\ galoisConjugate a = Ok (pconj a).
Proof. exact (fun a => conj (lift_ok a) (galoisConjugate_ok a)). Qed.
Print Assumptions C31_lift_conj.
Example C31_nonvacuous : fieldNorm [1; 2; 3; 4] = Ok [8; 18] /\
  negacyc 4 [1; 2; 3; 4] (pconj [1; 2; 3; 4]) = plift [8; 18].
Proof. split; reflexivity. Qed.

(** C32 *)
Theorem C32_xgcd : forall b n, exists d u v, xgcd b n = Ok (d, u, v) /\
  d = u * b + v * n /\ Z.abs d = Z.gcd b n /\
  (d < 0 <-> (n = 0 /\ b < 0) \/ (n < 0 /\ (n | b))).
Proof. exact xgcd_ok. Qed.
Print Assumptions C32_xgcd.
Example C32_nonvacuous : xgcd 240 46 = Ok (2, -9, 47) /\ xgcd 5 (-1) = Ok (-1, 0, 1) /\
  xgcd (-7) 0 = Ok (-7, 1, 0).
Proof. repeat split; reflexivity. Qed.

(** C33.  Missing from the full statement: the right-hand side is q*d with d the
    gcd of the norms, and the code only tests d modulo 2^64. *)
Theorem C33_ntru_solve_partial : forall quo fuel k f g F G nf ng,
  length f = (2 ^ k)%nat -> length g = (2 ^ k)%nat ->
  is_norm k f nf -> is_norm k g ng -> Z.gcd nf ng < 2 ^ 64 - 1 ->
  NtruSolve quo fuel f g = Ok (F, G) -> ntru_equation (2 ^ k) f g F G.
Proof. exact solve_small. Qed.
Print Assumptions C33_ntru_solve_partial.
(** what always holds *)
Theorem C33_right_hand_side : forall quo fuel k f g F G,
  length f = (2 ^ k)%nat -> length g = (2 ^ k)%nat ->
  NtruSolve quo fuel f g = Ok (F, G) ->
  exists nf ng d, is_norm k f nf /\ is_norm k g ng /\ Z.abs d = Z.gcd nf ng /\
    (0 <= nf -> 0 <= ng -> 0 <= d) /\ d mod 2 ^ 64 = 1 /\
    length F = (2 ^ k)%nat /\ length G = (2 ^ k)%nat /\
    psub (2 ^ k) (negacyc (2 ^ k) f G) (negacyc (2 ^ k) g F) = pconst (2 ^ k) (q * d).
Proof. exact solve_eq. Qed.
Print Assumptions C33_right_hand_side.
(** the full statement fails, at every degree n >= 2 and whatever the quotients *)
Theorem C33_wrong_answer : forall quo fuel k F G,
  let f := pconst (2 ^ S k) (2 ^ 63 + 1) in
  let g := pconst (2 ^ S k) 0 in
  NtruSolve quo fuel f g = Ok (F, G) -> ~ ntru_equation (2 ^ S k) f g F G.
Proof. exact solve_wrong. Qed.
Print Assumptions C33_wrong_answer.
Theorem C33_ntru_solve_refuted : exists quo fuel f g F G,
  length f = 4%nat /\ length g = 4%nat /\
  NtruSolve quo fuel f g = Ok (F, G) /\ ~ ntru_equation 4 f g F G.
Proof.
  exists zero_quo, 1%nat, (pconst 4 (2 ^ 63 + 1)), (pconst 4 0).
  assert (E : exists FG, NtruSolve zero_quo 1 (pconst 4 (2 ^ 63 + 1)) (pconst 4 0) = Ok FG)
    by (eexists; vm_compute; reflexivity).
  destruct E as ((F & G) & E). exists F, G.
  exact (conj eq_refl (conj eq_refl (conj E (solve_wrong zero_quo 1 1 F G E)))).
Qed.
Print Assumptions C33_ntru_solve_refuted.
Example C33_nonvacuous : exists F G,
  NtruSolve zero_quo 1 [1; 2; 0; 1] [3; 0; 1; 1] = Ok (F, G) /\ ntru_equation 4 [1; 2; 0; 1] [3; 0; 1; 1] F G.
Proof. eexists _, _. split; vm_compute; reflexivity. Qed.

(** C34, degrees n >= 2.  The quotient function models float code that has no
    error result ([quo_noerr]: no error at degree 2^j; [quo_total]: a vector of
    length 2^j).  The code's own quotient meets both, see
    [reduce_quotient_total] in KeyGenProofs.v and C34_code in PropsKeyGen.v. *)
Theorem C34_solve_error_partial : forall quo fuel k f g nf ng,
  (forall j, (1 <= j <= S k)%nat -> quo_noerr quo j) ->
  length f = (2 ^ S k)%nat -> length g = (2 ^ S k)%nat ->
  is_norm (S k) f nf -> is_norm (S k) g ng ->
  NtruSolve quo fuel f g = Err ErrEquation -> Z.gcd nf ng <> 1.
Proof. exact solve_err. Qed.
Print Assumptions C34_solve_error_partial.
(** exactly when *)
Theorem C34_solve_error_exact : forall quo fuel k f g nf ng,
  (forall j, (1 <= j <= S k)%nat -> quo_noerr quo j) ->
  length f = (2 ^ S k)%nat -> length g = (2 ^ S k)%nat ->
  is_norm (S k) f nf -> is_norm (S k) g ng ->
  (NtruSolve quo fuel f g = Err ErrEquation <-> Z.gcd nf ng mod 2 ^ 64 <> 1) /\
  (forall e, NtruSolve quo fuel f g = Err e -> e = ErrEquation).
Proof. exact solve_err_iff. Qed.
Print Assumptions C34_solve_error_exact.
(** degree 1: a unit norm is rejected because xgcd returns -1 *)
Theorem C34_solve_error_refuted : exists f g nf ng,
  length f = 1%nat /\ length g = 1%nat /\ is_norm 0 f nf /\ is_norm 0 g ng /\ Z.gcd nf ng = 1 /\
  forall quo fuel, NtruSolve quo fuel f g = Err ErrEquation.
Proof.
  exists [5], [-1], 5, (-1).
  exact (conj eq_refl (conj eq_refl (conj (norm_Z 5) (conj (norm_Z (-1)) (conj eq_refl (fun _ _ => eq_refl)))))).
Qed.
Print Assumptions C34_solve_error_refuted.
Theorem C34_no_panic : forall quo fuel k f g,
  (forall j, (1 <= j <= k)%nat -> quo_total quo j) ->
  length f = (2 ^ k)%nat -> length g = (2 ^ k)%nat -> NtruSolve quo fuel f g <> Panic.
Proof. exact solve_no_panic. Qed.
Print Assumptions C34_no_panic.
Theorem norm_exists_unique : forall k f, length f = (2 ^ k)%nat ->
  exists m, is_norm k f m /\ forall m', is_norm k f m' -> m' = m.
Proof.
  exact (fun k f L => match is_norm_exists k f L with
    | ex_intro _ m H => ex_intro _ m (conj H (fun m' H' => is_norm_fun k f m' m H' H)) end).
Qed.
Print Assumptions norm_exists_unique.
Example C34_nonvacuous : NtruSolve zero_quo 1 [1; 1] [3; 1] = Err ErrEquation /\
  is_norm 1 [1; 1] 2 /\ is_norm 1 [3; 1] 10.
Proof.
  split; [reflexivity|].
  exact (conj (norm_half 0 [1; 1] [2] 2 eq_refl eq_refl eq_refl (norm_Z 2))
              (norm_half 0 [3; 1] [10] 10 eq_refl eq_refl eq_refl (norm_Z 10))).
Qed.

(** C35 *)
Theorem C35_reduce : forall quo fuel k f g F G F' G',
  let n := (2 ^ k)%nat in
  length f = n -> length g = n -> length F = n -> length G = n ->
  reduce quo fuel f g F G = Ok (F', G') ->
  (exists c, length c = n /\ F' = psub n F (negacyc n f c) /\ G' = psub n G (negacyc n g c)) /\
  psub n (negacyc n f G') (negacyc n g F') = psub n (negacyc n f G) (negacyc n g F).
Proof.
  exact (fun quo fuel k f g F G F' G' Lf Lg LF LG E =>
    let R := reduce_ok quo fuel k f g F G (F', G') Lf Lg LF LG E in
    conj (match R with ex_intro _ c (conj Lc Ec) =>
            ex_intro _ c (conj Lc (conj (f_equal fst Ec) (f_equal snd Ec))) end)
         (proj2 (proj2 (reduced_equation _ f g F G (F', G') (pow2_pos k) Lf Lg LF LG R)))).
Qed.
Print Assumptions C35_reduce.
Example C35_nonvacuous :
  let quo : quotient := fun f _ F _ => Ok (match F with c :: _ => if c >? 10 then [c / 5; 1] else [0; 0] | _ => [] end) in
  exists F G, reduce quo 10 [5; 1] [2; 3] [100; 7] [40; 31] = Ok (F, G) /\
    (F, G) <> ([100; 7], [40; 31]).
Proof. eexists _, _. split; [vm_compute; reflexivity|discriminate]. Qed.

(** C56 *)
Theorem C56_bitsize : forall a, exists s, bitsize a = Ok (8 * s) /\ 0 <= s /\
  Z.abs a < 2 ^ (8 * s) /\ forall t, 0 <= t -> Z.abs a < 2 ^ (8 * t) -> s <= t.
Proof.
  intros a. destruct (bitsize_ok a) as (s & E & Hs & B & L). exists s.
  refine (conj E (conj Hs (conj B _))). intros t Ht Bt.
  destruct (Z.le_gt_cases s t) as [H|H]; [exact H|]. specialize (L ltac:(lia)).
  pose proof (Z.pow_le_mono_r 2 (8 * t) (8 * (s - 1)) ltac:(lia) ltac:(lia)). lia.
Qed.
Print Assumptions C56_bitsize.
Example C56_nonvacuous : bitsize 255 = Ok 8 /\ bitsize (-256) = Ok 16 /\ bitsize 0 = Ok 0.
Proof. repeat split. Qed.
