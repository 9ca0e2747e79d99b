(** Rational bounds on the half-Gaussian of parameter 1.8205. *)
From Coq Require Import Reals Lra Lia ZArith List Bool.
Import ListNotations.
Local Open Scope R_scope.

(** ** exp(-y) for 0 <= y <= 1: the alternating series *)
Definition et (y : R) (k : nat) : R := / INR (fact k) * y ^ k.
Lemma et_pos y k : 0 <= y -> 0 <= et y k.
Proof. intros H. apply Rmult_le_pos; [apply Rlt_le, Rinv_0_lt_compat, INR_fact_lt_0|apply pow_le, H]. Qed.
Lemma et_S y k : et y (S k) = et y k * (y * / INR (S k)).
Proof.
  unfold et. rewrite fact_simpl, mult_INR, <- tech_pow_Rmult.
  pose proof (INR_fact_neq_0 k). assert (INR (S k) <> 0) by (apply not_0_INR; discriminate). field. split; assumption.
Qed.
Lemma et_decr y : 0 <= y <= 1 -> Un_decreasing (et y).
Proof.
  intros H k. rewrite et_S. pose proof (et_pos y k (proj1 H)) as P.
  rewrite <- (Rmult_1_r (et y k)) at 2. apply Rmult_le_compat_l; [exact P|].
  assert (I1 : / INR (S k) <= 1). { rewrite <- Rinv_1. apply Rinv_le_contravar; [lra|]. rewrite S_INR. pose proof (pos_INR k). lra. }
  assert (I0 : 0 < / INR (S k)) by (apply Rinv_0_lt_compat, lt_0_INR, Nat.lt_0_succ). nra.
Qed.
Lemma exp_series x : infinite_sum (fun k => / INR (fact k) * x ^ k) (exp x).
Proof. unfold exp. destruct (exist_exp x) as [l Hl]. exact Hl. Qed.
Lemma cv_0_et y : 0 <= y <= 1 -> Un_cv (et y) 0.
Proof.
  intros H. pose proof (exp_series y) as E.
  assert (C : { l : R | Un_cv (fun N => sum_f_R0 (et y) N) l }) by (exists (exp y); exact E).
  apply cv_cauchy_1 in C. intros eps He. destruct (C eps He) as [N HN]. exists (S N). intros k Hk.
  destruct k as [|k]; [lia|]. specialize (HN (S k) k ltac:(lia) ltac:(lia)). unfold R_dist in *. cbn [sum_f_R0] in HN.
  replace (sum_f_R0 (et y) k + et y (S k) - sum_f_R0 (et y) k) with (et y (S k) - 0) in HN by ring. exact HN.
Qed.
Lemma exp_bounds y N : 0 <= y <= 1 ->
  sum_f_R0 (tg_alt (et y)) (S (2 * N)) <= exp (- y) <= sum_f_R0 (tg_alt (et y)) (2 * N).
Proof.
  intros H. apply alternated_series_ineq; [apply et_decr, H|apply cv_0_et, H|].
  pose proof (exp_series (- y)) as E. intros eps He. destruct (E eps He) as [M HM]. exists M. intros k Hk. specialize (HM k Hk).
  replace (sum_f_R0 (tg_alt (et y)) k) with (sum_f_R0 (fun k => / INR (fact k) * (- y) ^ k) k); [exact HM|].
  apply sum_eq. intros i _. unfold tg_alt, et. replace (- y) with (-1 * y) by ring. rewrite Rpow_mult_distr. ring.
Qed.

(** the partial sums for y = c/d, as fractions with denominator d^k k! *)
Section Frac.
Context (c d : Z) (Hd : (0 < d)%Z).
Fixpoint den (k : nat) : Z := match k with O => 1 | S k' => den k' * (d * Z.of_nat k) end%Z.
Fixpoint num (k : nat) : Z := match k with O => 1 | S k' => num k' * (d * Z.of_nat k) + (- c) ^ Z.of_nat k end%Z.
Lemma den_eq k : IZR (den k) = IZR d ^ k * INR (fact k).
Proof.
  induction k as [|k IH]; [cbn; ring|]. cbn [den]. rewrite !mult_IZR, IH, <- INR_IZR_INZ, fact_simpl, mult_INR, <- tech_pow_Rmult. ring.
Qed.
Lemma den_pos k : 0 < IZR (den k).
Proof. rewrite den_eq. apply Rmult_lt_0_compat; [apply pow_lt, IZR_lt, Hd|apply INR_fact_lt_0]. Qed.
Lemma num_eq k : sum_f_R0 (tg_alt (et (IZR c / IZR d))) k = IZR (num k) / IZR (den k).
Proof.
  assert (D0 : IZR d <> 0) by (apply IZR_neq; lia).
  induction k as [|k IH].
  - cbn. unfold tg_alt, et. cbn. field.
  - cbn [sum_f_R0]. rewrite IH. cbn [num]. rewrite plus_IZR, mult_IZR.
    assert (DS : IZR (den (S k)) = IZR (den k) * IZR (d * Z.of_nat (S k))) by (cbn [den]; apply mult_IZR).
    assert (P : IZR (d * Z.of_nat (S k)) <> 0) by (apply IZR_neq; lia).
    pose proof (den_pos k) as DP.
    assert (T : tg_alt (et (IZR c / IZR d)) (S k) = IZR ((- c) ^ Z.of_nat (S k)) / IZR (den (S k))).
    { rewrite den_eq, <- pow_IZR, opp_IZR. unfold tg_alt, et.
      replace (- IZR c) with (-1 * IZR c) by ring. unfold Rdiv. rewrite !Rpow_mult_distr.
      rewrite Rinv_mult, <- pow_inv. ring. }
    rewrite T, DS. field. split; [exact P|lra].
Qed.
End Frac.

(** ** Fixed-point enclosures with 128 binary places *)
Definition P128 : Z := 2 ^ 128.
Definition enc (p : Z * Z) (r : R) : Prop := (0 <= fst p)%Z /\ IZR (fst p) <= r * IZR P128 <= IZR (snd p).
Definition imul (p s : Z * Z) : Z * Z := (fst p * fst s / P128, snd p * snd s / P128 + 1)%Z.
Lemma P128_pos : 0 < IZR P128. Proof. apply IZR_lt. reflexivity. Qed.
Lemma enc_mul p s r t : enc p r -> enc s t -> enc (imul p s) (r * t).
Proof.
  intros (A0 & A1 & A2) (B0 & B1 & B2). pose proof P128_pos as PP. unfold enc, imul. cbn [fst snd].
  assert (R0 : 0 <= IZR (fst p)) by (apply IZR_le, A0). assert (T0 : 0 <= IZR (fst s)) by (apply IZR_le, B0).
  split; [apply Z.div_pos; [nia|reflexivity]|].
  replace (r * t * IZR P128) with ((r * IZR P128) * (t * IZR P128) / IZR P128) by (field; lra).
  split.
  - apply Rmult_le_reg_r with (IZR P128); [exact PP|]. unfold Rdiv. rewrite Rmult_assoc, Rinv_l, Rmult_1_r by lra.
    apply Rle_trans with (IZR (fst p * fst s)).
    + rewrite <- mult_IZR. apply IZR_le. rewrite Z.mul_comm. apply Z.mul_div_le. reflexivity.
    + rewrite mult_IZR. apply Rmult_le_compat; assumption.
  - apply Rmult_le_reg_r with (IZR P128); [exact PP|]. unfold Rdiv. rewrite Rmult_assoc, Rinv_l, Rmult_1_r by lra.
    apply Rle_trans with (IZR (snd p * snd s)).
    + rewrite mult_IZR. apply Rmult_le_compat; lra.
    + rewrite <- mult_IZR. apply IZR_le. pose proof (Z.div_mod (snd p * snd s) P128 ltac:(discriminate)) as D.
      pose proof (Z.mod_pos_bound (snd p * snd s) P128 ltac:(reflexivity)) as M. lia.
Qed.

(** ** The weights exp(-z^2/(2 sigma^2)), sigma = 1.8205 *)
Definition sigma_max : R := 18205 / 10000.
Definition rho (z : nat) : R := exp (- (INR z ^ 2 / (2 * sigma_max ^ 2))).
Definition x1 : R := exp (- (2000000 / 13256881)).
Lemma rho_0 : rho 0 = 1.
Proof. unfold rho. replace (- (INR 0 ^ 2 / (2 * sigma_max ^ 2))) with 0; [apply exp_0|]. unfold sigma_max. cbn. field. Qed.
Lemma x1_pow k : x1 ^ k = exp (- (INR k * (2000000 / 13256881))).
Proof.
  induction k as [|k IH]; [cbn [pow INR]; rewrite Rmult_0_l, Ropp_0, exp_0; reflexivity|].
  rewrite <- tech_pow_Rmult, IH. unfold x1. rewrite <- exp_plus. f_equal. rewrite S_INR. ring.
Qed.
Lemma rho_S z : rho (S z) = rho z * x1 ^ (2 * z + 1).
Proof.
  rewrite x1_pow. unfold rho. rewrite <- exp_plus. f_equal. rewrite plus_INR, mult_INR, S_INR. unfold sigma_max. cbn [INR]. field.
Qed.
Lemma rho_pos z : 0 < rho z. Proof. apply exp_pos. Qed.

(** exp(-c/d) *)
Definition elo (c d : Z) (N : nat) : Z := (num c d (S (2 * N)) * P128 / den d (S (2 * N)))%Z.
Definition ehi (c d : Z) (N : nat) : Z := (num c d (2 * N) * P128 / den d (2 * N) + 1)%Z.
Lemma exp_enc c d N : (0 <= c <= d)%Z -> (0 < d)%Z -> (0 <= elo c d N)%Z -> enc (elo c d N, ehi c d N) (exp (- (IZR c / IZR d))).
Proof.
  intros Hc Hd H0. assert (D0 : 0 < IZR d) by (apply IZR_lt, Hd).
  assert (Y : 0 <= IZR c / IZR d <= 1).
  { split; [apply Rmult_le_pos; [apply IZR_le; lia|apply Rlt_le, Rinv_0_lt_compat, D0]|].
    apply Rmult_le_reg_r with (IZR d); [exact D0|]. unfold Rdiv. rewrite Rmult_assoc, Rinv_l, Rmult_1_l, Rmult_1_r by lra. apply IZR_le. lia. }
  pose proof (exp_bounds (IZR c / IZR d) N Y) as [A B].
  rewrite !(num_eq c d Hd) in A, B. set (x := exp _) in *. clearbody x.
  unfold enc. cbn [fst snd]. split; [exact H0|]. pose proof P128_pos as PP. unfold elo, ehi.
  pose proof (den_pos d Hd (S (2 * N))) as DP1. pose proof (den_pos d Hd (2 * N)) as DP2.
  set (D1 := den d (S (2 * N))) in *. set (M1 := num c d (S (2 * N))) in *. set (D2 := den d (2 * N)) in *. set (M2 := num c d (2 * N)) in *.
  clearbody D1 M1 D2 M2. split.
  - apply Rle_trans with (IZR M1 / IZR D1 * IZR P128); [|apply Rmult_le_compat_r; lra].
    apply Rmult_le_reg_r with (IZR D1); [exact DP1|]. replace (IZR M1 / IZR D1 * IZR P128 * IZR D1) with (IZR (M1 * P128)) by (rewrite mult_IZR; field; lra).
    rewrite <- mult_IZR. apply IZR_le. rewrite Z.mul_comm. apply Z.mul_div_le. apply lt_IZR, DP1.
  - apply Rle_trans with (IZR M2 / IZR D2 * IZR P128); [apply Rmult_le_compat_r; lra|].
    apply Rmult_le_reg_r with (IZR D2); [exact DP2|]. replace (IZR M2 / IZR D2 * IZR P128 * IZR D2) with (IZR (M2 * P128)) by (rewrite mult_IZR; field; lra).
    rewrite <- mult_IZR. apply IZR_le. assert (DZ : (0 < D2)%Z) by apply lt_IZR, DP2.
    pose proof (Z.div_mod (M2 * P128) D2 ltac:(lia)) as E. pose proof (Z.mod_pos_bound (M2 * P128) D2 DZ). lia.
Qed.
Definition xlo : Z := elo 2000000 13256881 13.
Definition xhi : Z := ehi 2000000 13256881 13.
Lemma enc_x1 : enc (xlo, xhi) x1.
Proof. apply exp_enc; [lia|lia|]. apply Z.leb_le. vm_compute. reflexivity. Qed.

(** enclosures of rho z, rho (z+1), ...: [e] encloses rho z, [p] x^(2z+1), [s] x^2 *)
Fixpoint weights (m : nat) (e p s : Z * Z) : list (Z * Z) :=
  match m with O => [] | S m' => e :: weights m' (imul e p) (imul p s) s end.
Lemma weights_enc s : enc s (x1 ^ 2) -> forall m z e p, enc e (rho z) -> enc p (x1 ^ (2 * z + 1)) ->
  Forall2 enc (weights m e p s) (map rho (seq z m)).
Proof.
  intros Hs. induction m as [|m IH]; intros z e p He Hp; cbn [weights seq map]; constructor; [exact He|].
  apply IH.
  - rewrite rho_S. apply enc_mul; assumption.
  - replace (2 * S z + 1)%nat with (2 * z + 1 + 2)%nat by lia. rewrite pow_add. apply enc_mul; assumption.
Qed.
Definition W : list (Z * Z) := weights 27 (P128, P128) (xlo, xhi) (imul (xlo, xhi) (xlo, xhi)).
Lemma W_enc : Forall2 enc W (map rho (seq 0 27)).
Proof.
  apply weights_enc.
  - replace (x1 ^ 2) with (x1 * x1) by ring. apply enc_mul; apply enc_x1.
  - rewrite rho_0. unfold enc. cbn [fst snd]. split; [discriminate|lra].
  - cbn [Nat.mul Nat.add]. rewrite pow_1. apply enc_x1.
Qed.

(** ** Sums *)
Definition Rsum (l : list R) : R := fold_right Rplus 0 l.
Definition Zsum (l : list Z) : Z := fold_right Z.add 0%Z l.
Lemma Forall2_skipn' {A B} (Rl : A -> B -> Prop) k : forall l1 l2, Forall2 Rl l1 l2 -> Forall2 Rl (skipn k l1) (skipn k l2).
Proof. induction k as [|k IH]; intros l1 l2 H; [exact H|]. destruct H; cbn [skipn]; [constructor|]. apply IH. assumption. Qed.
Lemma Forall2_firstn' {A B} (Rl : A -> B -> Prop) k : forall l1 l2, Forall2 Rl l1 l2 -> Forall2 Rl (firstn k l1) (firstn k l2).
Proof. induction k as [|k IH]; intros l1 l2 H; [constructor|]. destruct H; cbn [firstn]; constructor; auto. Qed.
Lemma sum_enc l rs : Forall2 enc l rs -> IZR (Zsum (map fst l)) <= Rsum rs * IZR P128 <= IZR (Zsum (map snd l)).
Proof.
  induction 1 as [|p r l rs (A0 & A1 & A2) _ IH]; [cbn; lra|].
  cbn [map Zsum Rsum fold_right]. fold (Zsum (map fst l)) (Zsum (map snd l)) (Rsum rs). rewrite !plus_IZR. lra.
Qed.
Lemma sum_split (f : nat -> R) k m : sum_f_R0 f (k + m) = sum_f_R0 f k + Rsum (map f (seq (S k) m)).
Proof.
  induction m as [|m IH]; [rewrite Nat.add_0_r; cbn; ring|].
  rewrite Nat.add_succ_r. cbn [sum_f_R0]. rewrite IH, seq_S, map_app. cbn [map].
  assert (A : forall l x, Rsum (l ++ [x]) = Rsum l + x).
  { induction l as [|y l IHl]; intros x; cbn [app Rsum fold_right]; [ring|]. fold (Rsum (l ++ [x])) (Rsum l). rewrite IHl. ring. }
  rewrite A. replace (S (k + m)) with (S k + m)%nat by lia. ring.
Qed.
Lemma x1_small : 0 < x1 <= 9 / 10.
Proof.
  split; [apply exp_pos|]. destruct enc_x1 as (_ & _ & H). cbn [snd] in H. pose proof P128_pos as PP.
  apply Rmult_le_reg_r with (IZR P128); [exact PP|]. eapply Rle_trans; [exact H|].
  apply Rmult_le_reg_l with 10; [lra|]. replace (10 * (9 / 10 * IZR P128)) with (IZR (9 * P128)) by (rewrite mult_IZR; field).
  rewrite <- mult_IZR. apply IZR_le. apply Z.leb_le. vm_compute. reflexivity.
Qed.
Lemma rho_half z : (4 <= z)%nat -> rho (S z) <= rho z / 2.
Proof.
  intros Hz. rewrite rho_S. unfold Rdiv. apply Rmult_le_compat_l; [apply Rlt_le, rho_pos|].
  pose proof x1_small as [X0 X1]. replace (2 * z + 1)%nat with (9 + (2 * z - 8))%nat by lia. rewrite pow_add.
  assert (A : x1 ^ 9 <= (9 / 10) ^ 9) by (apply pow_incr; lra).
  assert (B : x1 ^ (2 * z - 8) <= 1). { rewrite <- (pow1 (2 * z - 8)). apply pow_incr. lra. }
  assert (C : 0 < x1 ^ (2 * z - 8)) by (apply pow_lt; exact X0).
  assert (D : (9 / 10) ^ 9 <= / 2) by lra. assert (E : 0 < x1 ^ 9) by (apply pow_lt; exact X0). nra.
Qed.
Lemma tail_small m : Rsum (map rho (seq 26 (S m))) + rho (26 + m) <= 2 * rho 26.
Proof.
  induction m as [|m IH]; [cbn [seq map Rsum fold_right Nat.add]; lra|].
  assert (A : forall l x, Rsum (l ++ [x]) = Rsum l + x).
  { induction l as [|y l IHl]; intros x; cbn [app Rsum fold_right]; [ring|]. fold (Rsum (l ++ [x])) (Rsum l). rewrite IHl. ring. }
  rewrite seq_S, map_app. cbn [map]. rewrite A. pose proof (rho_half (26 + m) ltac:(lia)) as H.
  replace (26 + S m)%nat with (S (26 + m)) by lia. lra.
Qed.
(** the total weight lies just above the sum of the first 26 weights *)
Lemma total_bounds S0 : infinite_sum rho S0 -> sum_f_R0 rho 25 <= S0 <= sum_f_R0 rho 25 + 2 * rho 26.
Proof.
  intros H. split.
  - apply (growing_ineq (sum_f_R0 rho)); [|exact H]. intros k. cbn [sum_f_R0]. pose proof (rho_pos (S k)). lra.
  - destruct (Rle_lt_dec S0 (sum_f_R0 rho 25 + 2 * rho 26)) as [L|L]; [exact L|exfalso].
    destruct (H (S0 - (sum_f_R0 rho 25 + 2 * rho 26)) ltac:(lra)) as [N HN].
    specialize (HN (25 + S N)%nat ltac:(lia)). unfold R_dist in HN. rewrite sum_split in HN.
    change (S 25) with 26%nat in HN. pose proof (tail_small N) as T. pose proof (rho_pos (26 + N)).
    assert (S1 : sum_f_R0 rho 25 + Rsum (map rho (seq 26 (S N))) - S0 < 0) by lra.
    rewrite Rabs_left in HN by exact S1. lra.
Qed.
Lemma rho_sum : exists S0, infinite_sum rho S0.
Proof.
  assert (C : { l : R | Un_cv (fun N => sum_f_R0 rho N) l }); [|destruct C as [l Hl]; exists l; exact Hl].
  apply growing_cv.
  - intros k. cbn [sum_f_R0]. pose proof (rho_pos (S k)). lra.
  - exists (sum_f_R0 rho 25 + 2 * rho 26). intros y [k ->].
    destruct (le_lt_dec k 25) as [L|L].
    + assert (M : sum_f_R0 rho k <= sum_f_R0 rho 25).
      { replace 25%nat with (k + (25 - k))%nat by lia. rewrite sum_split.
        assert (Q : 0 <= Rsum (map rho (seq (S k) (25 - k)))).
        { generalize (seq (S k) (25 - k)). induction l as [|z l IH]; cbn [map Rsum fold_right]; [lra|]. fold (Rsum (map rho l)). pose proof (rho_pos z). lra. }
        lra. }
      pose proof (rho_pos 26). lra.
    + destruct (k - 26)%nat as [|m] eqn:E.
      * replace k with (25 + 1)%nat by lia. rewrite sum_split. change (S 25) with 26%nat. pose proof (tail_small 0). pose proof (rho_pos (26 + 0)). lra.
      * replace k with (25 + S (S m))%nat by lia. rewrite sum_split. change (S 25) with 26%nat. pose proof (tail_small (S m)). pose proof (rho_pos (26 + S m)). lra.
Qed.

(** ** Checking a table of tails *)
Definition tlo (k : nat) : Z := Zsum (map fst (firstn (25 - k) (skipn (S k) W))).
Definition thi (k : nat) : Z := (Zsum (map snd (firstn (25 - k) (skipn (S k) W))) + 2 * snd (nth 26 W (0, 0)))%Z.
Definition slo : Z := Zsum (map fst (firstn 26 W)).
Definition shi : Z := (Zsum (map snd (firstn 26 W)) + 2 * snd (nth 26 W (0, 0)))%Z.
Lemma seq_skip k m n : skipn k (seq m n) = seq (m + k) (n - k).
Proof.
  revert m n. induction k as [|k IH]; intros m n; [rewrite Nat.add_0_r, Nat.sub_0_r; reflexivity|].
  destruct n as [|n]; [reflexivity|]. cbn [seq skipn Nat.sub]. rewrite IH. f_equal. lia.
Qed.
Lemma seq_first k m n : (k <= n)%nat -> firstn k (seq m n) = seq m k.
Proof.
  revert m n. induction k as [|k IH]; intros m n H; [reflexivity|]. destruct n as [|n]; [lia|]. cbn [seq firstn]. rewrite IH by lia. reflexivity.
Qed.
Lemma Forall2_nth' {A B} (Rl : A -> B -> Prop) d1 d2 : forall l1 l2, Forall2 Rl l1 l2 -> forall i, (i < length l2)%nat -> Rl (nth i l1 d1) (nth i l2 d2).
Proof. induction 1 as [|x y l1 l2 H _ IH]; intros [|i] Hi; cbn [length nth] in *; try lia; [exact H|]. apply IH. lia. Qed.
Lemma w26 : rho 26 * IZR P128 <= IZR (snd (nth 26 W (0, 0)%Z)).
Proof.
  pose proof (Forall2_nth' enc (0, 0)%Z (rho 26) _ _ W_enc 26 ltac:(rewrite map_length, seq_length; lia)) as H.
  rewrite map_nth in H. rewrite seq_nth in H by lia. apply H.
Qed.
Lemma tail_enc S0 k : infinite_sum rho S0 -> (k < 25)%nat ->
  IZR (tlo k) <= (S0 - sum_f_R0 rho k) * IZR P128 <= IZR (thi k).
Proof.
  intros H Hk. pose proof (total_bounds S0 H) as [A B]. pose proof P128_pos as PP. pose proof w26 as W26.
  assert (E25 : sum_f_R0 rho 25 = sum_f_R0 rho k + Rsum (map rho (seq (S k) (25 - k)))).
  { rewrite <- sum_split. f_equal. lia. }
  rewrite E25 in A, B.
  pose proof (sum_enc _ _ (Forall2_firstn' enc (25 - k) _ _ (Forall2_skipn' enc (S k) _ _ W_enc))) as [C D].
  rewrite skipn_map, firstn_map, seq_skip, seq_first in C, D by lia. cbn [Nat.add] in C, D. fold (tlo k) in C.
  set (T := Rsum (map rho (seq (S k) (25 - k)))) in *. unfold thi. rewrite plus_IZR, mult_IZR. split.
  - eapply Rle_trans; [exact C|]. apply Rmult_le_compat_r; lra.
  - apply Rle_trans with ((T + 2 * rho 26) * IZR P128); [apply Rmult_le_compat_r; lra|]. lra.
Qed.
Lemma sum_f_list k : sum_f_R0 rho k = Rsum (map rho (seq 0 (S k))).
Proof. pose proof (sum_split rho 0 k) as A. cbn [Nat.add sum_f_R0] in A. rewrite A. reflexivity. Qed.
Lemma total_enc S0 : infinite_sum rho S0 -> IZR slo <= S0 * IZR P128 <= IZR shi.
Proof.
  intros H. pose proof (total_bounds S0 H) as [A B]. pose proof P128_pos as PP. pose proof w26 as W26.
  rewrite sum_f_list in A, B. pose proof (sum_enc _ _ (Forall2_firstn' enc 26 _ _ W_enc)) as [C D].
  rewrite firstn_map, seq_first in C, D by lia. fold slo in C.
  set (T := Rsum (map rho (seq 0 26))) in *. unfold shi. rewrite plus_IZR, mult_IZR. split.
  - eapply Rle_trans; [exact C|]. apply Rmult_le_compat_r; lra.
  - apply Rle_trans with ((T + 2 * rho 26) * IZR P128); [apply Rmult_le_compat_r; lra|]. lra.
Qed.
(** r is at most 2^72 times the probability of a value above k, and within e of it *)
Definition checkk (e r : Z) (k : nat) : bool :=
  ((0 <=? r) && (r * shi <=? 2 ^ 72 * tlo k) && (2 ^ 72 * thi k <=? (r + e) * slo))%Z.
Lemma checkk_ok e r k S0 : (0 <= e)%Z -> infinite_sum rho S0 -> (k < 25)%nat -> checkk e r k = true ->
  IZR r <= 2 ^ 72 * ((S0 - sum_f_R0 rho k) / S0) <= IZR r + IZR e.
Proof.
  intros He H Hk C. unfold checkk in C. rewrite !Bool.andb_true_iff, !Z.leb_le in C. destruct C as [[R0 C1] C2].
  pose proof (total_enc S0 H) as [S1 S2]. pose proof (tail_enc S0 k H Hk) as [T1 T2]. pose proof P128_pos as PP.
  assert (SP : 0 < S0).
  { pose proof (total_bounds S0 H) as [A _]. rewrite sum_f_list in A.
    assert (Q : forall l, 0 <= Rsum (map rho l)).
    { induction l as [|z l IH]; cbn [map Rsum fold_right]; [lra|]. fold (Rsum (map rho l)). pose proof (rho_pos z). lra. }
    change (seq 0 26) with (0%nat :: seq 1 25) in A. cbn [map] in A. unfold Rsum in A. cbn [fold_right] in A. fold (Rsum (map rho (seq 1 25))) in A.
    pose proof (Q (seq 1 25)). pose proof (rho_pos 0). unfold Rsum in *. lra. }
  set (T := S0 - sum_f_R0 rho k) in *. apply IZR_le in C1, C2. rewrite !mult_IZR in C1, C2. rewrite plus_IZR in C2.
  replace (2 ^ 72) with (IZR (2 ^ 72)) by (rewrite pow_IZR; reflexivity). set (M := IZR (2 ^ 72)) in *.
  assert (MP : 0 < M) by (apply IZR_lt; reflexivity). apply IZR_le in R0. apply IZR_le in He.
  split.
  - apply Rmult_le_reg_r with (S0 * IZR P128); [apply Rmult_lt_0_compat; assumption|].
    replace (M * (T / S0) * (S0 * IZR P128)) with (M * (T * IZR P128)) by (field; lra).
    apply Rle_trans with (IZR r * IZR shi); [apply Rmult_le_compat_l; lra|]. eapply Rle_trans; [exact C1|]. apply Rmult_le_compat_l; lra.
  - apply Rmult_le_reg_r with (S0 * IZR P128); [apply Rmult_lt_0_compat; assumption|].
    replace (M * (T / S0) * (S0 * IZR P128)) with (M * (T * IZR P128)) by (field; lra).
    apply Rle_trans with (M * IZR (thi k)); [apply Rmult_le_compat_l; lra|]. eapply Rle_trans; [exact C2|]. apply Rmult_le_compat_l; lra.
Qed.
(** one weight *)
Definition checkp (r : Z) (k : nat) : bool :=
  ((0 <=? r) && (r * shi <=? 2 ^ 72 * fst (nth k W (0, 0))) && (2 ^ 72 * snd (nth k W (0, 0)) <? (r + 1) * slo))%Z.
Lemma total_pos S0 : infinite_sum rho S0 -> 0 < S0.
Proof.
  intros H. pose proof (total_bounds S0 H) as [A _].
  assert (P : forall j, 0 < sum_f_R0 rho j) by (induction j as [|j IH]; cbn [sum_f_R0]; [apply rho_pos|pose proof (rho_pos (S j)); lra]).
  specialize (P 25%nat). lra.
Qed.
Lemma checkp_ok r k S0 : infinite_sum rho S0 -> (k < 26)%nat -> checkp r k = true ->
  IZR r <= 2 ^ 72 * (rho k / S0) < IZR r + 1.
Proof.
  intros H Hk C. unfold checkp in C. rewrite !Bool.andb_true_iff, !Z.leb_le, Z.ltb_lt in C. destruct C as [[R0 C1] C2].
  pose proof (total_enc S0 H) as [S1 S2]. pose proof (total_pos S0 H) as SP. pose proof P128_pos as PP.
  assert (T : enc (nth k W (0, 0)%Z) (rho k)).
  { pose proof (Forall2_nth' enc (0, 0)%Z 0 _ _ W_enc k) as A. rewrite map_length, seq_length in A. specialize (A ltac:(lia)).
    rewrite (nth_indep _ 0 (rho 0)) in A by (rewrite map_length, seq_length; lia). rewrite map_nth, seq_nth in A by lia. exact A. }
  destruct T as [_ [T1 T2]]. apply IZR_le in C1, R0. apply IZR_lt in C2. rewrite !mult_IZR in C1, C2. rewrite plus_IZR in C2.
  replace (2 ^ 72) with (IZR (2 ^ 72)) by (rewrite pow_IZR; reflexivity). set (M := IZR (2 ^ 72)) in *.
  assert (MP : 0 < M) by (apply IZR_lt; reflexivity).
  set (x := rho k) in *. set (lo := IZR slo) in *. set (hi := IZR shi) in *. set (a := IZR (fst (nth k W (0, 0)%Z))) in *. set (b := IZR (snd (nth k W (0, 0)%Z))) in *.
  set (p := IZR P128) in *. clearbody x lo hi a b p M.
  split.
  - apply Rmult_le_reg_r with (S0 * p); [apply Rmult_lt_0_compat; assumption|].
    replace (M * (x / S0) * (S0 * p)) with (M * (x * p)) by (field; lra).
    apply Rle_trans with (IZR r * hi); [apply Rmult_le_compat_l; lra|]. eapply Rle_trans; [exact C1|]. apply Rmult_le_compat_l; lra.
  - apply Rmult_lt_reg_r with (S0 * p); [apply Rmult_lt_0_compat; assumption|].
    replace (M * (x / S0) * (S0 * p)) with (M * (x * p)) by (field; lra).
    eapply Rle_lt_trans; [apply Rmult_le_compat_l; [lra|exact T2]|]. eapply Rlt_le_trans; [exact C2|]. apply Rmult_le_compat_l; lra.
Qed.
