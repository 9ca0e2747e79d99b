(** The two polynomials used at degree 1024: 1 + 76 x + 76 x^513, and its field
    norm 1 - 11552 y^257. *)
From Coq Require Import Reals Lra Lia ZArith List.
From Verif Require Import GoBase Util BaseProofs PolyZ PolyEval Spec PolyRing Float Fft SpecFft SpecBabai ExactReal FftProofs RootsProofs FftErr
  Ntrugen NtruProofs NtruProofs2 NtruProofs3 NtruProps KeyGen Binary64 FloatErr Babai GsExact GsBound BadAlg BadGs WrongQuot WrongLin.
Import ListNotations.
Local Open Scope Z_scope.

Definition f9 : list Z := 1 :: repeat 0 256 ++ -11552 :: repeat 0 254.
Definition f10 : list Z := 1 :: 76 :: repeat 0 511 ++ 76 :: repeat 0 510.
Lemma f9_length : length f9 = (2 ^ 9)%nat.
Proof. reflexivity. Qed.
Lemma f10_length : length f10 = (2 ^ 10)%nat.
Proof. reflexivity. Qed.
Lemma pw x a b c : 0 <= a -> 0 <= b -> c = a + b -> x ^ c = x ^ a * x ^ b.
Proof. intros Ha Hb ->. apply Z.pow_add_r; assumption. Qed.
Lemma pw1 x a c : 0 <= a -> c = 1 + a -> x ^ c = x * x ^ a.
Proof. intros Ha E. rewrite (pw x 1 a c), Z.pow_1_r by (assumption || lia). reflexivity. Qed.
Lemma sq_pow x m c : 0 <= m -> c = 2 * m -> (x * x) ^ m = x ^ c.
Proof. intros H ->. rewrite Z.pow_mul_r by lia. f_equal. ring. Qed.
Lemma neg_pow_odd x m c : 0 <= m -> c = 2 * m + 1 -> (- x) ^ c = - x ^ c.
Proof. intros H ->. apply Z.pow_opp_odd. exists m. reflexivity. Qed.
Lemma neg_pow_even x m c : 0 <= m -> c = 2 * m -> (- x) ^ c = x ^ c.
Proof. intros H ->. apply Z.pow_opp_even. exists m. reflexivity. Qed.
Lemma cong_plus_mul M a b t : a = b + t * M -> cong M a b.
Proof. intros ->. unfold cong. apply Z_mod_plus_full. Qed.
Lemma f9_eval x : eval f9 x = 1 - 11552 * x ^ 257.
Proof.
  unfold f9. rewrite eval_cons, eval_app, eval_cons, !eval_zeros, repeat_length. change (Z.of_nat 256) with 256.
  rewrite (pw1 x 256 257) by lia. generalize (x ^ 256). intros; ring.
Qed.
Lemma f10_eval x : eval f10 x = 1 + 76 * (x * (1 + x ^ 512)).
Proof.
  unfold f10. rewrite !eval_cons, eval_app, eval_cons, !eval_zeros, repeat_length. change (Z.of_nat 511) with 511.
  rewrite (pw1 x 511 512) by lia. generalize (x ^ 511). intros; ring.
Qed.

(** the products with the conjugates *)
Lemma f10_alg x u : cong (u * u + 1) ((1 + 76 * (x * (1 + u))) * (1 + 76 * (- x * (1 + u)))) (1 - 11552 * (x * x * u)).
Proof. apply (cong_plus_mul _ _ _ (- (5776 * (x * x)))). ring. Qed.
Lemma f10_prod x : cong (x ^ 1024 + 1) (eval f10 x * eval f10 (- x)) (1 - 11552 * (x * x) ^ 257).
Proof.
  rewrite !f10_eval. rewrite (neg_pow_even x 256 512) by lia. rewrite (sq_pow x 257 514) by lia.
  rewrite (pw x 2 512 514), (pw x 512 512 1024), Z.pow_2_r by lia. apply f10_alg.
Qed.
Lemma f9_alg x u t : u * u = t * (x * x) -> cong (t + 1) ((1 - 11552 * u) * (1 - 11552 * - u)) (1 + 133448704 * (x * x)).
Proof.
  intros E. replace ((1 - 11552 * u) * (1 - 11552 * - u)) with (1 - 133448704 * (u * u)) by ring. rewrite E.
  apply (cong_plus_mul _ _ _ (- (133448704 * (x * x)))). ring.
Qed.
Lemma f9_prod x : cong (x ^ 512 + 1) (eval f9 x * eval f9 (- x)) (1 + 133448704 * (x * x)).
Proof.
  rewrite !f9_eval. rewrite (neg_pow_odd x 128 257) by lia. apply f9_alg.
  rewrite <- (pw x 257 257 514), <- Z.pow_2_r, <- (pw x 512 2 514) by lia. reflexivity.
Qed.
Lemma f10_half : plift f9 = negacyc (2 ^ 10) f10 (pconj f10).
Proof.
  apply (poly_eq (2 ^ 10)); [rewrite plift_length, f9_length; reflexivity|apply negacyc_length|]. intros x _.
  pose proof (nega_eval (2 ^ 10) _ _ x f10_length ltac:(rewrite pconj_length; exact f10_length)) as A. rewrite eval_pconj in A.
  rewrite eval_plift, f9_eval. change (Z.of_nat (2 ^ 10)) with 1024 in *. pose proof (f10_prod x) as B. unfold cong in *. rewrite A, B. reflexivity.
Qed.
Lemma f9_half : plift (lin 8 133448704) = negacyc (2 ^ 9) f9 (pconj f9).
Proof.
  apply (poly_eq (2 ^ 9)); [rewrite plift_length, lin_length; reflexivity|apply negacyc_length|]. intros x _.
  pose proof (nega_eval (2 ^ 9) _ _ x f9_length ltac:(rewrite pconj_length; exact f9_length)) as A. rewrite eval_pconj in A.
  rewrite eval_plift, eval_lin_S. change (Z.of_nat (2 ^ 9)) with 512 in *. pose proof (f9_prod x) as B. unfold cong in *. rewrite A, B. reflexivity.
Qed.

(** values at the complex roots *)
Local Open Scope R_scope.
Lemma ceval_shift m l z : ceval (map IZR (repeat 0%Z m ++ l)) z = Cmul (Cpow z m) (ceval (map IZR l) z).
Proof.
  induction m as [|m IH]; [cbn [repeat app Cpow]; ring|]. cbn [repeat app map Cpow]. rewrite ceval_cons, IH. change (RtoC 0) with C0. ring.
Qed.
Lemma unit_pow z m : Cmul z (Cconj z) = C1 -> Cmul (Cpow z m) (Cconj (Cpow z m)) = C1.
Proof.
  intros U. induction m as [|m IH]; [unfold Cmul, Cconj, C1; cbn [Cpow fst snd C1]; apply f_equal2; ring|]. cbn [Cpow].
  revert U IH. generalize (Cpow z m). intros [c d]. destruct z as [a b]. unfold Cmul, Cconj, C1. cbn [fst snd]. intros U IH.
  apply (f_equal fst) in U. apply (f_equal fst) in IH. cbn [fst] in U, IH. apply f_equal2; [|ring].
  transitivity ((a * a - b * - b) * (c * c - d * - d)); [ring|]. rewrite U, IH. ring.
Qed.
Lemma f9_values j : (j < 2 ^ 9)%nat -> let v := ceval (map IZR f9) (nth j (exact_roots (2 ^ 9)) C0) in
  Cle v (2 * IZR 11552) /\ IZR 11552 * IZR 11552 / 4 <= Csqnorm v.
Proof.
  intros Hj v. pose proof (gr_unit _ exact_good 9 j ltac:(lia) Hj) as U. set (z := nth j (exact_roots (2 ^ 9)) C0) in *. clearbody z.
  assert (E : v = Cadd C1 (Cmul (Cmul (Cpow z 256) z) (RtoC (-11552)))).
  { unfold v, f9. change (map IZR (1%Z :: repeat 0%Z 256 ++ (-11552)%Z :: repeat 0%Z 254)) with (IZR 1 :: map IZR (repeat 0%Z 256 ++ (-11552)%Z :: repeat 0%Z 254)).
    rewrite ceval_cons, ceval_shift. change (map IZR ((-11552)%Z :: repeat 0%Z 254)) with (IZR (-11552) :: map IZR (repeat 0%Z 254)).
    rewrite ceval_cons, ceval_zeros. change (RtoC 1) with C1. ring. }
  rewrite E. pose proof (unit_pow z 257 U) as W. change (Cpow z 257) with (Cmul (Cpow z 256) z) in W. set (w := Cmul (Cpow z 256) z) in *. clearbody w. clear E v.
  destruct w as [x y]. unfold Cmul, Cconj, C1 in W. apply (f_equal fst) in W. cbn [fst snd] in W.
  unfold Cle, Csqnorm, Cadd, Cmul, RtoC, C1. cbn [fst snd]. assert (-1 <= x <= 1) by (split; nra).
  assert (x * x + y * y = 1) by lra. split; [split; [lra|nra]|nra].
Qed.
Lemma f10_sq z : Cmul z (Cconj z) = C1 -> Cpow z 1024 = Copp C1 ->
  11325 <= Csqnorm (ceval (map IZR f10) z) <= 11781.
Proof.
  intros U H. assert (E : ceval (map IZR f10) z = Cadd C1 (Cmul (RtoC 76) (Cmul z (Cadd C1 (Cpow z 512))))).
  { unfold f10. change (map IZR (1%Z :: 76%Z :: repeat 0%Z 511 ++ 76%Z :: repeat 0%Z 510)) with (IZR 1 :: IZR 76 :: map IZR (repeat 0%Z 511 ++ 76%Z :: repeat 0%Z 510)).
    rewrite !ceval_cons, ceval_shift. change (map IZR (76%Z :: repeat 0%Z 510)) with (IZR 76 :: map IZR (repeat 0%Z 510)).
    rewrite ceval_cons, ceval_zeros. change (Cpow z 512) with (Cmul (Cpow z 511) z). change (RtoC 1) with C1. ring. }
  rewrite E. change 1024%nat with (512 + 512)%nat in H. rewrite Cpow_add in H. set (u := Cpow z 512) in *. clearbody u. clear E.
  destruct u as [a b], z as [x y]. unfold Cmul, Copp, Cconj, C1 in H, U. cbn [fst snd] in H, U.
  pose proof (f_equal fst H) as H1. pose proof (f_equal snd H) as H2. apply (f_equal fst) in U. cbn [fst snd] in H1, H2, U. clear H.
  assert (A0 : a = 0).
  { assert (AB : a * b = 0) by lra. destruct (Rmult_integral _ _ AB) as [A|B]; [exact A|]. subst b. nra. }
  subst a. assert (B2 : b * b = 1) by lra.
  unfold Csqnorm, Cadd, Cmul, RtoC, C1. cbn [fst snd].
  set (p := x - y * b).
  match goal with |- _ <= ?t <= _ => replace t with (1 + 152 * p + 5776 * (p * p + (x * b + y) * (x * b + y))) by (unfold p; ring) end.
  assert (PQ : p * p + (x * b + y) * (x * b + y) = 2).
  { unfold p. replace ((x - y * b) * (x - y * b) + (x * b + y) * (x * b + y)) with ((x * x + y * y) * (1 + b * b)) by ring. rewrite B2.
    replace (x * x + y * y) with 1 by lra. ring. }
  rewrite PQ. assert (P2 : p * p <= 2) by (pose proof (Rle_0_sqr (x * b + y)) as S0; unfold Rsqr in S0; lra).
  clearbody p. clear - P2. assert (-15 / 10 <= p <= 15 / 10) by (split; nra). lra.
Qed.
Lemma root1024 j : (j < 2 ^ 10)%nat -> let z := nth j (exact_roots (2 ^ 10)) C0 in Cmul z (Cconj z) = C1 /\ Cpow z 1024 = Copp C1.
Proof.
  intros Hj z. split; [exact (gr_unit _ exact_good 10 j ltac:(lia) Hj)|exact (root_pow _ exact_good 10 j Hj ltac:(lia))].
Qed.
Lemma f10_values j : (j < 2 ^ 10)%nat -> let v := ceval (map IZR f10) (nth j (exact_roots (2 ^ 10)) C0) in
  Cle v (2 * IZR 76) /\ IZR 76 * IZR 76 / 4 <= Csqnorm v.
Proof.
  intros Hj v. destruct (root1024 j Hj) as [U H]. pose proof (f10_sq _ U H) as B. fold v in B. split; [split; [lra|]|]; lra.
Qed.
Lemma f10_lam j : (j < 2 ^ 10)%nat -> 9500 <= lam (map IZR f10) (map IZR (repeat 0%Z (2 ^ 10))) (P exact_roots 10 j).
Proof.
  intros Hj. pose proof (root1024 j Hj) as R. cbv zeta in R. destruct R as [U H]. pose proof (f10_sq _ U H) as B.
  unfold lam. rewrite ceval_zeros. change (P exact_roots 10 j) with (nth j (exact_roots (2 ^ 10)) C0).
  replace (Csqnorm C0) with 0 by (unfold Csqnorm, C0; cbn [fst snd]; ring). lra.
Qed.
Lemma lin_lam k c j : (j < 2 ^ S k)%nat -> (112 <= c)%Z ->
  9500 <= lam (map IZR (lin (S k) c)) (map IZR (repeat 0%Z (2 ^ S k))) (P exact_roots (S k) j).
Proof.
  intros Hj Hc. apply IZR_le in Hc. pose proof (lam_lin k c j Hj ltac:(lra)) as H. unfold lam in *. rewrite ceval_zeros.
  replace (Csqnorm C0) with 0 by (unfold Csqnorm, C0; cbn [fst snd]; ring). nra.
Qed.

(** NtruSolve *)
Section Top.
Context (ci cu : b64 -> Z).
Notation FO := (binary64 ci cu).
Lemma f9_range : Forall (fun z => (Z.abs z <= 11552)%Z) f9.
Proof.
  unfold f9. constructor; [lia|]. apply Forall_app. split; [|constructor; [lia|]]; apply Forall_forall; intros x Hx; apply repeat_spec in Hx; subst; cbn; lia.
Qed.
Lemma f10_range : Forall (fun z => (0 <= z <= 76)%Z) f10.
Proof.
  unfold f10. constructor; [lia|]. constructor; [lia|]. apply Forall_app. split; [|constructor; [lia|]]; apply Forall_forall; intros x Hx; apply repeat_spec in Hx; subst; cbn; lia.
Qed.
Lemma int64_1 m : (m mod 2 ^ 64 = 0)%Z -> big_Int64 (1 + m) = 1%Z.
Proof.
  intros H. apply Z.mod_divide in H; [|discriminate]. destruct H as (t & ->). unfold big_Int64, wrap64, wrap.
  replace (1 + t * 2 ^ 64 + 2 ^ (64 - 1))%Z with (1 + 2 ^ (64 - 1) + t * 2 ^ 64)%Z by ring. rewrite Z_mod_plus_full. reflexivity.
Qed.
Lemma pow_64 c a n : (c = 2 ^ 4 * a -> 16 <= n -> c ^ n mod 2 ^ 64 = 0)%Z.
Proof.
  intros -> Hn. apply Z.mod_divide; [discriminate|]. rewrite Z.pow_mul_l, <- Z.pow_mul_r by lia. apply Z.divide_mul_l.
  replace (4 * n)%Z with (64 + (4 * n - 64))%Z by ring. rewrite Z.pow_add_r by lia. apply Z.divide_factor_l.
Qed.
Lemma norm_64 k c a : (4 <= k)%nat -> (c = 2 ^ 4 * a)%Z -> big_Int64 (lin_norm k c) = 1%Z.
Proof.
  intros Hk Hc. destruct k as [|k]; [lia|]. unfold lin_norm. apply int64_1, (pow_64 c a); [exact Hc|].
  assert (16 <= 2 ^ S k)%nat by (apply (Nat.pow_le_mono_r 2 4); lia). lia.
Qed.
Lemma solve_112 rf k : (4 <= k <= 10)%nat -> exists G, length G = (2 ^ k)%nat /\
  NtruSolve (reduce_quotient FO) (S rf) (lin k 112) (repeat 0%Z (2 ^ k)) = Ok (repeat 0%Z (2 ^ k), G).
Proof.
  intros Hk. unfold NtruSolve. rewrite lin_length. apply solve_lin; [lia|apply Nat.pow_gt_lin_r; lia|lia|]. apply (norm_64 k _ 7); [lia|reflexivity].
Qed.
Lemma solve_f10 rf : exists G, length G = (2 ^ 10)%nat /\
  NtruSolve (reduce_quotient FO) (S rf) f10 (repeat 0%Z (2 ^ 10)) = Ok (repeat 0%Z (2 ^ 10), G).
Proof.
  unfold NtruSolve. rewrite f10_length. change (2 ^ 10)%nat with (S (S 1022)) at 3.
  destruct (solve_lin ci cu rf 8 ltac:(lia) 1022 133448704 ltac:(lia) ltac:(lia) (norm_64 8 _ 8340544 ltac:(lia) eq_refl)) as (G8 & L8 & E8).
  destruct (solve_step ci cu rf 8 f9 _ 1022 G8 f9_length (lin_length _ _) f9_half) as (G9 & L9 & E9); [|exact L8|exact E8|].
  { apply (reduce_small ci cu 8 f9 11552); [lia|exact f9_length|exact f9_range|lia|exact f9_values]. }
  apply (solve_step ci cu rf 9 f10 f9 (S 1022) G9 f10_length f9_length f10_half); [|exact L9|exact E9].
  apply (reduce_small ci cu 9 f10 76); [lia|exact f10_length| |lia|exact f10_values].
  eapply Forall_impl; [|exact f10_range]. cbv beta. intros; lia.
Qed.
End Top.
