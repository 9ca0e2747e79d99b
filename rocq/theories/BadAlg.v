(** Polynomials of every degree on which key generation goes wrong: 1 + c x, of
    norm 1 + c^n, and units of Z[x]/(x^8+1) moved to Z[x]/(x^n+1) by x -> x^(n/8). *)
From Coq Require Import Zpow_facts.
From Verif Require Import GoBase Util Ntt Params Falcon Spec PolyRing PolyZ PolyEval BaseProofs UtilProofs NttProofs Float Samplerz Fft
  Ntrugen NtruProofs NtruProofs2 NtruProofs3 KeyGen Binary64 Hang PropsNtt.

(** ** Norms are multiplicative *)
Lemma is_norm_mul k : forall f g a b, is_norm k f a -> is_norm k g b -> is_norm k (negacyc (2 ^ k) f g) (a * b).
Proof.
  induction k as [|k IH]; intros f g a b Nf Ng; inversion Nf as [|k1 f1 rf m Lf Lrf Ef Hf]; inversion Ng as [|k2 g1 rg m' Lg Lrg Eg Hg]; subst.
  - replace (negacyc (2 ^ 0) [a] [b]) with [a * b]; [constructor|]. cbn. destruct (a * b); reflexivity.
  - pose proof (IH _ _ _ _ Hf Hg) as N. refine (norm_half k _ _ _ _ _ _ N); [apply negacyc_length|apply negacyc_length|].
    assert (L1 : length (negacyc (2 ^ k) rf rg) = (2 ^ k)%nat) by apply negacyc_length.
    assert (LP : forall h, length (pconj h) = length h) by (intros h; unfold pconj; rewrite map_length, seq_length; reflexivity).
    apply (poly_eq (2 ^ S k)); [rewrite plift_length, L1; cbn; lia|apply negacyc_length|]. intros x _.
    set (M := x ^ Z.of_nat (2 ^ S k) + 1).
    assert (EM : (x * x) ^ Z.of_nat (2 ^ k) + 1 = M).
    { unfold M. rewrite <- Z.pow_2_r, <- Z.pow_mul_r by lia. do 2 f_equal. cbn [Nat.pow]. lia. }
    assert (EN : (- x) ^ Z.of_nat (2 ^ S k) + 1 = M).
    { unfold M. f_equal. apply Z.pow_opp_even. exists (Z.of_nat (2 ^ k)). cbn [Nat.pow]. lia. }
    rewrite eval_plift.
    pose proof (nega_eval (2 ^ k) rf rg (x * x) Lrf Lrg) as A. rewrite EM in A.
    pose proof (nega_eval (2 ^ S k) f g x Lf Lg) as B. fold M in B.
    pose proof (nega_eval (2 ^ S k) f g (- x) Lf Lg) as B'. rewrite EN in B'.
    pose proof (nega_eval (2 ^ S k) (negacyc (2 ^ S k) f g) (pconj (negacyc (2 ^ S k) f g)) x (negacyc_length _ _ _) ltac:(rewrite LP; apply negacyc_length)) as D.
    fold M in D. rewrite eval_pconj in D.
    pose proof (nega_eval (2 ^ S k) f (pconj f) x Lf ltac:(rewrite LP; exact Lf)) as Cf. fold M in Cf. rewrite <- Ef, eval_plift, eval_pconj in Cf.
    pose proof (nega_eval (2 ^ S k) g (pconj g) x Lg ltac:(rewrite LP; exact Lg)) as Cg. fold M in Cg. rewrite <- Eg, eval_plift, eval_pconj in Cg.
    pose proof (cong_mul _ _ _ _ _ Cf Cg) as X1. pose proof (cong_mul _ _ _ _ _ B B') as X2.
    unfold cong in *. rewrite A, X1, D, X2. f_equal. ring.
Qed.

Lemma pow_dbl x k : (x * x) ^ Z.of_nat (2 ^ k) + 1 = x ^ Z.of_nat (2 ^ S k) + 1.
Proof. rewrite <- Z.pow_2_r, <- Z.pow_mul_r by lia. do 2 f_equal. cbn [Nat.pow]. lia. Qed.

Lemma is_norm_plift k f a : is_norm k f a -> is_norm (S k) (plift f) (a * a).
Proof.
  intros N. pose proof (is_norm_length _ _ _ N) as L. pose proof (is_norm_mul k _ _ _ _ N N) as NN.
  assert (LP : length (plift f) = (2 ^ S k)%nat) by (rewrite plift_length, L; reflexivity).
  refine (norm_half k _ _ _ LP (negacyc_length _ _ _) _ NN).
  apply (poly_eq (2 ^ S k)); [rewrite plift_length, negacyc_length; reflexivity|apply negacyc_length|]. intros x _.
  pose proof (nega_eval (2 ^ k) f f (x * x) L L) as A. rewrite pow_dbl in A. rewrite eval_plift.
  pose proof (nega_eval (2 ^ S k) (plift f) (pconj (plift f)) x LP ltac:(unfold pconj; rewrite map_length, seq_length; exact LP)) as B.
  rewrite eval_pconj, !eval_plift in B. replace (- x * - x) with (x * x) in B by ring. unfold cong in *. rewrite A, B. reflexivity.
Qed.
(** an inverse stays one *)
Lemma inv_plift k f u : length f = (2 ^ k)%nat -> length u = (2 ^ k)%nat -> negacyc (2 ^ k) f u = pconst (2 ^ k) 1 ->
  negacyc (2 ^ S k) (plift f) (plift u) = pconst (2 ^ S k) 1.
Proof.
  intros Lf Lu E. pose proof (Nat.pow_nonzero 2 k ltac:(lia)). pose proof (Nat.pow_nonzero 2 (S k) ltac:(lia)).
  apply (poly_eq (2 ^ S k)); [apply negacyc_length|apply pconst_length|]. intros x _. rewrite PolyEval.eval_pconst by lia.
  pose proof (nega_eval (2 ^ S k) (plift f) (plift u) x ltac:(rewrite plift_length, Lf; reflexivity) ltac:(rewrite plift_length, Lu; reflexivity)) as A.
  pose proof (nega_eval (2 ^ k) f u (x * x) Lf Lu) as B. rewrite E, PolyEval.eval_pconst, pow_dbl in B by lia. rewrite !eval_plift in A.
  unfold cong in *. rewrite A, B. reflexivity.
Qed.

(** ** 1 + c x *)
Definition lin (k : nat) (c : Z) : list Z :=
  match k with O => [1 - c] | S _ => 1 :: c :: repeat 0 (2 ^ k - 2) end.
Lemma lin_length k c : length (lin k c) = (2 ^ k)%nat.
Proof.
  destruct k as [|k]; [reflexivity|]. pose proof (Nat.pow_nonzero 2 k ltac:(lia)).
  cbn [lin length]. rewrite repeat_length. cbn [Nat.pow]. lia.
Qed.
Lemma eval_cons a f x : eval (a :: f) x = a + x * eval f x.
Proof.
  unfold eval. cbn [length]. assert (E : forall m, sumn (S m) (fun i => coef (a :: f) i * x ^ Z.of_nat i) = a + x * sumn m (fun i => coef f i * x ^ Z.of_nat i)).
  { induction m as [|m IH]; [cbn; ring|].
    change (sumn (S (S m)) (fun i => coef (a :: f) i * x ^ Z.of_nat i)) with
      (sumn (S m) (fun i => coef (a :: f) i * x ^ Z.of_nat i) + coef (a :: f) (S m) * x ^ Z.of_nat (S m)).
    rewrite IH. cbn [sumn]. change (coef (a :: f) (S m)) with (coef f m).
    rewrite Nat2Z.inj_succ, Z.pow_succ_r by lia. ring. }
  apply E.
Qed.
Lemma eval_zeros m x : eval (repeat 0 m) x = 0.
Proof. induction m as [|m IH]; [reflexivity|]. cbn [repeat]. rewrite eval_cons, IH. ring. Qed.
Lemma eval_lin_S k c x : eval (lin (S k) c) x = 1 + c * x.
Proof. unfold lin. rewrite !eval_cons, eval_zeros. ring. Qed.
Lemma eval_lin k c x : cong (x ^ Z.of_nat (2 ^ k) + 1) (eval (lin k c) x) (1 + c * x).
Proof.
  destruct k as [|k]; [|rewrite eval_lin_S; reflexivity].
  unfold lin. rewrite eval_cons. change (eval [] x) with 0. unfold cong. change (Z.of_nat (2 ^ 0)) with 1. rewrite Z.pow_1_r.
  rewrite <- (Z_mod_plus_full (1 - c + x * 0) c (x + 1)). f_equal. ring.
Qed.
Lemma lin_half k c : plift (lin k (- (c * c))) = negacyc (2 ^ S k) (lin (S k) c) (pconj (lin (S k) c)).
Proof.
  assert (LP : length (pconj (lin (S k) c)) = (2 ^ S k)%nat) by (unfold pconj; rewrite map_length, seq_length; apply lin_length).
  apply (poly_eq (2 ^ S k)); [rewrite plift_length, lin_length; reflexivity|apply negacyc_length|]. intros x _.
  pose proof (nega_eval (2 ^ S k) _ _ x (lin_length (S k) c) LP) as A. rewrite eval_pconj, !eval_lin_S in A.
  rewrite eval_plift. pose proof (eval_lin k (- (c * c)) (x * x)) as B. rewrite pow_dbl in B. unfold cong in *. rewrite A, B. f_equal. ring.
Qed.
Lemma norm_lin k : forall c, is_norm (S k) (lin (S k) c) (1 + c ^ Z.of_nat (2 ^ S k)).
Proof.
  induction k as [|k IH]; intros c; refine (norm_half _ _ _ _ (lin_length _ _) (lin_length _ _) (lin_half _ c) _).
  - change (Z.of_nat (2 ^ 1)) with 2. replace (1 + c ^ 2) with (1 - - (c * c)) by ring. constructor.
  - replace (1 + c ^ Z.of_nat (2 ^ S (S k))) with (1 + (- (c * c)) ^ Z.of_nat (2 ^ S k)); [apply IH|].
    f_equal. rewrite Z.pow_opp_even by (exists (Z.of_nat (2 ^ k)); cbn [Nat.pow]; lia).
    rewrite <- Z.pow_2_r, <- Z.pow_mul_r by lia. f_equal. cbn [Nat.pow]. lia.
Qed.
(** no F and G go with f = g = 1 + c x *)
Lemma lin_no_equation k c F G : 2 <= c -> 12288 < c ^ Z.of_nat (2 ^ S k) -> length F = (2 ^ S k)%nat -> length G = (2 ^ S k)%nat ->
  ~ ntru_equation (2 ^ S k) (lin (S k) c) (lin (S k) c) F G.
Proof.
  intros Hc HN LF LG E. unfold ntru_equation in E. set (n := (2 ^ S k)%nat) in *.
  assert (Hn : (0 < n)%nat) by (pose proof (Nat.pow_nonzero 2 (S k) ltac:(lia)); unfold n; lia).
  set (N := c ^ Z.of_nat n + 1). set (x := c ^ (Z.of_nat n - 1)).
  assert (X1 : c * x = N - 1). { unfold x, N. rewrite <- Z.pow_succ_r by lia. replace (Z.succ (Z.of_nat n - 1)) with (Z.of_nat n) by lia. ring. }
  assert (X2 : (N | x ^ Z.of_nat n + 1)).
  { apply Z.mod_divide; [unfold N; pose proof (Z.pow_pos_nonneg c (Z.of_nat n)); lia|].
    unfold x. rewrite <- Z.pow_mul_r by lia. rewrite Z.mul_comm, Z.pow_mul_r by lia. rewrite Zplus_mod, Zpower_mod by (unfold N; lia).
    replace (c ^ Z.of_nat n) with (-1 + 1 * N) by (unfold N; ring). rewrite Z_mod_plus_full, <- Zpower_mod by (unfold N; lia).
    rewrite <- Zplus_mod.
    replace ((-1) ^ (Z.of_nat n - 1)) with (-1); [reflexivity|].
    replace (Z.of_nat n - 1) with (1 + 2 * (Z.of_nat (2 ^ k) - 1)) by (unfold n; cbn [Nat.pow]; lia).
    pose proof (Nat.pow_nonzero 2 k ltac:(lia)). rewrite Z.pow_add_r, Z.pow_mul_r by lia. change ((-1) ^ 2) with 1. rewrite Z.pow_1_l by lia. reflexivity. }
  assert (DV : forall a b, cong (x ^ Z.of_nat n + 1) a b -> cong N a b).
  { intros a b H. destruct X2 as (w & X2). unfold cong in *. rewrite X2 in H.
    assert (NZ : w * N <> 0) by (rewrite <- X2; assert (0 < x ^ Z.of_nat n) by (apply Z.pow_pos_nonneg; [apply Z.pow_pos_nonneg|]; lia); lia).
    rewrite (Z.div_mod a (w * N)), (Z.div_mod b (w * N)), H by exact NZ.
    replace (w * N * (a / (w * N)) + b mod (w * N)) with (b mod (w * N) + (w * (a / (w * N))) * N) by ring.
    replace (w * N * (b / (w * N)) + b mod (w * N)) with (b mod (w * N) + (w * (b / (w * N))) * N) by ring.
    rewrite !Z_mod_plus_full. reflexivity. }
  apply (f_equal (fun p => eval p x)) in E. rewrite PolyEval.eval_pconst in E by exact Hn.
  rewrite (eval_psub n) in E by apply negacyc_length.
  pose proof (DV _ _ (nega_eval n (lin (S k) c) G x (lin_length _ _) LG)) as A1. pose proof (DV _ _ (nega_eval n (lin (S k) c) F x (lin_length _ _) LF)) as A2.
  rewrite eval_lin_S, X1 in A1, A2. replace (1 + (N - 1)) with N in A1, A2 by ring.
  assert (A : cong N q 0).
  { rewrite <- E. apply (cong_sub N _ 0 _ 0).
    - rewrite A1. unfold cong. rewrite Z.mul_comm, Z_mod_mult, Z.mod_0_l; [reflexivity|unfold N; lia].
    - rewrite A2. unfold cong. rewrite Z.mul_comm, Z_mod_mult, Z.mod_0_l; [reflexivity|unfold N; lia]. }
  unfold cong in A. rewrite Z.mod_0_l in A by (unfold N; lia).
  rewrite Z.mod_small in A by (unfold q, N; lia). discriminate A.
Qed.
