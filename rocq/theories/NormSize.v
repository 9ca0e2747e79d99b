(** The size of the norm of a polynomial down to Z. *)
From Verif Require Import GoBase Util BaseProofs Ntrugen Spec PolyZ PolyEval NtruProofs NtruProofs2 NtruProofs3 NtruProps.

Lemma sumn_rev : forall n f, sumn n (fun i => f (n - 1 - i)%nat) = sumn n f.
Proof.
  induction n as [|n IH]; intros f; [reflexivity|]. rewrite sumn_S_l.
  replace (S n - 1 - 0)%nat with n by lia.
  rewrite (sumn_ext n _ (fun i => f (n - 1 - i)%nat)) by (intros i Hi; f_equal; lia).
  rewrite IH. cbn [sumn]. ring.
Qed.
Lemma sumn_le n f g : (forall i, (i < n)%nat -> f i <= g i) -> sumn n f <= sumn n g.
Proof.
  induction n as [|n IH]; intros H; [reflexivity|]. cbn [sumn].
  pose proof (IH (fun i Hi => H i (Nat.lt_lt_succ_r _ _ Hi))). pose proof (H n (Nat.lt_succ_diag_r n)). lia.
Qed.
Lemma sqnorm_sumn : forall l, sqnorm l = sumn (length l) (fun i => coef l i * coef l i).
Proof.
  induction l as [|x l IH]; [reflexivity|]. cbn [length]. rewrite sumn_S_l. cbn [sqnorm fold_right].
  unfold sqnorm in IH. rewrite IH. reflexivity.
Qed.
(** the indices of the second factor run through 0..n-1 *)
Lemma sumn_turn n k h : (k < n)%nat ->
  sumn n (fun i => if Nat.leb i k then h (k - i)%nat else h (n + k - i)%nat) = sumn n h.
Proof.
  intros Hk. replace n with (S k + (n - S k))%nat by lia. rewrite !sumn_split. f_equal.
  - rewrite <- (sumn_rev (S k) h). apply sumn_ext. intros i Hi. destruct (Nat.leb_spec i k); [f_equal; lia|lia].
  - rewrite <- (sumn_rev (n - S k) (fun i => h (S k + i)%nat)). apply sumn_ext. intros i Hi.
    destruct (Nat.leb_spec (S k + i) k); [lia|f_equal; lia].
Qed.
Lemma negacyc_coef_bound n f g k : length f = n -> length g = n -> (k < n)%nat ->
  2 * Z.abs (coef (negacyc n f g) k) <= sqnorm f + sqnorm g.
Proof.
  intros Lf Lg Hk. unfold negacyc. rewrite coef_map_seq by exact Hk.
  rewrite (sqnorm_sumn f), (sqnorm_sumn g), Lf, Lg.
  rewrite <- (sumn_turn n k (fun j => coef g j * coef g j) Hk), <- sumn_add.
  assert (G : forall s, (s = 1 \/ s = -1) -> s * (2 * negacyc_coef n f g k) <=
    sumn n (fun i => coef f i * coef f i + (if Nat.leb i k then coef g (k - i) * coef g (k - i) else coef g (n + k - i) * coef g (n + k - i)))).
  { intros s Hs. unfold negacyc_coef. rewrite <- !sumn_mul_l. apply sumn_le. intros i _.
    assert (S : forall x y, (x - y) * (x - y) >= 0 /\ (x + y) * (x + y) >= 0) by (intros; split; apply Z.le_ge, Z.square_nonneg).
    destruct (Nat.leb i k); [destruct (S (coef f i) (coef g (k - i)))|destruct (S (coef f i) (coef g (n + k - i)))];
      destruct Hs as [-> | ->]; lia. }
  pose proof (G 1 (or_introl eq_refl)). pose proof (G (-1) (or_intror eq_refl)). lia.
Qed.
Lemma sqnorm_pconj f : sqnorm (pconj f) = sqnorm f.
Proof.
  rewrite !sqnorm_sumn. unfold pconj. rewrite map_length, seq_length. apply sumn_ext. intros i Hi.
  rewrite coef_map_seq by exact Hi. replace ((-1) ^ Z.of_nat i * coef f i * ((-1) ^ Z.of_nat i * coef f i))
    with (((-1) ^ Z.of_nat i * (-1) ^ Z.of_nat i) * (coef f i * coef f i)) by ring.
  rewrite <- Z.pow_mul_l. change (-1 * -1) with 1. rewrite Z.pow_1_l by lia. ring.
Qed.
Lemma sqnorm_nonneg l : 0 <= sqnorm l.
Proof. induction l as [|x l IH]; cbn; [lia|]. unfold sqnorm in IH. nia. Qed.

(** the relative norm: every coefficient is at most the squared norm of f *)
Lemma relative_norm_bound k f g : length f = (2 ^ S k)%nat -> length g = (2 ^ k)%nat ->
  plift g = negacyc (2 ^ S k) f (pconj f) ->
  sqnorm g <= 2 ^ Z.of_nat k * (sqnorm f * sqnorm f).
Proof.
  intros Lf Lg E.
  assert (B : forall i, (i < 2 ^ k)%nat -> Z.abs (coef g i) <= sqnorm f).
  { intros i Hi. assert (C : coef g i = coef (negacyc (2 ^ S k) f (pconj f)) (2 * i)).
    { rewrite <- E. unfold plift. rewrite coef_map_seq by lia.
      rewrite Nat.even_mul. cbn [Nat.even orb]. rewrite Nat.div2_double. reflexivity. }
    assert (Lp : length (pconj f) = (2 ^ S k)%nat) by (unfold pconj; rewrite map_length, seq_length; exact Lf).
    assert (I2 : (2 * i < 2 ^ S k)%nat) by (cbn [Nat.pow]; lia).
    pose proof (negacyc_coef_bound (2 ^ S k) f (pconj f) (2 * i) Lf Lp I2) as N.
    rewrite sqnorm_pconj, <- C in N. lia. }
  rewrite (sqnorm_sumn g), Lg.
  apply Z.le_trans with (sumn (2 ^ k) (fun _ => sqnorm f * sqnorm f)).
  - apply sumn_le. intros i Hi. specialize (B i Hi). nia.
  - assert (G : forall n c, sumn n (fun _ => c) = Z.of_nat n * c) by (induction n as [|n IH]; intros c; [reflexivity|cbn [sumn]; rewrite IH; lia]).
    rewrite G, Nat2Z.inj_pow. lia.
Qed.

(** the bound this gives for degree 2^(k+1) *)
Fixpoint norm_bound (k : nat) (A : Z) : Z :=
  match k with O => A | S k' => norm_bound k' (2 ^ Z.of_nat k * (A * A)) end.
Lemma norm_bound_mono : forall k A B, 0 <= A <= B -> norm_bound k A <= norm_bound k B.
Proof.
  induction k as [|k IH]; intros A B H; [cbn; lia|]. cbn [norm_bound]. apply IH.
  assert (P : 0 < 2 ^ Z.of_nat (S k)) by (apply Z.pow_pos_nonneg; lia).
  split; [apply Z.mul_nonneg_nonneg; [lia|apply Z.square_nonneg]|].
  apply Z.mul_le_mono_nonneg_l; [lia|]. apply Z.mul_le_mono_nonneg; lia.
Qed.
Lemma norm_size : forall k f m, is_norm (S k) f m -> m <= norm_bound k (sqnorm f).
Proof.
  induction k as [|k IH]; intros f m H; inversion H as [|k0 f0 g m0 Lf Lg E N]; subst.
  - inversion N; subst. apply (f_equal (fun l => coef l 0)) in E.
    unfold plift, negacyc in E. rewrite coef_map_seq in E by (cbn; lia). rewrite coef_map_seq in E by (cbn; lia).
    destruct f as [|a [|b [|]]]; try discriminate Lf.
    cbv [length Nat.mul Nat.add Nat.even Nat.div2 coef nth negacyc_coef sumn pconj seq map Nat.leb Nat.sub Nat.pow] in E.
    cbn [norm_bound sqnorm fold_right]. rewrite Z.pow_1_r, Z.pow_0_r in E. lia.
  - cbn [norm_bound]. eapply Z.le_trans; [apply (IH g m N)|]. apply norm_bound_mono.
    split; [apply sqnorm_nonneg|]. apply relative_norm_bound; assumption.
Qed.
