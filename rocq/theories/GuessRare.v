(** Fewer than one in 2^42 hash points has a squared norm of at least 2^33 - beta^2, and fewer than
    one in 2^42 a squared norm of at most 2^32 + beta^2 (Chernoff's bound). *)
From Verif Require Import GoBase Spec Counting Levels GuessLevels.

(** g, then repeatedly ceil (a g / b) *)
Fixpoint gtab (n : nat) (a b g : Z) : list Z :=
  match n with O => [] | S n => g :: gtab n a b ((g * a + (b - 1)) / b) end.
Lemma gtab_ok n a b : 0 < a -> 0 < b -> forall g j, 0 <= g -> (j < n)%nat ->
  g * a ^ Z.of_nat j <= nth j (gtab n a b g) 0 * b ^ Z.of_nat j.
Proof.
  intros Ha Hb. induction n as [|n IH]; intros g j Hg Hj; [lia|]. destruct j as [|j].
  - cbn. lia.
  - cbn [gtab nth]. rewrite Nat2Z.inj_succ, !Z.pow_succ_r by lia.
    set (g' := (g * a + (b - 1)) / b).
    assert (G : g * a <= g' * b).
    { unfold g'. pose proof (Z.mul_succ_div_gt (g * a + (b - 1)) b Hb). nia. }
    assert (G0 : 0 <= g') by (unfold g'; apply Z.div_pos; nia).
    specialize (IH g' j G0 ltac:(lia)).
    assert (0 < a ^ Z.of_nat j) by (apply Z.pow_pos_nonneg; lia).
    assert (0 < b ^ Z.of_nat j) by (apply Z.pow_pos_nonneg; lia). nia.
Qed.

(** the level: x^2 / 2^17 *)
Definition rl (c : Z) : nat := Z.to_nat (Z.shiftr (centred c * centred c) 17).
Lemma centred_bound c : - 6144 <= centred c <= 6144.
Proof. unfold centred, q. change ((12289 - 1) / 2) with 6144. pose proof (Z.mod_pos_bound (c + 6144) 12289). lia. Qed.
Lemma rl_spec c : 131072 * Z.of_nat (rl c) <= centred c * centred c <= 131072 * Z.of_nat (rl c) + 131071 /\ (rl c < 289)%nat.
Proof.
  pose proof (centred_bound c). unfold rl. rewrite Z.shiftr_div_pow2 by lia. change (2 ^ 17) with 131072.
  assert (S0 : 0 <= centred c * centred c <= 37748736) by nia.
  pose proof (Z.div_pos (centred c * centred c) 131072 ltac:(lia) ltac:(lia)).
  rewrite Z2Nat.id by assumption.
  pose proof (Z.div_mod (centred c * centred c) 131072 ltac:(lia)).
  pose proof (Z.mod_pos_bound (centred c * centred c) 131072 ltac:(lia)).
  split; [lia|]. apply Nat2Z.inj_lt. rewrite Z2Nat.id by assumption.
  change (Z.of_nat 289) with 289. lia.
Qed.
Lemma norm_levels n v : point n v ->
  131072 * Z.of_nat (lsum rl v) <= norm v <= 131072 * Z.of_nat (lsum rl v) + 131071 * Z.of_nat n.
Proof.
  revert v. induction n as [|n IH]; intros v [L F]; destruct v as [|c v]; try discriminate.
  - cbn. lia.
  - injection L as L. inversion F as [|? ? Hc Hv]; subst. specialize (IH v (conj eq_refl Hv)).
    unfold norm in *. cbn [map sqnorm fold_right]. fold (sqnorm (map centred v)).
    cbn [lsum fold_right]. fold (lsum rl v). destruct (rl_spec c) as [K _].
    rewrite Nat2Z.inj_add. cbn [length]. rewrite Nat2Z.inj_succ. lia.
Qed.

Section Chernoff.
Variables a b g0 : Z.
Hypothesis Ha : 0 < a.
Hypothesis Hb : 0 < b.
Hypothesis Hg : 0 < g0.
Definition weight (tab : list Z) (c : Z) : Z := nth (rl c) tab 0.
Variable tab : list Z.
Hypothesis Htab : forall j, (j < 289)%nat -> g0 * a ^ Z.of_nat j <= nth j tab 0 * b ^ Z.of_nat j.

Lemma weight_nonneg c : 0 <= weight tab c.
Proof.
  unfold weight. destruct (rl_spec c) as [_ L].
  pose proof (Htab (rl c) L) as K.
  assert (0 < a ^ Z.of_nat (rl c)) by (apply Z.pow_pos_nonneg; lia).
  assert (0 < b ^ Z.of_nat (rl c)) by (apply Z.pow_pos_nonneg; lia). nia.
Qed.
Lemma vprod_nonneg v : 0 <= vprod (weight tab) v.
Proof.
  induction v as [|c v IH]; cbn [vprod fold_right]; [lia|]. fold (vprod (weight tab) v).
  pose proof (weight_nonneg c). nia.
Qed.
Lemma vprod_lower n v : point n v ->
  g0 ^ Z.of_nat n * a ^ Z.of_nat (lsum rl v) <= vprod (weight tab) v * b ^ Z.of_nat (lsum rl v).
Proof.
  revert v. induction n as [|n IH]; intros v [L F]; destruct v as [|c v]; try discriminate.
  { injection L as L. inversion F as [|? ? Hc Hv]; subst. specialize (IH v (conj eq_refl Hv)).
    cbn [lsum vprod fold_right]. fold (lsum rl v) (vprod (weight tab) v). cbn [length].
    rewrite Nat2Z.inj_succ, Z.pow_succ_r, Nat2Z.inj_add, !Z.pow_add_r by lia.
    destruct (rl_spec c) as [_ Lc].
    pose proof (Htab (rl c) Lc) as K. fold (weight tab c) in K.
    replace (g0 * g0 ^ Z.of_nat (length v) * (a ^ Z.of_nat (rl c) * a ^ Z.of_nat (lsum rl v)))
      with (g0 * a ^ Z.of_nat (rl c) * (g0 ^ Z.of_nat (length v) * a ^ Z.of_nat (lsum rl v))) by ring.
    replace (weight tab c * vprod (weight tab) v * (b ^ Z.of_nat (rl c) * b ^ Z.of_nat (lsum rl v)))
      with (weight tab c * b ^ Z.of_nat (rl c) * (vprod (weight tab) v * b ^ Z.of_nat (lsum rl v))) by ring.
    assert (0 <= a ^ Z.of_nat (rl c)) by (apply Z.pow_nonneg; lia).
    assert (0 <= a ^ Z.of_nat (lsum rl v)) by (apply Z.pow_nonneg; lia).
    assert (0 <= g0 ^ Z.of_nat (length v)) by (apply Z.pow_nonneg; lia).
    apply Z.mul_le_mono_nonneg; try assumption; nia. }
Qed.
(** tilting up or down *)
Lemma tilt (L L0 : Z) x y : 0 <= L -> 0 <= L0 -> 0 <= x -> 0 <= y -> (b <= a /\ L0 <= L \/ a <= b /\ L <= L0) ->
  x * a ^ L <= y * b ^ L -> x * a ^ L0 <= y * b ^ L0.
Proof.
  intros H0 H1 Hx Hy [[R K]|[R K]] H.
  - replace L with (L0 + (L - L0)) in H by lia. rewrite !Z.pow_add_r in H by lia.
    assert (P : 0 < b ^ (L - L0)) by (apply Z.pow_pos_nonneg; lia).
    assert (M : b ^ (L - L0) <= a ^ (L - L0)) by (apply Z.pow_le_mono_l; lia).
    assert (0 < a ^ L0) by (apply Z.pow_pos_nonneg; lia).
    apply (Zmult_le_reg_r _ _ (b ^ (L - L0))); [lia|]. nia.
  - replace L0 with (L + (L0 - L)) by lia. rewrite !Z.pow_add_r by lia.
    assert (P : 0 < a ^ (L0 - L)) by (apply Z.pow_pos_nonneg; lia).
    assert (M : a ^ (L0 - L) <= b ^ (L0 - L)) by (apply Z.pow_le_mono_l; lia).
    assert (0 < b ^ L) by (apply Z.pow_pos_nonneg; lia).
    rewrite !Z.mul_assoc. apply Z.mul_le_mono_nonneg; [|exact H|lia|exact M].
    assert (0 < a ^ L) by (apply Z.pow_pos_nonneg; lia). nia.
Qed.

(** points where [p] holds only on one side of the mean level l *)
Lemma rare (n : nat) (l : Z) (p : list Z -> bool) (r r' : Z) : 0 <= l -> 0 < r' -> 0 <= r ->
  (forall v, point n v -> p v = true -> b <= a /\ Z.of_nat n * l <= Z.of_nat (lsum rl v) \/
     a <= b /\ Z.of_nat (lsum rl v) <= Z.of_nat n * l) ->
  zsum residues (weight tab) * b ^ l * r <= r' * (g0 * a ^ l * q) ->
  total n (fun v => b2z (p v)) * r ^ Z.of_nat n <= r' ^ Z.of_nat n * q ^ Z.of_nat n.
Proof.
  intros Hl Hr' Hr Hp C. set (N := Z.of_nat n).
  set (G := g0 * a ^ l). assert (PA : 0 < a ^ l) by (apply Z.pow_pos_nonneg; lia).
  assert (PB : 0 < b ^ l) by (apply Z.pow_pos_nonneg; lia). assert (PG : 0 < G) by (unfold G; nia).
  assert (NN : 0 <= N) by (unfold N; lia).
  assert (K : total n (fun v => b2z (p v)) * G ^ N <= (zsum residues (weight tab) * b ^ l) ^ N).
  { rewrite Z.pow_mul_l. unfold N at 2. rewrite <- total_prod, Z.mul_comm, <- total_scale.
    rewrite Z.mul_comm, <- total_scale. apply total_le. intros v P.
    destruct (p v) eqn:E; cbn [b2z].
    - specialize (Hp v P E). unfold G. rewrite Z.pow_mul_l, <- !Z.pow_mul_r by lia.
      rewrite Z.mul_1_r, (Z.mul_comm (b ^ (l * N))), (Z.mul_comm l N). unfold N.
      
      apply (tilt (Z.of_nat (lsum rl v)));
        [lia|nia|apply Z.pow_nonneg; lia|apply vprod_nonneg|exact Hp|apply vprod_lower, P].
    - rewrite Z.mul_0_r. apply Z.mul_nonneg_nonneg; [apply Z.pow_nonneg; lia|apply vprod_nonneg]. }
  assert (ZS : 0 <= zsum residues (weight tab)) by (apply zsum_nonneg; intros; apply weight_nonneg).
  assert (C' : (zsum residues (weight tab) * b ^ l) ^ N * r ^ N <= r' ^ N * (G ^ N * q ^ N)).
  { rewrite <- !Z.pow_mul_l. apply Z.pow_le_mono_l. split; [nia|exact C]. }
  assert (PGN : 0 < G ^ N) by (apply Z.pow_pos_nonneg; lia).
  assert (PR : 0 <= r ^ N) by (apply Z.pow_nonneg; lia).
  apply (Zmult_le_reg_r _ _ (G ^ N)); [lia|].
  apply Z.le_trans with ((zsum residues (weight tab) * b ^ l) ^ N * r ^ N).
  - replace (total n (fun v => b2z (p v)) * r ^ N * G ^ N) with (total n (fun v => b2z (p v)) * G ^ N * r ^ N) by ring.
    apply Z.mul_le_mono_nonneg_r; assumption.
  - eapply Z.le_trans; [exact C'|]. apply Z.eq_le_incl. ring.
Qed.
End Chernoff.

Definition up_ok : bool :=
  zsum residues (weight (gtab 289 263 262 (2 ^ 30))) * 262 ^ 126 * 271 <=? 256 * (2 ^ 30 * 263 ^ 126 * q).
Lemma up_check : up_ok = true. Proof. vm_compute. reflexivity. Qed.
Definition down_ok : bool :=
  zsum residues (weight (gtab 289 205 206 (2 ^ 30))) * 206 ^ 65 * 271 <=? 256 * (2 ^ 30 * 205 ^ 65 * q).
Lemma down_check : down_ok = true. Proof. vm_compute. reflexivity. Qed.
Lemma ratio_check : (2 ^ 42 * 256 ^ 512 <=? 271 ^ 512) = true. Proof. vm_compute. reflexivity. Qed.

#[local] Opaque total points Z.pow gtab.
Lemma ratio c : 0 <= c -> c * 271 ^ 512 <= 256 ^ 512 * q ^ 512 -> 2 ^ 42 * c <= q ^ 512.
Proof.
  intros Hc H. pose proof ratio_check as K. apply Z.leb_le in K.
  assert (P : 0 < 256 ^ 512) by (apply Z.pow_pos_nonneg; [reflexivity|discriminate]).
  revert H K P. generalize (q ^ 512) (256 ^ 512) (271 ^ 512) (2 ^ 42). intros z s r t H K P.
  apply (Zmult_le_reg_r _ _ s); [apply Z.lt_gt, P|]. nia.
Qed.
Lemma pos30 : 0 < 2 ^ 30. Proof. apply Z.pow_pos_nonneg; [reflexivity|discriminate]. Qed.
Lemma tab_at a b : 0 < a -> 0 < b -> forall j, (j < 289)%nat ->
  2 ^ 30 * a ^ Z.of_nat j <= nth j (gtab 289 a b (2 ^ 30)) 0 * b ^ Z.of_nat j.
Proof. intros Ha Hb j Hj. apply gtab_ok; try assumption. apply Z.lt_le_incl, pos30. Qed.
Theorem rare_up : 2 ^ 42 * total 512 (fun v => b2z (2 ^ 33 - beta2_512 <=? norm v)) <= q ^ 512.
Proof.
  apply ratio; [apply total_nonneg; intros; apply b2z_range|].
  apply (rare 263 262 (2 ^ 30) eq_refl eq_refl pos30 (gtab 289 263 262 (2 ^ 30)) (tab_at 263 262 eq_refl eq_refl) 512 126 _ 271 256); [discriminate|reflexivity|discriminate| |].
  - intros v P E. apply Z.leb_le in E. left. split; [discriminate|].
    pose proof (norm_levels 512 v P) as K. change (Z.of_nat 512) with 512 in *.
    change (2 ^ 33) with 8589934592 in E. unfold beta2_512 in E. lia.
  - apply Z.leb_le. exact up_check.
Qed.
Theorem rare_down : 2 ^ 42 * total 512 (fun v => b2z (norm v <=? 2 ^ 32 + beta2_512)) <= q ^ 512.
Proof.
  apply ratio; [apply total_nonneg; intros; apply b2z_range|].
  apply (rare 205 206 (2 ^ 30) eq_refl eq_refl pos30 (gtab 289 205 206 (2 ^ 30)) (tab_at 205 206 eq_refl eq_refl) 512 65 _ 271 256); [discriminate|reflexivity|discriminate| |].
  - intros v P E. apply Z.leb_le in E. right. split; [discriminate|].
    pose proof (norm_levels 512 v P) as K. change (Z.of_nat 512) with 512 in *.
    change (2 ^ 32) with 4294967296 in E. unfold beta2_512 in E. lia.
  - apply Z.leb_le. exact down_check.
Qed.
