(** The size of what reduce returns, in exact arithmetic. *)
From Coq Require Import Lra Lia.
From Verif Require Import GoBase Util BaseProofs UtilProofs PolyRing Spec Float Fft FftShape SpecFft SpecBabai ExactReal FftProofs
  Ntrugen NtruProofs NtruProofs2 NtruProofs3 Ffsampling FfExact Babai KeyGen GsExact.
Local Open Scope R_scope.

(** ** Sums *)
Lemma rsum_app a b F : rsum (a + b) F = rsum a F + rsum b (fun j => F (a + j)%nat).
Proof.
  induction b as [|b IH]; [rewrite Nat.add_0_r; cbn [rsum]; ring|].
  rewrite Nat.add_succ_r. cbn [rsum]. rewrite IH. ring.
Qed.
Lemma rsum_first m F : rsum (S m) F = F 0%nat + rsum m (fun j => F (S j)).
Proof. change (S m) with (1 + m)%nat. rewrite (rsum_app 1 m F). cbn [rsum Nat.add]. ring. Qed.
Lemma rsum_rev m F : rsum m F = rsum m (fun j => F (m - 1 - j)%nat).
Proof.
  induction m as [|m IH]; [reflexivity|]. rewrite (rsum_first m (fun j => F (S m - 1 - j)%nat)).
  cbn [rsum]. rewrite IH. rewrite Rplus_comm. f_equal; [f_equal; lia|]. apply rsum_ext. intros j Hj. f_equal. lia.
Qed.
Lemma rsum_mono n F F' : (forall i, (i < n)%nat -> F i <= F' i) -> rsum n F <= rsum n F'.
Proof.
  induction n as [|n IH]; intros H; cbn [rsum]; [lra|]. pose proof (H n ltac:(lia)). pose proof (IH ltac:(intros; apply H; lia)). lra.
Qed.
Lemma rsum_abs n F : Rabs (rsum n F) <= rsum n (fun i => Rabs (F i)).
Proof.
  induction n as [|n IH]; cbn [rsum]; [rewrite Rabs_R0; lra|]. pose proof (Rabs_triang (rsum n F) (F n)). lra.
Qed.
Lemma rsum_rot n i F : (i < n)%nat -> rsum n (fun j => F (if Nat.leb j i then i - j else n + i - j)%nat) = rsum n F.
Proof.
  intros Hi. set (b := (n - i - 1)%nat). replace n with (S i + b)%nat at 1 by (unfold b; lia).
  rewrite rsum_app. replace (rsum n F) with (rsum (S i + b) F) by (f_equal; unfold b; lia). rewrite rsum_app.
  f_equal.
  - rewrite (rsum_rev (S i) F). apply rsum_ext. intros j Hj. destruct (Nat.leb_spec j i); [|lia]. f_equal. lia.
  - rewrite (rsum_rev b (fun j => F (S i + j)%nat)). apply rsum_ext. intros j Hj.
    destruct (Nat.leb_spec (S i + j) i); [lia|]. f_equal. unfold b in *. lia.
Qed.
Lemma rsum_const n c : rsum n (fun _ => c) = INR n * c.
Proof. induction n as [|n IH]; cbn [rsum]; [cbn; ring|]. rewrite IH, S_INR. ring. Qed.
(** Cauchy-Schwarz *)
Lemma rsum_cs n F : (1 <= n)%nat -> rsum n F * rsum n F <= INR n * rsum n (fun i => F i * F i).
Proof.
  intros Hn. assert (N : 0 < INR n) by (apply lt_0_INR; lia). set (S1 := rsum n F). set (t := S1 / INR n).
  assert (H : 0 <= rsum n (fun i => (F i - t) * (F i - t))).
  { rewrite <- (Rmult_0_r (INR n)), <- rsum_const. apply rsum_mono. intros i _. apply Rle_0_sqr. }
  rewrite (rsum_ext n _ (fun i => F i * F i + (- (2 * t)) * F i + t * t)) in H by (intros; ring).
  rewrite !rsum_plus, rsum_scal, rsum_const in H. fold S1 in H.
  set (Q2 := rsum n (fun i => F i * F i)) in *.
  assert (E : Q2 + - (2 * t) * S1 + INR n * (t * t) = Q2 - S1 * S1 / INR n) by (unfold t; field; lra).
  rewrite E in H. apply Rmult_le_reg_r with (/ INR n); [apply Rinv_0_lt_compat, N|].
  replace (INR n * Q2 * / INR n) with Q2 by (field; lra). unfold Rdiv in H. lra.
Qed.
Lemma sqnorm_pos n x : 0 <= sqnorm n x.
Proof. unfold sqnorm. rewrite <- (Rmult_0_r (INR n)), <- rsum_const. apply rsum_mono. intros i _. apply Rle_0_sqr. Qed.
Lemma coef_sqnorm n x i : (i < n)%nat -> nth i x 0 * nth i x 0 <= sqnorm n x.
Proof.
  unfold sqnorm. induction n as [|n IH]; intros Hi; [lia|]. cbn [rsum].
  destruct (Nat.eq_dec i n) as [->|].
  - pose proof (sqnorm_pos n x) as H. unfold sqnorm in H. lra.
  - pose proof (IH ltac:(lia)). pose proof (Rle_0_sqr (nth n x 0)) as HS. unfold Rsqr in HS. lra.
Qed.
(** a product with small coefficients *)
Lemma rmul_small n c f i K : (i < n)%nat -> (forall j, (j < n)%nat -> Rabs (nth j c 0) <= K) ->
  nth i (rmul n c f) 0 * nth i (rmul n c f) 0 <= K * K * (INR n * sqnorm n f).
Proof.
  intros Hi Hc. unfold rmul. rewrite (nth_map_seq _ n i 0 Hi).
  assert (A : Rabs (rmul_coef n c f i) <= K * rsum n (fun j => Rabs (nth j f 0))).
  { unfold rmul_coef. eapply Rle_trans; [apply rsum_abs|].
    rewrite <- (rsum_rot n i (fun j => Rabs (nth j f 0)) Hi), <- rsum_scal. apply rsum_mono. intros j Hj.
    pose proof (Hc j Hj). destruct (Nat.leb j i); rewrite ?Rabs_Ropp, Rabs_mult; apply Rmult_le_compat_r; auto using Rabs_pos. }
  pose proof (rsum_cs n (fun j => Rabs (nth j f 0)) ltac:(lia)) as CS. cbv beta in CS.
  rewrite (rsum_ext n (fun i => Rabs (nth i f 0) * Rabs (nth i f 0)) (fun i => nth i f 0 * nth i f 0)) in CS.
  2:{ intros j _. rewrite <- Rabs_mult, Rabs_pos_eq; [reflexivity|apply Rle_0_sqr]. }
  fold (sqnorm n f) in CS. set (S1 := rsum n (fun j => Rabs (nth j f 0))) in *.
  set (x := rmul_coef n c f i) in *. pose proof (Rabs_pos x).
  assert (X : x * x = Rabs x * Rabs x) by (rewrite <- Rabs_mult, Rabs_pos_eq; [reflexivity|apply Rle_0_sqr]).
  rewrite X. assert (Rabs x * Rabs x <= K * S1 * (K * S1)) by (apply Rmult_le_compat; lra).
  replace (K * S1 * (K * S1)) with (K * K * (S1 * S1)) in * by ring.
  pose proof (Rmult_le_compat_l (K * K) _ _ (Rle_0_sqr K) CS). lra.
Qed.

(** ** Bit sizes *)
Lemma max_bitsize_spec a b s : max_bitsize a b = Ok s ->
  (53 <= s)%Z /\ (forall x, In x a \/ In x b -> (Z.abs x < 2 ^ s)%Z) /\
  (s = 53%Z \/ exists x, (In x a \/ In x b) /\ (2 ^ (s - 8) <= Z.abs x)%Z).
Proof.
  unfold max_bitsize.
  destruct (MinFromBigInt a) as [m1| | |] eqn:E1; cbn [bind]; try discriminate.
  destruct (bitsize_ok m1) as (s1 & B1 & P1 & U1 & W1). rewrite B1. cbn [bind].
  destruct (MaxFromBigInt a) as [m2| | |] eqn:E2; cbn [bind]; try discriminate.
  destruct (bitsize_ok m2) as (s2 & B2 & P2 & U2 & W2). rewrite B2. cbn [bind].
  destruct (MinFromBigInt b) as [m3| | |] eqn:E3; cbn [bind]; try discriminate.
  destruct (bitsize_ok m3) as (s3 & B3 & P3 & U3 & W3). rewrite B3. cbn [bind].
  destruct (MaxFromBigInt b) as [m4| | |] eqn:E4; cbn [bind]; try discriminate.
  destruct (bitsize_ok m4) as (s4 & B4 & P4 & U4 & W4). rewrite B4. cbn [bind].
  intros E. apply Max_iff in E. destruct E as [I1 H].
  apply MinBig_iff in E1, E3. apply MaxBig_iff in E2, E4.
  destruct E1 as [N1 L1], E2 as [N2 L2], E3 as [N3 L3], E4 as [N4 L4].
  pose proof (H 53%Z (or_introl eq_refl)) as H0.
  pose proof (H _ (or_intror (or_introl eq_refl))) as H1.
  pose proof (H _ (or_intror (or_intror (or_introl eq_refl)))) as H2.
  pose proof (H _ (or_intror (or_intror (or_intror (or_introl eq_refl))))) as H3.
  pose proof (H _ (or_intror (or_intror (or_intror (or_intror (or_introl eq_refl)))))) as H4. clear H.
  split; [exact H0|]. split.
  - assert (M : forall t, (8 * t <= s -> 0 <= t -> 2 ^ (8 * t) <= 2 ^ s)%Z) by (intros; apply Z.pow_le_mono_r; lia).
    pose proof (M _ H1 P1). pose proof (M _ H2 P2). pose proof (M _ H3 P3). pose proof (M _ H4 P4).
    assert (T : forall a b t1 t2 P, (Z.abs a < t1 -> Z.abs b < t2 -> t1 <= P -> t2 <= P -> forall x, a <= x -> x <= b -> Z.abs x < P)%Z)
      by (clear; intros; lia).
    intros x [Hx|Hx].
    + exact (T _ _ _ _ _ U1 U2 ltac:(eassumption) ltac:(eassumption) x (L1 x Hx) (L2 x Hx)).
    + exact (T _ _ _ _ _ U3 U4 ltac:(eassumption) ltac:(eassumption) x (L3 x Hx) (L4 x Hx)).
  - destruct I1 as [I1|[I1|[I1|[I1|[I1|[]]]]]]; [left; clear - I1; lia|right ..].
    + exists m1. split; [auto|]. replace (s - 8)%Z with (8 * (s1 - 1))%Z by (clear - I1; lia). apply W1. clear - I1 H0; lia.
    + exists m2. split; [auto|]. replace (s - 8)%Z with (8 * (s2 - 1))%Z by (clear - I1; lia). apply W2. clear - I1 H0; lia.
    + exists m3. split; [auto|]. replace (s - 8)%Z with (8 * (s3 - 1))%Z by (clear - I1; lia). apply W3. clear - I1 H0; lia.
    + exists m4. split; [auto|]. replace (s - 8)%Z with (8 * (s4 - 1))%Z by (clear - I1; lia). apply W4. clear - I1 H0; lia.
Qed.
(** the loop stops when the bit size is below that of f, g, or on a zero quotient *)
Lemma reduce_loop_exit quo fuel f g size : forall F G F' G',
  reduce_loop quo fuel f g size F G = Ok (F', G') ->
  exists S, max_bitsize F' G' = Ok S /\
    ((S < size)%Z \/ exists k, quo (adjust size f) (adjust size g) (adjust S F') (adjust S G') = Ok k /\ Forall (fun x => x = 0%Z) k).
Proof.
  induction fuel as [|fuel IH]; intros F G F' G'; cbn [reduce_loop]; [discriminate|].
  destruct (max_bitsize F G) as [S| | |] eqn:ES; cbn [bind]; try discriminate.
  destruct (Z.ltb_spec S size) as [H|H].
  { intros E. apply Ok_inj in E. injection E as <- <-. eauto. }
  destruct (quo _ _ _ _) as [kk| | |] eqn:EQ; cbn [bind]; try discriminate.
  destruct (AllZeroes kk) eqn:EZ.
  { intros E. apply Ok_inj in E. injection E as <- <-. exists S. split; [exact ES|]. right. exists kk. split; [exact EQ|].
    apply AllZeroes_spec, EZ. }
  destruct (karamul f _) as [fk| | |]; cbn [bind]; try discriminate.
  destruct (karamul g _) as [gk| | |]; cbn [bind]; try discriminate.
  destruct (sub_shifted _ F _ _) as [F1| | |]; cbn [bind]; try discriminate.
  destruct (sub_shifted _ G _ _) as [G1| | |]; cbn [bind]; try discriminate.
  apply IH.
Qed.
Lemma adjust_ok s l : (53 <= s)%Z -> (forall x, In x l -> (Z.abs x < 2 ^ s)%Z) ->
  adjust s l = map (fun x => x / 2 ^ (s - 53))%Z l.
Proof.
  intros Hs H. unfold adjust. apply map_ext_in. intros x Hx. specialize (H x Hx). rewrite Z.shiftr_div_pow2 by lia.
  unfold big_Int64, wrap64. apply wrap_id; [lia|].
  assert (E : (2 ^ s = 2 ^ 53 * 2 ^ (s - 53))%Z) by (rewrite <- Z.pow_add_r by lia; f_equal; lia).
  assert (P0 : (0 < 2 ^ (s - 53))%Z) by (apply Z.pow_pos_nonneg; lia). set (D := (2 ^ (s - 53))%Z) in *.
  assert (- 2 ^ 53 <= x / D)%Z by (apply Z.div_le_lower_bound; lia).
  assert (x / D < 2 ^ 53)%Z by (apply Z.div_lt_upper_bound; lia). lia.
Qed.

(** more fuel does not change the result *)
Lemma reduce_fuel quo f g size fuel : forall F G FG fuel', reduce_loop quo fuel f g size F G = Ok FG -> (fuel <= fuel')%nat ->
  reduce_loop quo fuel' f g size F G = Ok FG.
Proof.
  induction fuel as [|fuel IH]; intros F G FG fuel'; cbn [reduce_loop]; [discriminate|].
  destruct fuel' as [|fuel']; [intros _ H; lia|]. intros E H. cbn [reduce_loop]. revert E.
  destruct (max_bitsize F G) as [S| | |]; cbn [bind]; try discriminate. destruct (_ <? _)%Z; [auto|].
  destruct (quo _ _ _ _) as [kk| | |]; cbn [bind]; try discriminate. destruct (AllZeroes kk); [auto|].
  destruct (karamul f _) as [fk| | |]; cbn [bind]; try discriminate.
  destruct (karamul g _) as [gk| | |]; cbn [bind]; try discriminate.
  destruct (sub_shifted _ F _ _) as [F1| | |]; cbn [bind]; try discriminate.
  destruct (sub_shifted _ G _ _) as [G1| | |]; cbn [bind]; try discriminate.
  intros E. apply IH with (1 := E). lia.
Qed.
