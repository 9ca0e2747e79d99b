(** C93: in binary64 FfnpFFT and FfSamplingFFT return exactly the floating-point
    transforms of integer polynomials: the rounding errors of the two recursions
    influence which integers are chosen, never that they are integers. *)
From Coq Require Import Reals Lra Lia ZArith List Permutation.
From Flocq Require Import Core BinarySingleNaN.
From Verif Require Import GoBase Util BaseProofs Float Fft FftShape Samplerz Ntrugen Ffsampling KeyGen FfInt
  Binary64 B64Proofs FloatErr FftErr GramErr PropsFloat SamplerProofs.
Import ListNotations.
Local Open Scope R_scope.

(** ** binary64 facts *)
Lemma b_add_comm x y : b_add x y = b_add y x.
Proof.
  unfold b_add. destruct x as [[|]|[|]| |sx mx ex Hx], y as [[|]|[|]| |sy my ey Hy]; try reflexivity.
  unfold Bplus, Fplus_naive. rewrite (Z.min_comm ey ex), Z.add_comm. reflexivity.
Qed.
Lemma b_const_0 : b_const 0 0 = b_of_int 0. Proof. reflexivity. Qed.
Lemma b_const_1 : b_const 1 0 = b_of_int 1.
Proof. apply B2SF_inj. vm_compute. reflexivity. Qed.
Lemma add_fin x y : is_finite (b_add x y) = true -> is_finite x = true /\ is_finite y = true.
Proof. destruct x as [[|]|[|]| |sx mx ex Hx], y as [[|]|[|]| |sy my ey Hy]; cbn; try discriminate; auto. Qed.
Lemma sub_fin x y : is_finite (b_sub x y) = true -> is_finite x = true /\ is_finite y = true.
Proof. destruct x as [[|]|[|]| |sx mx ex Hx], y as [[|]|[|]| |sy my ey Hy]; cbn; try discriminate; auto. Qed.
Lemma mul_fin x y : is_finite (b_mul x y) = true -> is_finite x = true /\ is_finite y = true.
Proof. destruct x as [[|]|[|]| |sx mx ex Hx], y as [[|]|[|]| |sy my ey Hy]; cbn; try discriminate; auto. Qed.

Section Facts.
Context (ci cu : b64 -> Z).
Notation FO := (binary64 ci cu).
Notation roots := (roots_dict FO).

Definition cfin (z : b64 * b64) : Prop := is_finite (fst z) = true /\ is_finite (snd z) = true.
Lemma cadd_fin a b : cfin (c_add FO a b) -> cfin a /\ cfin b.
Proof. intros [H1 H2]. apply add_fin in H1, H2. unfold cfin. tauto. Qed.
Lemma cmul_fin a b : cfin (c_mul FO a b) -> cfin b.
Proof. intros [H1 _]. apply sub_fin in H1. destruct H1 as [H1 H2]. apply mul_fin in H1, H2. unfold cfin. tauto. Qed.

Lemma merge_fin k a b w : (k <= 9)%nat -> length a = (2 ^ k)%nat -> length b = (2 ^ k)%nat ->
  MergeFFT FO roots a b = Ok w -> Forall cfin w -> Forall cfin a /\ Forall cfin b.
Proof.
  intros Hk La Lb E H. pose proof (roots_dict_full FO (S k) ltac:(lia)) as FR. rewrite pow2_S in FR.
  rewrite (MergeFFT_ok FO roots a b (2 ^ k)) in E by (try rewrite FR; auto; lia). apply Ok_inj in E. subst w.
  assert (A : forall i, (i < 2 ^ k)%nat -> cfin (nth i a (c0 FO)) /\ cfin (nth i b (c0 FO))).
  { intros i Hi. rewrite Forall_nth in H. specialize (H (2 * i)%nat (c0 FO)). rewrite interleave_length in H.
    specialize (H ltac:(lia)). rewrite interleave_even in H by exact Hi. apply cadd_fin in H. destruct H as [H1 H2].
    split; [exact H2|]. exact (cmul_fin _ _ H1). }
  split; apply Forall_nth; intros i d Hi.
  - rewrite (nth_indep a d (c0 FO)) by exact Hi. apply A. rewrite <- La. exact Hi.
  - rewrite (nth_indep b d (c0 FO)) by exact Hi. apply A. rewrite <- Lb. exact Hi.
Qed.
Lemma merged_out k : (k <= 10)%nat -> forall z w, merged FO k z w -> length w = (2 ^ k)%nat.
Proof.
  induction k as [|k IH]; intros Hk z w M; inversion M as [|k' z' w0 w1 w' L M0 M1 E]; subst; [reflexivity|].
  destruct (merge_ok FO k w0 w1 ltac:(lia) (IH ltac:(lia) _ _ M0) (IH ltac:(lia) _ _ M1)) as (w2 & E2 & L2). congruence.
Qed.
Lemma merged_fin k : (k <= 10)%nat -> forall z w, merged FO k z w -> Forall cfin w -> Forall (fun x : b64 => is_finite x = true) z.
Proof.
  induction k as [|k IH]; intros Hk z w M H; inversion M as [|k' z' w0 w1 w' L M0 M1 E]; subst.
  - constructor; [|constructor]. inversion H as [|? ? [H1 _] _]. exact H1.
  - destruct (merge_fin k w0 w1 w ltac:(lia) (merged_out k ltac:(lia) _ _ M0) (merged_out k ltac:(lia) _ _ M1) E H) as [H0 H1].
    pose proof (IH ltac:(lia) _ _ M0 H0) as F0. pose proof (IH ltac:(lia) _ _ M1 H1) as F1.
    rewrite <- (interleave_evens_odds (f0 FO) z (2 ^ k)) by (rewrite L; apply pow2_S).
    assert (D : Nat.div (length z) 2 = (2 ^ k)%nat) by (rewrite L, pow2_S, Nat.mul_comm, Nat.div_mul; lia).
    apply Forall_interleave; auto; [exact (eq_trans (evens_length _ z) D)|exact (eq_trans (odds_length _ z) D)].
Qed.
Lemma round_int (x : b64) : is_finite x = true -> rounded FO x -> exists m, B2R x = IZR m.
Proof.
  intros _ (y & ->). exists (Znearest (Zle_bool 0) (B2R y)). cbn [f_round binary64].
  destruct (Bnearbyint_correct 53 1024 _ mode_NA y) as (E & _). fold (b_round y) in E. rewrite E.
  unfold round, scaled_mantissa, F2R, cexp, FIX_exp. cbn [Fnum Fexp]. change (bpow radix2 (- 0)) with 1.
  change (bpow radix2 0) with 1. rewrite !Rmult_1_r. reflexivity.
Qed.
End Facts.

(** a float64 that is the integer m *)
Definition is_integer (x : b64) (m : Z) : Prop := is_finite x = true /\ B2R x = IZR m.

Lemma integers ci cu (z : list b64) : Forall (fun x : b64 => is_finite x = true) z -> Forall (rounded (binary64 ci cu)) z ->
  exists m, Forall2 is_integer z m.
Proof.
  intros H1 H2. induction z as [|x z IH]; [exists []; constructor|].
  inversion H1 as [|? ? A1 B1]; inversion H2 as [|? ? A2 B2]; subst.
  destruct (IH B1 B2) as (m & Hm). destruct (round_int ci cu x A1 A2) as (v & Hv). exists (v :: m). constructor; [split; assumption|exact Hm].
Qed.

(** FfnpFFT on a tree of the right shape returns two vectors, in any arithmetic. *)
Theorem C93_returns : forall FO k fuel (t0 t1 : list (cplx FO)) T, (k <= 10)%nat ->
  length t0 = (2 ^ k)%nat -> length t1 = (2 ^ k)%nat -> shaped FO k T -> (k < fuel)%nat ->
  exists w0 w1, FfnpFFT FO (roots_dict FO) fuel [t0; t1] T = Ok [w0; w1] /\ length w0 = (2 ^ k)%nat /\ length w1 = (2 ^ k)%nat.
Proof. intros FO k fuel t0 t1 T Hk L0 L1 HT Hf. exact (np_returns FO k Hk fuel t0 t1 T L0 L1 HT Hf). Qed.
Print Assumptions C93_returns.

(** Whatever the tree: when the two vectors have no infinity and no NaN, they are
    what FFT returns on two integer polynomials. *)
Theorem C93_nearest_plane : forall ci cu k fuel t0 t1 T w0 w1, (1 <= k <= 10)%nat ->
  let FO := binary64 ci cu in
  length t0 = (2 ^ k)%nat -> length t1 = (2 ^ k)%nat ->
  FfnpFFT FO (roots_dict FO) fuel [t0; t1] T = Ok [w0; w1] -> Forall cfin w0 -> Forall cfin w1 ->
  exists (z0 z1 : list b64) (m0 m1 : list Z), length m0 = (2 ^ k)%nat /\ length m1 = (2 ^ k)%nat /\
    Forall2 is_integer z0 m0 /\ Forall2 is_integer z1 m1 /\
    FFT FO (roots_dict FO) z0 = Ok w0 /\ FFT FO (roots_dict FO) z1 = Ok w1.
Proof.
  cbv zeta. intros ci cu k fuel t0 t1 T w0 w1 Hk L0 L1 E H0 H1.
  destruct (np_merged (binary64 ci cu) k ltac:(lia) fuel t0 t1 T _ L0 L1 E) as (z0 & z1 & v0 & v1 & EQ & M0 & M1 & Q0 & Q1).
  injection EQ as <- <-.
  destruct (integers ci cu z0 (merged_fin ci cu k ltac:(lia) _ _ M0 H0) Q0) as (m0 & I0).
  destruct (integers ci cu z1 (merged_fin ci cu k ltac:(lia) _ _ M1 H1) Q1) as (m1 & I1).
  pose proof (merged_length _ _ _ _ M0) as K0. pose proof (merged_length _ _ _ _ M1) as K1.
  exists z0, z1, m0, m1.
  assert (LE : forall (a : list b64) (b : list Z), Forall2 is_integer a b -> length a = length b) by (intros a b H; induction H; cbn; auto).
  split; [rewrite <- (LE _ _ I0); exact K0|]. split; [rewrite <- (LE _ _ I1); exact K1|].
  split; [exact I0|]. split; [exact I1|].
  split; apply (merged_FFT (binary64 ci cu) b_add_comm b_const_0 b_const_1 k); auto; lia.
Qed.
Print Assumptions C93_nearest_plane.

Lemma ints_near ci cu n B z m : length m = n -> Forall2 is_integer z m -> Forall (fun v => (Z.abs v <= B)%Z) m ->
  near ci cu n 0 (IZR B) z (map IZR m).
Proof.
  intros L H HB. assert (K : length z = n) by (rewrite <- L; clear - H; induction H; cbn; auto).
  split; [exact K|]. split; [now rewrite map_length|]. intros i Hi.
  rewrite (map_nth IZR m 0%Z).
  assert (A : is_integer (nth i z (f0 (binary64 ci cu))) (nth i m 0%Z) /\ (Z.abs (nth i m 0%Z) <= B)%Z).
  { clear K. revert n i L Hi. induction H as [|x v z m Hx H IH]; intros n i L Hi; cbn [length] in L; [lia|].
    inversion HB as [|? ? B1 B2]; subst. destruct i as [|i]; cbn [nth]; [auto|]. apply (IH B2 (length m) i eq_refl). lia. }
  destruct A as [[A1 A2] A3]. rewrite <- A2. split; [apply approx_exact, A1|]. rewrite A2, <- abs_IZR. apply IZR_le, A3.
Qed.
Lemma back ci cu k z m : (1 <= k <= 10)%nat -> length m = (2 ^ k)%nat -> Forall2 is_integer z m ->
  Forall (fun v => (Z.abs v <= 2 ^ 30)%Z) m ->
  exists v g, FFT (binary64 ci cu) (roots_dict (binary64 ci cu)) z = Ok v /\
    IFFT (binary64 ci cu) (roots_dict (binary64 ci cu)) v = Ok g /\ RoundAll (binary64 ci cu) g = m.
Proof.
  intros Hk L H HB.
  destruct (round_trip ci cu k (IZR (2 ^ 30)) z (map IZR m) Hk) as (F & g & E1 & E2 & N).
  - rewrite <- cap_pow. unfold cap. split; apply IZR_le; lia.
  - apply ints_near; auto.
  - exists F, g. split; [exact E1|]. split; [exact E2|]. unfold RoundAll. apply (near_round ci cu _ _ _ _ _ N).
    + pose proof (INR_le10 k Hk) as K. pose proof (pow2_pos k) as PP. pose proof (pow2_le1024 k ltac:(lia)) as PL.
      assert (A : INR k * 2 ^ k <= 10 * 1024) by (apply Rmult_le_compat; lra).
      replace (70 * INR k * 2 ^ k * IZR (2 ^ 30) * u53) with (INR k * 2 ^ k * (70 * IZR (2 ^ 30) * u53)) by ring.
      apply Rle_lt_trans with (10 * 1024 * (70 * IZR (2 ^ 30) * u53)).
      * apply Rmult_le_compat_r; [|exact A]. unfold u53. change (2 ^ 30)%Z with 1073741824%Z. lra.
      * unfold u53. change (2 ^ 30)%Z with 1073741824%Z. lra.
    + pose proof (pow2_le1024 k ltac:(lia)) as PL. pose proof (pow2_pos k).
      apply Rle_trans with (1024 * IZR (2 ^ 30)); [apply Rmult_le_compat_r; [apply IZR_le|]; lra || lia|].
      rewrite <- mult_IZR. apply IZR_le. lia.
Qed.
(** IFFT and RoundAll recover those integers when they are at most 2^30 in
    absolute value. *)
Theorem C93_recovered : forall ci cu k z m w, (1 <= k <= 10)%nat ->
  let FO := binary64 ci cu in
  length m = (2 ^ k)%nat -> Forall2 is_integer z m -> Forall (fun v => (Z.abs v <= 2 ^ 30)%Z) m ->
  FFT FO (roots_dict FO) z = Ok w ->
  exists g, IFFT FO (roots_dict FO) w = Ok g /\ RoundAll FO g = m.
Proof.
  cbv zeta. intros ci cu k z m w Hk L H HB E.
  destruct (back ci cu k z m Hk L H HB) as (v & g & E1 & E2 & E3). rewrite E in E1. apply Ok_inj in E1. subst v. exists g. auto.
Qed.
Print Assumptions C93_recovered.

(** ** FfSamplingFFT *)
Lemma perm_halves (z : list Z) m : length z = (2 * m)%nat -> Permutation (evens 0%Z z ++ odds 0%Z z) z.
Proof.
  intros L. rewrite <- (interleave_evens_odds 0%Z z m L) at 3.
  assert (La : length (evens 0%Z z) = m) by (rewrite evens_length, L, Nat.mul_comm, Nat.div_mul; lia).
  assert (Lb : length (odds 0%Z z) = m) by (rewrite odds_length, L, Nat.mul_comm, Nat.div_mul; lia).
  generalize dependent (evens 0%Z z). generalize dependent (odds 0%Z z). clear z L. intros b Lb a La.
  revert a b La Lb. induction m as [|m IH]; intros a b La Lb.
  - destruct a; [|discriminate La]. destruct b; [|discriminate Lb]. constructor.
  - destruct a as [|x a]; [discriminate La|]. destruct b as [|y b]; [discriminate Lb|]. injection La as La. injection Lb as Lb.
    unfold interleave. cbn [seq map concat nth app]. rewrite <- seq_shift, map_map. cbn [nth].
    constructor. rewrite <- Permutation_middle. constructor. exact (IH a b La Lb).
Qed.
Lemma draw_perm k : forall z0 z1, length z0 = (2 ^ k)%nat -> length z1 = (2 ^ k)%nat ->
  Permutation (draw_order k z0 z1) (z0 ++ z1).
Proof.
  induction k as [|k IH]; intros z0 z1 L0 L1; [apply Permutation_refl|]. cbn [draw_order].
  assert (HL : forall z : list Z, length z = (2 ^ S k)%nat -> length (evens 0%Z z) = (2 ^ k)%nat /\ length (odds 0%Z z) = (2 ^ k)%nat).
  { intros z L. rewrite evens_length, odds_length, L, pow2_S, Nat.mul_comm, Nat.div_mul; lia. }
  destruct (HL z0 L0), (HL z1 L1). rewrite (IH _ _), (IH _ _) by assumption.
  rewrite (perm_halves z1 (2 ^ k)), (perm_halves z0 (2 ^ k)) by assumption. apply Permutation_app_comm.
Qed.
Lemma sampler_int8 FO rb sf : forall s r dss ccs k z k', sampler_loop FO rb sf s r dss ccs k = Ok (z, k') -> (- 128 <= z <= 127)%Z.
Proof.
  induction sf as [|sf IH]; intros s r dss ccs k z k' E; cbn [sampler_loop] in E; [discriminate|].
  destruct (generateAndSplitRandBytes rb k) as [[[fb sb] tb]| | |]; cbn [bind] in E; try discriminate.
  destruct (sampler_round FO r dss ccs fb sb tb) as [[v a]| | |]; cbn [bind fst snd] in E; try discriminate.
  destruct a; [|exact (IH _ _ _ _ _ _ _ E)]. apply Ok_inj in E. injection E as <- _. unfold wrap8, wrap. lia.
Qed.
Lemma drawn_int8 FO rb sf sigmin (T : FFTtree FO) : forall mus zs c c',
  drawn (fun mu c z c' => exists v, idx (t_Value FO T) 0 = Ok v /\ Samplerz FO rb sf mu (fst v) sigmin c = Ok (z, c')) c mus zs c' ->
  Forall (fun z => (- 128 <= z <= 127)%Z) zs.
Proof.
  induction mus as [|mu mus IH]; intros [|z zs] c c' H; cbn [drawn] in H; try tauto; [constructor|].
  destruct H as (c1 & (v & _ & E) & H). constructor; [|exact (IH _ _ _ H)]. unfold Samplerz in E. exact (sampler_int8 _ _ _ _ _ _ _ _ _ _ E).
Qed.

(** What FfSamplingFFT returns: the transforms of two polynomials whose
    coefficients are int8 numbers, drawn by the 2n calls of the sampler in a fixed
    order; and IFFT followed by RoundAll gives them back. *)
Theorem C93_sampling : forall ci cu rb sf sigmin T k fuel t0 t1 c r c', (1 <= k <= 10)%nat ->
  let FO := binary64 ci cu in
  length t0 = (2 ^ k)%nat -> length t1 = (2 ^ k)%nat ->
  FfSamplingFFT FO (roots_dict FO) rb sf sigmin T fuel [t0; t1] c = Ok (r, c') ->
  exists (m0 m1 : list Z) w0 w1 g0 g1 mus, r = [w0; w1] /\
    length m0 = (2 ^ k)%nat /\ length m1 = (2 ^ k)%nat /\
    Forall (fun z => (- 128 <= z <= 127)%Z) m0 /\ Forall (fun z => (- 128 <= z <= 127)%Z) m1 /\
    FFT FO (roots_dict FO) (map b_of_int m0) = Ok w0 /\ FFT FO (roots_dict FO) (map b_of_int m1) = Ok w1 /\
    IFFT FO (roots_dict FO) w0 = Ok g0 /\ RoundAll FO g0 = m0 /\
    IFFT FO (roots_dict FO) w1 = Ok g1 /\ RoundAll FO g1 = m1 /\
    Permutation (draw_order k m0 m1) (m0 ++ m1) /\
    drawn (fun mu c z c' => exists v, idx (t_Value FO T) 0 = Ok v /\ Samplerz FO rb sf mu (fst v) sigmin c = Ok (z, c'))
      c mus (draw_order k m0 m1) c'.
Proof.
  cbv zeta. intros ci cu rb sf sigmin T k fuel t0 t1 c r c' Hk L0 L1 E.
  destruct (samp_merged (binary64 ci cu) b_add_comm rb sf sigmin T k ltac:(lia) fuel t0 t1 c r c' L0 L1 E) as (m0 & m1 & w0 & w1 & mus & -> & M0 & M1 & D).
  pose proof (merged_length _ _ _ _ M0) as K0. pose proof (merged_length _ _ _ _ M1) as K1. rewrite map_length in K0, K1.
  pose proof (draw_perm k m0 m1 K0 K1) as PM.
  pose proof (drawn_int8 _ _ _ _ _ _ _ _ _ D) as I8. rewrite PM in I8. apply Forall_app in I8. destruct I8 as [I0 I1].
  apply (merged_FFT (binary64 ci cu) b_add_comm b_const_0 b_const_1 k) in M0, M1; try lia.
  assert (IN : forall m, Forall (fun z => (- 128 <= z <= 127)%Z) m -> Forall2 is_integer (map b_of_int m) m).
  { intros m H. induction H as [|z m Hz H IH]; [constructor|]. constructor; [|exact IH].
    destruct (of_int_exact z ltac:(lia)) as [V F1]. split; assumption. }
  assert (BD : forall m, Forall (fun z => (- 128 <= z <= 127)%Z) m -> Forall (fun v => (Z.abs v <= 2 ^ 30)%Z) m).
  { intros m H. eapply Forall_impl; [|exact H]. cbv beta. intros a Ha. lia. }
  destruct (C93_recovered ci cu k _ m0 w0 Hk K0 (IN _ I0) (BD _ I0) M0) as (g0 & G0 & R0).
  destruct (C93_recovered ci cu k _ m1 w1 Hk K1 (IN _ I1) (BD _ I1) M1) as (g1 & G1 & R1).
  exists m0, m1, w0, w1, g0, g1, mus. auto 15.
Qed.
Print Assumptions C93_sampling.

(** at degree 4, with the tree of the identity and non-integer targets *)
Definition C93_fin (w : list (b64 * b64)) : bool := forallb (fun z => is_finite (fst z) && is_finite (snd z))%bool w.
Lemma C93_fin_ok w : C93_fin w = true -> Forall cfin w.
Proof.
  intros H. apply Forall_forall. intros z Hz. unfold C93_fin in H. rewrite forallb_forall in H.
  specialize (H z Hz). apply Bool.andb_true_iff in H. exact H.
Qed.
Definition C93_target (ci cu : b64 -> Z) (l : list Z) : list (cplx (binary64 ci cu)) :=
  map (fun z => (b_const z 1, b_const z 2)) l.
Definition C93_tree (ci cu : b64 -> Z) : list (iface (binary64 ci cu)) :=
  let z := c_real (binary64 ci cu) (b_const 3 1) in
  let leaf := ITree [IPoly [z; z]; ITree []; ITree []] in
  [IPoly [z; z; z; z]; leaf; leaf].
Example C93_nonvacuous : forall ci cu,
  let FO := binary64 ci cu in
  let t0 := C93_target ci cu [17; 25; 38; 41]%Z in let t1 := C93_target ci cu [-12; 77; 5; 113]%Z in
  shaped FO 2 (C93_tree ci cu) /\
  exists w0 w1, FfnpFFT FO (roots_dict FO) 3 [t0; t1] (C93_tree ci cu) = Ok [w0; w1] /\ Forall cfin w0 /\ Forall cfin w1 /\
  exists g0 g1, IFFT FO (roots_dict FO) w0 = Ok g0 /\ IFFT FO (roots_dict FO) w1 = Ok g1 /\
    RoundAll FO g0 = [3; 0; 0; 0]%Z /\ RoundAll FO g1 = [4; -3; 0; 4]%Z.
Proof.
  intros ci cu FO t0 t1. split.
  { unfold C93_tree. eexists _, _, _. split; [reflexivity|]. split; [reflexivity|].
    split; eexists _, _, _; (split; [reflexivity|]; split; [reflexivity|]; split; exact I). }
  assert (C : match FfnpFFT FO (roots_dict FO) 3 [t0; t1] (C93_tree ci cu) with
              | Ok [w0; w1] => match IFFT FO (roots_dict FO) w0, IFFT FO (roots_dict FO) w1 with
                 | Ok g0, Ok g1 => (C93_fin w0 && C93_fin w1, RoundAll FO g0, RoundAll FO g1)
                 | _, _ => (false, [], []) end
              | _ => (false, [], []) end = (true, [3; 0; 0; 0]%Z, [4; -3; 0; 4]%Z)) by (vm_compute; reflexivity).
  destruct (FfnpFFT FO (roots_dict FO) 3 [t0; t1] (C93_tree ci cu)) as [[|w0 [|w1 [|]]]| | |]; try discriminate C.
  destruct (IFFT FO (roots_dict FO) w0) as [g0| | |] eqn:E0; try discriminate C.
  destruct (IFFT FO (roots_dict FO) w1) as [g1| | |] eqn:E1; try discriminate C.
  injection C as C1 C2 C3. apply Bool.andb_true_iff in C1. destruct C1 as [F0 F1].
  exists w0, w1. split; [reflexivity|]. split; [exact (C93_fin_ok _ F0)|]. split; [exact (C93_fin_ok _ F1)|].
  exists g0, g1. auto.
Qed.

(** a run of the sampling at degree 2: the base sampler returns 0 on nine bytes 255 *)
Example C93_sampled : forall ci cu,
  let FO := binary64 ci cu in
  exists w0 w1, FfSamplingFFT FO (roots_dict FO) (fun _ => Some (repeat 255 9 ++ [0; 0])%Z) 1 (f_const FO 12 1)
     {| t_Value := [c_real FO (f_const FO 15 1); c_real FO (f_of_int FO 0)]; t_Leftchild := []; t_Rightchild := [] |}
     2 [[c_real FO (f_of_int FO 5); c_real FO (f_of_int FO 5)]; [c_real FO (f_of_int FO 7); c_real FO (f_of_int FO 7)]] 3
   = Ok ([w0; w1], 7%nat) /\ RoundAll FO (map fst w0) = [5; 5]%Z /\ RoundAll FO (map fst w1) = [7; 7]%Z.
Proof.
  intros ci cu FO.
  match goal with |- exists w0 w1, ?e = _ /\ _ => set (r := e) end.
  assert (C : match r with Ok ([w0; w1], c) => (c, RoundAll FO (map fst w0), RoundAll FO (map fst w1)) | _ => (O, [], []) end
              = (7%nat, [5; 5]%Z, [7; 7]%Z)) by (vm_compute; reflexivity).
  clearbody r. destruct r as [[[|w0 [|w1 [|]]] c]| | |]; try discriminate C. injection C as -> C1 C2. exists w0, w1. auto.
Qed.
