(** The loop of [reduce] (ntrugen.go:143-224) in binary64 arithmetic: it ends, and
    with Babai's rounding, when no coefficient of the best multiplier is near a half. *)
From Coq Require Import Reals Lra Lia ZArith List.
From Flocq Require Import Core BinarySingleNaN.
From Verif Require Import GoBase Util BaseProofs UtilProofs PolyZ Spec Float FftTables Fft FftShape SpecFft SpecBabai ExactReal FftProofs
  RootsProofs RootsTable Binary64 B64Proofs FloatErr FftErr Ntrugen NtruProofs NtruProofs2 NtruProofs3 NtruProps KeyGen Babai GsExact GsBound GsReduce CdivErr FftL1 QuotErr.
Local Open Scope R_scope.

Section Q.
Context (ci cu : b64 -> Z).
Notation FO := (binary64 ci cu).
Context (k : nat) (Hk : (1 <= k <= 10)%nat) (f g : list Z).
Notation n := (2 ^ k)%nat.
Notation rf := (map IZR f).
Notation rg := (map IZR g).
Notation roots := (roots_dict FO).
Notation G0 := exact_good.
Context (Lf : length f = n) (Lg : length g = n).
Context (h : list R) (Lh : length h = n) (Inv : rmul n (gram2 n rf rg rf rg) h = rconst n 1).
Context (v : R) (Hv1 : sqnorm n rf + sqnorm n rg <= v) (Hv2 : gs2 exact_roots k rf rg 12289 <= v) (Hv : v <= 17000).
Notation st := (st k f g).
Notation proj := (proj k rf rg).
Notation pot S := (2 ^ (S - 53))%Z.
Notation quo := (reduce_quotient_at FO roots).

Let k1 : (1 <= k)%nat. Proof. lia. Qed.
Let n1 : (1 <= n)%nat. Proof. apply pow2_ge1. Qed.
Let Hv30 : INR n * v <= 1073741824.
Proof.
  pose proof (pow2_1024 k ltac:(lia)). assert (0 <= v) by (pose proof (sqnorm_pos n rf); pose proof (sqnorm_pos n rg); lra).
  assert (INR n * v <= 1024 * 17000) by (apply Rmult_le_compat; auto using pos_INR). lra.
Qed.

(** the shifted coefficients *)
Lemma shift_data F G' S : max_bitsize F G' = Ok S -> exists X, (1 <= X <= 2 ^ 53)%Z /\
  Forall (fun z => (Z.abs z <= X)%Z) (adjust S F) /\ Forall (fun z => (Z.abs z <= X)%Z) (adjust S G') /\
  (X = 1%Z \/ exists w, (In w F \/ In w G') /\ X = Z.abs (w / pot S)) /\
  (S = 53%Z \/ exists y, (In y F \/ In y G') /\ (2 ^ 45 * pot S <= Z.abs y)%Z).
Proof.
  intros ES. destruct (max_bitsize_spec F G' S ES) as (H53 & BND & BIG).
  rewrite (adjust_ok S F), (adjust_ok S G') by (try exact H53; intros; apply BND; auto).
  set (D := pot S) in *. assert (HD : (0 < D)%Z) by (apply Z.pow_pos_nonneg; lia).
  set (dv := fun x => (x / D)%Z) in *. set (A := map dv F) in *. set (B := map dv G') in *.
  assert (E53 : (2 ^ S = 2 ^ 53 * D)%Z) by (unfold D; rewrite <- Z.pow_add_r by lia; f_equal; lia).
  assert (IA : forall x, In x (A ++ B) <-> exists y, (In y F \/ In y G') /\ x = dv y).
  { intros x. rewrite in_app_iff. unfold A, B. rewrite !in_map_iff. split.
    - intros [(y & <- & Hy)|(y & <- & Hy)]; exists y; auto.
    - intros (y & [Hy|Hy] & ->); [left|right]; exists y; auto. }
  assert (AT : zmax (A ++ B) = 1%Z \/ exists w, (In w F \/ In w G') /\ zmax (A ++ B) = Z.abs (dv w)).
  { destruct (zmax_att (A ++ B)) as [EX|(x & Hx & EX)]; [now left|right]. apply IA in Hx. destruct Hx as (y & Hy & ->). eauto. }
  exists (zmax (A ++ B)). split; [|split; [|split; [|split; [exact AT|]]]].
  - split; [apply zmax_ge1|]. destruct AT as [-> |(y & Hy & ->)]; [lia|]. specialize (BND y Hy). unfold dv.
    assert (- 2 ^ 53 <= y / D)%Z by (apply Z.div_le_lower_bound; lia).
    assert (y / D <= 2 ^ 53)%Z by (apply Z.div_le_upper_bound; lia). lia.
  - apply Forall_forall; intros x Hx; apply zmax_ub, in_or_app; auto.
  - apply Forall_forall; intros x Hx; apply zmax_ub, in_or_app; auto.
  - destruct BIG as [BIG|(y & Hy & BY)]; [now left|right]. exists y. split; [exact Hy|].
    replace (2 ^ 45 * D)%Z with (2 ^ (S - 8))%Z; [exact BY|]. unfold D. rewrite <- Z.pow_add_r by lia. f_equal. lia.
Qed.

Lemma size_K F G' c K y : st F G' -> proj (map IZR F) (map IZR G') c -> 0 <= K -> (forall i, (i < n)%nat -> Rabs (nth i c 0) <= K) ->
  In y F \/ In y G' -> Rabs (IZR y) <= 131 + K * 4173.
Proof.
  intros (LF & LG & RN) Pc HK Hc Hy. destruct (sqrt_17000 k Hk f g Lf Lg h Lh v Hv1 Hv) as [Q1 Q2].
  assert (K * sqrt (INR n * v) <= K * 4173) by (apply Rmult_le_compat_l; lra).
  assert (LRF : length (map IZR F) = n) by (now rewrite map_length). assert (LRG : length (map IZR G') = n) by (now rewrite map_length).
  pose proof (size_bound exact_roots G0 k Hk f g Lf Lg h Lh Inv v Hv1 Hv2 (map IZR F) (map IZR G') c K LRF LRG RN Pc HK Hc) as SB.
  destruct Hy as [Hy|Hy]; apply (In_nth _ _ 0%Z) in Hy; destruct Hy as (i & Hi & <-);
    destruct (SB i ltac:(lia)) as [S1 S2]; rewrite nth_IZR in S1, S2; lra.
Qed.

(** one quotient *)
Lemma round_fl F G' c K : st F G' -> proj (map IZR F) (map IZR G') c -> 1 <= K -> (forall i, (i < n)%nat -> Rabs (nth i c 0) <= K) ->
  exists S kk, max_bitsize F G' = Ok S /\ (53 <= S)%Z /\
    quo (adjust 53 f) (adjust 53 g) (adjust S F) (adjust S G') = Ok kk /\ length kk = n /\
    (forall i, (i < n)%nat -> Rabs (nth i c 0 - IZR (pot S) * IZR (nth i kk 0%Z)) <= 501 / 1000 + K / 1000) /\
    (K <= 2 -> S = 53%Z /\ forall i, (i < n)%nat -> Rabs (nth i c 0 - IZR (nth i kk 0%Z)) <= / 2 + / 100000 + K * (74 / 100000)).
Proof.
  intros Hs Pc HK Hc. pose proof Hs as (LF & LG & RN).
  assert (NF : F <> []) by (apply (nonempty_len F n); [exact LF|lia]).
  assert (NG : G' <> []) by (apply (nonempty_len G' n); [exact LG|lia]).
  destruct (max_bitsize_Ok F G' NF NG) as (S & ES). exists S.
  destruct (max_bitsize_spec F G' S ES) as (H53 & _).
  destruct (quo_proj exact_roots G0 k Hk f g Lf Lg h Lh Inv v Hv1 Hv2 Hv30 F G' S c Hs ES Pc) as (c' & Pc' & _ & Lc' & Cc & C53).
  destruct (adjust_fg k Hk f g Lf Lg h Lh v Hv1 Hv30) as [AF AG]. rewrite AF, AG.
  destruct (shift_data F G' S ES) as (X & HX & HA & HB & AT & BIG).
  destruct (quo_close ci cu k Hk f g Lf Lg h Lh Inv v Hv1 Hv2 Hv (adjust S F) (adjust S G') c' X) as (kk & EQ & Lk & Q); auto;
    try (unfold adjust; rewrite map_length; assumption).
  exists kk. split; [exact ES|]. split; [exact H53|]. split; [exact EQ|]. split; [exact Lk|].
  set (D := pot S) in *. assert (HD : (1 <= D)%Z) by (pose proof (Z.pow_pos_nonneg 2 (S - 53)); lia).
  assert (RD : 1 <= IZR D) by (apply (IZR_le 1); exact HD).
  assert (SZ : forall y, In y F \/ In y G' -> Rabs (IZR y) <= 131 + K * 4173) by (intros y; apply (size_K F G' c K y Hs Pc ltac:(lra) Hc)).
  assert (DX : IZR D * IZR X <= 131 + K * 4173 + IZR D).
  { destruct AT as [-> |(w & Hw & ->)]; [lra|]. specialize (SZ w Hw). rewrite abs_IZR.
    destruct (div_frac w D ltac:(lia)) as (e & He & Ew). rewrite Ew in SZ.
    replace (IZR D * Rabs (IZR (w / D))) with (Rabs (IZR D * (IZR (w / D) + e) - IZR D * e)).
    2: { replace (IZR D * (IZR (w / D) + e) - IZR D * e) with (IZR D * IZR (w / D)) by ring. rewrite Rabs_mult, (Rabs_pos_eq (IZR D)); lra. }
    set (a := IZR D * (IZR (w / D) + e)) in *.
    assert (0 <= IZR D * e <= IZR D * 1) by (split; [apply Rmult_le_pos|apply Rmult_le_compat_l]; lra).
    apply abs_inv in SZ. apply Rabs_le. lra. }
  assert (S53 : S = 53%Z -> D = 1%Z) by (intros ->; reflexivity).
  assert (C1' : S = 53%Z -> forall i, (i < n)%nat -> Rabs (nth i c 0 - IZR (nth i kk 0%Z)) <= / 2 + / 100000 + K * (74 / 100000)).
  { intros E i Hi. rewrite (S53 E) in DX. rewrite (C53 E) in Q. destruct (Q K HK Hc i Hi) as (y & Y1 & Y2).
    apply abs_inv in Y1. apply abs_inv in Y2. apply Rabs_le. lra. }
  split.
  - intros i Hi. destruct BIG as [E|(y & Hy & BY)].
    + rewrite (S53 E), Rmult_1_l. eapply Rle_trans; [apply (C1' E i Hi)|]. lra.
    + specialize (SZ y Hy). apply IZR_le in BY. rewrite abs_IZR, mult_IZR in BY. change (2 ^ 45)%Z with 35184372088832%Z in BY.
      assert (KK : forall j, (j < n)%nat -> Rabs (nth j c' 0) <= K / IZR D + 128).
      { intros j Hj. specialize (Cc j Hj). specialize (Hc j Hj). apply Rmult_le_reg_l with (IZR D); [lra|].
        replace (IZR D * (K / IZR D + 128)) with (K + IZR D * 128) by (field; lra).
        replace (IZR D * Rabs (nth j c' 0)) with (Rabs (nth j c 0 - (nth j c 0 - IZR D * nth j c' 0))).
        - apply abs_inv in Cc. apply abs_inv in Hc. apply Rabs_le. lra.
        - replace (nth j c 0 - (nth j c 0 - IZR D * nth j c' 0)) with (IZR D * nth j c' 0) by ring.
          rewrite Rabs_mult, (Rabs_pos_eq (IZR D)); lra. }
      assert (KD : 0 <= K / IZR D) by (apply Rmult_le_pos; [lra|]; left; apply Rinv_0_lt_compat; lra).
      destruct (Q (K / IZR D + 128) ltac:(lra) KK i Hi) as (z & Y1 & Y2). specialize (Cc i Hi).
      assert (T1 : Rabs (IZR D * (z - nth i c' 0)) <= (IZR D * IZR X) * (72 / 1000000000) + (K + 128 * IZR D) * (437 / 1000000)).
      { rewrite Rabs_mult, (Rabs_pos_eq (IZR D)) by lra.
        replace (IZR D * IZR X * (72 / 1000000000) + (K + 128 * IZR D) * (437 / 1000000))
          with (IZR D * (IZR X * (72 / 1000000000) + (K / IZR D + 128) * (437 / 1000000))) by (field; lra).
        apply Rmult_le_compat_l; lra. }
      assert (T2 : Rabs (IZR D * (z - IZR (nth i kk 0%Z))) <= IZR D * / 2).
      { rewrite Rabs_mult, (Rabs_pos_eq (IZR D)) by lra. apply Rmult_le_compat_l; lra. }
      apply abs_inv in Cc. apply abs_inv in T1. apply abs_inv in T2. apply Rabs_le. lra.
  - intros K2. assert (E : S = 53%Z).
    { destruct BIG as [E|(y & Hy & BY)]; [exact E|exfalso]. specialize (SZ y Hy). apply IZR_le in BY.
      rewrite abs_IZR, mult_IZR in BY. change (2 ^ 45)%Z with 35184372088832%Z in BY. lra. }
    split; [exact E|]. exact (C1' E).
Qed.

(** one round of the loop *)
Lemma loop_fl fuel F G' c K : st F G' -> proj (map IZR F) (map IZR G') c -> 1 <= K -> (forall i, (i < n)%nat -> Rabs (nth i c 0) <= K) ->
  reduce_loop quo (Datatypes.S fuel) f g 53 F G' = Ok (F, G') \/
  exists F1 G1 c1 zs, st F1 G1 /\ proj (map IZR F1) (map IZR G1) c1 /\
    reduce_loop quo (Datatypes.S fuel) f g 53 F G' = reduce_loop quo fuel f g 53 F1 G1 /\
    (forall i, (i < n)%nat -> nth i c1 0 = nth i c 0 - IZR (nth i zs 0%Z)) /\
    (forall i, (i < n)%nat -> Rabs (nth i c1 0) <= 501 / 1000 + K / 1000) /\
    (K <= 2 -> (forall i, (i < n)%nat -> Rabs (nth i c1 0) <= / 2 + / 100000 + K * (74 / 100000)) /\
      exists i, (i < n)%nat /\ nth i zs 0%Z <> 0%Z).
Proof.
  intros Hs Pc HK Hc. pose proof Hs as (LF & LG & RN).
  destruct (round_fl F G' c K Hs Pc HK Hc) as (S & kk & ES & H53 & EQ & Lkk & B1 & B2).
  cbn [reduce_loop]. rewrite ES. cbn [bind]. destruct (Z.ltb_spec S 53) as [H|_]; [lia|]. rewrite EQ. cbn [bind].
  destruct (AllZeroes kk) eqn:EZ; [now left|right].
  destruct (step exact_roots G0 k Hk f g Lf Lg h Lh F G' S c kk Hs Pc Lkk) as (c1 & Hs1 & Pc1 & E1).
  assert (X : forall i, nth i (map (Z.mul (pot S)) kk) 0%Z = (pot S * nth i kk 0)%Z).
  { intros i. replace 0%Z with (pot S * 0)%Z at 1 by lia. apply map_nth. }
  eexists _, _, c1, (map (Z.mul (pot S)) kk). split; [exact Hs1|]. split; [exact Pc1|]. split; [|split; [|split]].
  - unfold IntToBigInt. rewrite !(karamul_cases k) by assumption. rewrite Lkk, Nat.leb_refl. cbn [bind].
    rewrite Lf, !sub_shifted_ok by (try lia; try assumption; apply negacyc_length). cbn [bind]. reflexivity.
  - intros i Hi. rewrite E1, X, mult_IZR by exact Hi. reflexivity.
  - intros i Hi. rewrite E1 by exact Hi. apply B1, Hi.
  - intros K2. destruct (B2 K2) as [S53 B3]. subst S. split.
    + intros i Hi. rewrite E1 by exact Hi. change (IZR (pot 53)) with 1. rewrite Rmult_1_l. apply B3, Hi.
    + destruct (Forall_dec (fun x => x = 0%Z) (fun x => Z.eq_dec x 0) kk) as [A|A].
      { apply AllZeroes_spec in A. congruence. }
      apply (neg_Forall_Exists_neg (fun x => Z.eq_dec x 0)) in A.
      apply Exists_exists in A. destruct A as (x & Ix & Nx). apply (In_nth _ _ 0%Z) in Ix. destruct Ix as (i & Hi & <-).
      exists i. split; [lia|]. rewrite X. change (pot 53) with 1%Z. lia.
Qed.

(** no coefficient within 1/1000 of a half *)
Definition far (c : list R) : Prop := forall i z, (i < n)%nat -> / 1000 <= Rabs (nth i c 0 - (IZR z + / 2)).
Lemma far_sub c c1 zs : (forall i, (i < n)%nat -> nth i c1 0 = nth i c 0 - IZR (nth i zs 0%Z)) -> far c -> far c1.
Proof.
  intros H Fc i z Hi. rewrite H by exact Hi. replace (nth i c 0 - IZR (nth i zs 0%Z) - (IZR z + / 2))
    with (nth i c 0 - (IZR (z + nth i zs 0%Z) + / 2)) by (rewrite plus_IZR; ring). apply Fc, Hi.
Qed.
Lemma far_half c i : far c -> (i < n)%nat -> Rabs (nth i c 0) < 501 / 1000 -> Rabs (nth i c 0) <= 499 / 1000.
Proof.
  intros Fc Hi H. pose proof (Fc i 0%Z Hi) as A. pose proof (Fc i (-1)%Z Hi) as B. set (x := nth i c 0) in *.
  apply Rabs_def2 in H. destruct H as [H1 H2].
  apply Rabs_le. revert A B. unfold Rabs. destruct (Rcase_abs (x - (0 + / 2))), (Rcase_abs (x - (-1 + / 2))); intros; lra.
Qed.

Lemma loop_ends m : forall fuel F G' c, st F G' -> proj (map IZR F) (map IZR G') c -> far c ->
  (forall i, (i < n)%nat -> Rabs (nth i c 0) <= 2 ^ m) -> (m + 3 <= fuel)%nat ->
  exists FG, reduce_loop quo fuel f g 53 F G' = Ok FG.
Proof.
  assert (Z0 : forall fuel F G' c, st F G' -> proj (map IZR F) (map IZR G') c ->
    (forall i, (i < n)%nat -> Rabs (nth i c 0) <= 499 / 1000) -> (1 <= fuel)%nat -> exists FG, reduce_loop quo fuel f g 53 F G' = Ok FG).
  { intros [|fuel] F G' c Hs Pc Hc Hf; [lia|].
    destruct (loop_fl fuel F G' c 1 Hs Pc ltac:(lra)) as [E|(F1 & G1 & c1 & zs & _ & _ & _ & HZ & _ & H)]; [|eauto|].
    { intros i Hi. specialize (Hc i Hi). lra. }
    exfalso. destruct (H ltac:(lra)) as (B & i & Hi & Nz). specialize (B i Hi). rewrite HZ in B by exact Hi. specialize (Hc i Hi).
    apply abs_inv in B. apply abs_inv in Hc. apply Nz.
    assert (IZR (nth i zs 0%Z) < 1) by lra. assert (-1 < IZR (nth i zs 0%Z)) by lra.
    apply lt_IZR in H0. apply lt_IZR in H1. lia. }
  assert (Z1 : forall fuel F G' c, st F G' -> proj (map IZR F) (map IZR G') c -> far c ->
    (forall i, (i < n)%nat -> Rabs (nth i c 0) <= 1) -> (2 <= fuel)%nat -> exists FG, reduce_loop quo fuel f g 53 F G' = Ok FG).
  { intros [|fuel] F G' c Hs Pc Fc Hc Hf; [lia|].
    destruct (loop_fl fuel F G' c 1 Hs Pc ltac:(lra) Hc) as [E|(F1 & G1 & c1 & zs & Hs1 & Pc1 & E & HZ & _ & H)]; [eauto|].
    destruct (H ltac:(lra)) as (B & _). rewrite E. apply (Z0 fuel F1 G1 c1 Hs1 Pc1); [|lia].
    intros i Hi. apply (far_half c1 i); [exact (far_sub c c1 zs HZ Fc)|exact Hi|]. specialize (B i Hi). lra. }
  induction m as [|m IH]; intros [|fuel] F G' c Hs Pc Fc Hc Hf; try lia.
  - apply (Z1 _ F G' c); auto. lia.
  - assert (P1 : 1 <= 2 ^ m) by apply FftErr.pow2_pos.
    destruct (loop_fl fuel F G' c (2 ^ S m) Hs Pc ltac:(cbn; lra) Hc) as [E|(F1 & G1 & c1 & zs & Hs1 & Pc1 & E & HZ & B & _)]; [eauto|].
    rewrite E. apply (IH fuel F1 G1 c1 Hs1 Pc1 (far_sub c c1 zs HZ Fc)); [|lia].
    intros i Hi. specialize (B i Hi). cbn [pow] in B. lra.
Qed.
Lemma loop_ends' F G' c : st F G' -> proj (map IZR F) (map IZR G') c -> far c ->
  exists fuel0, forall fuel, (fuel0 <= fuel)%nat -> exists FG, reduce quo fuel f g F G' = Ok FG.
Proof.
  intros Hs Pc Fc. set (x := rmax c). pose proof (rmax_ge1 c) as X1. fold x in X1.
  set (m := Z.to_nat (up x)). exists (m + 3)%nat. intros fuel Hf.
  unfold reduce. rewrite (max_fg k Hk f g Lf Lg h Lh v Hv1 Hv30). cbn [bind].
  apply (loop_ends m fuel F G' c Hs Pc Fc); [|exact Hf]. intros i _. apply Rle_trans with (1 := rmax_ub c i). fold x.
  destruct (archimed x) as [U1 U2]. assert (U : (1 < up x)%Z) by (apply lt_IZR; lra).
  apply Rle_trans with (INR m).
  - unfold m. rewrite INR_IZR_INZ, Z2Nat.id by lia. lra.
  - rewrite <- INR_pow2. apply le_INR. pose proof (Nat.pow_gt_lin_r 2 m). lia.
Qed.
End Q.
