(** Facts about the binary64 instance, and the sign of berexp's argument. *)
From Coq Require Import Reals Lra Lia ZArith List.
From Flocq Require Import Core BinarySingleNaN.
From Verif Require Import GoBase BaseProofs Float Samplerz Binary64 SamplerProofs.
Local Open Scope R_scope.

Notation fexp64 := (SpecFloat.fexp 53 1024).
Definition rnd (x : R) : R := round radix2 fexp64 (round_mode mode_NE) x.

#[global] Instance valid_fexp64 : Valid_exp fexp64 := fexp_correct 53 1024 _.
#[global] Instance mono_fexp64 : Monotone_exp fexp64 := fexp_monotone 53 1024.

Lemma rnd_le a b : a <= b -> rnd a <= rnd b.
Proof. apply round_le; auto with typeclass_instances. Qed.
Lemma rnd_0 : rnd 0 = 0.
Proof. apply round_0; auto with typeclass_instances. Qed.
Lemma rnd_id x : generic_format radix2 fexp64 x -> rnd x = x.
Proof. apply round_generic; auto with typeclass_instances. Qed.

Lemma format_scaled (m e : Z) : (Z.abs m < 2 ^ 53)%Z -> (-1074 <= e)%Z ->
  generic_format radix2 fexp64 (IZR m * bpow radix2 e).
Proof.
  intros Hm He.
  assert (FLT_format radix2 (-1074) 53 (IZR m * bpow radix2 e)) as A.
  { exists (Float radix2 m e); [reflexivity|exact Hm|exact He]. }
  apply generic_format_FLT in A. exact A.
Qed.
Lemma format_int (m : Z) : (Z.abs m < 2 ^ 53)%Z -> generic_format radix2 fexp64 (IZR m).
Proof.
  intros H. replace (IZR m) with (IZR m * bpow radix2 0) by (cbn; ring).
  apply format_scaled; lia.
Qed.
Lemma B2R_format (x : b64) : generic_format radix2 fexp64 (B2R x).
Proof. apply (generic_format_B2R 53 1024 x). Qed.
Lemma rnd_B2R (x : b64) : rnd (B2R x) = B2R x.
Proof. apply rnd_id, B2R_format. Qed.

Lemma max_bound x (y : Z) : Rabs x <= IZR y -> (0 <= y < 2 ^ 53)%Z ->
  Rlt_bool (Rabs (rnd x)) (bpow radix2 1024) = true.
Proof.
  intros H Hy. apply Rlt_bool_true.
  apply Rle_lt_trans with (IZR y).
  - apply abs_round_le_generic; auto with typeclass_instances.
    apply format_int. rewrite Z.abs_eq; lia.
  - apply Rlt_trans with (IZR (2 ^ 53)); [apply IZR_lt; lia|].
    change (2 ^ 53)%Z with (Zpower radix2 53). rewrite IZR_Zpower by lia. now apply bpow_lt.
Qed.

Lemma of_int_exact z : (Z.abs z < 2 ^ 53)%Z ->
  B2R (b_of_int z) = IZR z /\ is_finite (b_of_int z) = true.
Proof.
  intros H. unfold b_of_int.
  pose proof (binary_normalize_correct 53 1024 _ _ mode_NE z 0 false) as A. cbv zeta in A.
  replace (F2R (Float radix2 z 0)) with (IZR z) in A by (unfold F2R; cbn; ring).
  assert (E : round radix2 fexp64 (round_mode mode_NE) (IZR z) = IZR z) by (apply rnd_id, format_int, H).
  rewrite E in A. rewrite Rlt_bool_true in A.
  - destruct A as (A & B & _). split; assumption.
  - rewrite <- abs_IZR. change (bpow radix2 1024) with (bpow radix2 1024).
    apply Rlt_trans with (IZR (2 ^ 53)); [apply IZR_lt; lia|].
    change (2 ^ 53)%Z with (Zpower radix2 53). rewrite IZR_Zpower by lia. now apply bpow_lt.
Qed.

(** ** Values bounded below: NaN, +infinity or a finite value at least v *)
Definition ok (v : R) (x : b64) : Prop :=
  x = B754_nan \/ x = B754_infinity false \/ (is_finite x = true /\ v <= B2R x).

Lemma ok_le v w x : w <= v -> ok v x -> ok w x.
Proof. intros H [A|[A|[A B]]]; [left|right; left|right; right]; auto. split; [assumption|lra]. Qed.

Lemma sign_pos (x : b64) : 0 < B2R x -> Bsign x = false.
Proof.
  destruct x as [s|s| |s m e H]; cbn -[F2R]; intros; try lra.
  destruct s; [|reflexivity]. exfalso. cbn -[F2R] in *.
  assert (F2R (Float radix2 (Zneg m) e) < 0) by (apply F2R_lt_0; reflexivity). lra.
Qed.

Lemma sign_neg (x : b64) : B2R x < 0 -> Bsign x = true.
Proof.
  destruct x as [s|s| |s m e H]; cbn -[F2R]; intros; try lra.
  destruct s; [reflexivity|]. exfalso. cbn -[F2R] in *.
  assert (0 < F2R (Float radix2 (Zpos m) e)) by (apply F2R_gt_0; reflexivity). lra.
Qed.

Lemma mul_ok a b x y : 0 <= a -> 0 <= b -> ok a x -> ok b y -> ok (rnd (a * b)) (b_mul x y).
Proof.
  intros Ha Hb Hx Hy. unfold b_mul.
  destruct Hx as [->|[->|[Fx Hx]]]; [left; destruct y; reflexivity| |].
  - destruct Hy as [->|[->|[Fy Hy]]]; [left; reflexivity|right; left; reflexivity|].
    destruct y as [s|s| |s m e H]; try discriminate; [left; reflexivity|].
    destruct s; [|right; left; reflexivity]. exfalso. cbn -[F2R] in Hy.
    assert (F2R (Float radix2 (Zneg m) e) < 0) by (apply F2R_lt_0; reflexivity). lra.
  - destruct Hy as [->|[->|[Fy Hy]]]; [left; destruct x; reflexivity| |].
    + destruct x as [s|s| |s m e H]; try discriminate; [left; reflexivity|].
      destruct s; [|right; left; reflexivity]. exfalso. cbn -[F2R] in Hx.
      assert (F2R (Float radix2 (Zneg m) e) < 0) by (apply F2R_lt_0; reflexivity). lra.
    + pose proof (Bmult_correct 53 1024 _ _ mode_NE x y) as A.
      change (round radix2 fexp64 (round_mode mode_NE) (B2R x * B2R y)) with (rnd (B2R x * B2R y)) in A.
      revert A. case Rlt_bool_spec; intros C A.
      * destruct A as (A1 & A2 & _). right; right. rewrite A2, Fx, Fy, A1. split; [reflexivity|].
        apply rnd_le. apply Rmult_le_compat; assumption.
      * right; left.
        assert (Bsign x = false /\ Bsign y = false) as [S1 S2].
        { destruct (Rle_lt_or_eq_dec 0 (B2R x)) as [P|P]; [lra| |];
            [|exfalso; rewrite <- P, Rmult_0_l, rnd_0, Rabs_R0 in C; pose proof (bpow_gt_0 radix2 1024); lra].
          destruct (Rle_lt_or_eq_dec 0 (B2R y)) as [P'|P']; [lra| |];
            [|exfalso; rewrite <- P', Rmult_0_r, rnd_0, Rabs_R0 in C; pose proof (bpow_gt_0 radix2 1024); lra].
          split; apply sign_pos; assumption. }
        rewrite S1, S2 in A. cbn in A.
        destruct (Bmult mode_NE x y); cbn in A; try discriminate. now inversion A.
Qed.

Lemma inv_ok d (y : b64) : is_finite y = true -> Bsign y = false -> B2R y <= d -> 0 < d ->
  ok (rnd (1 / d)) (b_div (b_of_int 1) y).
Proof.
  intros Fy Sy Hy Hd. destruct (of_int_exact 1 ltac:(lia)) as [E1 F1].
  destruct y as [s|s| |s m e H]; try discriminate.
  - cbn in Sy. subst s. right; left. reflexivity.
  - cbn in Sy. subst s. set (y := B754_finite false m e H) in *.
    assert (P : 0 < B2R y) by (apply F2R_gt_0; reflexivity).
    pose proof (Bdiv_correct 53 1024 _ _ mode_NE (b_of_int 1) y ltac:(lra)) as A.
    rewrite E1 in A.
    change (round radix2 fexp64 (round_mode mode_NE) (1 / B2R y)) with (rnd (1 / B2R y)) in A.
    revert A. case Rlt_bool_spec; intros C A.
    + destruct A as (A1 & A2 & _). right; right. unfold b_div. rewrite A1, A2. split; [exact F1|].
      apply rnd_le. unfold Rdiv. rewrite !Rmult_1_l. apply Rinv_le; assumption.
    + right; left. rewrite (sign_pos (b_of_int 1)) in A by lra. change (Bsign y) with false in A.
      cbn [xorb] in A. unfold b_div. change (binary_overflow 53 1024 mode_NE false) with (SpecFloat.S754_infinity false) in A.
      destruct (Bdiv mode_NE (b_of_int 1) y); cbn in A; try discriminate. now inversion A.
Qed.

Lemma sub_ok v (x y : b64) : ok v x -> is_finite y = true -> B2R y <= v -> ok 0 (b_sub x y).
Proof.
  intros Hx Fy Hy. unfold b_sub.
  destruct Hx as [->|[->|[Fx Hx]]]; [left; destruct y; reflexivity|right; left; destruct y; try discriminate; reflexivity|].
  pose proof (Bminus_correct 53 1024 _ _ mode_NE x y Fx Fy) as A.
  change (round radix2 fexp64 (round_mode mode_NE) (B2R x - B2R y)) with (rnd (B2R x - B2R y)) in A.
  revert A. case Rlt_bool_spec; intros C A.
  - destruct A as (A1 & A2 & _). right; right. rewrite A1, A2. split; [reflexivity|].
    rewrite <- rnd_0. apply rnd_le. lra.
  - right; left. destruct A as [A S].
    assert (Sx : Bsign x = false).
    { destruct (Bsign x) eqn:E; [|reflexivity]. exfalso.
      assert (B2R x <= 0).
      { destruct (Rle_lt_dec (B2R x) 0); [assumption|]. apply sign_pos in r. congruence. }
      assert (0 <= B2R y).
      { destruct (Rle_lt_dec 0 (B2R y)); [assumption|]. exfalso.
        rewrite (sign_neg y) in S by assumption. discriminate. }
      replace (B2R x - B2R y) with 0 in C by lra. rewrite rnd_0, Rabs_R0 in C.
      pose proof (bpow_gt_0 radix2 1024). lra. }
    rewrite Sx in A. change (binary_overflow 53 1024 mode_NE false) with (SpecFloat.S754_infinity false) in A.
    destruct (Bminus mode_NE x y); cbn in A; try discriminate. now inversion A.
Qed.

Lemma sqr_ok (x : b64) (z : Z) : is_finite x = true -> (0 <= z <= 18)%Z -> IZR z <= Rabs (B2R x) ->
  ok (IZR (z * z)) (b_sqr x).
Proof.
  intros Fx Hz Hx. unfold b_sqr.
  destruct x as [s|s| |s m e H]; try discriminate.
  - cbn in Hx. rewrite Rabs_R0 in Hx. apply (le_IZR _ 0) in Hx. replace z with 0%Z by lia.
    right; right. split; [reflexivity|]. cbn. lra.
  - set (x := B754_finite s m e H) in *.
    pose proof (Bfrexp_correct 53 1024 _ x eq_refl) as A.
    destruct (Bfrexp x) as [fr ex]. destruct A as [A B]. destruct (B eq_refl) as [B1 _]. clear B.
    pose proof (Bmult_correct 53 1024 _ _ mode_NE fr fr) as M.
    change (round radix2 fexp64 (round_mode mode_NE) (B2R fr * B2R fr)) with (rnd (B2R fr * B2R fr)) in M.
    assert (S1 : / 4 <= B2R fr * B2R fr <= 1).
    { rewrite <- (Rabs_pos_eq (B2R fr * B2R fr)), Rabs_mult by apply Rle_0_sqr. nra. }
    rewrite (max_bound _ 1) in M by (try lia; rewrite Rabs_pos_eq by lra; lra).
    destruct M as (M1 & M2 & M3).
    assert (Ffr : is_finite fr = true).
    { destruct fr; try reflexivity; cbn in B1; rewrite Rabs_R0 in B1; lra. }
    rewrite Ffr in M2. cbn [andb] in M2.
    assert (Sg : Bsign (Bmult mode_NE fr fr) = false).
    { rewrite M3; [apply Bool.xorb_nilpotent|]. destruct (Bmult mode_NE fr fr); try reflexivity; discriminate. }
    fold (b_mul fr fr) in *. set (p := b_mul fr fr) in *.
    assert (P4 : / 4 <= B2R p).
    { rewrite M1. replace (/ 4) with (rnd (/ 4)); [apply rnd_le; lra|]. apply rnd_id.
      replace (/ 4) with (IZR 1 * bpow radix2 (-2)) by (change (bpow radix2 (-2)) with (/ 4); ring). apply format_scaled; lia. }
    pose proof (bpow_gt_0 radix2 ex) as Pe.
    (* the product before the last rounding *)
    assert (Q : IZR (z * z) <= B2R p * bpow radix2 (2 * ex)).
    { destruct (Z.eq_dec z 0) as [->|Nz].
      { change (0 * 0)%Z with 0%Z. apply Rmult_le_pos; [lra|apply bpow_ge_0]. }
      destruct (Z_lt_le_dec 5 ex) as [L|L].
      - apply Rle_trans with (/ 4 * bpow radix2 12).
        + apply Rle_trans with (IZR 324); [apply IZR_le; nia|]. change (bpow radix2 12) with 4096. lra.
        + apply Rmult_le_compat; try lra; [apply bpow_ge_0|]. apply bpow_le. lia.
      - assert (Lz : (1 <= ex)%Z).
        { destruct (Z_lt_le_dec ex 1) as [N|]; [exfalso|assumption].
          assert (bpow radix2 ex <= 1) by (apply (bpow_le radix2 ex 0); lia).
          assert (1 <= IZR z) by (apply IZR_le; lia).
          rewrite A, Rabs_mult, (Rabs_pos_eq (bpow radix2 ex)) in Hx by lra. nra. }
        assert (E : IZR (z * z) = IZR (z * z) * bpow radix2 (- (2 * ex)) * bpow radix2 (2 * ex)).
        { rewrite Rmult_assoc, <- bpow_plus, Z.add_opp_diag_l. cbn. ring. }
        rewrite E. apply Rmult_le_compat_r; [apply bpow_ge_0|]. rewrite M1.
        rewrite <- (rnd_id (IZR (z * z) * bpow radix2 (- (2 * ex)))) by (apply format_scaled; nia).
        apply rnd_le.
        apply Rmult_le_reg_r with (bpow radix2 (2 * ex)); [apply bpow_gt_0|]. rewrite <- E.
        replace (2 * ex)%Z with (ex + ex)%Z by lia. rewrite bpow_plus.
        replace (B2R fr * B2R fr * (bpow radix2 ex * bpow radix2 ex)) with (B2R x * B2R x) by (rewrite A; ring).
        rewrite mult_IZR.
        rewrite <- (Rabs_pos_eq (B2R x * B2R x)), Rabs_mult by apply Rle_0_sqr.
        assert (0 <= IZR z) by (apply IZR_le; lia). nra. }
    pose proof (Bldexp_correct 53 1024 _ _ mode_NE p (2 * ex)) as L.
    change (round radix2 fexp64 (round_mode mode_NE) (B2R p * bpow radix2 (2 * ex)))
      with (rnd (B2R p * bpow radix2 (2 * ex))) in L.
    revert L. case Rlt_bool_spec; intros C L.
    + destruct L as (L1 & L2 & _). right; right. rewrite L1, L2. split; [exact M2|].
      rewrite <- (rnd_id (IZR (z * z))) by (apply format_int; nia). apply rnd_le, Q.
    + right; left. rewrite Sg in L.
      change (binary_overflow 53 1024 mode_NE false) with (SpecFloat.S754_infinity false) in L.
      destruct (Bldexp mode_NE p (2 * ex)); cbn in L; try discriminate. now inversion L.
Qed.

Lemma pos_const (x : b64) : is_finite x = true -> Bltb (B754_zero false) x = true -> 0 < B2R x.
Proof.
  intros Fx H. rewrite Bltb_correct in H by (assumption || reflexivity).
  revert H. case Rlt_bool_spec; [auto|discriminate].
Qed.
Lemma le_const (x y : b64) : is_finite x = true -> is_finite y = true -> Bleb x y = true -> B2R x <= B2R y.
Proof.
  intros Fx Fy H. rewrite Bleb_correct in H by assumption.
  revert H. case Rle_bool_spec; [auto|discriminate].
Qed.

Section Sampler.
Context (ci cu : b64 -> Z).
Notation FO := (binary64 ci cu).

(** int(x) of a small value *)
Lemma to_int_small (x : b64) (lo hi : Z) : is_finite x = true -> IZR lo <= B2R x <= IZR hi ->
  (-2 ^ 63 <= lo)%Z -> (hi < 2 ^ 63)%Z -> to_int FO x = Ztrunc (B2R x) /\ (lo <= to_int FO x <= hi)%Z.
Proof.
  intros Fx [L H] Hl Hh. unfold to_int. cbn [f_to_int binary64]. unfold b_conv. rewrite Fx.
  pose proof (Btrunc_correct 53 1024 _ x) as T. rewrite round_FIX_IZR in T. apply eq_IZR in T.
  assert (B : (lo <= Btrunc x <= hi)%Z).
  { rewrite T. split.
    - rewrite <- (Ztrunc_IZR lo). apply Ztrunc_le, L.
    - rewrite <- (Ztrunc_IZR hi). apply Ztrunc_le, H. }
  destruct (Z.leb_spec (- 2 ^ 63) (Btrunc x)); [|lia].
  destruct (Z.ltb_spec (Btrunc x) (2 ^ 63)); [|lia]. cbn [andb].
  unfold wrap64. rewrite wrap_id by lia. split; [assumption|lia].
Qed.

Lemma ok_count63 x : ok 0 x -> (0 <= shift_count FO x <= 63)%Z.
Proof.
  intros Hx. unfold shift_count.
  assert (O1 : ok 0 (b_mul x (ILN2 FO))).
  { apply ok_le with (rnd (0 * 0)); [rewrite Rmult_0_l, rnd_0; lra|].
    apply mul_ok; try lra; [assumption|]. right; right.
    split; [reflexivity|]. apply Rlt_le, pos_const; reflexivity. }
  cbn [f_mul f_floor f_of_int binary64]. set (y := b_mul x (ILN2 FO)) in *. clearbody y.
  assert (O2 : ok 0 (b_floor y)).
  { destruct O1 as [->|[->|[Fy Hy]]]; [left; reflexivity|right; left; reflexivity|right; right].
    destruct (Bnearbyint_correct 53 1024 _ mode_DN y) as (E & Fe & _). unfold b_floor.
    rewrite E, Fe. split; [exact Fy|]. rewrite round_FIX_IZR. apply IZR_le.
    cbn [round_mode]. rewrite <- (Zfloor_IZR 0). apply Zfloor_le. exact Hy. }
  set (z := b_floor y) in *. clearbody z. clear y O1.
  destruct (of_int_exact 63 ltac:(lia)) as [E63 F63].
  assert (D63 : (0 <= to_int FO (b_of_int 63) <= 63)%Z).
  { apply (to_int_small _ 0 63); try assumption; try lia. rewrite E63. split; [apply IZR_le|]; lra || lia. }
  unfold Min. cbn [f_ltb f_of_int binary64].
  destruct O2 as [->|[->|[Fz Hz]]].
  - change (Bltb B754_nan (b_of_int 63)) with false. exact D63.
  - change (Bltb (B754_infinity false) (b_of_int 63)) with false. exact D63.
  - destruct (Bltb z (b_of_int 63)) eqn:C; [|exact D63].
    rewrite Bltb_correct in C by assumption. rewrite E63 in C.
    revert C. case Rlt_bool_spec; [|discriminate]. intros C _.
    apply (to_int_small _ 0 63); try lia; try assumption. split; lra.
Qed.

Lemma ok_count x : ok 0 x -> (0 <= shift_count FO x)%Z.
Proof. intros H. apply ok_count63, H. Qed.

(** the centre and its fractional part, samplerz.go:160-161 *)
Lemma floor_int (mu : b64) : is_finite mu = true -> Rabs (B2R mu) <= bpow radix2 62 ->
  to_int FO (b_floor mu) = Zfloor (B2R mu) /\
  is_finite (b_of_int (Zfloor (B2R mu))) = true /\
  B2R (b_of_int (Zfloor (B2R mu))) = IZR (Zfloor (B2R mu)).
Proof.
  intros Fm Hm. apply Rabs_le_inv in Hm.
  change (bpow radix2 62) with (IZR (2 ^ 62)) in Hm. rewrite <- opp_IZR in Hm.
  destruct (Bnearbyint_correct 53 1024 _ mode_DN mu) as (E & Fe & _).
  rewrite round_FIX_IZR in E. cbn [round_mode] in E.
  assert (B : (- 2 ^ 62 <= Zfloor (B2R mu) <= 2 ^ 62)%Z).
  { split.
    - rewrite <- (Zfloor_IZR (- 2 ^ 62)). apply Zfloor_le, Hm.
    - rewrite <- (Zfloor_IZR (2 ^ 62)). apply Zfloor_le, Hm. }
  split; [|].
  - destruct (to_int_small (b_floor mu) (- 2 ^ 62) (2 ^ 62)) as [T _]; try lia.
    + unfold b_floor. now rewrite Fe.
    + unfold b_floor. rewrite E. split; apply IZR_le; lia.
    + rewrite T. unfold b_floor. rewrite E. apply Ztrunc_IZR.
  - set (s := Zfloor (B2R mu)) in *.
    assert (G : rnd (IZR s) = IZR s).
    { rewrite <- E. apply rnd_B2R. }
    pose proof (binary_normalize_correct 53 1024 _ _ mode_NE s 0 false) as A. cbv zeta in A.
    replace (F2R (Float radix2 s 0)) with (IZR s) in A by (unfold F2R; cbn; ring).
    change (round radix2 fexp64 (round_mode mode_NE) (IZR s)) with (rnd (IZR s)) in A.
    rewrite G in A. rewrite Rlt_bool_true in A; [destruct A as (A1 & A2 & _); split; assumption|].
    rewrite <- abs_IZR. apply Rle_lt_trans with (IZR (2 ^ 62)); [apply IZR_le; lia|].
    change (2 ^ 62)%Z with (Zpower radix2 62). rewrite IZR_Zpower by lia. now apply bpow_lt.
Qed.

Lemma frac_part (mu : b64) : is_finite mu = true -> Rabs (B2R mu) <= bpow radix2 62 ->
  let r := b_sub mu (b_of_int (to_int FO (b_floor mu))) in
  is_finite r = true /\ 0 <= B2R r <= 1.
Proof.
  intros Fm Hm. destruct (floor_int mu Fm Hm) as (E & Fi & Ei). rewrite E. cbv zeta.
  set (s := Zfloor (B2R mu)) in *.
  pose proof (Bminus_correct 53 1024 _ _ mode_NE mu (b_of_int s) Fm Fi) as A. rewrite Ei in A.
  change (round radix2 fexp64 (round_mode mode_NE) (B2R mu - IZR s)) with (rnd (B2R mu - IZR s)) in A.
  assert (D : 0 <= B2R mu - IZR s <= 1).
  { pose proof (Zfloor_lb (B2R mu)). pose proof (Zfloor_ub (B2R mu)). fold s in H, H0. lra. }
  rewrite (max_bound _ 1) in A by (try lia; rewrite Rabs_pos_eq; lra).
  destruct A as (A1 & A2 & _). unfold b_sub. rewrite A1, A2. split; [reflexivity|].
  split.
  - rewrite <- rnd_0. apply rnd_le. lra.
  - rewrite <- (rnd_id 1) by (apply (format_int 1); lia). apply rnd_le. lra.
Qed.

(** the candidate minus the fractional part is at least z0 away from 0 *)
Lemma candidate_dist (r : b64) (z0 b : Z) : is_finite r = true -> 0 <= B2R r <= 1 ->
  (0 <= z0 <= 18)%Z -> (b = 0 \/ b = 1)%Z ->
  let d := b_sub (b_of_int (b + (2 * b - 1) * z0)) r in
  is_finite d = true /\ IZR z0 <= Rabs (B2R d).
Proof.
  intros Fr Hr Hz Hb. cbv zeta.
  destruct (of_int_exact (b + (2 * b - 1) * z0) ltac:(nia)) as [Ez Fz].
  pose proof (Bminus_correct 53 1024 _ _ mode_NE _ r Fz Fr) as A. rewrite Ez in A.
  set (z := (b + (2 * b - 1) * z0)%Z) in *.
  change (round radix2 fexp64 (round_mode mode_NE) (IZR z - B2R r)) with (rnd (IZR z - B2R r)) in A.
  assert (Hz' : 0 <= IZR z0 <= 18) by (split; apply IZR_le; lia).
  assert (D : IZR z0 <= Rabs (IZR z - B2R r) <= 20).
  { unfold z. destruct Hb as [-> | ->].
    - replace (0 + (2 * 0 - 1) * z0)%Z with (- z0)%Z by lia. rewrite opp_IZR, Rabs_left1 by lra. lra.
    - replace (1 + (2 * 1 - 1) * z0)%Z with (1 + z0)%Z by lia. rewrite plus_IZR, Rabs_pos_eq by lra. lra. }
  rewrite (max_bound _ 20) in A by (lia || lra).
  destruct A as (A1 & A2 & _). unfold b_sub. rewrite A1, A2. split; [reflexivity|].
  apply abs_round_ge_generic; auto with typeclass_instances; [|lra].
  apply format_int. lia.
Qed.

(** the scale 1/(2 sigma^2) is at least 1/(2 maxSigma^2) *)
Lemma dss_ok (sigma : b64) : is_finite sigma = true -> 0 < B2R sigma <= B2R (maxSigma FO) ->
  ok (B2R (inv2sigma2 FO))
     (b_div (b_of_int 1) (b_mul (b_mul (b_of_int 2) sigma) sigma)).
Proof.
  intros Fs [P H].
  destruct (of_int_exact 2 ltac:(lia)) as [E2 F2].
  assert (M2 : B2R (maxSigma FO) <= 2).
  { rewrite <- E2. apply le_const; reflexivity. }
  pose proof (Bmult_correct 53 1024 _ _ mode_NE (b_of_int 2) sigma) as A. rewrite E2 in A.
  change (round radix2 fexp64 (round_mode mode_NE) (2 * B2R sigma)) with (rnd (2 * B2R sigma)) in A.
  rewrite (max_bound _ 4) in A by (try lia; rewrite Rabs_pos_eq; lra).
  destruct A as (A1 & A2 & A3). fold (b_mul (b_of_int 2) sigma) in *. set (s2 := b_mul (b_of_int 2) sigma) in *.
  rewrite F2, Fs in A2. cbn [andb] in A2.
  assert (N : forall x : b64, is_finite x = true -> is_nan x = false) by (intros x; destruct x; easy).
  assert (Ss : Bsign sigma = false) by (apply sign_pos; lra).
  specialize (A3 (N _ A2)). rewrite Ss, (sign_pos (b_of_int 2)) in A3 by lra. cbn [xorb] in A3.
  assert (B1 : 0 <= B2R s2 <= B2R (b_mul (b_of_int 2) (maxSigma FO))).
  { rewrite A1. split; [rewrite <- rnd_0; apply rnd_le; lra|].
    pose proof (Bmult_correct 53 1024 _ _ mode_NE (b_of_int 2) (maxSigma FO)) as A. rewrite E2 in A.
    change (round radix2 fexp64 (round_mode mode_NE) (2 * B2R (maxSigma FO))) with (rnd (2 * B2R (maxSigma FO))) in A.
    rewrite (max_bound _ 4) in A by (try lia; rewrite Rabs_pos_eq; lra).
    destruct A as (A & _). unfold b_mul. rewrite A. apply rnd_le. lra. }
  set (m2 := b_mul (b_of_int 2) (maxSigma FO)) in *.
  assert (M4 : B2R m2 <= 4).
  { destruct (of_int_exact 4 ltac:(lia)) as [E4 F4].
    rewrite <- E4. apply le_const; reflexivity. }
  pose proof (Bmult_correct 53 1024 _ _ mode_NE s2 sigma) as C.
  change (round radix2 fexp64 (round_mode mode_NE) (B2R s2 * B2R sigma)) with (rnd (B2R s2 * B2R sigma)) in C.
  rewrite (max_bound _ 8) in C by (try lia; rewrite Rabs_pos_eq; nra).
  destruct C as (C1 & C2 & C3). fold (b_mul s2 sigma) in *. set (d := b_mul s2 sigma) in *.
  rewrite A2, Fs in C2. cbn [andb] in C2. specialize (C3 (N _ C2)). rewrite A3, Ss in C3. cbn [xorb] in C3.
  pose proof (Bmult_correct 53 1024 _ _ mode_NE m2 (maxSigma FO)) as D.
  change (round radix2 fexp64 (round_mode mode_NE) (B2R m2 * B2R (maxSigma FO)))
    with (rnd (B2R m2 * B2R (maxSigma FO))) in D.
  rewrite (max_bound _ 8) in D by (try lia; rewrite Rabs_pos_eq; nra).
  destruct D as (D1 & _). fold (b_mul m2 (maxSigma FO)) in *.
  set (dm := b_mul m2 (maxSigma FO)) in *.
  assert (Hd : B2R d <= B2R dm).
  { rewrite C1, D1. apply rnd_le. apply Rmult_le_compat; lra. }
  assert (Pd : 1 <= B2R dm).
  { destruct (of_int_exact 1 ltac:(lia)) as [E1 F1]. rewrite <- E1.
    apply le_const; reflexivity. }
  apply ok_le with (rnd (1 / B2R dm)); [|apply inv_ok; try assumption; lra].
  assert (E : B2R (inv2sigma2 FO) = B2R (b_div (b_of_int 1) dm)).
  { rewrite <- !SF2R_B2SF. f_equal. }
  rewrite E.
  destruct (of_int_exact 1 ltac:(lia)) as [E1 F1].
  pose proof (Bdiv_correct 53 1024 _ _ mode_NE (b_of_int 1) dm ltac:(lra)) as K. rewrite E1 in K.
  change (round radix2 fexp64 (round_mode mode_NE) (1 / B2R dm)) with (rnd (1 / B2R dm)) in K.
  rewrite (max_bound _ 1) in K.
  - destruct K as (K & _). unfold b_div. rewrite K. lra.
  - rewrite Rabs_pos_eq; unfold Rdiv; rewrite Rmult_1_l.
    + rewrite <- Rinv_1. apply Rinv_le; lra.
    + apply Rlt_le, Rinv_0_lt_compat. lra.
  - lia.
Qed.

Lemma sqr_small z0 : (0 <= z0 <= 18)%Z ->
  is_finite (b_sqr (b_of_int z0)) = true /\ B2R (b_sqr (b_of_int z0)) = IZR (z0 * z0).
Proof.
  intros H.
  assert (A : B2SF (b_sqr (b_of_int z0)) = B2SF (b_of_int (z0 * z0))).
  { assert (C : (z0 = 0 \/ z0 = 1 \/ z0 = 2 \/ z0 = 3 \/ z0 = 4 \/ z0 = 5 \/ z0 = 6 \/ z0 = 7 \/ z0 = 8
              \/ z0 = 9 \/ z0 = 10 \/ z0 = 11 \/ z0 = 12 \/ z0 = 13 \/ z0 = 14 \/ z0 = 15 \/ z0 = 16
              \/ z0 = 17 \/ z0 = 18)%Z) by lia.
    repeat destruct C as [-> |C]; subst; reflexivity. }
  destruct (of_int_exact (z0 * z0) ltac:(nia)) as [E Fe].
  split.
  - rewrite <- is_finite_SF_B2SF, A, is_finite_SF_B2SF. exact Fe.
  - rewrite <- SF2R_B2SF, A, SF2R_B2SF. exact E.
Qed.

Lemma inv_finite : is_finite (inv2sigma2 FO) = true.
Proof. reflexivity. Qed.
Lemma inv_bounds : 0 <= B2R (inv2sigma2 FO) <= 1.
Proof.
  split; [apply Rlt_le, pos_const; reflexivity|].
  destruct (of_int_exact 1 ltac:(lia)) as [E1 F1]. rewrite <- E1. apply le_const; reflexivity.
Qed.

(** The argument of berexp is not negative. *)
Lemma arg_ok (r sigma : b64) z0 b :
  is_finite r = true -> 0 <= B2R r <= 1 ->
  is_finite sigma = true -> 0 < B2R sigma <= B2R (maxSigma FO) ->
  (0 <= z0 <= 18)%Z -> (b = 0 \/ b = 1)%Z ->
  ok 0 (b_sub (b_mul (b_sqr (b_sub (b_of_int (b + (2 * b - 1) * z0)) r))
                     (b_div (b_of_int 1) (b_mul (b_mul (b_of_int 2) sigma) sigma)))
              (b_mul (b_sqr (b_of_int z0)) (inv2sigma2 FO))).
Proof.
  intros Fr Hr Fs Hs Hz Hb.
  destruct (candidate_dist r z0 b Fr Hr Hz Hb) as [Fd Hd].
  generalize dependent (b_sub (b_of_int (b + (2 * b - 1) * z0)) r). intros d Fd Hd.
  pose proof (sqr_ok d z0 Fd Hz Hd) as O1.
  pose proof (dss_ok sigma Fs Hs) as O2.
  generalize dependent (b_div (b_of_int 1) (b_mul (b_mul (b_of_int 2) sigma) sigma)). intros dss O2.
  pose proof inv_bounds as I0. pose proof inv_finite as FI.
  change (F FO) with b64 in *.
  generalize dependent (inv2sigma2 FO). intros inv O2 I0 FI.
  assert (Z0 : 0 <= IZR (z0 * z0) <= 324) by (split; apply IZR_le; nia).
  pose proof (mul_ok _ _ _ _ (proj1 Z0) (proj1 I0) O1 O2) as O3.
  destruct (sqr_small z0 Hz) as [Fq Eq].
  generalize dependent (b_sqr (b_of_int z0)). intros q Fq Eq.
  pose proof (Bmult_correct 53 1024 _ _ mode_NE q inv) as A. rewrite Eq in A.
  change (round radix2 fexp64 (round_mode mode_NE) (IZR (z0 * z0) * B2R inv))
    with (rnd (IZR (z0 * z0) * B2R inv)) in A.
  rewrite (max_bound _ 324) in A by (try lia; rewrite Rabs_pos_eq; nra).
  destruct A as (A1 & A2 & _). rewrite Fq, FI in A2. fold (b_mul q inv) in A1, A2.
  exact (sub_ok _ _ _ O3 A2 ltac:(rewrite A1; lra)).
Qed.

(** One round never panics. *)
Lemma round_no_panic (r sigma : b64) ccs fb sb tb :
  is_finite r = true -> 0 <= B2R r <= 1 ->
  is_finite sigma = true -> 0 < B2R sigma <= B2R (maxSigma FO) ->
  exists z a, sampler_round FO r (b_div (b_of_int 1) (b_mul (b_mul (b_of_int 2) sigma) sigma)) ccs fb sb tb
              = Ok (z, a).
Proof.
  intros Fr Hr Fs Hs. unfold sampler_round.
  set (z0 := BaseSampler fb). set (b := Z.land (wrap64 (wrap64u (SetBytes sb))) 1).
  assert (Hz : (0 <= z0 <= 18)%Z) by apply BaseSampler_range.
  assert (Hb : (b = 0 \/ b = 1)%Z).
  { unfold b. generalize (wrap64 (wrap64u (SetBytes sb))). intros v.
    change (Z.land v 1) with (Z.land v (Z.ones 1)). rewrite Z.land_ones by lia.
    pose proof (Z.mod_pos_bound v (2 ^ 1) ltac:(lia)). lia. }
  pose proof (ok_count _ (arg_ok r sigma z0 b Fr Hr Fs Hs Hz Hb)) as C.
  destruct (berexp_ok FO _ ccs tb C) as [a E].
  change (f_sub FO) with b_sub. change (f_mul FO) with b_mul. change (f_sqr FO) with b_sqr.
  change (f_of_int FO) with b_of_int. rewrite E. cbn [bind]. eauto.
Qed.

Lemma loop_no_panic (rb : rand) (r sigma : b64) ccs s : (forall k, rb k <> None) ->
  is_finite r = true -> 0 <= B2R r <= 1 ->
  is_finite sigma = true -> 0 < B2R sigma <= B2R (maxSigma FO) ->
  forall fuel k, (exists v k', sampler_loop FO rb fuel s r
     (b_div (b_of_int 1) (b_mul (b_mul (b_of_int 2) sigma) sigma)) ccs k = Ok (v, k')) \/
     sampler_loop FO rb fuel s r
     (b_div (b_of_int 1) (b_mul (b_mul (b_of_int 2) sigma) sigma)) ccs k = Diverge.
Proof.
  intros Hrb Fr Hr Fs Hs. induction fuel as [|fuel IH]; intros k; [right; reflexivity|].
  cbn [sampler_loop]. unfold generateAndSplitRandBytes.
  destruct (rb k) as [l|] eqn:E; [|exfalso; eapply Hrb; eassumption]. cbn [bind].
  destruct (round_no_panic r sigma ccs (firstn 9 l) (firstn 1 (skipn 9 l)) (skipn 10 l) Fr Hr Fs Hs)
    as (z & a & ->). cbn [bind snd fst].
  destruct a; [left; eauto|apply IH].
Qed.

Lemma Samplerz_no_panic (rb : rand) fuel (mu sigma sigmin : b64) k : (forall k, rb k <> None) ->
  is_finite mu = true -> Rabs (B2R mu) <= bpow radix2 62 ->
  is_finite sigma = true -> 0 < B2R sigma <= B2R (maxSigma FO) ->
  (exists v k', Samplerz FO rb fuel mu sigma sigmin k = Ok (v, k')) \/
  Samplerz FO rb fuel mu sigma sigmin k = Diverge.
Proof.
  intros Hrb Fm Hm Fs Hs. unfold Samplerz.
  destruct (frac_part mu Fm Hm) as [Fr Hr].
  apply loop_no_panic; assumption.
Qed.

Lemma b64_small_exact : small_exact FO.
Proof.
  intros k Hk. cbn [f_to_int f_of_int binary64].
  destruct (of_int_exact k ltac:(lia)) as [E Fe].
  pose proof (Btrunc_correct 53 1024 _ (b_of_int k)) as T. rewrite round_FIX_IZR, E, Ztrunc_IZR in T.
  apply eq_IZR in T. unfold b_conv. rewrite Fe, T.
  destruct (Z.leb_spec (- 2 ^ 63) k); [|lia]. destruct (Z.ltb_spec k (2 ^ 63)); [|lia]. reflexivity.
Qed.
End Sampler.

(** Decimal literals are correctly rounded. *)
Lemma const_correct m e : (0 <= e)%Z -> Rabs (IZR m / IZR (10 ^ e)) <= IZR (2 ^ 52) ->
  is_finite (b_const m e) = true /\ B2R (b_const m e) = rnd (IZR m / IZR (10 ^ e)).
Proof.
  intros He B. assert (P : (0 < 10 ^ e)%Z) by (apply Z.pow_pos_nonneg; lia).
  unfold b_const. destruct (10 ^ e)%Z as [|d|d]; try lia.
  assert (A : forall s p, let x := IZR (cond_Zopp s (Zpos p)) in
    Rabs (x / IZR (Zpos d)) <= IZR (2 ^ 52) ->
    is_finite (b_quot s p d) = true /\ B2R (b_quot s p d) = rnd (x / IZR (Zpos d))).
  { intros s p x Hx. unfold b_quot.
    destruct (Bdiv_correct_aux 53 1024 prec53 emax1024 mode_NE s p 0 false d 0) as [V C].
    cbn [proj1]. rewrite is_finite_SF2B, B2R_SF2B.
    assert (E1 : F2R (Float radix2 (cond_Zopp s (Zpos p)) 0) = x) by (unfold F2R; cbn [Fnum Fexp]; cbn [bpow]; fold x; ring).
    assert (E2 : F2R (Float radix2 (cond_Zopp false (Zpos d)) 0) = IZR (Zpos d)) by (unfold F2R; cbn [Fnum Fexp cond_Zopp]; cbn [bpow]; ring).
    cbv zeta in C. rewrite E1, E2 in C.
    change (round radix2 fexp64 (round_mode mode_NE) (x / IZR (Zpos d))) with (rnd (x / IZR (Zpos d))) in C.
    rewrite (max_bound _ (2 ^ 52)) in C by (exact Hx || lia).
    destruct C as (C1 & C2 & _). split; assumption. }
  destruct m as [|p|p].
  - split; [reflexivity|]. unfold Rdiv. rewrite Rmult_0_l, rnd_0. reflexivity.
  - exact (A false p B).
  - exact (A true p B).
Qed.

(** uint64(ccs * 2^63) for 1/2 < ccs < 1, and its effect on approxexp *)
Lemma half_one_mantissa x : generic_format radix2 fexp64 x -> / 2 < x < 1 ->
  exists m, x = IZR m * bpow radix2 (-53) /\ (2 ^ 52 < m < 2 ^ 53)%Z.
Proof.
  intros G H. exists (Ztrunc (scaled_mantissa radix2 fexp64 x)).
  assert (M : mag radix2 x = 0%Z :> Z).
  { apply mag_unique. rewrite Rabs_pos_eq by lra. change (bpow radix2 (0 - 1)) with (/ 2).
    change (bpow radix2 0) with 1. lra. }
  assert (E : x = IZR (Ztrunc (scaled_mantissa radix2 fexp64 x)) * bpow radix2 (-53)).
  { rewrite G at 1. unfold F2R, cexp. cbn [Fnum Fexp]. rewrite M. reflexivity. }
  split; [exact E|].
  set (m := Ztrunc _) in *. clearbody m.
  assert (P : bpow radix2 (-53) * IZR (2 ^ 53) = 1).
  { change (2 ^ 53)%Z with (Zpower radix2 53). rewrite IZR_Zpower, <- bpow_plus by lia. reflexivity. }
  pose proof (bpow_gt_0 radix2 (-53)) as B. rewrite E in H.
  split; apply lt_IZR.
  - apply Rmult_lt_reg_r with (bpow radix2 (-53)); [exact B|].
    replace (IZR (2 ^ 52) * bpow radix2 (-53)) with (/ 2); [lra|].
    replace (IZR (2 ^ 53)) with (2 * IZR (2 ^ 52)) in P by (rewrite <- mult_IZR; reflexivity). lra.
  - apply Rmult_lt_reg_r with (bpow radix2 (-53)); [exact B|]. lra.
Qed.

Lemma ccs63_big ci cu (ccs : b64) : is_finite ccs = true -> / 2 < B2R ccs < 1 ->
  (2 ^ 62 < ccs63 (binary64 ci cu) ccs < 2 ^ 63)%Z.
Proof.
  intros Fc Hc. destruct (half_one_mantissa _ (B2R_format ccs) Hc) as (m & E & Hm).
  unfold ccs63, to_u64. cbn [f_mul f_of_int f_to_u64 binary64].
  assert (Ei : B2R (b_of_int (2 ^ 63)) = bpow radix2 63).
  { rewrite <- SF2R_B2SF. change (B2SF (b_of_int (2 ^ 63))) with (SpecFloat.S754_finite false 4503599627370496 11).
    cbn [SF2R]. unfold F2R. cbn [Fnum Fexp cond_Zopp]. change 4503599627370496%Z with (Zpower radix2 52).
    rewrite IZR_Zpower by lia. rewrite <- bpow_plus. reflexivity. }
  assert (Fi : is_finite (b_of_int (2 ^ 63)) = true) by reflexivity.
  set (k := b_of_int (2 ^ 63)) in *. clearbody k.
  pose proof (Bmult_correct 53 1024 _ _ mode_NE ccs k) as A. rewrite Ei in A.
  assert (P : B2R ccs * bpow radix2 63 = IZR (m * 2 ^ 10)).
  { rewrite E, Rmult_assoc, <- bpow_plus, mult_IZR. f_equal. }
  rewrite P in A.
  change (round radix2 fexp64 (round_mode mode_NE) (IZR (m * 2 ^ 10))) with (rnd (IZR (m * 2 ^ 10))) in A.
  assert (R : rnd (IZR (m * 2 ^ 10)) = IZR (m * 2 ^ 10)).
  { apply rnd_id. rewrite mult_IZR. change (IZR (2 ^ 10)) with (bpow radix2 10). apply format_scaled; lia. }
  rewrite R in A. rewrite Rlt_bool_true in A.
  - destruct A as (A1 & A2 & _). fold (b_mul ccs k) in A1, A2. rewrite Fc, Fi in A2.
    unfold b_conv. rewrite A2. cbn [andb].
    pose proof (Btrunc_correct 53 1024 _ (b_mul ccs k)) as T. rewrite round_FIX_IZR, A1, Ztrunc_IZR in T.
    apply eq_IZR in T. rewrite T.
    destruct (Z.leb_spec 0 (m * 2 ^ 10)); [|lia]. destruct (Z.ltb_spec (m * 2 ^ 10) (2 ^ 64)); [|lia].
    cbn [andb]. unfold wrap64u, wrapu. rewrite Z.mod_small by lia. lia.
  - rewrite <- abs_IZR. apply Rlt_trans with (IZR (2 ^ 64)); [apply IZR_lt; lia|].
    change (2 ^ 64)%Z with (Zpower radix2 64). rewrite IZR_Zpower by lia. now apply bpow_lt.
Qed.

Lemma approxexp_ccs_big ci cu x (ccs : b64) : is_finite ccs = true -> / 2 < B2R ccs < 1 ->
  approxexp (binary64 ci cu) x ccs = 0%Z.
Proof.
  intros Fc Hc. rewrite approxexp_exact. pose proof (ccs63_big ci cu ccs Fc Hc) as H.
  rewrite Z.mod_small by lia. destruct (Z.leb_spec (ccs63 (binary64 ci cu) ccs) (2 ^ 62)); [lia|].
  now rewrite Bool.andb_false_r.
Qed.
