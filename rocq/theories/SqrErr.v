(** [math.Pow(x, 2)] and Sqnorm (util.go:400-408) in binary64 arithmetic. *)
From Coq Require Import Reals Lra Lia ZArith List.
From Flocq Require Import Core BinarySingleNaN.
From Verif Require Import GoBase Util BaseProofs Float Binary64 B64Proofs SpecFft FloatErr CdivErr SpecBabai KeyGen.
Local Open Scope R_scope.

Lemma frexp_parts (x : b64) : is_finite x = true -> B2R x <> 0 ->
  let (fr, ex) := Bfrexp x in
  is_finite fr = true /\ B2R x = B2R fr * bpow radix2 ex /\ / 4 <= B2R fr * B2R fr <= 1 /\ / 2 <= Rabs (B2R fr).
Proof.
  intros Fx Nx. destruct x as [s|s| |s m e H]; try discriminate; [exfalso; apply Nx; reflexivity|].
  set (x := B754_finite s m e H) in *. pose proof (Bfrexp_correct 53 1024 _ x eq_refl) as A.
  destruct (Bfrexp x) as [fr ex]. destruct A as [A B]. destruct (B eq_refl) as [B1 _]. clear B.
  assert (Ffr : is_finite fr = true) by (destruct fr; try reflexivity; cbn in B1; rewrite Rabs_R0 in B1; lra).
  split; [exact Ffr|]. split; [exact A|]. split; [|lra].
  rewrite <- (Rabs_pos_eq (B2R fr * B2R fr)), Rabs_mult by apply Rle_0_sqr. nra.
Qed.
Lemma sqr_zero (x : b64) : is_finite x = true -> B2R x = 0 -> isval (b_sqr x) 0.
Proof.
  intros Fx E. destruct x as [s|s| |s m e H]; try discriminate.
  - split; destruct s; reflexivity.
  - exfalso. destruct s.
    + assert (B2R (B754_finite true m e H : b64) < 0) by (apply F2R_lt_0; reflexivity). lra.
    + assert (0 < B2R (B754_finite false m e H : b64)) by (apply F2R_gt_0; reflexivity). lra.
Qed.
(** the square, rounded twice *)
Lemma sqr_parts (x : b64) X : is_finite x = true -> B2R x <> 0 -> 2 * (B2R x * B2R x) <= X -> X <= big ->
  exists p ex : R, 0 < ex /\ ex * p = B2R x * B2R x /\ / 4 <= p <= 1 /\ isval (b_sqr x) (rnd (rnd p * ex)) /\
    rnd p * ex <= X /\ exists e, ex = bpow radix2 (2 * e) /\ bpow radix2 (e - 1) <= Rabs (B2R x).
Proof.
  intros Fx Nx HX HB. pose proof (frexp_parts x Fx Nx) as A. unfold b_sqr. destruct (Bfrexp x) as [fr ex].
  destruct A as (Ff & A & S1 & S2). set (p := B2R fr * B2R fr) in *. set (E := bpow radix2 (2 * ex)).
  assert (EE : E = bpow radix2 ex * bpow radix2 ex) by (unfold E; rewrite <- bpow_plus; f_equal; lia).
  assert (E0 : 0 < E) by apply bpow_gt_0.
  assert (XX : E * p = B2R x * B2R x) by (rewrite A, EE; unfold p; ring).
  destruct (mul_val fr fr 1 Ff Ff) as [Fm Vm].
  { fold p. rewrite Rabs_pos_eq; lra. }
  { unfold big. apply (bpow_le radix2 0 1000). lia. }
  fold p in Vm.
  assert (RP : rnd p <= 2 * p).
  { pose proof (rnd_err p 1 ltac:(rewrite Rabs_pos_eq; lra) ltac:(lra)) as R1. unfold u53 in R1.
    unfold Rabs in R1. destruct (Rcase_abs (rnd p - p)); lra. }
  assert (RP0 : 0 <= rnd p). { rewrite <- CdivErr.rnd_0. apply rnd_le. lra. }
  assert (BX : rnd p * E <= X).
  { apply Rle_trans with (2 * p * E); [apply Rmult_le_compat_r; lra|]. replace (2 * p * E) with (2 * (E * p)) by ring. lra. }
  exists p, E. split; [exact E0|]. split; [exact XX|]. split; [exact S1|]. split; [|split; [exact BX|]].
  - pose proof (Bldexp_correct 53 1024 _ _ mode_NE (b_mul fr fr) (2 * ex)) as L.
    change (round radix2 fexp64 (round_mode mode_NE) (B2R (b_mul fr fr) * bpow radix2 (2 * ex)))
      with (rnd (B2R (b_mul fr fr) * E)) in L. rewrite Vm in L.
    rewrite (fits (rnd p * E) X) in L; [|rewrite Rabs_pos_eq; [exact BX|apply Rmult_le_pos; lra]|exact HB].
    destruct L as (L1 & L2 & _). split; [rewrite L2; exact Fm|exact L1].
  - exists ex. split; [reflexivity|]. rewrite A, Rabs_mult, (Rabs_pos_eq (bpow radix2 ex)) by apply bpow_ge_0.
    unfold Zminus. rewrite bpow_plus. change (bpow radix2 (- (1))) with (/ 2).
    rewrite Rmult_comm. apply Rmult_le_compat_r; [apply bpow_ge_0|exact S2].
Qed.
Lemma sqr_approx (x : b64) X : is_finite x = true -> 2 * (B2R x * B2R x) <= X -> 1 <= X <= big ->
  approx (3 * (X * u53)) (b_sqr x) (B2R x * B2R x).
Proof.
  intros Fx HX [H1 HB]. assert (U0 : 0 < u53) by (unfold u53; lra). assert (XU : 0 <= X * u53) by (apply Rmult_le_pos; lra).
  destruct (Req_dec (B2R x) 0) as [E|N].
  { destruct (sqr_zero x Fx E) as [F0 V0]. split; [exact F0|]. rewrite V0, E. replace (0 - 0 * 0) with 0 by ring. rewrite Rabs_R0. lra. }
  destruct (sqr_parts x X Fx N HX HB) as (p & e & E0 & XX & S1 & [Fv Vv] & BX & _). split; [exact Fv|]. rewrite Vv, <- XX.
  pose proof (rnd_err p 1 ltac:(rewrite Rabs_pos_eq; lra) ltac:(lra)) as R1.
  assert (RP0 : 0 <= rnd p). { rewrite <- CdivErr.rnd_0. apply rnd_le. lra. }
  pose proof (rnd_err (rnd p * e) X ltac:(rewrite Rabs_pos_eq; [exact BX|apply Rmult_le_pos; lra]) H1) as R2.
  pose proof (tri3 (rnd (rnd p * e)) (rnd p * e) (e * p)) as T.
  assert (Q : Rabs (rnd p * e - e * p) <= 2 * (X * u53)).
  { replace (rnd p * e - e * p) with (e * (rnd p - p)) by ring. rewrite Rabs_mult, (Rabs_pos_eq e) by lra.
    apply Rle_trans with (e * (1 * u53)); [apply Rmult_le_compat_l; lra|].
    assert (e <= 2 * X). { assert (e * / 4 <= e * p) by (apply Rmult_le_compat_l; lra). lra. }
    replace (2 * (X * u53)) with (2 * X * (1 * u53)) by ring. apply Rmult_le_compat_r; lra. }
  lra.
Qed.
(** squares of integers below 2^26 are exact *)
Lemma sqr_int (x : b64) z : isval x (IZR z) -> (Z.abs z < 2 ^ 26)%Z -> isval (b_sqr x) (IZR (z * z)).
Proof.
  intros [Fx Vx] Hz. destruct (Z.eq_dec z 0) as [->|Nz]; [apply sqr_zero; assumption|].
  assert (N : B2R x <> 0) by (rewrite Vx; intros E; apply eq_IZR in E; contradiction).
  assert (Z53 : (Z.abs (z * z) < 2 ^ 53)%Z) by nia.
  destruct (sqr_parts x (2 * (B2R x * B2R x)) Fx N ltac:(lra)) as (p & E & E0 & XX & S1 & Hv & _ & e & -> & He).
  { rewrite Vx, <- !mult_IZR. apply Rle_trans with (IZR (2 ^ 54)); [apply IZR_le; lia|]. unfold big.
    apply Rle_trans with (bpow radix2 54); [apply Req_le; cbn; lra|apply bpow_le; lia]. }
  assert (E27 : (e - 1 < 26)%Z).
  { apply (lt_bpow radix2). apply Rle_lt_trans with (1 := He). rewrite Vx, <- abs_IZR.
    change (bpow radix2 26) with (IZR (2 ^ 26)). apply IZR_lt, Hz. }
  assert (Ep : p = IZR (z * z) * bpow radix2 (- (2 * e))).
  { rewrite bpow_opp, mult_IZR, <- Vx, <- XX. field. lra. }
  assert (Rp : rnd p = p) by (rewrite Ep; apply rnd_id, format_scaled; [exact Z53|lia]).
  rewrite Rp, Rmult_comm, XX, Vx, <- mult_IZR in Hv. rewrite rnd_id in Hv by (apply format_int, Z53). exact Hv.
Qed.
Lemma add_int (x y : b64) a b : isval x (IZR a) -> isval y (IZR b) -> (Z.abs (a + b) < 2 ^ 53)%Z -> isval (b_add x y) (IZR (a + b)).
Proof.
  intros [Fx Vx] [Fy Vy] H. pose proof (Bplus_correct 53 1024 _ _ mode_NE x y Fx Fy) as A.
  change (round radix2 fexp64 (round_mode mode_NE) (B2R x + B2R y)) with (rnd (B2R x + B2R y)) in A.
  rewrite Vx, Vy, <- plus_IZR, rnd_id in A by (apply format_int, H).
  rewrite Rlt_bool_true in A; [destruct A as (A & Fa & _); split; assumption|].
  rewrite <- abs_IZR. apply Rlt_le_trans with (IZR (2 ^ 53)); [apply IZR_lt, H|].
  apply Rle_trans with (bpow radix2 53); [apply Req_le; cbn; lra|apply bpow_le; lia].
Qed.

(** ** Sqnorm *)
Definition zsq (l : list Z) : Z := fold_right (fun z s => z * z + s)%Z 0%Z l.
Lemma zsq_nonneg l : (0 <= zsq l)%Z.
Proof. induction l as [|z l IH]; cbn [zsq fold_right]; [lia|]. fold (zsq l). nia. Qed.
Lemma fold_int l : forall acc a, isval acc (IZR a) -> (0 <= a)%Z -> (a + zsq l < 2 ^ 52)%Z ->
  isval (fold_left (fun r c => b_add r (b_sqr c)) (map b_of_int l) acc) (IZR (a + zsq l)).
Proof.
  induction l as [|z l IH]; intros acc a Ha A0 HB.
  - cbn [map fold_left zsq fold_right]. now rewrite Z.add_0_r.
  - cbn [map fold_left]. cbn [zsq fold_right] in HB |- *. fold (zsq l) in *. pose proof (zsq_nonneg l).
    replace (a + (z * z + zsq l))%Z with (a + z * z + zsq l)%Z by lia. apply IH; [|nia|lia].
    assert (Z26 : (Z.abs z < 2 ^ 26)%Z) by nia.
    apply add_int; [exact Ha| |nia]. apply sqr_int; [|exact Z26]. destruct (of_int_exact z ltac:(lia)) as [E Fz]. split; assumption.
Qed.
Definition fsq (l : list R) : R := fold_right (fun z s => z * z + s) 0 l.
Lemma fsq_nonneg l : 0 <= fsq l.
Proof. induction l as [|z l IH]; cbn [fsq fold_right]; [lra|]. fold (fsq l). pose proof (Rle_0_sqr z) as S. unfold Rsqr in S. lra. Qed.
Lemma fold_float (l : list b64) : forall acc a e, approx e acc a -> 0 <= a -> Forall (fun x => is_finite x = true) l ->
  a + fsq (map (fun x : b64 => B2R x) l) + e + INR (length l) * (4 * u53) <= / 2 ->
  approx (e + INR (length l) * (4 * u53)) (fold_left (fun r c => b_add r (b_sqr c)) l acc) (a + fsq (map (fun x : b64 => B2R x) l)).
Proof.
  induction l as [|x l IH]; intros acc a e Ha A0 HF HB.
  - cbn [map fold_left length fsq fold_right INR] in *. eapply approx_le; [|rewrite Rplus_0_r; exact Ha]. lra.
  - inversion HF as [|? ? Fx HF']; subst. cbn [map fold_left fsq fold_right length] in HB |- *. rewrite S_INR in HB |- *.
    fold (fsq (map (fun x : b64 => B2R x) l)) in *. set (T := fsq (map (fun x : b64 => B2R x) l)) in *.
    assert (T0 : 0 <= T) by apply fsq_nonneg. pose proof (Rle_0_sqr (B2R x)) as S0. unfold Rsqr in S0.
    assert (U0 : 0 < u53) by (unfold u53; lra). pose proof (pos_INR (length l)) as L0.
    assert (LU : 0 <= INR (length l) * (4 * u53)) by (apply Rmult_le_pos; lra).
    assert (e0 : 0 <= e) by (destruct Ha as [_ Ha]; pose proof (Rabs_pos (B2R acc - a)); lra).
    assert (BIG : 1 <= big) by (unfold big; apply (bpow_le radix2 0 1000); lia).
    pose proof (sqr_approx x 1 Fx ltac:(lra) ltac:(lra)) as SQ.
    assert (ST : approx (e + 4 * u53) (b_add acc (b_sqr x)) (a + B2R x * B2R x)).
    { eapply approx_le; [|apply (add_approx _ _ _ _ _ _ 1 Ha SQ)]; try lra. rewrite Rabs_pos_eq by lra. lra. }
    replace (a + (B2R x * B2R x + T)) with (a + B2R x * B2R x + T) by ring.
    eapply approx_le; [|apply (IH _ _ _ ST)]; [fold T; lra|lra|exact HF'|fold T; lra].
Qed.
