(** GsNorm (ntrugen.go:276-283) in binary64 arithmetic: the accuracy of its result. *)
From Coq Require Import Reals Lra Lia ZArith List.
From Flocq Require Import Core BinarySingleNaN.
From Verif Require Import GoBase Util BaseProofs Spec Float FftTables Fft FftShape SpecFft SpecBabai ExactReal FftProofs
  RootsProofs RootsTable Binary64 B64Proofs FloatErr FftErr Ntrugen Falcon KeyGen Babai GsExact GsBound GsReduce CdivErr FftL1 QuotErr
  IfftAvg CdivGen SqrErr GsFloat GsGram GsDiv.
Local Open Scope R_scope.

(** ** Sqnorm *)
Lemma fsq_sqnorm l n : length l = n -> fsq l = sqnorm n l.
Proof.
  intros <-. pose proof (fold_sum l 0) as A. rewrite Rplus_0_l in A. rewrite <- A. clear A.
  assert (B : forall a, fold_left (fun r c => r + c * c) l a = a + fsq l).
  { induction l as [|x l IH]; intros a; cbn [fold_left fsq fold_right]; [lra|]. fold (fsq l). rewrite IH. ring. }
  rewrite B. ring.
Qed.
Lemma fsq_IZR l : fsq (map IZR l) = IZR (zsq l).
Proof.
  induction l as [|x l IH]; cbn [map fsq zsq fold_right]; [reflexivity|]. fold (fsq (map IZR l)) (zsq l). rewrite IH, plus_IZR, mult_IZR. ring.
Qed.
Lemma fsq_close (a b : list R) e : 0 <= e <= 1 -> length a = length b ->
  (forall i, (i < length b)%nat -> Rabs (nth i a 0 - nth i b 0) <= e /\ Rabs (nth i b 0) <= / 10) ->
  Rabs (fsq a - fsq b) <= INR (length b) * (e * (/ 5 + e)).
Proof.
  intros He. revert b. induction a as [|x a IH]; intros [|y b] L H; cbn [length] in L; try discriminate.
  - cbn. rewrite Rminus_0_r, Rabs_R0. lra.
  - cbn [fsq fold_right length]. fold (fsq a) (fsq b). rewrite S_INR.
    destruct (H 0%nat ltac:(cbn; lia)) as [H1 H2]. cbn [nth] in H1, H2.
    pose proof (IH b ltac:(lia) ltac:(intros i Hi; exact (H (S i) ltac:(cbn [length]; lia)))) as HI.
    replace (x * x + fsq a - (y * y + fsq b)) with ((x - y) * (x + y) + (fsq a - fsq b)) by ring.
    eapply Rle_trans; [apply Rabs_triang|]. rewrite Rabs_mult.
    assert (K : Rabs (x + y) <= / 5 + e).
    { replace (x + y) with ((x - y) + (y + y)) by ring. pose proof (Rabs_triang (x - y) (y + y)). pose proof (Rabs_triang y y). lra. }
    assert (Rabs (x - y) * Rabs (x + y) <= e * (/ 5 + e)) by (apply Rmult_le_compat; auto using Rabs_pos). lra.
Qed.

Section Biggest.
Context (ci cu : b64 -> Z).
Notation FO := (binary64 ci cu).
Lemma Sqnorm_two (x y : list b64) : Sqnorm FO [x; y] =
  fold_left (fun r c => b_add r (b_sqr c)) y (fold_left (fun r c => b_add r (b_sqr c)) x (b_of_int 0)).
Proof. reflexivity. Qed.
Lemma Biggest_two (x y : b64) : is_finite x = true ->
  BiggestFloat64 FO [x; y] = Ok (if Bltb x y then y else x).
Proof.
  intros Fx. unfold BiggestFloat64. cbn [idx nth_error bind fold_left f_ltb binary64].
  rewrite (Bltb_correct 53 1024 x x Fx Fx), Rlt_bool_false by lra. reflexivity.
Qed.
Lemma Biggest_real (x y : b64) : is_finite x = true -> is_finite y = true ->
  isval (if Bltb x y then y else x) (Rmax (B2R x) (B2R y)).
Proof.
  intros Fx Fy. rewrite Bltb_correct by assumption. destruct (Rlt_bool_spec (B2R x) (B2R y)).
  - rewrite Rmax_right by lra. split; [exact Fy|reflexivity].
  - rewrite Rmax_left by lra. split; [exact Fx|reflexivity].
Qed.
(** the norm of (f, g) is computed exactly *)
Lemma Sqnorm_ints f g : (zsq f + zsq g < 2 ^ 52)%Z -> isval (Sqnorm FO [Int16ToFloat64 FO f; Int16ToFloat64 FO g]) (IZR (zsq f + zsq g)).
Proof.
  intros H. pose proof (zsq_nonneg f). pose proof (zsq_nonneg g). unfold Int16ToFloat64. rewrite Sqnorm_two.
  apply (fold_int g _ (zsq f)); [|lia|lia]. apply (fold_int f _ 0%Z); [split; reflexivity|lia|lia].
Qed.
(** the value of GsNorm, once the quotients are known *)
Lemma GsNorm_max f g gs : (zsq f + zsq g < 2 ^ 52)%Z ->
  GsNorm FO (Int16ToFloat64 FO f) (Int16ToFloat64 FO g) (f_of_int FO GoBase.Q) = Ok gs ->
  exists s t : b64, isval s (IZR (zsq f + zsq g)) /\ gs = (if Bltb s t then t else s).
Proof.
  intros H. pose proof (Sqnorm_ints f g H) as S. unfold GsNorm, GsNorm_at.
  destruct (Adj FO _ _) as [af| | |]; try discriminate. cbn [bind]. destruct (Mul FO _ _ af) as [ff| | |]; try discriminate. cbn [bind].
  destruct (Adj FO _ (Int16ToFloat64 FO g)) as [ag| | |]; try discriminate. cbn [bind]. destruct (Mul FO _ _ ag) as [gg| | |]; try discriminate. cbn [bind].
  destruct (Add FO ff gg) as [d| | |]; try discriminate. cbn [bind]. destruct (Div FO _ af d) as [p| | |]; try discriminate. cbn [bind].
  destruct (Div FO _ ag d) as [r| | |]; try discriminate. cbn [bind].
  set (s := Sqnorm FO [Int16ToFloat64 FO f; Int16ToFloat64 FO g]) in *. set (t := f_mul FO _ _).
  intros E. pose proof (eq_trans (eq_sym E) (Biggest_two s t (proj1 S))) as B. apply Ok_inj in B. exists s, t. split; [exact S|exact B].
Qed.
End Biggest.

Section Acc.
Context (ci cu : b64 -> Z) (k : nat) (Hk : (1 <= k <= 10)%nat).
Notation FO := (binary64 ci cu).
Notation roots := (roots_dict FO).
Notation n := (2 ^ k)%nat.
Context (f g : list Z) (Lf : length f = n) (Lg : length g = n).
Notation rf := (map IZR f).
Notation rg := (map IZR g).
Notation lam j := (lam (map IZR f) (map IZR g) (P k j)).
Context (Hs : sqnorm n rf + sqnorm n rg <= 17000) (Hpos : forall j, (j < n)%nat -> 0 < lam j)
  (H6 : gs2 exact_roots k rf rg 12289 <= 1000000).
Let k1 : (1 <= k)%nat. Proof. lia. Qed.
Let Lrf : length rf = n. Proof. now rewrite map_length. Qed.
Let Lrg : length rg = n. Proof. now rewrite map_length. Qed.
Let Hf : sqnorm n rf <= 17000. Proof. pose proof (sqnorm_pos n rg). lra. Qed.
Let Hg : sqnorm n rg <= 17000. Proof. pose proof (sqnorm_pos n rf). lra. Qed.
Notation T := (avg k (fun i => / lam i)).

Lemma lam_147 j : (j < n)%nat -> 147 / 1000 <= lam j.
Proof.
  intros Hj. pose proof (avg_member k (fun i => / lam i) j Hj) as H. cbv beta in H.
  specialize (H ltac:(intros i Hi; left; apply Rinv_0_lt_compat, Hpos, Hi)).
  unfold gs2 in H6. set (a := T) in *. pose proof (n_bound k Hk) as NB. set (l := lam j) in *.
  assert (A0 : 0 <= a).
  { unfold a. apply Rle_trans with (avg k (fun _ => 0)); [rewrite avg_const; lra|]. apply avg_le. intros i Hi. left. apply Rinv_0_lt_compat, Hpos, Hi. }
  assert (HI : / l <= 1024 * (1000000 / (12289 * 12289))).
  { apply Rle_trans with (1 := H). apply Rmult_le_compat; lra. }
  pose proof (Hpos j Hj) as L0. fold l in L0.
  apply Rmult_le_reg_r with (/ l); [apply Rinv_0_lt_compat, L0|]. rewrite Rinv_r by lra. lra.
Qed.
Lemma T_bound : 0 <= T <= 664 / 100000.
Proof.
  split.
  - apply Rle_trans with (avg k (fun _ => 0)); [rewrite avg_const; lra|]. apply avg_le. intros i Hi. left. apply Rinv_0_lt_compat, Hpos, Hi.
  - unfold gs2 in H6. lra.
Qed.

(** the squared norm of the quotients *)
Lemma quot_norm (c e : list R) : length c = n -> length e = n ->
  (forall j, (j < n)%nat -> Cle (Csub (ceval c (P k j)) (cf k f g f j)) (13 / 10000 * mj k f g j)) ->
  (forall j, (j < n)%nat -> Cle (Csub (ceval e (P k j)) (cf k f g g j)) (13 / 10000 * mj k f g j)) ->
  Rabs (sqnorm n c + sqnorm n e - T) <= / 250 * T.
Proof.
  intros Lc Le Hc He.
  assert (PT : forall j, (j < n)%nat ->
    Rabs (Csqnorm (ceval c (P k j)) + Csqnorm (ceval e (P k j)) - / lam j) <= / 250 * / lam j).
  { intros j Hj. destruct (mj_facts ci cu k Hk f g Lf Lg Hs lam_147 j Hj) as (L0 & SQ & _).
    pose proof (Csq_both _ _ _ (182 / 100000) ltac:(lra) (Hc j Hj)) as A1. pose proof (Csq_both _ _ _ (182 / 100000) ltac:(lra) (He j Hj)) as A2.
    assert (ES : Csqnorm (cf k f g f j) + Csqnorm (cf k f g g j) = / lam j).
    { rewrite !cf_sq. rewrite <- Rmult_plus_distr_r. fold (lam j). field. lra. }
    assert (I0 : 0 < / lam j) by (apply Rinv_0_lt_compat, L0).
    replace (13 / 10000 * mj k f g j * (13 / 10000 * mj k f g j)) with (13 / 10000 * (13 / 10000) * / lam j) in A1, A2 by (rewrite <- SQ; ring).
    apply abs_inv in A1. apply abs_inv in A2. apply Rabs_le. set (il := / lam j) in *.
    set (s1 := Csqnorm (cf k f g f j)) in *. set (s2 := Csqnorm (cf k f g g j)) in *.
    replace (13 / 10000 * (13 / 10000) * il / (182 / 100000)) with (169 / 182000 * il) in A1, A2 by field. lra. }
  rewrite <- (parseval exact_roots G0 k c Lc), <- (parseval exact_roots G0 k e Le), <- avg_plus.
  pose proof (avg_le k _ _ (fun j Hj => proj2 (abs_inv _ _ (PT j Hj)))) as U1.
  pose proof (avg_le k _ _ (fun j Hj => proj1 (abs_inv _ _ (PT j Hj)))) as U2. cbv beta in U1, U2.
  assert (V1 : avg k (fun i => Csqnorm (ceval c (P k i)) + Csqnorm (ceval e (P k i)) - / lam i) =
    avg k (fun i => Csqnorm (ceval c (P k i)) + Csqnorm (ceval e (P k i))) - T).
  { rewrite (avg_ext k _ (fun i => (Csqnorm (ceval c (P k i)) + Csqnorm (ceval e (P k i))) + (-1) * / lam i)) by (intros; ring).
    rewrite (avg_plus k (fun i => Csqnorm (ceval c (P k i)) + Csqnorm (ceval e (P k i))) (fun i => -1 * / lam i)), avg_scal. ring. }
  assert (V2 : avg k (fun i => - (/ 250 * / lam i)) = - (/ 250 * T)).
  { rewrite (avg_ext k _ (fun i => - / 250 * / lam i)) by (intros; ring). rewrite avg_scal. ring. }
  rewrite V1, V2 in *. rewrite avg_scal in U1. apply Rabs_le. lra.
Qed.

Lemma coef_small (c : list R) i : (i < n)%nat -> sqnorm n c <= / 100 -> Rabs (nth i c 0) <= / 10.
Proof. intros Hi H. apply sq_le; [lra|]. pose proof (coef_sqnorm n c i Hi). lra. Qed.

Lemma GsNorm_float : exists gs : b64,
  GsNorm FO (Int16ToFloat64 FO f) (Int16ToFloat64 FO g) (f_of_int FO GoBase.Q) = Ok gs /\ is_finite gs = true /\
  Rabs (B2R gs - Rmax (sqnorm n rf + sqnorm n rg) (gs2 exact_roots k rf rg 12289)) <= gs2 exact_roots k rf rg 12289 / 250 + / 10.
Proof.
  pose proof lam_147 as Hlam. pose proof T_bound as TB.
  destruct (Adj_a ci cu k Hk f Lf Hf) as (xf & EAf & Lxf & Fxf & Hxf). destruct (Adj_a ci cu k Hk g Lg Hg) as (xg & EAg & Lxg & Fxg & Hxg).
  destruct (Mul_a ci cu k Hk f Lf Hf xf Lxf Fxf Hxf) as (yf & EMf & Lyf & Fyf & Hyf).
  destruct (Mul_a ci cu k Hk g Lg Hg xg Lxg Fxg Hxg) as (yg & EMg & Lyg & Fyg & Hyg).
  destruct (Add_gram ci cu k Hk f g Lf Lg Hs Hlam yf yg Lyf Lyg Fyf Fyg Hyf Hyg) as (d & ED & Ld & Fd & Hd).
  assert (Hal : forall j, (j < n)%nat -> Csqnorm (ceval rf (P k j)) <= lam j) by (intros j _; unfold GsExact.lam; pose proof (Csqnorm_pos (ceval rg (P k j))); lra).
  assert (Hbl : forall j, (j < n)%nat -> Csqnorm (ceval rg (P k j)) <= lam j) by (intros j _; unfold GsExact.lam; pose proof (Csqnorm_pos (ceval rf (P k j))); lra).
  destruct (Div_a ci cu k Hk f g Lf Lg Hs Hlam d Ld Fd Hd f Lf Hf Hal xf Lxf Fxf Hxf) as (p & c & EP & Lp & Fp & Lc & Hp & Hc).
  destruct (Div_a ci cu k Hk f g Lf Lg Hs Hlam d Ld Fd Hd g Lg Hg Hbl xg Lxg Fxg Hxg) as (r & e & ER & Lr & Fr & Le & Hr & He).
  pose proof (quot_norm c e Lc Le Hc He) as QN. apply abs_inv in QN.
  pose proof (sqnorm_pos n c) as P1'. pose proof (sqnorm_pos n e) as P2'.
  assert (Cc : forall i, (i < n)%nat -> Rabs (nth i c 0) <= / 10) by (intros i Hi; apply coef_small; [exact Hi|lra]).
  assert (Ce : forall i, (i < n)%nat -> Rabs (nth i e 0) <= / 10) by (intros i Hi; apply coef_small; [exact Hi|lra]).
  pose proof (n_bound k Hk) as NB.
  assert (SC : Rabs (fsq (vals p) - sqnorm n c) <= 15 / 100000000000).
  { rewrite <- (fsq_sqnorm c n Lc). eapply Rle_trans; [apply (fsq_close _ _ (6 / 10000000000000)); [lra|now rewrite map_length, Lp, Lc|]|].
    - intros i Hi. rewrite Lc in Hi. split; [apply Hp, Hi|apply Cc, Hi].
    - rewrite Lc. lra. }
  assert (SE : Rabs (fsq (vals r) - sqnorm n e) <= 15 / 100000000000).
  { rewrite <- (fsq_sqnorm e n Le). eapply Rle_trans; [apply (fsq_close _ _ (6 / 10000000000000)); [lra|now rewrite map_length, Lr, Le|]|].
    - intros i Hi. rewrite Le in Hi. split; [apply Hr, Hi|apply Ce, Hi].
    - rewrite Le. lra. }
  apply abs_inv in SC. apply abs_inv in SE.
  (* the float sum of squares *)
  pose proof (fsq_nonneg (vals p)) as FP. pose proof (fsq_nonneg (vals r)) as FR.
  assert (S1 : approx (INR (length p) * (4 * u53)) (fold_left (fun r c => b_add r (b_sqr c)) p (b_of_int 0)) (fsq (vals p))).
  { pose proof (fold_float p (b_of_int 0) 0 0) as A. rewrite !Rplus_0_l in A. rewrite !Rplus_0_r in A. apply A.
    - apply (approx_exact (b_of_int 0)). reflexivity.
    - lra.
    - exact Fp.
    - rewrite Lp. unfold u53. lra. }
  assert (S2 : approx (2 / 1000000000000) (Sqnorm FO [p; r]) (fsq (vals p) + fsq (vals r))).
  { rewrite Sqnorm_two. eapply approx_le; [|apply (fold_float r _ _ _ S1 FP Fr)].
    - rewrite Lp, Lr. unfold u53. lra.
    - rewrite Lp, Lr. unfold u53. lra. }
  assert (S3 : approx (4 / 10000000000) (Sqnorm FO [p; r]) (sqnorm n c + sqnorm n e)).
  { destruct S2 as [F2 A2]. split; [exact F2|]. apply abs_inv in A2. apply Rabs_le. lra. }
  assert (QI : isval (b_sqr (b_of_int 12289)) 151019521).
  { apply (sqr_int _ 12289); [|lia]. destruct (of_int_exact 12289 ltac:(lia)) as [A B]. split; assumption. }
  assert (S4 : approx (/ 10) (f_mul FO (f_sqr FO (f_of_int FO GoBase.Q)) (Sqnorm FO [p; r])) (151019521 * (sqnorm n c + sqnorm n e))).
  { change (f_mul FO (f_sqr FO (f_of_int FO GoBase.Q)) (Sqnorm FO [p; r])) with (b_mul (b_sqr (b_of_int 12289)) (Sqnorm FO [p; r])).
    destruct QI as [FQ VQ]. pose proof (approx_exact _ FQ) as AQ. rewrite VQ in AQ.
    eapply approx_le; [|apply (mul_approx 0 _ _ _ 151019521 (sqnorm n c + sqnorm n e) 2000000 AQ S3)]; unfold mul_err.
    - rewrite (Rabs_pos_eq 151019521) by lra. unfold u53. rewrite (Rabs_pos_eq (sqnorm n c + sqnorm n e)); lra.
    - rewrite (Rabs_pos_eq 151019521) by lra. rewrite (Rabs_pos_eq (sqnorm n c + sqnorm n e)); lra.
    - split; [lra|]. apply big_le. cbn; lra. }
  assert (ZS : IZR (zsq f + zsq g) = sqnorm n rf + sqnorm n rg).
  { now rewrite plus_IZR, <- !fsq_IZR, (fsq_sqnorm rf n Lrf), (fsq_sqnorm rg n Lrg). }
  assert (Z17 : (zsq f + zsq g <= 17000)%Z) by (apply le_IZR; rewrite ZS; exact Hs).
  pose proof (Sqnorm_ints ci cu f g ltac:(lia)) as SI. rewrite ZS in SI.
  change (map b_of_int f) with (Int16ToFloat64 FO f) in *. change (map b_of_int g) with (Int16ToFloat64 FO g) in *.
  unfold GsNorm, GsNorm_at. cbv zeta. rewrite EAf. cbn [bind]. rewrite EMf. cbn [bind]. rewrite EAg. cbn [bind]. rewrite EMg. cbn [bind].
  rewrite ED. cbn [bind]. rewrite EP. cbn [bind]. rewrite ER. cbn [bind].
  set (s := Sqnorm FO [Int16ToFloat64 FO f; Int16ToFloat64 FO g]) in *. set (t := f_mul FO _ _) in *.
  destruct SI as [Fs Vs]. destruct S4 as [Ft Vt].
  eexists. split; [apply Biggest_two; exact Fs|]. destruct (Biggest_real s t Fs Ft) as [Fm Vm]. split; [exact Fm|]. rewrite Vm, Vs.
  assert (GE : gs2 exact_roots k rf rg 12289 = 151019521 * T) by (unfold gs2; ring). rewrite GE. set (S0 := sqnorm n rf + sqnorm n rg) in *.
  apply abs_inv in Vt. set (vt := B2R t) in *.
  apply Rabs_le. unfold Rmax. destruct (Rle_dec S0 vt), (Rle_dec S0 (151019521 * T)); lra.
Qed.
End Acc.
