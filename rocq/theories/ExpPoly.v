(** Bounds on integer polynomials over an interval, and the table C of samplerz.go. *)
From Coq Require Import Reals Lra Lia ZArith List Bool.
From Verif Require Import GoBase Float Samplerz HalfGauss.
Import ListNotations.
Local Open Scope R_scope.

(** coefficients from the constant one upwards *)
Fixpoint pev (p : list Z) (x : R) : R := match p with [] => 0 | a :: p' => IZR a + x * pev p' x end.
Fixpoint paddz (p r : list Z) : list Z :=
  match p, r with [], _ => r | _, [] => p | a :: p', b :: r' => (a + b)%Z :: paddz p' r' end.
Lemma pev_add p : forall r x, pev (paddz p r) x = pev p x + pev r x.
Proof. induction p as [|a p IH]; intros [|b r] x; cbn [paddz pev]; try ring. rewrite IH, plus_IZR. ring. Qed.
(** p(t+1) *)
Fixpoint shift1 (p : list Z) : list Z :=
  match p with [] => [] | a :: p' => let s := shift1 p' in paddz [a] (paddz s (0%Z :: s)) end.
Lemma pev_shift p x : pev (shift1 p) x = pev p (x + 1).
Proof.
  induction p as [|a p IH]; [reflexivity|]. cbn [shift1]. rewrite !pev_add. cbn [pev]. rewrite IH. ring.
Qed.
Definition asum (p : list Z) : Z := fold_right (fun a s => Z.abs a + s)%Z 0%Z p.
Lemma asum_pos p : (0 <= asum p)%Z.
Proof. induction p as [|a p IH]; cbn [asum fold_right]; [lia|]. fold (asum p). lia. Qed.
Lemma pev_asum p t : 0 <= t <= 1 -> Rabs (pev p t) <= IZR (asum p).
Proof.
  intros Ht. induction p as [|a p IH]; cbn [pev asum fold_right]; [rewrite Rabs_R0; lra|]. fold (asum p).
  eapply Rle_trans; [apply Rabs_triang|]. rewrite plus_IZR, abs_IZR. apply Rplus_le_compat_l.
  rewrite Rabs_mult, (Rabs_pos_eq t) by lra. pose proof (Rabs_pos (pev p t)). nra.
Qed.
Fixpoint pcheck (m : nat) (B : Z) (p : list Z) : bool :=
  match m with O => true | S m' => (asum p <=? B)%Z && pcheck m' B (shift1 p) end.
Lemma pcheck_ok B : forall m p u, pcheck m B p = true -> 0 <= u <= INR m -> m <> O -> Rabs (pev p u) <= IZR B.
Proof.
  induction m as [|m IH]; intros p u C Hu Hm; [congruence|]. cbn [pcheck] in C. apply andb_prop in C. destruct C as [C1 C2]. apply Z.leb_le in C1.
  destruct (Rle_dec u 1) as [L|L].
  - eapply Rle_trans; [apply pev_asum; lra|]. apply IZR_le, C1.
  - destruct m as [|m]; [cbn [INR] in Hu; lra|].
    specialize (IH (shift1 p) (u - 1) C2). rewrite pev_shift in IH. replace (u - 1 + 1) with u in IH by ring.
    apply IH; [|discriminate]. rewrite S_INR in Hu. lra.
Qed.
(** p(x) 2^(dm) for x = u/2^m, where d is the degree *)
Fixpoint pscal (c : Z) (p : list Z) : list Z :=
  match p with [] => [] | a :: p' => (a * c ^ Z.of_nat (length p'))%Z :: pscal c p' end.
Lemma pev_scal c p x : (0 < c)%Z -> p <> [] -> pev (pscal c p) (IZR c * x) = IZR c ^ (length p - 1) * pev p x.
Proof.
  intros Hc. induction p as [|a p IH]; intros Hp; [congruence|]. cbn [pscal pev length]. rewrite mult_IZR, <- pow_IZR.
  destruct p as [|b p]; [cbn; ring|].
  rewrite IH by discriminate. cbn [length]. replace (S (S (length p)) - 1)%nat with (S (length p)) by lia. replace (S (length p) - 1)%nat with (length p) by lia.
  rewrite <- tech_pow_Rmult. ring.
Qed.

(** 17! (-1)^i / i! *)
Fixpoint zfact (k : nat) : Z := match k with O => 1 | S k' => Z.of_nat k * zfact k' end%Z.
Definition taylor17 : list Z :=
  map (fun i => (if Nat.even i then 1 else -1) * (355687428096000 / zfact i))%Z (seq 0 18).
Definition altC : list Z := map (fun i => (if Nat.even i then 1 else -1) * nth (12 - i) expC 0)%Z (seq 0 13).
(** 17! sum C[12-i] (-x)^i - 2^63 17! sum (-x)^i/i! *)
Definition diffC : list Z := paddz (map (Z.mul 355687428096000) altC) (map (Z.mul (- 2 ^ 63)) taylor17).
Lemma pev_map c p x : pev (map (Z.mul c) p) x = IZR c * pev p x.
Proof. induction p as [|a p IH]; cbn [map pev]; [ring|]. rewrite IH, mult_IZR. ring. Qed.
Lemma diffC_check : pcheck 89 (3623 * 355687428096000 * 128 ^ 17) (pscal 128 diffC) = true.
Proof. vm_compute. reflexivity. Qed.

Lemma zfact_fact k : IZR (zfact k) = INR (fact k).
Proof. induction k as [|k IH]; [reflexivity|]. cbn [zfact]. rewrite mult_IZR, IH, fact_simpl, mult_INR, <- (INR_IZR_INZ (S k)). reflexivity. Qed.
Lemma taylor17_eq x : pev taylor17 x = 355687428096000 * sum_f_R0 (tg_alt (et x)) 17.
Proof.
  replace taylor17 with [355687428096000; -355687428096000; 177843714048000; -59281238016000; 14820309504000; -2964061900800; 494010316800; -70572902400; 8821612800; -980179200; 98017920; -8910720; 742560; -57120; 4080; -272; 17; -1]%Z by (vm_compute; reflexivity).
  unfold tg_alt, et. cbn [sum_f_R0]. rewrite <- !zfact_fact.
  change (zfact 0) with 1%Z. change (zfact 1) with 1%Z. change (zfact 2) with 2%Z. change (zfact 3) with 6%Z. change (zfact 4) with 24%Z. change (zfact 5) with 120%Z. change (zfact 6) with 720%Z. change (zfact 7) with 5040%Z. change (zfact 8) with 40320%Z. change (zfact 9) with 362880%Z. change (zfact 10) with 3628800%Z. change (zfact 11) with 39916800%Z. change (zfact 12) with 479001600%Z. change (zfact 13) with 6227020800%Z. change (zfact 14) with 87178291200%Z. change (zfact 15) with 1307674368000%Z. change (zfact 16) with 20922789888000%Z. change (zfact 17) with 355687428096000%Z.
  cbn [pev pow]. field.
Qed.
Lemma altC_eq x : pev altC x = sum_f_R0 (fun i => IZR (nth (12 - i) expC 0%Z) * (- x) ^ i) 12.
Proof.
  replace altC with [9223372036854775808; -9223372036854728704; 4611686018427565056; -1537228672812056320; 384307168197152512; -76861433589428176; 12810238987800554; -1830034511206115; 228754078003076; -25415798087749; 2542029181962; -233346759686; 19127174051]%Z by (vm_compute; reflexivity).
  cbn [sum_f_R0 Nat.sub]. unfold expC. cbn [nth pev pow]. ring.
Qed.

Lemma diffC_small x : 0 <= x <= 89 / 128 -> Rabs (pev altC x - 2 ^ 63 * sum_f_R0 (tg_alt (et x)) 17) <= 3623.
Proof.
  intros H. pose proof (pcheck_ok _ _ _ (128 * x) diffC_check) as A.
  assert (I89 : INR 89 = 89) by (rewrite INR_IZR_INZ; reflexivity). rewrite I89 in A. specialize (A ltac:(lra) ltac:(discriminate)).
  assert (N0 : diffC <> []) by (vm_compute; discriminate). assert (LD : length diffC = 18%nat) by (vm_compute; reflexivity).
  rewrite (pev_scal 128 diffC x ltac:(lia) N0), LD in A. change (18 - 1)%nat with 17%nat in A.
  assert (E : pev diffC x = 355687428096000 * (pev altC x - 2 ^ 63 * sum_f_R0 (tg_alt (et x)) 17)).
  { unfold diffC. rewrite pev_add, !pev_map, taylor17_eq. replace (IZR (- 2 ^ 63)) with (- 2 ^ 63) by (rewrite opp_IZR; f_equal; rewrite pow_IZR; reflexivity). ring. }
  rewrite E in A. set (d := pev altC x - _) in *. clearbody d. clear E N0 LD I89.
  rewrite !mult_IZR in A. replace (128 ^ 17)%Z with (128 ^ Z.of_nat 17)%Z in A by reflexivity. rewrite <- pow_IZR in A.
  set (c := IZR 128 ^ 17) in *. assert (C0 : 0 < c) by (apply pow_lt; lra). clearbody c.
  rewrite !Rabs_mult, (Rabs_pos_eq c), (Rabs_pos_eq 355687428096000) in A by lra.
  apply Rmult_le_reg_l with (355687428096000 * c); [nra|]. lra.
Qed.
Lemma et18_small x : 0 <= x <= 89 / 128 -> 0 <= 2 ^ 63 * et x 18 <= 3.
Proof.
  intros H. pose proof (et_pos x 18 (proj1 H)) as P. assert (P63 : 0 < 2 ^ 63) by (apply pow_lt; lra). split; [nra|].
  unfold et. rewrite <- zfact_fact. change (zfact 18) with 6402373705728000%Z.
  assert (X : x ^ 18 <= (89 / 128) ^ 18) by (apply pow_incr; exact H).
  apply Rle_trans with (2 ^ 63 * (/ 6402373705728000 * (89 / 128) ^ 18)).
  - apply Rmult_le_compat_l; [lra|]. apply Rmult_le_compat_l; [lra|exact X].
  - lra.
Qed.
Lemma expC_close x : 0 <= x <= 89 / 128 -> Rabs (pev altC x - 2 ^ 63 * exp (- x)) <= 3626.
Proof.
  intros H. pose proof (diffC_small x H) as A. pose proof (et18_small x H) as B.
  assert (Y : 0 <= x <= 1) by lra. pose proof (exp_bounds x 8 Y) as [L _]. pose proof (exp_bounds x 9 Y) as [_ U].
  change (S (2 * 8)) with 17%nat in L. change (2 * 9)%nat with 18%nat in U.
  assert (T : sum_f_R0 (tg_alt (et x)) 18 = sum_f_R0 (tg_alt (et x)) 17 + et x 18).
  { change (sum_f_R0 (tg_alt (et x)) 18) with (sum_f_R0 (tg_alt (et x)) 17 + tg_alt (et x) 18). f_equal. unfold tg_alt.
    replace ((-1) ^ 18) with 1 by (cbn [pow]; ring). ring. }
  rewrite T in U. set (s := sum_f_R0 _ 17) in *. clearbody s. set (t := et x 18) in *. clearbody t. set (e := exp (- x)) in *. clearbody e.
  set (a := pev altC x) in *. clearbody a. set (M := 2 ^ 63) in *. assert (MP : 0 < M) by (apply pow_lt; lra). clearbody M. clear T.
  apply Rabs_le. pose proof (Rle_abs (a - M * s)); pose proof (Rle_abs (- (a - M * s))) as Q; rewrite Rabs_Ropp in Q.
  split; nra.
Qed.
(** ln 2 *)
Lemma ln2_bounds : 69314718055994 / 100000000000000 < ln 2 < 69314718056 / 100000000000.
Proof.
  pose proof (exp_enc 69314718055994 100000000000000 7 ltac:(lia) ltac:(lia) ltac:(apply Z.leb_le; vm_compute; reflexivity)) as [_ [A _]].
  pose proof (exp_enc 69314718056 100000000000 7 ltac:(lia) ltac:(lia) ltac:(apply Z.leb_le; vm_compute; reflexivity)) as [_ [_ B]]. cbn [fst snd] in A, B.
  assert (A' : (2 ^ 127 < elo 69314718055994 100000000000000 7)%Z) by (apply Z.ltb_lt; vm_compute; reflexivity).
  assert (B' : (ehi 69314718056 100000000000 7 < 2 ^ 127)%Z) by (apply Z.ltb_lt; vm_compute; reflexivity).
  apply IZR_lt in A', B'. assert (P : IZR P128 = 2 * IZR (2 ^ 127)) by (rewrite <- mult_IZR; reflexivity).
  assert (P0 : 0 < IZR (2 ^ 127)) by (apply IZR_lt; reflexivity). rewrite P in A, B.
  set (a := IZR (elo _ _ _)) in *. set (b := IZR (ehi _ _ _)) in *. set (M := IZR (2 ^ 127)) in *. clearbody a b M.
  set (x := 69314718055994 / 100000000000000) in *. set (y := 69314718056 / 100000000000) in *. clearbody x y.
  assert (X : / 2 < exp (- x)) by nra. assert (Y : exp (- y) < / 2) by nra. rewrite exp_Ropp in X, Y.
  pose proof (exp_pos x) as Px. pose proof (exp_pos y) as Py.
  pose proof (Rinv_0_lt_compat _ Px). pose proof (Rinv_0_lt_compat _ Py).
  apply Rinv_lt_contravar in X; [|nra]. apply Rinv_lt_contravar in Y; [|nra]. rewrite !Rinv_inv in X, Y.
  split; apply exp_lt_inv; rewrite exp_ln by lra; assumption.
Qed.

(** the algorithm in the comment of approxexp, with unbounded integers: z = floor(2^63 x),
    y <- C[u] - (z y >> 63) *)
Definition horner_doc (z : Z) : Z := fold_left (fun y elt => elt - Z.shiftr (z * y) 63)%Z (tl expC) (hd 0%Z expC).
(** one step: an error e becomes at most (7/10) e + 1 *)
Lemma doc_step z y c e Y : 0 <= IZR z / 2 ^ 63 <= 7 / 10 -> Rabs (IZR y - Y) <= e ->
  Rabs (IZR (c - Z.shiftr (z * y) 63) - (IZR c - IZR z / 2 ^ 63 * Y)) <= 7 / 10 * e + 1.
Proof.
  intros Hz H. rewrite Z.shiftr_div_pow2, minus_IZR by lia.
  assert (P : 0 < IZR (2 ^ 63)) by (apply IZR_lt; reflexivity).
  assert (F : IZR z / 2 ^ 63 * IZR y - 1 <= IZR (z * y / 2 ^ 63) <= IZR z / 2 ^ 63 * IZR y).
  { replace (2 ^ 63)%R with (IZR (2 ^ 63)) by (rewrite pow_IZR; reflexivity).
    pose proof (Z.div_mod (z * y) (2 ^ 63) ltac:(lia)) as E. pose proof (Z.mod_pos_bound (z * y) (2 ^ 63) ltac:(lia)) as [M1 M2].
    apply (f_equal IZR) in E. rewrite plus_IZR, !mult_IZR in E. apply IZR_le in M1. apply IZR_lt in M2.
    set (k := IZR (z * y / 2 ^ 63)) in *. set (m := IZR ((z * y) mod 2 ^ 63)) in *. set (T := IZR (2 ^ 63)) in *. clearbody k m T.
    replace (IZR z / T * IZR y) with (k + m / T) by (apply Rmult_eq_reg_r with T; [|lra]; field_simplify; [lra|lra|lra]).
    assert (0 <= m / T <= 1). { split; [apply Rmult_le_pos; [lra|apply Rlt_le, Rinv_0_lt_compat, P]|]. apply Rmult_le_reg_r with T; [exact P|]. unfold Rdiv. rewrite Rmult_assoc, Rinv_l by lra. lra. }
    lra. }
  set (k := IZR (z * y / 2 ^ 63)) in *. clearbody k. set (w := IZR z / 2 ^ 63) in *. clearbody w. clear P.
  pose proof (Rle_abs (IZR y - Y)) as Q1. pose proof (Rle_abs (- (IZR y - Y))) as Q2. rewrite Rabs_Ropp in Q2.
  apply Rabs_le. split; nra.
Qed.
Lemma doc_fold z (w := IZR z / 2 ^ 63) l : 0 <= w <= 7 / 10 -> forall y Y, Rabs (IZR y - Y) <= 10 / 3 ->
  Rabs (IZR (fold_left (fun y elt => elt - Z.shiftr (z * y) 63)%Z l y) - fold_left (fun Y c => IZR c - w * Y) l Y) <= 10 / 3.
Proof.
  intros Hw. induction l as [|c l IH]; intros y Y H; cbn [fold_left]; [exact H|]. apply IH.
  eapply Rle_trans; [apply doc_step; [exact Hw|exact H]|]. lra.
Qed.
Lemma rhorner x : fold_left (fun Y c => IZR c - x * Y) (tl expC) (IZR (hd 0%Z expC)) = pev altC x.
Proof. rewrite altC_eq. cbn [sum_f_R0 Nat.sub]. unfold expC. cbn [tl hd fold_left nth pow]. ring. Qed.
Lemma exp_opp_lip w x : 0 <= w <= x -> exp (- x) <= exp (- w) <= exp (- x) + (x - w).
Proof.
  intros H. split; [destruct (Req_dec w x) as [->|N]; [lra|left; apply exp_increasing; lra]|].
  assert (E : exp (- w) * (1 - (x - w)) <= exp (- x)).
  { replace (exp (- x)) with (exp (- w) * exp (- (x - w))) by (rewrite <- exp_plus; f_equal; ring).
    apply Rmult_le_compat_l; [left; apply exp_pos|]. pose proof (exp_ineq1_le (- (x - w))). lra. }
  assert (L : exp (- w) <= 1) by (rewrite <- exp_0; destruct (Req_dec w 0) as [->|N]; [rewrite Ropp_0; lra|left; apply exp_increasing; lra]).
  pose proof (exp_pos (- w)). nra.
Qed.
Lemma doc_close x z : 0 <= x <= 89 / 128 -> IZR z <= 2 ^ 63 * x < IZR z + 1 -> (0 <= z)%Z ->
  Rabs (IZR (horner_doc z) - 2 ^ 63 * exp (- x)) <= 3631.
Proof.
  intros Hx [Hz1 Hz2] H0. set (w := IZR z / 2 ^ 63). assert (P : 0 < 2 ^ 63) by (apply pow_lt; lra). apply IZR_le in H0.
  assert (Ew : IZR z = 2 ^ 63 * w) by (unfold w; field; lra). assert (W : 0 <= w <= x) by nra.
  assert (A : Rabs (IZR (horner_doc z) - pev altC w) <= 10 / 3).
  { rewrite <- rhorner. refine (doc_fold z (tl expC) _ (hd 0%Z expC) (IZR (hd 0%Z expC)) _); [fold w; lra|].
    rewrite Rminus_diag_eq by reflexivity. rewrite Rabs_R0. lra. }
  pose proof (expC_close w ltac:(lra)) as B. pose proof (exp_opp_lip w x W) as [C1 C2]. rewrite Ew in Hz2.
  set (a := IZR (horner_doc z)) in *. set (b := pev altC w) in *. set (e := exp (- w)) in *. set (e' := exp (- x)) in *. set (M := 2 ^ 63) in *. clearbody w a b e e' M.
  apply Rabs_le. pose proof (Rle_abs (a - b)) as Q1. pose proof (Rle_abs (- (a - b))) as Q2. rewrite Rabs_Ropp in Q2.
  pose proof (Rle_abs (b - M * e)) as Q3. pose proof (Rle_abs (- (b - M * e))) as Q4. rewrite Rabs_Ropp in Q4.
  assert (D : 0 <= M * (e - e') <= 1) by (split; nra). split; nra.
Qed.
