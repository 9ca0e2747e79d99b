(** The Gram-Schmidt test of NtruGen (ntrugen.go:313-316) in binary64 on the
    polynomials of BadAlg.v. *)
From Coq Require Import Reals Lra Lia ZArith List.
From Flocq Require Import Core BinarySingleNaN.
From Verif Require Import GoBase Util BaseProofs PolyZ PolyEval Spec Float Fft FftShape SpecFft SpecBabai ExactReal FftProofs RootsProofs FftErr
  Ntt Ntrugen NtruProofs NtruProofs2 NtruProofs3 NtruProps Samplerz KeyGen KeyGenProofs Falcon Binary64 B64Proofs FloatErr Babai GsExact GsBound GsReduce
  QuotErr QuotLoop CdivErr CdivGen SqrErr GsFloat GsAcc FftL1 PropsGsFloat BadAlg.
Local Open Scope R_scope.

(** a pair passes when f f* + g g* is at least 9500 at every root of unity *)
Lemma gs_pass ci cu k f g : (1 <= k <= 10)%nat -> length f = (2 ^ k)%nat -> length g = (2 ^ k)%nat ->
  (zsum2 f + zsum2 g <= 16200)%Z ->
  (forall j, (j < 2 ^ k)%nat -> 9500 <= lam (map IZR f) (map IZR g) (P exact_roots k j)) ->
  exists gs, float_GsNorm ci cu f g = Ok gs /\ f_ltb (binary64 ci cu) (gs_bound (binary64 ci cu)) gs = false.
Proof.
  intros Hk Lf Lg Hs HL.
  assert (Hs' : sqnorm (2 ^ k) (map IZR f) + sqnorm (2 ^ k) (map IZR g) <= 16200).
  { rewrite <- (zsq_sqnorm f _ Lf), <- (zsq_sqnorm g _ Lg), <- plus_IZR. apply IZR_le, Hs. }
  assert (T : gs2 exact_roots k (map IZR f) (map IZR g) 12289 <= 15900).
  { unfold gs2. assert (avg k (fun i => / lam (map IZR f) (map IZR g) (P exact_roots k i)) <= / 9500).
    { rewrite <- (avg_const k (/ 9500)). apply avg_le. intros i Hi. apply Rinv_le_contravar; [lra|apply HL, Hi]. }
    lra. }
  destruct (GsNorm_float ci cu k Hk f g Lf Lg ltac:(lra)) as (gs & E & Fi & A).
  - intros j Hj. specialize (HL j Hj). lra.
  - lra.
  - exists gs. split; [exact E|]. destruct (gs_bound_value ci cu) as (FB & B).
    cbn [f_ltb binary64]. rewrite Bltb_correct by assumption. apply Rlt_bool_false. apply abs_inv in A.
    assert (Rmax (sqnorm (2 ^ k) (map IZR f) + sqnorm (2 ^ k) (map IZR g)) (gs2 exact_roots k (map IZR f) (map IZR g) 12289) <= 16200) by (apply Rmax_lub; lra).
    lra.
Qed.

Lemma ceval_cons a f z : ceval (a :: f) z = Cadd (RtoC a) (Cmul z (ceval f z)).
Proof.
  unfold ceval. cbn [length].
  assert (E : forall m, Csum (S m) (fun i => Cmul (RtoC (nth i (a :: f) 0)) (Cpow z i)) =
    Cadd (RtoC a) (Cmul z (Csum m (fun i => Cmul (RtoC (nth i f 0)) (Cpow z i))))).
  { induction m as [|m IH].
    - cbn [Csum nth Cpow]. ring.
    - change (Csum (S (S m)) ?h) with (Cadd (Csum (S m) h) (h (S m))). rewrite IH. cbn [Csum nth Cpow]. ring. }
  apply E.
Qed.
Lemma ceval_zeros m z : ceval (map IZR (repeat 0%Z m)) z = C0.
Proof. induction m as [|m IH]; [reflexivity|]. cbn [repeat map]. rewrite ceval_cons, IH. change (RtoC 0) with C0. ring. Qed.

Lemma lam_lin k c j : (j < 2 ^ S k)%nat -> 1 <= IZR c ->
  2 * ((IZR c - 1) * (IZR c - 1)) <= lam (map IZR (lin (S k) c)) (map IZR (lin (S k) c)) (P exact_roots (S k) j).
Proof.
  intros Hj Hc. pose proof (Babai.P_unit exact_roots exact_good (S k) j Hj) as U. unfold lam.
  assert (E : ceval (map IZR (lin (S k) c)) (P exact_roots (S k) j) = Cadd C1 (Cmul (P exact_roots (S k) j) (RtoC (IZR c)))).
  { unfold lin. cbn [map]. rewrite !ceval_cons, ceval_zeros. change (RtoC 1) with C1. ring. }
  rewrite E. destruct (P exact_roots (S k) j) as [x y]. unfold Cmul, Cconj, C1, RtoC, Cadd, Csqnorm in *. cbn [fst snd] in *.
  apply (f_equal fst) in U. cbn [fst] in U. assert (-1 <= x) by nra. nra.
Qed.
Lemma lin_pass k c j : (j < 2 ^ S k)%nat -> (76 <= c)%Z ->
  9500 <= lam (map IZR (lin (S k) c)) (map IZR (lin (S k) c)) (P exact_roots (S k) j).
Proof. intros Hj Hc. apply IZR_le in Hc. eapply Rle_trans; [|apply lam_lin; [exact Hj|lra]]. nra. Qed.
Lemma zsum2_zeros m : zsum2 (repeat 0%Z m) = 0%Z.
Proof. induction m as [|m IH]; [reflexivity|]. cbn [repeat fold_right]. rewrite IH. reflexivity. Qed.
Lemma zsum2_lin k c : zsum2 (lin (S k) c) = (1 + c * c)%Z.
Proof. unfold lin. cbn [fold_right]. rewrite zsum2_zeros. ring. Qed.

Lemma plift_cons a f : plift (a :: f) = a :: 0%Z :: plift f.
Proof.
  unfold plift. cbn [length]. replace (2 * S (length f))%nat with (S (S (2 * length f))) by lia. cbn [seq map].
  f_equal. f_equal. rewrite <- !seq_shift, !map_map. apply map_ext. intros i. cbn [Nat.even Nat.div2]. reflexivity.
Qed.
Lemma zsum2_plift f : zsum2 (plift f) = zsum2 f.
Proof. induction f as [|a f IH]; [reflexivity|]. rewrite plift_cons. cbn [fold_right]. rewrite IH. lia. Qed.
Lemma ceval_plift f z : ceval (map IZR (plift f)) z = ceval (map IZR f) (Cmul z z).
Proof.
  induction f as [|a f IH]; [reflexivity|]. rewrite plift_cons. cbn [map]. rewrite !ceval_cons, IH. change (RtoC 0) with C0. ring.
Qed.
Lemma lam_plift k f g L : (forall j, (j < 2 ^ k)%nat -> L <= lam (map IZR f) (map IZR g) (P exact_roots k j)) ->
  forall j, (j < 2 ^ S k)%nat -> L <= lam (map IZR (plift f)) (map IZR (plift g)) (P exact_roots (S k) j).
Proof.
  intros H j Hj. unfold lam. rewrite !ceval_plift.
  assert (E : exists i, (i < 2 ^ k)%nat /\ Cmul (P exact_roots (S k) j) (P exact_roots (S k) j) = P exact_roots k i).
  { exists (Nat.div2 j). pose proof (Nat.div2_odd j) as D. cbn [Nat.pow] in Hj. assert (Hi : (Nat.div2 j < 2 ^ k)%nat) by (destruct (Nat.odd j); cbn in D; lia).
    split; [exact Hi|]. rewrite <- (P_sqr exact_roots exact_good k _ Hi). destruct (Nat.odd j); cbn [Nat.b2n] in D; rewrite D at 1 2.
    - rewrite (P_opp exact_roots exact_good k _ Hi). ring.
    - rewrite Nat.add_0_r. reflexivity. }
  destruct E as (i & Hi & ->). apply H, Hi.
Qed.
(** ** The units of degree 8 *)
Definition u_f : list Z := [-1; 41; 45; -18; 0; 18; -45; -41]%Z.
Definition u_g : list Z := [-1; -41; 45; 18; 0; -18; -45; 41]%Z.
Definition u_inv : list Z := [2651; 1014; -1874; -2449; 0; 2449; 1874; -1014]%Z.
Lemma u_inverse : negacyc 8 u_f u_inv = pconst 8 1.
Proof. vm_compute. reflexivity. Qed.
Lemma gram_u : gram2 8 (map IZR u_f) (map IZR u_g) (map IZR u_f) (map IZR u_g) = map IZR [16122; 0; -418; 0; 0; 0; 418; 0]%Z.
Proof.
  unfold gram2, radd, rmul, radj, u_f, u_g. cbn [seq map nth Nat.sub].
  unfold rmul_coef. cbn [rsum Nat.leb Nat.sub Nat.add nth]. repeat (apply f_equal2; [ring|]). reflexivity.
Qed.
Lemma lam_u j : (j < 8)%nat -> 9500 <= lam (map IZR u_f) (map IZR u_g) (P exact_roots 3 j).
Proof.
  intros Hj. pose proof (ceval_lam exact_roots exact_good 3 (map IZR u_f) (map IZR u_g) eq_refl eq_refl j Hj) as E.
  change (2 ^ 3)%nat with 8%nat in E. rewrite gram_u in E. apply (f_equal fst) in E. unfold RtoC at 1 in E. cbn [fst] in E. rewrite <- E.
  pose proof (Babai.P_unit exact_roots exact_good 3 j Hj) as U.
  set (z := P exact_roots 3 j) in *.
  assert (Hz : Cle z 1).
  { unfold Cle. apply (f_equal fst) in U. unfold Cmul, Cconj, C1 in U. cbn [fst snd] in U. unfold Csqnorm. lra. }
  set (t := map IZR [0; 0; -418; 0; 0; 0; 418; 0]%Z).
  assert (D : ceval (map IZR [16122; 0; -418; 0; 0; 0; 418; 0]%Z) z = Cadd (RtoC 16122) (ceval t z)).
  { unfold t. cbn [map]. generalize [0; -418; 0; 0; 0; 418; 0]. intros l. rewrite !ceval_cons. change (RtoC 0) with C0. ring. }
  rewrite D. pose proof (Cle_lsum t z Hz) as B.
  assert (LS : lsum t = 844).
  { unfold lsum, t. cbn [map length rsum nth]. rewrite Rabs_R0, (Rabs_left (-418)), (Rabs_right 418) by lra. lra. }
  rewrite LS in B. destruct B as [_ B]. destruct (ceval t z) as [a b]. unfold Csqnorm, Cadd, RtoC in *. cbn [fst snd] in *. nra.
Qed.
