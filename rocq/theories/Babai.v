(** The nearest plane algorithm FfnpFFT (ffsampling.go:211-228) in exact
    arithmetic: how far the point it returns is from the target. *)
From Coq Require Import Lra Lia.
From Verif Require Import GoBase Util BaseProofs PolyRing Float Fft FftShape SpecFft SpecBabai ExactReal FftProofs
  Ntrugen Ffsampling FfExact.
Local Open Scope R_scope.

(** ** Sums *)
Lemma rsum_ext n f g : (forall i, (i < n)%nat -> f i = g i) -> rsum n f = rsum n g.
Proof.
  induction n as [|n IH]; intros H; [reflexivity|]. cbn [rsum].
  rewrite IH by (intros; apply H; lia). now rewrite (H n) by lia.
Qed.
Lemma rsum_double m f : rsum (2 * m) f = rsum m (fun i => f (2 * i)%nat + f (2 * i + 1)%nat).
Proof.
  induction m as [|m IH]; [reflexivity|].
  replace (2 * S m)%nat with (S (S (2 * m))) by lia. cbn [rsum]. rewrite IH.
  replace (S (2 * m)) with (2 * m + 1)%nat by lia. ring.
Qed.
Lemma rsum_scal n c f : rsum n (fun i => c * f i) = c * rsum n f.
Proof. induction n as [|n IH]; cbn [rsum]; [ring|]. rewrite IH. ring. Qed.
Lemma rsum_plus n f g : rsum n (fun i => f i + g i) = rsum n f + rsum n g.
Proof. induction n as [|n IH]; cbn [rsum]; [ring|]. rewrite IH. ring. Qed.

Lemma reven_length m f : length (reven m f) = m.
Proof. unfold reven. now rewrite map_length, seq_length. Qed.
Lemma rodd_length m f : length (rodd m f) = m.
Proof. unfold rodd. now rewrite map_length, seq_length. Qed.
Lemma rsub_length m f g : length (rsub m f g) = m.
Proof. unfold rsub. now rewrite map_length, seq_length. Qed.
Lemma reven_evens m f : length f = (2 * m)%nat -> reven m f = evens 0 f.
Proof. intros L. unfold reven, evens. rewrite L, Nat.mul_comm, Nat.div_mul by lia. reflexivity. Qed.
Lemma rodd_odds m f : length f = (2 * m)%nat -> rodd m f = odds 0 f.
Proof. intros L. unfold rodd, odds. rewrite L, Nat.mul_comm, Nat.div_mul by lia. reflexivity. Qed.

Lemma ceval_lin n (f g h : list R) c z : length f = n -> length g = n -> length h = n ->
  (forall i, (i < n)%nat -> nth i h 0 = nth i f 0 + c * nth i g 0) ->
  ceval h z = Cadd (ceval f z) (Cmul (RtoC c) (ceval g z)).
Proof.
  intros Lf Lg Lh H. unfold ceval. rewrite Lf, Lg, Lh.
  assert (A : forall m, (m <= n)%nat -> Csum m (fun i => Cmul (RtoC (nth i h 0)) (Cpow z i)) =
    Cadd (Csum m (fun i => Cmul (RtoC (nth i f 0)) (Cpow z i)))
         (Cmul (RtoC c) (Csum m (fun i => Cmul (RtoC (nth i g 0)) (Cpow z i))))).
  { induction m as [|m IH]; intros Hm; cbn [Csum]; [ring|]. rewrite IH by lia. rewrite H by lia.
    replace (RtoC (nth m f 0 + c * nth m g 0)) with (Cadd (RtoC (nth m f 0)) (Cmul (RtoC c) (RtoC (nth m g 0))))
      by (unfold Cadd, Cmul, RtoC; cbn [fst snd]; apply f_equal2; ring).
    ring. }
  apply A. lia.
Qed.
Lemma ceval_rsub n f g z : length f = n -> length g = n -> ceval (rsub n f g) z = Csub (ceval f z) (ceval g z).
Proof.
  intros Lf Lg. rewrite (ceval_lin n f g (rsub n f g) (-1) z Lf Lg (rsub_length _ _ _)).
  - replace (RtoC (-1)) with (Copp C1); [ring|]. unfold RtoC, Copp, C1. cbn [fst snd]. apply f_equal2; ring.
  - intros i Hi. unfold rsub. rewrite nth_map_seq by exact Hi. ring.
Qed.
Lemma ceval_radd' n f g z : length f = n -> length g = n -> ceval (radd n f g) z = Cadd (ceval f z) (ceval g z).
Proof.
  intros Lf Lg. rewrite (ceval_lin n f g (radd n f g) 1 z Lf Lg (radd_length _ _ _)).
  - change (RtoC 1) with C1. ring.
  - intros i Hi. unfold radd. rewrite nth_map_seq by exact Hi. ring.
Qed.

Section Babai.
Context (roots : nat -> list Cx) (G : good_roots roots).

(** ** The evaluation points, with -1 for n = 1 *)
Definition pts (k : nat) : list Cx := match k with O => [Copp C1] | S _ => roots (2 ^ k)%nat end.
Definition P (k i : nat) : Cx := nth i (pts k) C0.

Lemma pts_length k : length (pts k) = (2 ^ k)%nat.
Proof. destruct k; [reflexivity|]. apply (gr_len _ G). lia. Qed.
Lemma P_pow k i : (i < 2 ^ k)%nat -> Cpow (P k i) (2 ^ k) = Copp C1.
Proof.
  intros Hi. destruct k as [|k]; [|apply (root_pow _ G); auto; lia].
  cbn in Hi. replace i with 0%nat by lia. unfold P. cbn [pts nth]. change (2 ^ 0)%nat with 1%nat. cbn [Cpow]. ring.
Qed.
Lemma P_unit k i : (i < 2 ^ k)%nat -> Cmul (P k i) (Cconj (P k i)) = C1.
Proof.
  intros Hi. destruct k as [|k]; [|apply (gr_unit _ G); auto; lia].
  cbn in Hi. replace i with 0%nat by lia. unfold P. cbn [pts nth].
  unfold Cmul, Cconj, Copp, C1. cbn [fst snd]. apply f_equal2; ring.
Qed.
Lemma P_opp k i : (i < 2 ^ k)%nat -> P (S k) (2 * i + 1) = Copp (P (S k) (2 * i)).
Proof.
  intros Hi. destruct k as [|k].
  - cbn in Hi. replace i with 0%nat by lia. unfold P, pts. change (2 ^ 1)%nat with 2%nat. rewrite (gr_two _ G). reflexivity.
  - unfold P, pts. rewrite (pow2_S (S k)). apply (gr_opp _ G); [lia|exact Hi].
Qed.
Lemma P_sqr k i : (i < 2 ^ k)%nat -> Cmul (P (S k) (2 * i)) (P (S k) (2 * i)) = P k i.
Proof.
  intros Hi. destruct k as [|k].
  - cbn in Hi. replace i with 0%nat by lia. unfold P, pts. change (2 ^ 1)%nat with 2%nat. rewrite (gr_two _ G).
    cbn [nth Nat.mul Nat.add]. unfold Cmul, Ci, Copp, C1. cbn [fst snd]. apply f_equal2; ring.
  - unfold P. change (pts (S (S k))) with (roots (2 ^ S (S k))%nat). rewrite (pow2_S (S k)).
    apply (gr_sqr _ G); [lia|exact Hi].
Qed.
Lemma trans_pts k f : length f = (2 ^ k)%nat -> trans roots k f = map (ceval f) (pts k).
Proof.
  intros L. destruct k as [|k]; [|reflexivity].
  destruct f as [|x [|? ?]]; cbn in L; try lia. cbn [trans map pts]. f_equal.
  unfold ceval. cbn [length Csum nth Cpow]. ring.
Qed.
Lemma nth_trans k f i : length f = (2 ^ k)%nat -> (i < 2 ^ k)%nat -> nth i (trans roots k f) C0 = ceval f (P k i).
Proof. intros L Hi. rewrite trans_pts by exact L. apply nth_map_ceval. rewrite pts_length. exact Hi. Qed.
Lemma trans_ext k f (l : list Cx) : length f = (2 ^ k)%nat -> length l = (2 ^ k)%nat ->
  (forall i, (i < 2 ^ k)%nat -> nth i l C0 = ceval f (P k i)) -> l = trans roots k f.
Proof.
  intros Lf Ll H. apply nth_ext with (d := C0) (d' := C0).
  - rewrite (trans_length _ G) by exact Lf. exact Ll.
  - intros i Hi. rewrite Ll in Hi. rewrite H, nth_trans by assumption. reflexivity.
Qed.

(** value at the two square roots of a point, from the halves *)
Lemma ceval_halves k f i : length f = (2 ^ S k)%nat -> (i < 2 ^ k)%nat ->
  let w := P (S k) (2 * i) in let a := ceval (reven (2 ^ k) f) (P k i) in let b := ceval (rodd (2 ^ k) f) (P k i) in
  ceval f (P (S k) (2 * i)) = Cadd a (Cmul w b) /\ ceval f (P (S k) (2 * i + 1)) = Csub a (Cmul w b).
Proof.
  intros L Hi. cbn zeta. rewrite pow2_S in L. rewrite reven_evens, rodd_odds by exact L.
  rewrite !(ceval_even_odd (2 ^ k) f) by exact L. rewrite P_opp by exact Hi.
  replace (Cmul (Copp (P (S k) (2 * i))) (Copp (P (S k) (2 * i)))) with (Cmul (P (S k) (2 * i)) (P (S k) (2 * i))) by ring.
  rewrite P_sqr by exact Hi. split; [reflexivity|ring].
Qed.

Lemma Split_trans k f : length f = (2 ^ S k)%nat ->
  Split_list exactR roots (trans roots (S k) f) =
  Ok [trans roots k (reven (2 ^ k) f); trans roots k (rodd (2 ^ k) f)].
Proof.
  intros L. pose proof L as L'. rewrite pow2_S in L'. rewrite reven_evens, rodd_odds by exact L'.
  unfold Split_list. destruct k as [|k].
  - change (2 ^ 1)%nat with 2%nat in L. destruct f as [|x [|y [|? ?]]]; cbn [length] in L; try lia.
    pose proof (SplitFFT_ok exactR roots (trans roots 1 [x; y]) 1) as S. change (cplx exactR) with Cx in S.
    rewrite S.
    + cbn [bind fst snd seq map]. change (2 * 1)%nat with 2%nat. unfold evens, odds.
      change (Nat.div (length [x; y]) 2) with 1%nat. cbn [seq map nth Nat.mul Nat.add trans].
      change (2 ^ 1)%nat with 2%nat. pose proof (gr_two _ G) as T2. rewrite T2. cbn [map nth]. rewrite c_half_eq.
      change (c0 exactR) with C0.
      unfold ceval. cbn [length Csum nth Cpow].
      unfold c_add, c_sub, c_mul, c_conj, Cadd, Cmul, Copp, RtoC, C0, C1, Ci.
      cbn [f_add f_sub f_mul f_neg exactR fst snd].
      apply f_equal. apply f_equal2; [|apply f_equal2; [|reflexivity]]; (apply f_equal2; [|reflexivity]); apply f_equal2;
        match goal with |- @eq _ ?a ?b => change (@eq R a b) end; field.
    + cbn [trans]. rewrite map_length. change (2 ^ 1)%nat with 2%nat. pose proof (gr_two _ G) as T2. rewrite T2. reflexivity.
    + change (2 * 1)%nat with 2%nat. pose proof (gr_two _ G) as T2. change (cplx exactR) with Cx. rewrite T2. cbn [length]. lia.
  - cbn [trans]. rewrite (pow2_S (S k)). pose proof (SplitFFT_eval roots G (S k) f ltac:(lia) L') as S.
    rewrite S. reflexivity.
Qed.

(** ** The quadratic form, as the average over the points *)
Definition avg (k : nat) (f : nat -> R) : R := rsum (2 ^ k) f / INR (2 ^ k).
Definition hform (g00 g10 g11 e0 e1 : Cx) : R :=
  fst g00 * Csqnorm e0 + fst g11 * Csqnorm e1 + 2 * fst (Cmul g10 (Cmul e1 (Cconj e0))).
Definition Q (k : nat) (g00 g10 g11 e0 e1 : list R) : R :=
  avg k (fun i => hform (ceval g00 (P k i)) (ceval g10 (P k i)) (ceval g11 (P k i)) (ceval e0 (P k i)) (ceval e1 (P k i))).

Lemma avg_ext k f g : (forall i, (i < 2 ^ k)%nat -> f i = g i) -> avg k f = avg k g.
Proof. intros H. unfold avg. now rewrite (rsum_ext _ f g H). Qed.
Lemma avg_plus k f g : avg k (fun i => f i + g i) = avg k f + avg k g.
Proof. unfold avg. rewrite rsum_plus. field. apply not_0_INR. pose proof (pow2_ge1 k). lia. Qed.
Lemma avg_halve k f g : (forall i, (i < 2 ^ k)%nat -> f (2 * i)%nat + f (2 * i + 1)%nat = 2 * g i) ->
  avg (S k) f = avg k g.
Proof.
  intros H. unfold avg. rewrite pow2_S, rsum_double.
  rewrite (rsum_ext _ _ (fun i => 2 * g i) H), rsum_scal, mult_INR.
  replace (INR 2) with 2 by (cbn; ring). field. apply not_0_INR. pose proof (pow2_ge1 k). lia.
Qed.

Definition nonneg (k : nat) (d : list R) : Prop :=
  forall i, (i < 2 ^ k)%nat -> snd (ceval d (P k i)) = 0 /\ 0 <= fst (ceval d (P k i)).
Definition psd (k : nat) (g00 g10 g11 : list R) : Prop :=
  nonneg k g00 /\ nonneg k g11 /\
  forall i, (i < 2 ^ k)%nat ->
    Csqnorm (ceval g10 (P k i)) <= fst (ceval g00 (P k i)) * fst (ceval g11 (P k i)).

Lemma ceval_radj_P k f i : length f = (2 ^ k)%nat -> (i < 2 ^ k)%nat ->
  ceval (radj (2 ^ k) f) (P k i) = Cconj (ceval f (P k i)).
Proof. intros L Hi. apply ceval_radj; [exact L|apply P_pow, Hi|apply P_unit, Hi]. Qed.
Lemma ceval_rmul_P k f g i : length f = (2 ^ k)%nat -> length g = (2 ^ k)%nat -> (i < 2 ^ k)%nat ->
  ceval (rmul (2 ^ k) f g) (P k i) = Cmul (ceval f (P k i)) (ceval g (P k i)).
Proof. intros Lf Lg Hi. apply ceval_rmul; [exact Lf|exact Lg|apply P_pow, Hi]. Qed.

(** facts about one point and its square root, in coordinates *)
Lemma pair_values k d i : length d = (2 ^ S k)%nat -> nonneg (S k) d -> (i < 2 ^ k)%nat ->
  exists w1 w2 a1 a2 b1 b2, P (S k) (2 * i) = (w1, w2) /\
    ceval (reven (2 ^ k) d) (P k i) = (a1, a2) /\ ceval (rodd (2 ^ k) d) (P k i) = (b1, b2) /\
    w1 * w1 + w2 * w2 = 1 /\ a2 = 0 /\ w1 * b2 + w2 * b1 = 0 /\
    0 <= a1 + (w1 * b1 - w2 * b2) /\ 0 <= a1 - (w1 * b1 - w2 * b2) /\
    fst (ceval d (P (S k) (2 * i))) = a1 + (w1 * b1 - w2 * b2) /\
    fst (ceval d (P (S k) (2 * i + 1))) = a1 - (w1 * b1 - w2 * b2).
Proof.
  intros L N Hi. destruct (ceval_halves k d i L Hi) as [E1 E2]. cbn zeta in E1, E2.
  assert (H1 : (2 * i < 2 ^ S k)%nat) by (rewrite pow2_S; lia).
  assert (H2 : (2 * i + 1 < 2 ^ S k)%nat) by (rewrite pow2_S; lia).
  destruct (N _ H1) as [R1 N1]. destruct (N _ H2) as [R2 N2].
  pose proof (P_unit (S k) (2 * i) H1) as U.
  rewrite E1 in *. rewrite E2 in *.
  destruct (P (S k) (2 * i)) as [w1 w2]. destruct (ceval (reven (2 ^ k) d) (P k i)) as [a1 a2].
  destruct (ceval (rodd (2 ^ k) d) (P k i)) as [b1 b2].
  unfold Cadd, Csub, Cmul, Cconj, C1 in *. cbn [fst snd] in *.
  injection U as U _. exists w1, w2, a1, a2, b1, b2. repeat split; lra.
Qed.

(** A self-adjoint nonnegative d, cut in halves, is a Hermitian nonnegative matrix. *)
Lemma psd_halves k d : length d = (2 ^ S k)%nat -> nonneg (S k) d ->
  psd k (reven (2 ^ k) d) (radj (2 ^ k) (rodd (2 ^ k) d)) (reven (2 ^ k) d).
Proof.
  intros L N.
  assert (A : forall i, (i < 2 ^ k)%nat -> (snd (ceval (reven (2 ^ k) d) (P k i)) = 0 /\
    0 <= fst (ceval (reven (2 ^ k) d) (P k i))) /\
    Csqnorm (ceval (radj (2 ^ k) (rodd (2 ^ k) d)) (P k i)) <=
      fst (ceval (reven (2 ^ k) d) (P k i)) * fst (ceval (reven (2 ^ k) d) (P k i))).
  { intros i Hi. rewrite ceval_radj_P by (try apply rodd_length; exact Hi).
    destruct (pair_values k d i L N Hi) as (w1 & w2 & a1 & a2 & b1 & b2 & _ & -> & -> & U & Ha & Hb & N1 & N2 & _).
    unfold Csqnorm, Cconj. cbn [fst snd]. repeat split; [exact Ha|lra|].
    assert (E : b1 * b1 + - b2 * - b2 = (w1 * b1 - w2 * b2) * (w1 * b1 - w2 * b2)).
    { transitivity ((w1 * w1 + w2 * w2) * (b1 * b1 + b2 * b2)); [rewrite U; ring|].
      transitivity ((w1 * b1 - w2 * b2) * (w1 * b1 - w2 * b2) + (w1 * b2 + w2 * b1) * (w1 * b2 + w2 * b1)); [ring|].
      rewrite Hb. ring. }
    rewrite E. nra. }
  split; [|split]; intros i Hi; apply A; exact Hi.
Qed.

Lemma nonneg_schur k g00 g10 g11 l : length g00 = (2 ^ k)%nat -> length g11 = (2 ^ k)%nat -> length l = (2 ^ k)%nat ->
  psd k g00 g10 g11 -> rmul (2 ^ k) l g00 = g10 -> nonneg k (schur (2 ^ k) g00 g11 l).
Proof.
  intros L0 L1 Ll (N0 & N1 & NN) E i Hi. unfold schur.
  rewrite ceval_rsub by (auto; apply rmul_length).
  rewrite !ceval_rmul_P by (auto; try apply rmul_length; apply radj_length).
  rewrite ceval_radj_P by auto.
  specialize (NN i Hi). rewrite <- E, ceval_rmul_P in NN by auto.
  destruct (N0 i Hi) as [I0 P0]. destruct (N1 i Hi) as [I1 P1].
  destruct (ceval g00 (P k i)) as [a a']. destruct (ceval g11 (P k i)) as [c c']. destruct (ceval l (P k i)) as [x y].
  unfold Csqnorm, Csub, Cmul, Cconj in *. cbn [fst snd] in *. subst a' c'. split; [ring|].
  ring_simplify. ring_simplify in NN.
  assert (NN' : a * (a * (x * x + y * y)) <= a * c) by nra.
  destruct (Req_dec a 0) as [->|Ha]; [nra|].
  assert (a * (x * x + y * y) <= c) by (apply (Rmult_le_reg_l a); [lra|exact NN']). nra.
Qed.

Lemma Q_node k g00 g10 g11 l e0 e1 : length g00 = (2 ^ k)%nat -> length g11 = (2 ^ k)%nat -> length l = (2 ^ k)%nat ->
  length e0 = (2 ^ k)%nat -> length e1 = (2 ^ k)%nat ->
  nonneg k g00 -> rmul (2 ^ k) l g00 = g10 ->
  Q k g00 g10 g11 e0 e1 =
  avg k (fun i => fst (ceval g00 (P k i)) * Csqnorm (ceval (radd (2 ^ k) e0 (rmul (2 ^ k) e1 l)) (P k i))) +
  avg k (fun i => fst (ceval (schur (2 ^ k) g00 g11 l) (P k i)) * Csqnorm (ceval e1 (P k i))).
Proof.
  intros L0 L1 Ll Le0 Le1 N0 E. rewrite <- avg_plus. apply avg_ext. intros i Hi. unfold schur.
  rewrite ceval_rsub by (auto; apply rmul_length).
  rewrite ceval_radd' by (auto; apply rmul_length).
  rewrite <- E, !ceval_rmul_P by (auto; try apply rmul_length; apply radj_length).
  rewrite ceval_radj_P by auto. destruct (N0 i Hi) as [I0 _].
  destruct (ceval g00 (P k i)) as [a a']. destruct (ceval g11 (P k i)) as [c c']. destruct (ceval l (P k i)) as [x y].
  destruct (ceval e0 (P k i)) as [p q]. destruct (ceval e1 (P k i)) as [r s].
  unfold hform, Csqnorm, Csub, Cadd, Cmul, Cconj in *. cbn [fst snd] in *. subst a'. ring.
Qed.

Lemma avg_split k d e : length d = (2 ^ S k)%nat -> length e = (2 ^ S k)%nat -> nonneg (S k) d ->
  avg (S k) (fun i => fst (ceval d (P (S k) i)) * Csqnorm (ceval e (P (S k) i))) =
  Q k (reven (2 ^ k) d) (radj (2 ^ k) (rodd (2 ^ k) d)) (reven (2 ^ k) d) (reven (2 ^ k) e) (rodd (2 ^ k) e).
Proof.
  intros Ld Le N. apply avg_halve. intros i Hi. unfold hform.
  rewrite ceval_radj_P by (try apply rodd_length; exact Hi).
  destruct (ceval_halves k e i Le Hi) as [E1 E2]. cbn zeta in E1, E2. rewrite E1, E2.
  destruct (pair_values k d i Ld N Hi) as (w1 & w2 & a1 & a2 & b1 & b2 & -> & -> & -> & U & Ha & Hb & _ & _ & -> & ->).
  destruct (ceval (reven (2 ^ k) e) (P k i)) as [p q]. destruct (ceval (rodd (2 ^ k) e) (P k i)) as [r s].
  unfold Csqnorm, Csub, Cadd, Cmul, Cconj. cbn [fst snd]. clear - U Hb.
  (* b = conj(w) t with t = w b real *)
  set (t := w1 * b1 - w2 * b2).
  assert (B1 : b1 = w1 * t).
  { unfold t. transitivity ((w1 * w1 + w2 * w2) * b1 - w2 * (w1 * b2 + w2 * b1)); [rewrite U, Hb; ring|ring]. }
  assert (B2 : b2 = - w2 * t).
  { unfold t. transitivity ((w1 * w1 + w2 * w2) * b2 - w1 * (w1 * b2 + w2 * b1)); [rewrite U, Hb; ring|ring]. }
  clearbody t. subst b1 b2. clear Hb.
  assert (U2 : w2 * w2 = 1 - w1 * w1) by lra.
  match goal with |- ?x = ?y => assert (D : x - y = (2 * a1 * (r * r + s * s)) * (w1 * w1 + w2 * w2 - 1)) by ring end.
  rewrite U in D. lra.
Qed.

(** ** Rounding *)
Lemma Rround_close x : Rabs (x - IZR (Rround x)) <= / 2.
Proof.
  unfold Rround. destruct (Rle_dec 0 x).
  - pose proof (Int_part_spec (x + / 2)). apply Rabs_le. lra.
  - pose proof (Int_part_spec (- x + / 2)). rewrite opp_IZR. apply Rabs_le. lra.
Qed.
Lemma Rround_sq x : (x - IZR (Rround x)) * (x - IZR (Rround x)) <= / 4.
Proof.
  pose proof (Rround_close x) as H. apply Rabs_le_inv in H || (unfold Rabs in H; destruct (Rcase_abs _) in H); nra.
Qed.

(** ** The algorithm *)
(** [V] is the tree the Go code would hold for [T]: the transforms of the node
    polynomials; what hangs below the last nodes is never read. *)
Fixpoint carries (k : nat) (T : ltree) (V : list (iface exactR)) : Prop :=
  match k, T with
  | S k', Node l T0 T1 => exists V0 V1,
      V = [IPoly (trans roots k l : list (cplx exactR)); ITree V0; ITree V1] /\
      carries k' T0 V0 /\ carries k' T1 V1
  | _, _ => True
  end.

Lemma ffnp_bound k : forall g00 g10 g11 T V (t0 t1 : list R) fuel, carries k T V ->
  length g00 = (2 ^ k)%nat -> length g11 = (2 ^ k)%nat ->
  psd k g00 g10 g11 -> (k = 0%nat -> ceval g10 (P 0 0) = C0) -> ldl_tree k g00 g10 g11 T ->
  length t0 = (2 ^ k)%nat -> length t1 = (2 ^ k)%nat -> (k < fuel)%nat ->
  exists z0 z1 : list Z, length z0 = (2 ^ k)%nat /\ length z1 = (2 ^ k)%nat /\
    FfnpFFT exactR roots fuel [trans roots k t0; trans roots k t1] V =
      Ok [trans roots k (map IZR z0); trans roots k (map IZR z1)] /\
    Q k g00 g10 g11 (rsub (2 ^ k) t0 (map IZR z0)) (rsub (2 ^ k) t1 (map IZR z1)) <= / 4 * leaf_sum k g00 g11 T.
Proof.
  induction k as [|k IH]; intros g00 g10 g11 T V t0 t1 fuel HV Lg0 Lg1 HP Hz HT Lt0 Lt1 Hf;
    (destruct fuel as [|fuel]; [lia|]); cbn [FfnpFFT idx nth_error bind]; change (cplx exactR) with Cx.
  - change (2 ^ 0)%nat with 1%nat in *. rewrite (trans_length roots G 0) by exact Lt0.
    change (2 ^ 0)%nat with 1%nat. cbn [Nat.ltb Nat.leb Nat.eqb].
    destruct t0 as [|x [|? ?]]; cbn [length] in Lt0; try lia.
    destruct t1 as [|y [|? ?]]; cbn [length] in Lt1; try lia.
    cbn [trans map idx2 idx nth_error bind fst RtoC].
    exists [Rround x], [Rround y]. split; [reflexivity|]. split; [reflexivity|]. split; [reflexivity|].
    destruct HP as (N0 & N1 & _). destruct (N0 0%nat ltac:(cbn; lia)) as [_ P0]. destruct (N1 0%nat ltac:(cbn; lia)) as [_ P1].
    unfold Q, avg. change (2 ^ 0)%nat with 1%nat. cbn [rsum INR]. rewrite (Hz eq_refl).
    destruct T; [|destruct HT]. cbn [leaf_sum].
    destruct g00 as [|a [|? ?]]; cbn [length] in Lg0; try lia.
    destruct g11 as [|c [|? ?]]; cbn [length] in Lg1; try lia.
    assert (CE : forall u, ceval [u] (P 0 0) = (u, 0)).
    { intros u. unfold ceval. cbn [length Csum nth Cpow]. unfold Cadd, Cmul, C0, C1, RtoC. cbn [fst snd]. apply f_equal2; ring. }
    rewrite CE in P0, P1. cbn [fst] in P0, P1.
    unfold rsub. cbn [seq map nth]. rewrite !CE. cbn [nth].
    unfold hform, Csqnorm, Cmul, Cconj, C0. cbn [fst snd].
    pose proof (Rround_sq x). pose proof (Rround_sq y). set (u := x - _) in *. set (v := y - _) in *. clearbody u v.
    replace (_ / 1) with (a * (u * u) + c * (v * v)) by field. nra.
  - destruct T as [|l T0 T1]; [destruct HT|]. destruct HT as (Ll & EL & HT0 & HT1). destruct HV as (V0 & V1 & -> & HV0 & HV1).
    set (n := (2 ^ S k)%nat) in *. set (m := (2 ^ k)%nat) in *.
    set (d := schur n g00 g11 l) in *.
    assert (Hn : n = (2 * m)%nat) by apply pow2_S.
    assert (N1 : nonneg (S k) d) by (apply (nonneg_schur (S k) g00 g10 g11 l); auto).
    destruct HP as (N0 & _ & _).
    assert (Ld : length d = n) by apply rsub_length.
    assert (P2 : (1 < n)%nat) by (rewrite Hn; pose proof (pow2_ge1 k); unfold m; lia).
    rewrite (trans_length roots G (S k)) by exact Lt0. fold n.
    destruct (Nat.ltb_spec 1 n); [|lia].
    cbn [idx nth_error bind as_poly as_tree].
    rewrite Split_trans by exact Lt1. cbn [bind]. fold m.
    (* what the leaf condition needs: the odd half vanishes at n = 2 *)
    assert (HZ : forall d, length d = n -> nonneg (S k) d -> k = 0%nat -> ceval (radj m (rodd m d)) (P 0 0) = C0).
    { clear - G Hn. intros d Ld N ->. unfold m. rewrite (ceval_radj_P 0) by (try apply rodd_length; cbn; lia).
      destruct (pair_values 0 d 0 Ld N ltac:(cbn; lia)) as (w1 & w2 & a1 & a2 & b1 & b2 & Ew & _ & Eb & _ & _ & Hb & _).
      rewrite Eb. assert (W : P 1 (2 * 0) = Ci).
      { unfold P, pts. change (2 ^ 1)%nat with 2%nat. rewrite (gr_two _ G). reflexivity. }
      rewrite W in Ew. injection Ew as <- <-.
      (* b is a real number because the half is a constant *)
      assert (B2 : b2 = 0).
      { assert (exists u, rodd (2 ^ 0) d = [u]) as [u Eu] by (unfold rodd; cbn; eauto).
        rewrite Eu in Eb. unfold ceval in Eb. cbn [length Csum nth Cpow] in Eb.
        unfold Cadd, Cmul, C0, C1, RtoC in Eb. cbn [fst snd] in Eb. injection Eb as _ Eb. lra. }
      unfold Cconj, C0. cbn [fst snd]. apply f_equal2; lra. }
    destruct (IH (reven m d) (radj m (rodd m d)) (reven m d) T1 V1 (reven m t1) (rodd m t1) fuel HV1) as (a1 & b1 & La1 & Lb1 & E1 & B1).
    { apply reven_length. } { apply reven_length. } { apply psd_halves; assumption. } { apply HZ; assumption. } { exact HT1. }
    { apply reven_length. } { apply rodd_length. } { lia. }
    rewrite E1. cbn [bind]. unfold MergeFFT_list. cbn [idx nth_error bind].
    rewrite (MergeFFT_trans roots G) by (rewrite map_length; assumption). cbn [bind].
    rewrite inter_IZR by assumption. fold m.
    set (z1 := interleave _ _ _).
    assert (Lz1 : length z1 = n) by (rewrite Hn; apply interleave_length).
    assert (LZ1 : length (map IZR z1) = n) by (rewrite map_length; exact Lz1).
    pose proof (trans_length roots G (S k) t1 Lt1) as Tt1. pose proof (trans_length roots G (S k) t0 Lt0) as Tt0.
    pose proof (trans_length roots G (S k) (map IZR z1) LZ1) as TZ1. fold n in Tt1, TZ1, Tt0.
    set (e1 := rsub n t1 (map IZR z1)).
    assert (Le1 : length e1 = n) by apply rsub_length.
    pose proof (SubFFT_ok exactR (trans roots (S k) t1) (trans roots (S k) (map IZR z1))) as D. change (cplx exactR) with Cx in D.
    rewrite D by lia. clear D. cbn [bind]. change (cplx exactR) with Cx. rewrite Tt1.
    match goal with |- context [MulFFT exactR ?x _] => assert (Ed : x = trans roots (S k) e1) end.
    { apply trans_ext; [exact Le1|now rewrite map_length, seq_length|]. intros i Hi. rewrite nth_map_seq by exact Hi.
      change (c0 exactR) with C0. unfold NegFFT.
      assert (Nn : nth i (map Copp (trans roots (S k) (map IZR z1))) C0 = Copp (nth i (trans roots (S k) (map IZR z1)) C0)).
      { rewrite (nth_indep _ C0 (Copp C0)) by (rewrite map_length, TZ1; exact Hi). apply map_nth. }
      change (@eq Cx (Cadd (nth i (trans roots (S k) t1) C0) (nth i (map Copp (trans roots (S k) (map IZR z1))) C0)) (ceval e1 (P (S k) i))).
      rewrite Nn, !nth_trans by assumption. unfold e1. rewrite ceval_rsub by assumption. ring. }
    rewrite Ed. clear Ed.
    pose proof (trans_length roots G (S k) e1 Le1) as Te1. pose proof (trans_length roots G (S k) l Ll) as Tl. fold n in Te1, Tl.
    pose proof (MulFFT_ok exactR (trans roots (S k) e1) (trans roots (S k) l)) as D. change (cplx exactR) with Cx in D.
    rewrite D by lia. clear D. cbn [bind]. change (cplx exactR) with Cx. rewrite Te1.
    match goal with |- context [AddFFT exactR _ ?x] => assert (Ed : x = trans roots (S k) (rmul n e1 l)) end.
    { apply trans_ext; [apply rmul_length|now rewrite map_length, seq_length|]. intros i Hi. rewrite nth_map_seq by exact Hi.
      change (c0 exactR) with C0.
      change (@eq Cx (Cmul (nth i (trans roots (S k) e1) C0) (nth i (trans roots (S k) l) C0)) (ceval (rmul n e1 l) (P (S k) i))).
      rewrite !nth_trans by assumption. symmetry. apply ceval_rmul_P; assumption. }
    rewrite Ed. clear Ed.
    pose proof (trans_length roots G (S k) (rmul n e1 l) (rmul_length _ _ _)) as Tm. fold n in Tm.
    pose proof (AddFFT_ok exactR (trans roots (S k) t0) (trans roots (S k) (rmul n e1 l))) as D. change (cplx exactR) with Cx in D.
    rewrite D by lia. clear D. cbn [bind]. change (cplx exactR) with Cx. rewrite Tt0.
    set (u := radd n t0 (rmul n e1 l)).
    assert (Lu : length u = n) by apply radd_length.
    match goal with |- context [Split_list exactR _ ?x] => assert (Ed : x = trans roots (S k) u) end.
    { apply trans_ext; [exact Lu|now rewrite map_length, seq_length|]. intros i Hi. rewrite nth_map_seq by exact Hi.
      change (c0 exactR) with C0.
      change (@eq Cx (Cadd (nth i (trans roots (S k) t0) C0) (nth i (trans roots (S k) (rmul n e1 l)) C0)) (ceval u (P (S k) i))).
      rewrite !nth_trans by (try apply rmul_length; assumption). unfold u. symmetry. apply ceval_radd'; [assumption|apply rmul_length]. }
    rewrite Ed. clear Ed.
    rewrite Split_trans by exact Lu. cbn [bind]. fold m.
    destruct (IH (reven m g00) (radj m (rodd m g00)) (reven m g00) T0 V0 (reven m u) (rodd m u) fuel HV0) as (a0 & b0 & La0 & Lb0 & E0 & B0).
    { apply reven_length. } { apply reven_length. } { apply psd_halves; assumption. } { apply HZ; assumption. } { exact HT0. }
    { apply reven_length. } { apply rodd_length. } { lia. }
    rewrite E0. cbn [bind idx nth_error].
    rewrite (MergeFFT_trans roots G) by (rewrite map_length; assumption). cbn [bind].
    rewrite inter_IZR by assumption. fold m.
    set (z0 := interleave (fun i => nth i a0 0%Z) _ _).
    assert (Lz0 : length z0 = n) by (rewrite Hn; apply interleave_length).
    assert (LZ0 : length (map IZR z0) = n) by (rewrite map_length; exact Lz0).
    exists z0, z1. split; [exact Lz0|]. split; [exact Lz1|]. split; [reflexivity|].
    fold e1. set (e0 := rsub n t0 (map IZR z0)). assert (Le0 : length e0 = n) by apply rsub_length.
    rewrite (Q_node (S k) g00 g10 g11 l e0 e1) by assumption. fold n. fold d.
    rewrite (avg_split k d e1) by assumption.
    rewrite (avg_split k g00 (radd n e0 (rmul n e1 l))) by (try apply radd_length; assumption). fold m.
    (* the errors of the halves *)
    assert (HE : forall (t : list R) (a b : list Z) e, length t = n -> length a = m -> length b = m -> length e = n ->
      (forall i, (i < n)%nat -> nth i e 0 = nth i t 0 - nth i (map IZR (interleave (fun i => nth i a 0%Z) (fun i => nth i b 0%Z) m)) 0) ->
      reven m e = rsub m (reven m t) (map IZR a) /\ rodd m e = rsub m (rodd m t) (map IZR b)).
    { clear - Hn. intros t a b e Lt La Lb Le H. split; unfold reven, rodd, rsub; apply map_seq_ext; intros i Hi;
        rewrite nth_map_seq by exact Hi; rewrite H by lia; f_equal;
        rewrite !(map_nth IZR _ 0%Z); [rewrite interleave_even|rewrite interleave_odd]; auto. }
    destruct (HE t1 a1 b1 e1 Lt1 La1 Lb1 Le1) as [-> ->].
    { intros i Hi. unfold e1, rsub. rewrite nth_map_seq by exact Hi. reflexivity. }
    destruct (HE u a0 b0 (radd n e0 (rmul n e1 l)) Lu La0 Lb0 (radd_length _ _ _)) as [-> ->].
    { intros i Hi. unfold radd at 1. rewrite nth_map_seq by exact Hi. unfold u, radd. rewrite nth_map_seq by exact Hi.
      unfold e0, rsub. rewrite nth_map_seq by exact Hi. fold z0. ring. }
    cbn [leaf_sum]. fold n m. fold d. lra.
Qed.

(** ** Parseval *)
Lemma parseval k : forall f, length f = (2 ^ k)%nat ->
  avg k (fun i => Csqnorm (ceval f (P k i))) = sqnorm (2 ^ k) f.
Proof.
  induction k as [|k IH]; intros f L.
  - change (2 ^ 0)%nat with 1%nat in *. destruct f as [|x [|? ?]]; cbn [length] in L; try lia.
    unfold avg, sqnorm. change (2 ^ 0)%nat with 1%nat. cbn [rsum INR nth].
    unfold ceval. cbn [length Csum nth Cpow]. unfold Csqnorm, Cadd, Cmul, C0, C1, RtoC. cbn [fst snd]. field.
  - rewrite (avg_halve k _ (fun i => Csqnorm (ceval (reven (2 ^ k) f) (P k i)) + Csqnorm (ceval (rodd (2 ^ k) f) (P k i)))).
    + rewrite avg_plus, (IH (reven _ f)), (IH (rodd _ f)) by (apply reven_length || apply rodd_length).
      unfold sqnorm. rewrite pow2_S, rsum_double, rsum_plus. unfold reven, rodd.
      f_equal; apply rsum_ext; intros i Hi; rewrite nth_map_seq by exact Hi; reflexivity.
    + intros i Hi. destruct (ceval_halves k f i L Hi) as [-> ->].
      assert (H1 : (2 * i < 2 ^ S k)%nat) by (rewrite pow2_S; lia).
      pose proof (P_unit (S k) (2 * i) H1) as U.
      destruct (P (S k) (2 * i)) as [w1 w2]. destruct (ceval (reven (2 ^ k) f) (P k i)) as [p q].
      destruct (ceval (rodd (2 ^ k) f) (P k i)) as [r s].
      unfold Csqnorm, Csub, Cadd, Cmul, Cconj, C1 in *. cbn [fst snd] in *. injection U as U _.
      match goal with |- ?x = ?y => assert (D : x - y = (2 * (r * r + s * s)) * (w1 * w1 - w2 * - w2 - 1)) by ring end.
      rewrite U in D. lra.
Qed.

(** A lattice: the quadratic form of the Gram matrix is the squared norm. *)
Section Lattice.
Context (k : nat) (b00 b01 b10 b11 : list R).
Notation n := (2 ^ k)%nat.
Context (L00 : length b00 = n) (L01 : length b01 = n) (L10 : length b10 = n) (L11 : length b11 = n).

Lemma ceval_gram u0 u1 v0 v1 i : length u0 = n -> length u1 = n -> length v0 = n -> length v1 = n -> (i < n)%nat ->
  ceval (gram2 n u0 u1 v0 v1) (P k i) =
  Cadd (Cmul (ceval u0 (P k i)) (Cconj (ceval v0 (P k i)))) (Cmul (ceval u1 (P k i)) (Cconj (ceval v1 (P k i)))).
Proof.
  intros A B C D Hi. unfold gram2. rewrite ceval_radd' by apply rmul_length.
  rewrite !ceval_rmul_P by (auto; apply radj_length). now rewrite !ceval_radj_P by auto.
Qed.

Lemma gram_psd : psd k (gram2 n b00 b01 b00 b01) (gram2 n b10 b11 b00 b01) (gram2 n b10 b11 b10 b11).
Proof.
  assert (A : forall i, (i < n)%nat ->
    (snd (ceval (gram2 n b00 b01 b00 b01) (P k i)) = 0 /\ 0 <= fst (ceval (gram2 n b00 b01 b00 b01) (P k i))) /\
    (snd (ceval (gram2 n b10 b11 b10 b11) (P k i)) = 0 /\ 0 <= fst (ceval (gram2 n b10 b11 b10 b11) (P k i))) /\
    Csqnorm (ceval (gram2 n b10 b11 b00 b01) (P k i)) <=
      fst (ceval (gram2 n b00 b01 b00 b01) (P k i)) * fst (ceval (gram2 n b10 b11 b10 b11) (P k i))).
  { intros i Hi. rewrite !ceval_gram by assumption.
    destruct (ceval b00 (P k i)) as [a a']. destruct (ceval b01 (P k i)) as [b b'].
    destruct (ceval b10 (P k i)) as [c c']. destruct (ceval b11 (P k i)) as [d d'].
    unfold Csqnorm, Cadd, Cmul, Cconj. cbn [fst snd].
    assert (S2 : forall x y : R, 0 <= x * x + y * y) by (intros; nra).
    split; [split; [ring|pose proof (S2 a a'); pose proof (S2 b b'); lra]|].
    split; [split; [ring|pose proof (S2 c c'); pose proof (S2 d d'); lra]|].
    (* Lagrange: the difference is |a d - b c|^2 *)
    pose proof (S2 (a * d - a' * d' - (b * c - b' * c')) (a * d' + a' * d - (b * c' + b' * c))) as Pos.
    match goal with |- ?x <= ?y => assert (D : y - x = (a * d - a' * d' - (b * c - b' * c')) * (a * d - a' * d' - (b * c - b' * c')) +
       (a * d' + a' * d - (b * c' + b' * c)) * (a * d' + a' * d - (b * c' + b' * c))) by ring end.
    lra. }
  split; [|split]; intros i Hi; apply A; exact Hi.
Qed.

Lemma Q_lattice e0 e1 : length e0 = n -> length e1 = n ->
  Q k (gram2 n b00 b01 b00 b01) (gram2 n b10 b11 b00 b01) (gram2 n b10 b11 b10 b11) e0 e1 =
  sqnorm n (radd n (rmul n e0 b00) (rmul n e1 b10)) + sqnorm n (radd n (rmul n e0 b01) (rmul n e1 b11)).
Proof.
  intros Le0 Le1. rewrite <- !parseval by apply radd_length. rewrite <- avg_plus. apply avg_ext. intros i Hi.
  rewrite !ceval_gram by assumption. rewrite !ceval_radd' by apply rmul_length. rewrite !ceval_rmul_P by assumption.
  destruct (ceval b00 (P k i)) as [a a']. destruct (ceval b01 (P k i)) as [b b'].
  destruct (ceval b10 (P k i)) as [c c']. destruct (ceval b11 (P k i)) as [d d'].
  destruct (ceval e0 (P k i)) as [p q]. destruct (ceval e1 (P k i)) as [r s].
  unfold hform, Csqnorm, Cadd, Cmul, Cconj. cbn [fst snd]. ring.
Qed.
End Lattice.

(** ** The sum over the leaves *)
Lemma avg_le k f g : (forall i, (i < 2 ^ k)%nat -> f i <= g i) -> avg k f <= avg k g.
Proof.
  intros H. unfold avg. apply Rmult_le_compat_r.
  - apply Rlt_le, Rinv_0_lt_compat. change 0 with (INR 0). apply lt_INR. pose proof (pow2_ge1 k). lia.
  - revert H. induction (2 ^ k)%nat as [|m IH]; intros H; cbn [rsum]; [lra|].
    specialize (H m ltac:(lia)) as Hm. specialize (IH ltac:(intros; apply H; lia)). lra.
Qed.
Lemma avg_const_coef k : forall f, length f = (2 ^ k)%nat -> avg k (fun i => fst (ceval f (P k i))) = nth 0 f 0.
Proof.
  induction k as [|k IH]; intros f L.
  - change (2 ^ 0)%nat with 1%nat in *. destruct f as [|x [|? ?]]; cbn [length] in L; try lia.
    unfold avg. change (2 ^ 0)%nat with 1%nat. cbn [rsum INR nth].
    unfold ceval. cbn [length Csum nth Cpow]. unfold Cadd, Cmul, C0, C1, RtoC. cbn [fst snd]. field.
  - rewrite (avg_halve k _ (fun i => fst (ceval (reven (2 ^ k) f) (P k i)))).
    + rewrite IH by apply reven_length. unfold reven. rewrite nth_map_seq by (pose proof (pow2_ge1 k); lia). reflexivity.
    + intros i Hi. destruct (ceval_halves k f i L Hi) as [-> ->]. unfold Cadd, Csub. cbn [fst]. ring.
Qed.

Lemma leaf_sum_le k : forall g00 g10 g11 T, length g00 = (2 ^ k)%nat -> length g11 = (2 ^ k)%nat ->
  psd k g00 g10 g11 -> ldl_tree k g00 g10 g11 T ->
  leaf_sum k g00 g11 T <= INR (2 ^ k) * (nth 0 g00 0 + nth 0 g11 0).
Proof.
  induction k as [|k IH]; intros g00 g10 g11 T L0 L1 HP HT.
  - destruct T; [|destruct HT]. cbn [leaf_sum]. change (2 ^ 0)%nat with 1%nat. cbn [INR]. lra.
  - destruct T as [|l T0 T1]; [destruct HT|]. destruct HT as (Ll & EL & HT0 & HT1). cbn [leaf_sum].
    set (n := (2 ^ S k)%nat) in *. set (m := (2 ^ k)%nat) in *. set (d := schur n g00 g11 l) in *.
    assert (N1 : nonneg (S k) d) by (apply (nonneg_schur (S k) g00 g10 g11 l); auto).
    destruct HP as (N0 & _ & _). assert (Ld : length d = n) by apply rsub_length.
    pose proof (IH _ _ _ T0 (reven_length m g00) (reven_length m g00) (psd_halves k g00 L0 N0) HT0) as B0.
    pose proof (IH _ _ _ T1 (reven_length m d) (reven_length m d) (psd_halves k d Ld N1) HT1) as B1.
    assert (Z : forall f, nth 0 (reven m f) 0 = nth 0 f 0).
    { intros f. unfold reven. rewrite nth_map_seq by (unfold m; pose proof (pow2_ge1 k); lia). reflexivity. }
    rewrite !Z in B0, B1. fold m in B0, B1.
    assert (C : nth 0 d 0 <= nth 0 g11 0).
    { rewrite <- (avg_const_coef (S k) d), <- (avg_const_coef (S k) g11) by assumption.
      apply avg_le. intros i Hi. unfold d, schur. rewrite ceval_rsub by (auto; apply rmul_length).
      unfold n. rewrite !ceval_rmul_P by (auto; try apply rmul_length; apply radj_length).
      rewrite ceval_radj_P by auto. destruct (N0 i Hi) as [I0 P0].
      destruct (ceval g00 (P (S k) i)) as [a a']. destruct (ceval g11 (P (S k) i)) as [c c']. destruct (ceval l (P (S k) i)) as [x y].
      unfold Csub, Cmul, Cconj. cbn [fst snd] in *. subst a'. assert (0 <= x * x + y * y) by nra. nra. }
    assert (Hn : INR n = 2 * INR m).
    { unfold n, m. rewrite pow2_S, mult_INR. replace (INR 2) with 2 by (cbn; ring). reflexivity. }
    pose proof (pos_INR m). rewrite Hn. nra.
Qed.

(** ** Every definite matrix has a tree *)
Definition pd (k : nat) (g00 g10 g11 : list R) : Prop :=
  nonneg k g00 /\ nonneg k g11 /\
  forall i, (i < 2 ^ k)%nat -> 0 < fst (ceval g00 (P k i)) /\
    Csqnorm (ceval g10 (P k i)) < fst (ceval g00 (P k i)) * fst (ceval g11 (P k i)).
Lemma pd_psd k g00 g10 g11 : pd k g00 g10 g11 -> psd k g00 g10 g11.
Proof. intros (A & B & C). split; [exact A|]. split; [exact B|]. intros i Hi. apply Rlt_le, C, Hi. Qed.

Lemma pd_halves k d : length d = (2 ^ S k)%nat -> nonneg (S k) d ->
  (forall i, (i < 2 ^ S k)%nat -> 0 < fst (ceval d (P (S k) i))) ->
  pd k (reven (2 ^ k) d) (radj (2 ^ k) (rodd (2 ^ k) d)) (reven (2 ^ k) d).
Proof.
  intros L N Hp. destruct (psd_halves k d L N) as (A & B & _). split; [exact A|]. split; [exact B|].
  intros i Hi. rewrite ceval_radj_P by (try apply rodd_length; exact Hi).
  pose proof (Hp (2 * i)%nat ltac:(rewrite pow2_S; lia)) as H1.
  pose proof (Hp (2 * i + 1)%nat ltac:(rewrite pow2_S; lia)) as H2.
  destruct (pair_values k d i L N Hi) as (w1 & w2 & a1 & a2 & b1 & b2 & _ & -> & -> & U & Ha & Hb & _ & _ & E1 & E2).
  rewrite E1 in H1. rewrite E2 in H2.
  unfold Csqnorm, Cconj. cbn [fst snd]. split; [lra|].
  assert (E : b1 * b1 + - b2 * - b2 = (w1 * b1 - w2 * b2) * (w1 * b1 - w2 * b2)).
  { transitivity ((w1 * w1 + w2 * w2) * (b1 * b1 + b2 * b2)); [rewrite U; ring|].
    transitivity ((w1 * b1 - w2 * b2) * (w1 * b1 - w2 * b2) + (w1 * b2 + w2 * b1) * (w1 * b2 + w2 * b1)); [ring|].
    rewrite Hb. ring. }
  rewrite E. nra.
Qed.

Lemma ldl_tree_exists k : forall g00 g10 g11, length g00 = (2 ^ k)%nat -> length g10 = (2 ^ k)%nat ->
  length g11 = (2 ^ k)%nat -> pd k g00 g10 g11 -> exists T, ldl_tree k g00 g10 g11 T.
Proof.
  induction k as [|k IH]; intros g00 g10 g11 L0 L1 L2 HP; [exists Leaf; exact I|].
  destruct (Div_exact roots G k g10 g00) as (l & _ & Ll & EL).
  - rewrite pow2_S in L1. exact L1.
  - rewrite pow2_S in L0. exact L0.
  - intros z Hz. rewrite <- pow2_S in Hz. apply (In_nth _ _ C0) in Hz. destruct Hz as (i & Hi & <-).
    rewrite (gr_len _ G) in Hi by lia. destruct HP as (_ & _ & HP). destruct (HP i Hi) as [H _].
    change (nth i (roots (2 ^ S k)%nat) C0) with (P (S k) i). intros E. rewrite E in H. cbn in H. lra.
  - rewrite <- pow2_S in Ll, EL.
    assert (N1 : nonneg (S k) (schur (2 ^ S k) g00 g11 l)) by (apply (nonneg_schur (S k) g00 g10 g11 l); auto; apply pd_psd, HP).
    assert (P1 : forall i, (i < 2 ^ S k)%nat -> 0 < fst (ceval (schur (2 ^ S k) g00 g11 l) (P (S k) i))).
    { intros i Hi. unfold schur. rewrite ceval_rsub by (auto; apply rmul_length).
      rewrite !ceval_rmul_P by (auto; try apply rmul_length; apply radj_length).
      rewrite ceval_radj_P by auto. destruct HP as (N0 & _ & HP). destruct (HP i Hi) as [H HH]. destruct (N0 i Hi) as [I0 _].
      rewrite <- EL, ceval_rmul_P in HH by auto.
      destruct (ceval g00 (P (S k) i)) as [a a']. destruct (ceval g11 (P (S k) i)) as [c c']. destruct (ceval l (P (S k) i)) as [x y].
      unfold Csqnorm, Csub, Cmul, Cconj in *. cbn [fst snd] in *. subst a'.
      assert (NN' : a * (a * (x * x + y * y)) < a * c) by nra.
      apply (Rmult_lt_reg_l) in NN'; [|exact H]. nra. }
    destruct (IH _ _ _ (reven_length _ _) (radj_length _ _) (reven_length _ _)
      (pd_halves k g00 L0 (proj1 HP) (fun i Hi => proj1 (proj2 (proj2 HP) i Hi)))) as [T0 HT0].
    destruct (IH _ _ _ (reven_length _ _) (radj_length _ _) (reven_length _ _)
      (pd_halves k _ (rsub_length _ _ _) N1 P1)) as [T1 HT1].
    exists (Node l T0 T1). cbn [ldl_tree]. auto.
Qed.

Lemma gram_pd k b00 b01 b10 b11 : length b00 = (2 ^ k)%nat -> length b01 = (2 ^ k)%nat ->
  length b10 = (2 ^ k)%nat -> length b11 = (2 ^ k)%nat ->
  (forall i, (i < 2 ^ k)%nat ->
     Csub (Cmul (ceval b00 (P k i)) (ceval b11 (P k i))) (Cmul (ceval b01 (P k i)) (ceval b10 (P k i))) <> C0) ->
  pd k (gram2 (2 ^ k) b00 b01 b00 b01) (gram2 (2 ^ k) b10 b11 b00 b01) (gram2 (2 ^ k) b10 b11 b10 b11).
Proof.
  intros L00 L01 L10 L11 Hd. destruct (gram_psd k b00 b01 b10 b11 L00 L01 L10 L11) as (A & B & _).
  split; [exact A|]. split; [exact B|]. intros i Hi. specialize (Hd i Hi). rewrite !ceval_gram by assumption.
  destruct (ceval b00 (P k i)) as [a a']. destruct (ceval b01 (P k i)) as [b b'].
  destruct (ceval b10 (P k i)) as [c c']. destruct (ceval b11 (P k i)) as [d d'].
  unfold Csqnorm, Cadd, Csub, Cmul, Cconj, C0 in *. cbn [fst snd] in *.
  set (X := a * d - a' * d' - (b * c - b' * c')) in *. set (Y := a * d' + a' * d - (b * c' + b' * c)) in *.
  assert (XY : 0 < X * X + Y * Y).
  { destruct (Req_dec X 0) as [EX|]; [|nra]. destruct (Req_dec Y 0) as [EY|]; [|nra].
    exfalso. apply Hd. now rewrite EX, EY. }
  split.
  - assert (H0 : 0 <= a * a + a' * a' + (b * b + b' * b')) by nra.
    destruct (Req_dec (a * a + a' * a' + (b * b + b' * b')) 0) as [E|]; [|nra].
    assert (a = 0) by nra. assert (a' = 0) by nra. assert (b = 0) by nra. assert (b' = 0) by nra. subst.
    exfalso. unfold X, Y in XY. nra.
  - match goal with |- ?x < ?y => assert (D : y - x = X * X + Y * Y) by (unfold X, Y; ring) end. lra.
Qed.
End Babai.
