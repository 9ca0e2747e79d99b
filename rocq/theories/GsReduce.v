(** reduce (ntrugen.go:143-224) in exact arithmetic: it rounds the projection
    of (F, G) on the multiples of (f, g), or runs forever on a tie. *)
From Coq Require Import Lra Lia.
From Verif Require Import GoBase Util BaseProofs UtilProofs PolyRing PolyZ PolyEval Spec Float Fft FftShape SpecFft SpecBabai ExactReal FftProofs
  FftErr RootsProofs Ntrugen NtruProofs NtruProofs2 NtruProofs3 Ffsampling FfExact Babai KeyGen GsExact GsBound.
Local Open Scope R_scope.

Lemma Rround_0 x : Rround x = 0%Z -> Rabs x < / 2.
Proof.
  unfold Rround. destruct (Rle_dec 0 x) as [H|H]; intros E.
  - pose proof (Int_part_spec (x + / 2)) as I. rewrite E in I. apply Rabs_def1; lra.
  - pose proof (Int_part_spec (- x + / 2)) as I. assert (E' : Int_part (- x + / 2) = 0%Z) by lia. rewrite E' in I.
    apply Rabs_def1; lra.
Qed.
Lemma Rround_small x : Rabs x < / 2 -> Rround x = 0%Z.
Proof.
  intros H. apply Rabs_def2 in H. unfold Rround. destruct (Rle_dec 0 x).
  - pose proof (Int_part_spec (x + / 2)) as I. set (z := Int_part _) in *. clearbody z.
    assert (IZR z < IZR 1) by (change (IZR 1) with 1; lra). assert (IZR (-1) < IZR z) by (change (IZR (-1)) with (-1); lra).
    apply lt_IZR in H0, H1. lia.
  - pose proof (Int_part_spec (- x + / 2)) as I. set (z := Int_part _) in *. clearbody z.
    assert (IZR z < IZR 1) by (change (IZR 1) with 1; lra). assert (IZR (-1) < IZR z) by (change (IZR (-1)) with (-1); lra).
    apply lt_IZR in H0, H1. lia.
Qed.
Lemma abs_inv x a : Rabs x <= a -> - a <= x <= a.
Proof. unfold Rabs. destruct (Rcase_abs x); lra. Qed.
(** the square root of a bound *)
Lemma abs_of_sq x b : 0 <= b -> x * x <= b * b -> Rabs x <= b.
Proof. intros Hb H. apply Rabs_le. split; nra. Qed.
Lemma avg_member k (h : nat -> R) i : (i < 2 ^ k)%nat -> (forall j, (j < 2 ^ k)%nat -> 0 <= h j) -> h i <= INR (2 ^ k) * avg k h.
Proof.
  intros Hi H. unfold avg. assert (0 < INR (2 ^ k)) by (apply lt_0_INR; lia).
  replace (INR (2 ^ k) * (rsum (2 ^ k) h / INR (2 ^ k))) with (rsum (2 ^ k) h) by (field; lra).
  clear H0. revert H Hi. generalize (2 ^ k)%nat. intros n H. revert i. induction n as [|n IH]; intros i Hi; [lia|]. cbn [rsum].
  assert (S0 : 0 <= rsum n h).
  { rewrite <- (Rmult_0_r (INR n)), <- rsum_const. apply rsum_mono. intros j Hj. apply H. lia. }
  destruct (Nat.eq_dec i n) as [->|]; [lra|]. pose proof (IH ltac:(intros; apply H; lia) i ltac:(lia)). pose proof (H n ltac:(lia)). lra.
Qed.
Lemma avg_scal k c h : avg k (fun i => c * h i) = c * avg k h.
Proof. unfold avg. rewrite rsum_scal. unfold Rdiv. ring. Qed.
Lemma pow2_1024 k : (k <= 10)%nat -> INR (2 ^ k) <= 1024.
Proof.
  intros H. replace 1024 with (INR (2 ^ 10)) by (rewrite INR_IZR_INZ; reflexivity). apply le_INR. apply Nat.pow_le_mono_r; lia.
Qed.
Lemma div_frac x D : (0 < D)%Z -> exists e, 0 <= e < 1 /\ IZR x = IZR D * (IZR (x / D) + e).
Proof.
  intros HD. pose proof (Z.div_mod x D ltac:(lia)) as E. pose proof (Z.mod_pos_bound x D HD) as B.
  assert (0 < IZR D) by (apply (IZR_lt 0); lia). exists (IZR (x mod D) / IZR D).
  assert (0 <= IZR (x mod D)) by (apply (IZR_le 0); lia). assert (IZR (x mod D) < IZR D) by (apply IZR_lt; lia).
  split; [split|].
  - apply Rmult_le_pos; [lra|]. left. now apply Rinv_0_lt_compat.
  - apply Rmult_lt_reg_r with (IZR D); [lra|]. unfold Rdiv. rewrite Rmult_assoc, Rinv_l by lra. lra.
  - rewrite E at 1. rewrite plus_IZR, mult_IZR. field. lra.
Qed.

Section Red.
Context (roots : nat -> list Cx) (G : good_roots roots).
Notation P := (P roots).
Context (k : nat) (Hk : (1 <= k <= 10)%nat) (f g : list Z).
Notation n := (2 ^ k)%nat.
Notation rf := (map IZR f).
Notation rg := (map IZR g).
Context (Lf : length f = n) (Lg : length g = n).
Context (h : list R) (Lh : length h = n) (Inv : rmul n (gram2 n rf rg rf rg) h = rconst n 1).
Context (v : R) (Hv1 : sqnorm n rf + sqnorm n rg <= v) (Hv2 : gs2 roots k rf rg 12289 <= v) (Hv : INR n * v <= 1073741824).
Notation proj := (proj k rf rg).

Let Lrf : length rf = n. Proof. now rewrite map_length. Qed.
Let Lrg : length rg = n. Proof. now rewrite map_length. Qed.
Let k1 : (1 <= k)%nat. Proof. lia. Qed.
Let n1 : (1 <= n)%nat. Proof. apply pow2_ge1. Qed.

Lemma proj_intro A B c : length A = n -> length B = n -> length c = n ->
  (forall i, (i < n)%nat -> Cmul (ceval c (P k i)) (RtoC (lam rf rg (P k i))) =
    Cadd (Cmul (ceval A (P k i)) (Cconj (ceval rf (P k i)))) (Cmul (ceval B (P k i)) (Cconj (ceval rg (P k i))))) ->
  proj A B c.
Proof.
  intros LA LB Lc H. split; [exact Lc|]. apply (ceval_inj roots G k k1); [apply rmul_length|apply radd_length|]. intros i Hi.
  rewrite (ceval_rmul_P roots G k); [|exact Lc|apply radd_length|exact Hi].
  rewrite (ceval_lam roots G k rf rg Lrf Lrg) by exact Hi. rewrite H by exact Hi. symmetry. apply (ceval_gram roots G k); auto.
Qed.
Lemma proj_lin t A1 B1 c1 A2 B2 c2 A B c :
  length A1 = n -> length B1 = n -> length A2 = n -> length B2 = n -> length A = n -> length B = n -> length c = n ->
  proj A1 B1 c1 -> proj A2 B2 c2 ->
  (forall i, (i < n)%nat -> nth i A 0 = nth i A1 0 + t * nth i A2 0) ->
  (forall i, (i < n)%nat -> nth i B 0 = nth i B1 0 + t * nth i B2 0) ->
  (forall i, (i < n)%nat -> nth i c 0 = nth i c1 0 + t * nth i c2 0) -> proj A B c.
Proof.
  intros LA1 LB1 LA2 LB2 LA LB Lc P1 P2 HA HB Hc. apply proj_intro; auto. intros i Hi.
  pose proof (proj_at roots G k rf rg Lrf Lrg _ _ _ i LA1 LB1 P1 Hi) as E1.
  pose proof (proj_at roots G k rf rg Lrf Lrg _ _ _ i LA2 LB2 P2 Hi) as E2.
  destruct P1 as [Lc1 _], P2 as [Lc2 _].
  rewrite (ceval_lin n A1 A2 A t), (ceval_lin n B1 B2 B t), (ceval_lin n c1 c2 c t) by auto.
  match goal with |- Cmul (Cadd ?x (Cmul ?y ?z)) ?w = _ =>
    transitivity (Cadd (Cmul x w) (Cmul y (Cmul z w))); [ring|] end. rewrite E1, E2. ring.
Qed.
Lemma proj_self d : length d = n -> proj (rmul n d rf) (rmul n d rg) d.
Proof.
  intros Ld. apply proj_intro; [apply rmul_length ..|exact Ld|]. intros i Hi. rewrite !(ceval_rmul_P roots G k) by auto.
  unfold lam. destruct (ceval rf (P k i)) as [a a'], (ceval rg (P k i)) as [b b'], (ceval d (P k i)) as [x y].
  unfold Cmul, Cadd, Cconj, RtoC, Csqnorm. cbn [fst snd]. apply f_equal2; ring.
Qed.
Lemma proj_uniq A B c d : length A = n -> length B = n -> proj A B c -> proj A B d -> c = d.
Proof.
  intros LA LB Pc Pd. pose proof Pc as [Lc _]. pose proof Pd as [Ld _]. apply (ceval_inj roots G k k1); auto. intros i Hi.
  pose proof (proj_at roots G k rf rg Lrf Lrg _ _ _ i LA LB Pc Hi) as E1.
  pose proof (proj_at roots G k rf rg Lrf Lrg _ _ _ i LA LB Pd Hi) as E2.
  rewrite <- E2 in E1. pose proof (lam_pos roots G k k1 rf rg Lrf Lrg h Lh Inv i Hi) as HL.
  destruct (ceval c (P k i)) as [x y], (ceval d (P k i)) as [x' y']. unfold Cmul, RtoC in E1. cbn [fst snd] in E1.
  pose proof (f_equal fst E1) as F1. pose proof (f_equal snd E1) as F2. cbn [fst snd] in F1, F2.
  assert (x = x') by (apply Rmult_eq_reg_r with (lam rf rg (P k i)); lra).
  assert (y = y') by (apply Rmult_eq_reg_r with (lam rf rg (P k i)); lra). congruence.
Qed.
Lemma lam_inv i : (i < n)%nat -> / lam rf rg (P k i) <= 8.
Proof.
  intros Hi. pose proof (avg_member k (fun i => / lam rf rg (P k i)) i Hi) as H. cbv beta in H.
  specialize (H ltac:(intros j Hj; left; apply Rinv_0_lt_compat; exact (lam_pos roots G k k1 rf rg Lrf Lrg h Lh Inv j Hj))).
  unfold gs2 in Hv2. set (a := avg k _) in *. pose proof (pow2_1024 k ltac:(lia)) as H10.
  assert (0 <= INR n) by apply pos_INR.
  assert (INR n * (12289 * 12289 * a) <= INR n * v) by (apply Rmult_le_compat_l; lra). lra.
Qed.
Lemma proj_bound A B c : length A = n -> length B = n -> proj A B c -> sqnorm n c <= 8 * (sqnorm n A + sqnorm n B).
Proof.
  intros LA LB Pc. pose proof Pc as [Lc _]. rewrite <- !(parseval roots G k) by assumption.
  rewrite <- avg_plus, <- avg_scal. apply avg_le. intros i Hi.
  pose proof (proj_at roots G k rf rg Lrf Lrg _ _ _ i LA LB Pc Hi) as E.
  pose proof (lam_pos roots G k k1 rf rg Lrf Lrg h Lh Inv i Hi) as HL. pose proof (lam_inv i Hi) as HI.
  assert (N : Csqnorm (ceval c (P k i)) * (lam rf rg (P k i) * lam rf rg (P k i)) <=
    lam rf rg (P k i) * (Csqnorm (ceval A (P k i)) + Csqnorm (ceval B (P k i)))).
  { apply Rle_trans with (Csqnorm (Cmul (ceval c (P k i)) (RtoC (lam rf rg (P k i))))).
    - destruct (ceval c (P k i)) as [x y]. unfold Csqnorm, Cmul, RtoC. cbn [fst snd]. apply Req_le. ring.
    - rewrite E. unfold lam. destruct (ceval rf (P k i)) as [a a'], (ceval rg (P k i)) as [b b'], (ceval A (P k i)) as [x x'], (ceval B (P k i)) as [y y'].
      unfold Csqnorm, Cmul, Cadd, Cconj. cbn [fst snd].
      match goal with |- ?s <= ?t => assert (D : t - s = (x * b - x' * b' - (y * a - y' * a')) * (x * b - x' * b' - (y * a - y' * a')) +
         (x * b' + x' * b - (y * a' + y' * a)) * (x * b' + x' * b - (y * a' + y' * a))) by ring end.
      pose proof (Rle_0_sqr (x * b - x' * b' - (y * a - y' * a'))). pose proof (Rle_0_sqr (x * b' + x' * b - (y * a' + y' * a))).
      unfold Rsqr in *. lra. }
  set (l := lam rf rg (P k i)) in *. set (C := Csqnorm (ceval c (P k i))) in *.
  set (M := Csqnorm (ceval A (P k i)) + Csqnorm (ceval B (P k i))) in *.
  assert (HM : 0 <= M) by (unfold M; pose proof (Csq_pos (ceval A (P k i))); pose proof (Csq_pos (ceval B (P k i))); lra).
  assert (C <= / l * M).
  { apply Rmult_le_reg_r with (l * l); [apply Rmult_lt_0_compat; lra|]. replace (/ l * M * (l * l)) with (l * M) by (field; lra). exact N. }
  pose proof (Rmult_le_compat_r M _ _ HM HI). lra.
Qed.
Lemma size_bound A B c K : length A = n -> length B = n -> rntru n 12289 rf rg A B -> proj A B c ->
  0 <= K -> (forall i, (i < n)%nat -> Rabs (nth i c 0) <= K) -> forall i, (i < n)%nat ->
  Rabs (nth i A 0) <= sqrt v + K * sqrt (INR n * v) /\ Rabs (nth i B 0) <= sqrt v + K * sqrt (INR n * v).
Proof.
  intros LA LB E Pc HK Hc i Hi.
  pose proof (gs_dist_proj roots G k k1 rf rg Lrf Lrg h Lh Inv 12289 A B c LA LB E Pc) as D. unfold gdist in D.
  pose proof (coef_sqnorm n (rsub n A (rmul n c rf)) i Hi) as C1'. pose proof (coef_sqnorm n (rsub n B (rmul n c rg)) i Hi) as C2'.
  pose proof (sqnorm_pos n (rsub n A (rmul n c rf))). pose proof (sqnorm_pos n (rsub n B (rmul n c rg))).
  pose proof (rmul_small n c rf i K Hi Hc) as M1. pose proof (rmul_small n c rg i K Hi Hc) as M2.
  pose proof (sqnorm_pos n rf). pose proof (sqnorm_pos n rg).
  assert (S1 : nth i (rsub n A (rmul n c rf)) 0 = nth i A 0 - nth i (rmul n c rf) 0) by (unfold rsub; rewrite nth_map_seq by exact Hi; reflexivity).
  assert (S2 : nth i (rsub n B (rmul n c rg)) 0 = nth i B 0 - nth i (rmul n c rg) 0) by (unfold rsub; rewrite nth_map_seq by exact Hi; reflexivity).
  assert (V0 : 0 <= v) by lra. assert (N0 : 0 <= INR n) by apply pos_INR.
  assert (NV : 0 <= INR n * v) by (apply Rmult_le_pos; lra).
  pose proof (sqrt_sqrt v V0) as Q1. pose proof (sqrt_pos v) as Q1'.
  pose proof (sqrt_sqrt (INR n * v) NV) as Q2. pose proof (sqrt_pos (INR n * v)) as Q2'.
  assert (T : forall a m s, s = a - m -> s * s <= v -> m * m <= K * K * (INR n * v) -> Rabs a <= sqrt v + K * sqrt (INR n * v)).
  { intros a m s Es H1' H2'. replace a with (s + m) by lra. eapply Rle_trans; [apply Rabs_triang|]. apply Rplus_le_compat.
    - apply abs_of_sq; [exact Q1'|lra].
    - apply abs_of_sq; [apply Rmult_le_pos; lra|].
      replace (K * sqrt (INR n * v) * (K * sqrt (INR n * v))) with (K * K * (sqrt (INR n * v) * sqrt (INR n * v))) by ring. rewrite Q2. exact H2'. }
  assert (KN : forall w, w <= v -> K * K * (INR n * w) <= K * K * (INR n * v)).
  { intros w Hw. apply Rmult_le_compat_l; [apply Rle_0_sqr|]. apply Rmult_le_compat_l; lra. }
  split.
  - apply (T _ _ _ S1); [lra|]. pose proof (KN (sqnorm n rf) ltac:(lra)). lra.
  - apply (T _ _ _ S2); [lra|]. pose proof (KN (sqnorm n rg) ltac:(lra)). lra.
Qed.
Lemma v_bound : v <= 1073741824.
Proof.
  assert (V0 : 0 <= v) by (pose proof (sqnorm_pos n rf); pose proof (sqnorm_pos n rg); lra).
  assert (1 <= INR n) by (apply (le_INR 1); apply pow2_ge1).
  assert (1 * v <= INR n * v) by (apply Rmult_le_compat_r; lra). lra.
Qed.
Lemma sqrt_bounds : sqrt v <= 32768 /\ sqrt (INR n * v) <= 32768.
Proof.
  assert (V0 : 0 <= v) by (pose proof (sqnorm_pos n rf); pose proof (sqnorm_pos n rg); lra).
  pose proof v_bound.
  split; replace 32768 with (sqrt (32768 * 32768)) by (apply sqrt_square; lra); apply sqrt_le_1_alt; lra.
Qed.

(** ** One round *)
Definition st (F G : list Z) : Prop :=
  length F = n /\ length G = n /\ rntru n 12289 rf rg (map IZR F) (map IZR G).
Notation pot S := (2 ^ (S - 53))%Z.

Lemma max_fg : max_bitsize f g = Ok 53%Z.
Proof.
  assert (Nf : f <> []) by (apply (nonempty_len f n); [exact Lf|lia]).
  assert (Ng : g <> []) by (apply (nonempty_len g n); [exact Lg|lia]).
  destruct (max_bitsize_Ok f g Nf Ng) as (s & E). rewrite E. f_equal.
  destruct (max_bitsize_spec f g s E) as (H53 & _ & [H|(x & Hx & Hs)]); [exact H|exfalso].
  assert (X : IZR x * IZR x <= v).
  { pose proof (sqnorm_pos n rf). pose proof (sqnorm_pos n rg).
    destruct Hx as [Hx|Hx]; apply (In_nth _ _ 0%Z) in Hx; destruct Hx as (i & Hi & <-); rewrite <- nth_IZR.
    - pose proof (coef_sqnorm n rf i ltac:(lia)). lra.
    - pose proof (coef_sqnorm n rg i ltac:(lia)). lra. }
  rewrite <- mult_IZR in X. assert (X2 : IZR (x * x) <= IZR 1073741824) by (pose proof v_bound; lra). apply le_IZR in X2.
  assert (2 ^ 45 <= Z.abs x)%Z by (eapply Z.le_trans; [|exact Hs]; apply Z.pow_le_mono_r; lia).
  clear - X2 H. nia.
Qed.
Lemma adjust_fg : adjust 53 f = f /\ adjust 53 g = g.
Proof.
  destruct (max_bitsize_spec f g 53 max_fg) as (_ & B & _).
  rewrite !adjust_ok by (try lia; intros x Hx; apply B; auto). change (2 ^ (53 - 53))%Z with 1%Z.
  assert (T : forall l : list Z, map (fun x => (x / 1)%Z) l = l).
  { intros l. transitivity (map (fun x : Z => x) l); [|apply map_id]. apply map_ext. intros. apply Z.div_1_r. }
  split; apply T.
Qed.
Lemma round_wrap x : Rabs x <= 2 ^ 60 -> wrap64 (Rround x) = Rround x.
Proof.
  intros H. apply wrap_id; [lia|]. pose proof (Rround_close x) as C. apply abs_inv in H. apply abs_inv in C.
  assert (HL : IZR (- 2 ^ 62) <= IZR (Rround x)). { replace (IZR (- 2 ^ 62)) with (- 4 * 2 ^ 60) by (cbn; lra). cbn in H |- *. lra. }
  assert (HU : IZR (Rround x) <= IZR (2 ^ 62)). { replace (IZR (2 ^ 62)) with (4 * 2 ^ 60) by (cbn; lra). cbn in H |- *. lra. }
  apply le_IZR in HL, HU. lia.
Qed.
Lemma sq_sum_bound m (x : list R) K : (forall i, (i < m)%nat -> nth i x 0 * nth i x 0 <= K) -> sqnorm m x <= INR m * K.
Proof. intros H. unfold sqnorm. rewrite <- rsum_const. apply rsum_mono. exact H. Qed.

Lemma quo_proj F G' S c : st F G' -> max_bitsize F G' = Ok S -> proj (map IZR F) (map IZR G') c ->
  exists c', proj (map IZR (adjust S F)) (map IZR (adjust S G')) c' /\
    reduce_quotient_at exactR roots (adjust 53 f) (adjust 53 g) (adjust S F) (adjust S G') = Ok (map Rround c') /\
    length c' = n /\ (forall i, (i < n)%nat -> Rabs (nth i c 0 - IZR (pot S) * nth i c' 0) <= IZR (pot S) * 128) /\
    (S = 53%Z -> c' = c).
Proof.
  intros (LF & LG & E) ES Pc. destruct (max_bitsize_spec F G' S ES) as (H53 & BND & _).
  destruct adjust_fg as [-> ->].
  rewrite (adjust_ok S F), (adjust_ok S G') by (try exact H53; intros; apply BND; auto).
  set (D := pot S). assert (HD : (0 < D)%Z) by (apply Z.pow_pos_nonneg; lia).
  set (A := map (fun x => (x / D)%Z) F). set (B := map (fun x => (x / D)%Z) G').
  assert (LA : length (map IZR A) = n) by (unfold A; now rewrite !map_length).
  assert (LB : length (map IZR B) = n) by (unfold B; now rewrite !map_length).
  destruct (proj_exists roots G k k1 rf rg Lrf Lrg h Lh Inv (map IZR A) (map IZR B) LA LB) as (c' & Pc').
  assert (RD : 0 < IZR D) by (apply (IZR_lt 0); exact HD).
  pose proof Pc as [Lc _]. pose proof Pc' as [Lc' _].
  exists c'.
  assert (E53 : (2 ^ S = 2 ^ 53 * D)%Z) by (unfold D; rewrite <- Z.pow_add_r by lia; f_equal; lia).
  assert (AB : forall l (Hl : forall x, In x l -> (Z.abs x < 2 ^ S)%Z) i, (i < length l)%nat ->
    IZR (nth i (map (fun x => (x / D)%Z) l) 0%Z) * IZR (nth i (map (fun x => (x / D)%Z) l) 0%Z) <= 2 ^ 106).
  { intros l Hl i Hi. rewrite (nth_indep _ 0%Z (0 / D)%Z) by (now rewrite map_length). rewrite (map_nth (fun x => (x / D)%Z)).
    pose proof (Hl (nth i l 0%Z) (nth_In _ _ Hi)) as Hx. set (x := nth i l 0%Z) in *. clearbody x.
    assert (- 2 ^ 53 <= x / D)%Z by (apply Z.div_le_lower_bound; lia).
    assert (x / D <= 2 ^ 53)%Z by (apply Z.div_le_upper_bound; lia).
    rewrite <- mult_IZR. replace (2 ^ 106) with (IZR (2 ^ 106)) by (cbn; lra). apply IZR_le.
    assert (Z.abs (x / D) * Z.abs (x / D) <= 2 ^ 53 * 2 ^ 53)%Z by (apply Z.mul_le_mono_nonneg; lia).
    clear - H1. lia. }
  split; [exact Pc'|]. split; [|split; [exact Lc'|split]].
  - pose proof (quotient_list roots G k k1 rf rg Lrf Lrg h Lh Inv (map IZR A) (map IZR B) c' LA LB Pc') as Q.
    refine (eq_trans Q _). f_equal. apply map_ext_in. intros x Hx. apply round_wrap.
    apply (In_nth _ _ 0) in Hx. destruct Hx as (i & Hi & <-). rewrite Lc' in Hi.
    apply abs_of_sq; [apply pow_le; lra|].
    eapply Rle_trans; [apply (coef_sqnorm n c' i Hi)|]. eapply Rle_trans; [apply (proj_bound _ _ _ LA LB Pc')|].
    assert (SA : sqnorm n (map IZR A) <= INR n * 2 ^ 106).
    { apply sq_sum_bound. intros j Hj. rewrite nth_IZR. apply (AB F); [auto|now rewrite LF]. }
    assert (SB : sqnorm n (map IZR B) <= INR n * 2 ^ 106).
    { apply sq_sum_bound. intros j Hj. rewrite nth_IZR. apply (AB G'); [auto|now rewrite LG]. }
    pose proof (pow2_1024 k ltac:(lia)) as N10.
    assert (INR n * 2 ^ 106 <= 1024 * 2 ^ 106) by (apply Rmult_le_compat_r; [apply pow_le; lra|exact N10]).
    cbn in *. lra.
  - (* the rounding of the shift *)
    assert (FR : forall (l : list Z) i, (i < length l)%nat -> exists e, 0 <= e < 1 /\
      IZR (nth i l 0%Z) = IZR D * (IZR (nth i (map (fun x => (x / D)%Z) l) 0%Z) + e)).
    { intros l i Hi. rewrite (nth_indep (map _ l) 0%Z (0 / D)%Z) by (now rewrite map_length).
      rewrite (map_nth (fun x => (x / D)%Z)). apply div_frac, HD. }
    set (eF := map (fun i => nth i (map IZR A) 0 + - / IZR D * nth i (map IZR F) 0) (seq 0 n)).
    set (eG := map (fun i => nth i (map IZR B) 0 + - / IZR D * nth i (map IZR G') 0) (seq 0 n)).
    set (ec := map (fun i => nth i c' 0 + - / IZR D * nth i c 0) (seq 0 n)).
    assert (LeF : length eF = n) by (unfold eF; now rewrite map_length, seq_length).
    assert (LeG : length eG = n) by (unfold eG; now rewrite map_length, seq_length).
    assert (Lec : length ec = n) by (unfold ec; now rewrite map_length, seq_length).
    assert (Pe : proj eF eG ec).
    { apply (proj_lin (- / IZR D) (map IZR A) (map IZR B) c' (map IZR F) (map IZR G') c); auto;
        try (rewrite map_length; assumption); intros i Hi; [unfold eF|unfold eG|unfold ec]; rewrite nth_map_seq by exact Hi; reflexivity. }
    assert (NE : forall (l : list Z) i, (i < length l)%nat ->
      let e := IZR (nth i (map (fun x => (x / D)%Z) l) 0%Z) + - / IZR D * IZR (nth i l 0%Z) in e * e <= 1).
    { intros l i Hi. cbv zeta. destruct (FR l i Hi) as (e & He & ->).
      match goal with |- ?x * _ <= _ => replace x with (- e) by (field; lra) end. nra. }
    assert (SF : sqnorm n eF <= INR n * 1).
    { apply sq_sum_bound. intros j Hj. unfold eF. rewrite nth_map_seq by exact Hj. rewrite !nth_IZR. apply (NE F). now rewrite LF. }
    assert (SG : sqnorm n eG <= INR n * 1).
    { apply sq_sum_bound. intros j Hj. unfold eG. rewrite nth_map_seq by exact Hj. rewrite !nth_IZR. apply (NE G'). now rewrite LG. }
    pose proof (proj_bound _ _ _ LeF LeG Pe) as PB. pose proof (pow2_1024 k ltac:(lia)) as N10.
    intros i Hi. pose proof (coef_sqnorm n ec i Hi) as CS.
    assert (EC : nth i ec 0 = nth i c' 0 + - / IZR D * nth i c 0) by (unfold ec; rewrite nth_map_seq by exact Hi; reflexivity).
    assert (AE : Rabs (nth i ec 0) <= 128) by (apply abs_of_sq; lra).
    replace (nth i c 0 - IZR D * nth i c' 0) with (- (IZR D * nth i ec 0)) by (rewrite EC; field; lra).
    rewrite Rabs_Ropp, Rabs_mult, (Rabs_pos_eq (IZR D)) by lra. apply Rmult_le_compat_l; lra.
  - intros ->. apply (proj_uniq (map IZR F) (map IZR G')); try (rewrite map_length; assumption); [|exact Pc].
    replace (map IZR F) with (map IZR A); [replace (map IZR G') with (map IZR B); [exact Pc'|]|].
    + unfold B. f_equal. transitivity (map (fun x : Z => x) G'); [|apply map_id]. apply map_ext. intros x. apply Z.div_1_r.
    + unfold A. f_equal. transitivity (map (fun x : Z => x) F); [|apply map_id]. apply map_ext. intros x. apply Z.div_1_r.
Qed.

Lemma quo_round F G' S c : st F G' -> max_bitsize F G' = Ok S -> proj (map IZR F) (map IZR G') c ->
  exists c', reduce_quotient_at exactR roots (adjust 53 f) (adjust 53 g) (adjust S F) (adjust S G') = Ok (map Rround c') /\
    length c' = n /\ (forall i, (i < n)%nat -> Rabs (nth i c 0 - IZR (pot S) * nth i c' 0) <= IZR (pot S) * 128) /\
    (S = 53%Z -> c' = c).
Proof. intros Hs ES Pc. destruct (quo_proj F G' S c Hs ES Pc) as (c' & _ & H). exists c'. exact H. Qed.

(** the coefficients of (F, G) from those of the projection, against the bit size *)
Lemma size_S F G' S c D : st F G' -> max_bitsize F G' = Ok S -> proj (map IZR F) (map IZR G') c -> 
  (0 <= D)%Z -> (forall i, (i < n)%nat -> Rabs (nth i c 0) <= IZR (2 ^ D) * 129) -> S = 53%Z \/ (S <= D + 31)%Z.
Proof.
  intros (LF & LG & E) ES Pc HD Hc. destruct (max_bitsize_spec F G' S ES) as (H53 & _ & [H|(x & Hx & Hs)]); [now left|right].
  assert (D1 : 1 <= IZR (2 ^ D)) by (apply (IZR_le 1); pose proof (Z.pow_pos_nonneg 2 D); lia).
  pose proof (size_bound (map IZR F) (map IZR G') c (IZR (2 ^ D) * 129) ltac:(now rewrite map_length) ltac:(now rewrite map_length)
    E Pc ltac:(lra) Hc) as SB. destruct sqrt_bounds as [Q1 Q2]. pose proof (sqrt_pos (INR n * v)).
  assert (K : IZR (2 ^ D) * 129 * sqrt (INR n * v) <= IZR (2 ^ D) * 129 * 32768) by (apply Rmult_le_compat_l; lra).
  assert (X : Rabs (IZR x) <= IZR (2 ^ D) * 8388608).
  { destruct Hx as [Hx|Hx]; apply (In_nth _ _ 0%Z) in Hx; destruct Hx as (i & Hi & <-);
      destruct (SB i ltac:(lia)) as [B1 B2]; rewrite nth_IZR in B1, B2; lra. }
  rewrite <- abs_IZR, <- mult_IZR in X. apply le_IZR in X. change 8388608%Z with (2 ^ 23)%Z in X. rewrite <- Z.pow_add_r in X by lia.
  assert (L : (2 ^ (S - 8) <= 2 ^ (D + 23))%Z) by (eapply Z.le_trans; eassumption).
  apply Z.pow_le_mono_r_iff in L; lia.
Qed.

Lemma nth_step F D N i : (i < n)%nat -> nth i (map IZR (psub n F (pscale D N))) 0 = nth i (map IZR F) 0 + - IZR D * nth i (map IZR N) 0.
Proof.
  intros Hi. rewrite !nth_IZR. unfold psub. rewrite nth_map_seq by exact Hi. unfold coef. rewrite minus_IZR.
  assert (E : nth i (pscale D N) 0%Z = (D * nth i N 0)%Z).
  { unfold pscale. replace 0%Z with (D * 0)%Z at 1 by lia. apply map_nth. }
  rewrite E, mult_IZR. ring.
Qed.
Lemma step F G' S c kk : st F G' -> proj (map IZR F) (map IZR G') c -> length kk = n ->
  exists c1, st (psub n F (pscale (pot S) (negacyc n f kk))) (psub n G' (pscale (pot S) (negacyc n g kk))) /\
    proj (map IZR (psub n F (pscale (pot S) (negacyc n f kk)))) (map IZR (psub n G' (pscale (pot S) (negacyc n g kk)))) c1 /\
    forall i, (i < n)%nat -> nth i c1 0 = nth i c 0 - IZR (pot S) * IZR (nth i kk 0%Z).
Proof.
  intros (LF & LG & E) Pc Lk. set (D := pot S). set (rk := map IZR kk).
  assert (Lrk : length rk = n) by (unfold rk; now rewrite map_length).
  set (F1 := psub n F _). set (G1 := psub n G' _).
  assert (LF1 : length (map IZR F1) = n) by (rewrite map_length; apply psub_length).
  assert (LG1 : length (map IZR G1) = n) by (rewrite map_length; apply psub_length).
  assert (NF : map IZR (negacyc n f kk) = rmul n rk rf) by (rewrite <- rmul_IZR; apply (rmul_comm roots G k k1); auto).
  assert (NG : map IZR (negacyc n g kk) = rmul n rk rg) by (rewrite <- rmul_IZR; apply (rmul_comm roots G k k1); auto).
  assert (HF : forall i, (i < n)%nat -> nth i (map IZR F1) 0 = nth i (map IZR F) 0 + - IZR D * nth i (rmul n rk rf) 0).
  { intros i Hi. rewrite <- NF. apply nth_step, Hi. }
  assert (HG : forall i, (i < n)%nat -> nth i (map IZR G1) 0 = nth i (map IZR G') 0 + - IZR D * nth i (rmul n rk rg) 0).
  { intros i Hi. rewrite <- NG. apply nth_step, Hi. }
  assert (LFr : length (map IZR F) = n) by (now rewrite map_length).
  assert (LGr : length (map IZR G') = n) by (now rewrite map_length).
  exists (map (fun i => nth i c 0 - IZR D * IZR (nth i kk 0%Z)) (seq 0 n)). split; [split; [apply psub_length|split; [apply psub_length|]]|split].
  - unfold rntru. rewrite <- E. apply (ceval_inj roots G k k1); [apply rsub_length ..|]. intros i Hi.
    rewrite !ceval_rsub by apply rmul_length. rewrite !(ceval_rmul_P roots G k) by auto.
    rewrite (ceval_lin n (map IZR F) (rmul n rk rf) (map IZR F1) (- IZR D)) by (auto using rmul_length).
    rewrite (ceval_lin n (map IZR G') (rmul n rk rg) (map IZR G1) (- IZR D)) by (auto using rmul_length).
    rewrite !(ceval_rmul_P roots G k) by auto. ring.
  - apply (proj_lin (- IZR D) (map IZR F) (map IZR G') c (rmul n rk rf) (rmul n rk rg) rk); auto using rmul_length, proj_self.
    + rewrite map_length, seq_length. reflexivity.
    + intros i Hi. rewrite nth_map_seq by exact Hi. unfold rk. rewrite nth_IZR. ring.
  - intros i Hi. rewrite nth_map_seq by exact Hi. reflexivity.
Qed.

Notation tie := (halfway n).
Notation quo := (reduce_quotient_at exactR roots).

(** what one round does *)
Lemma round_loop fuel F G' c : st F G' -> proj (map IZR F) (map IZR G') c ->
  exists S, max_bitsize F G' = Ok S /\ (53 <= S)%Z /\
  ((S = 53%Z /\ (forall i, (i < n)%nat -> Rabs (nth i c 0) < / 2) /\ 
      reduce_loop quo (Datatypes.S fuel) f g 53 F G' = Ok (F, G')) \/
   (exists F1 G1 c1 S1, st F1 G1 /\ proj (map IZR F1) (map IZR G1) c1 /\ max_bitsize F1 G1 = Ok S1 /\
      reduce_loop quo (Datatypes.S fuel) f g 53 F G' = reduce_loop quo fuel f g 53 F1 G1 /\
      (exists zs, forall i, (i < n)%nat -> nth i c1 0 = nth i c 0 - IZR (nth i zs 0%Z)) /\
      (S1 = 53 \/ S1 < S)%Z /\
      (S = 53%Z -> S1 = 53%Z /\ (exists i, (i < n)%nat /\ / 2 <= Rabs (nth i c 0)) /\ forall i, (i < n)%nat -> Rabs (nth i c1 0) <= / 2))).
Proof.
  intros Hs Pc. pose proof Hs as (LF & LG & E).
  assert (NF : F <> []) by (apply (nonempty_len F n); [exact LF|lia]).
  assert (NG : G' <> []) by (apply (nonempty_len G' n); [exact LG|lia]).
  destruct (max_bitsize_Ok F G' NF NG) as (S & ES). exists S. split; [exact ES|].
  destruct (max_bitsize_spec F G' S ES) as (H53 & _ & _). split; [exact H53|].
  destruct (quo_round F G' S c Hs ES Pc) as (c' & Q & Lc' & Cc & C53).
  assert (D0 : 0 < IZR (pot S)) by (apply (IZR_lt 0); apply Z.pow_pos_nonneg; lia).
  cbn [reduce_loop]. rewrite ES. cbn [bind]. destruct (Z.ltb_spec S 53) as [H|_]; [lia|]. rewrite Q. cbn [bind].
  set (kk := map Rround c'). assert (Lkk : length kk = n) by (unfold kk; now rewrite map_length).
  assert (NK : forall i, (i < n)%nat -> nth i kk 0%Z = Rround (nth i c' 0)).
  { intros i Hi. rewrite (nth_indep kk 0%Z (Rround 0)) by lia. unfold kk. apply map_nth. }
  (* after subtracting kk, the projection is small *)
  assert (SM : forall i, (i < n)%nat -> Rabs (nth i c 0 - IZR (pot S) * IZR (nth i kk 0%Z)) <= IZR (pot S) * 129).
  { intros i Hi. rewrite NK by exact Hi. pose proof (Cc i Hi) as C1'. pose proof (Rround_close (nth i c' 0)) as C2'.
    apply abs_inv in C1'. apply abs_inv in C2'. set (D := IZR (pot S)) in *. set (r := IZR (Rround (nth i c' 0))) in *.
    assert (D * (nth i c' 0 - r) <= D * / 2) by (apply Rmult_le_compat_l; lra).
    assert (D * - / 2 <= D * (nth i c' 0 - r)) by (apply Rmult_le_compat_l; lra).
    apply Rabs_le. lra. }
  destruct (AllZeroes kk) eqn:EZ.
  - apply AllZeroes_spec in EZ.
    assert (Z0 : forall i, (i < n)%nat -> nth i kk 0%Z = 0%Z).
    { intros i Hi. exact (proj1 (Forall_nth _ _) EZ i 0%Z ltac:(lia)). }
    assert (S53 : S = 53%Z).
    { destruct (size_S F G' S c (S - 53) Hs ES Pc ltac:(lia)) as [H|H]; [|exact H|lia].
      intros i Hi. pose proof (SM i Hi) as B. rewrite Z0 in B by exact Hi.
      replace (nth i c 0 - IZR (pot S) * 0) with (nth i c 0) in B by ring. exact B. }
    left. split; [exact S53|]. split; [|reflexivity]. intros i Hi. rewrite <- (C53 S53). apply Rround_0. rewrite <- NK by exact Hi. auto.
  - right. destruct (step F G' S c kk Hs Pc Lkk) as (c1 & Hs1 & Pc1 & E1).
    exists (psub n F (pscale (pot S) (negacyc n f kk))), (psub n G' (pscale (pot S) (negacyc n g kk))), c1.
    pose proof Hs1 as (LF1 & LG1 & _). set (F1 := psub n F _) in *. set (G1 := psub n G' _) in *.
    assert (NF1 : F1 <> []) by (apply (nonempty_len F1 n); [exact LF1|lia]).
    assert (NG1 : G1 <> []) by (apply (nonempty_len G1 n); [exact LG1|lia]).
    destruct (max_bitsize_Ok F1 G1 NF1 NG1) as (S1 & ES1). exists S1.
    assert (B1 : S1 = 53%Z \/ (S1 <= S - 53 + 31)%Z).
    { apply (size_S F1 G1 S1 c1 (S - 53) Hs1 ES1 Pc1); [lia|]. intros i Hi. rewrite E1 by exact Hi. apply SM, Hi. }
    destruct (max_bitsize_spec F1 G1 S1 ES1) as (H531 & _).
    split; [exact Hs1|]. split; [exact Pc1|]. split; [exact ES1|]. split; [|split; [|split]].
    + unfold IntToBigInt. rewrite !(karamul_cases k) by assumption. rewrite Lkk, Nat.leb_refl. cbn [bind].
      rewrite Lf, !sub_shifted_ok by (try lia; try assumption; apply negacyc_length). cbn [bind]. reflexivity.
    + exists (map (Z.mul (pot S)) kk). intros i Hi. rewrite E1 by exact Hi.
      assert (X : nth i (map (Z.mul (pot S)) kk) 0%Z = (pot S * nth i kk 0)%Z).
      { replace 0%Z with (pot S * 0)%Z at 1 by lia. apply map_nth. }
      rewrite X, mult_IZR. reflexivity.
    + lia.
    + intros S53. split; [lia|]. split.
      * destruct (Forall_dec (fun x => x = 0%Z) (fun x => Z.eq_dec x 0) kk) as [A|A].
        { apply AllZeroes_spec in A. congruence. }
        apply (neg_Forall_Exists_neg (fun x => Z.eq_dec x 0)) in A.
        apply Exists_exists in A. destruct A as (x & Ix & Nx). apply (In_nth _ _ 0%Z) in Ix. destruct Ix as (i & Hi & <-).
        rewrite Lkk in Hi. exists i. split; [exact Hi|]. destruct (Rle_dec (/ 2) (Rabs (nth i c 0))) as [Y|Y]; [exact Y|].
        exfalso. apply Nx. rewrite NK by exact Hi. rewrite (C53 S53). apply Rround_small. lra.
      * intros i Hi. rewrite E1, NK by exact Hi. rewrite (C53 S53), S53. change (IZR (pot 53)) with 1. rewrite Rmult_1_l. apply Rround_close.
Qed.

Lemma tie_sub c c1 zs : (forall i, (i < n)%nat -> nth i c1 0 = nth i c 0 - IZR (nth i zs 0%Z)) -> tie c <-> tie c1.
Proof.
  intros H. split; intros (i & z & Hi & E).
  - exists i, (z - nth i zs 0)%Z. split; [exact Hi|]. rewrite H, E, minus_IZR by exact Hi. ring.
  - exists i, (z + nth i zs 0)%Z. split; [exact Hi|]. rewrite plus_IZR. rewrite H in E by exact Hi. lra.
Qed.
Lemma tie_half c : tie c -> exists i, (i < n)%nat /\ / 2 <= Rabs (nth i c 0).
Proof.
  intros (i & z & Hi & E). exists i. split; [exact Hi|]. rewrite E. destruct (Z_le_gt_dec 0 z) as [Hz|Hz].
  - apply IZR_le in Hz. rewrite Rabs_pos_eq; lra.
  - assert (Z1 : (z <= -1)%Z) by lia. apply IZR_le in Z1. rewrite Rabs_left; lra.
Qed.
Lemma half_tie c i : (i < n)%nat -> Rabs (nth i c 0) <= / 2 -> / 2 <= Rabs (nth i c 0) -> tie c.
Proof.
  intros Hi H1 H2. assert (E : Rabs (nth i c 0) = / 2) by lra. unfold Rabs in E. destruct (Rcase_abs (nth i c 0)) as [N|N].
  - exists i, (-1)%Z. split; [exact Hi|]. lra.
  - exists i, 0%Z. split; [exact Hi|]. lra.
Qed.

(** on a tie the loop never ends *)
Lemma loop_diverges fuel : forall F G' c, st F G' -> proj (map IZR F) (map IZR G') c -> tie c ->
  reduce_loop quo fuel f g 53 F G' = Diverge.
Proof.
  induction fuel as [|fuel IH]; intros F G' c Hs Pc T; [reflexivity|].
  destruct (round_loop fuel F G' c Hs Pc) as (S & _ & _ & [(_ & Z0 & _)|(F1 & G1 & c1 & S1 & Hs1 & Pc1 & _ & -> & (zs & Hz) & _)]).
  - exfalso. destruct (tie_half c T) as (i & Hi & H). pose proof (Z0 i Hi). lra.
  - apply (IH _ _ c1 Hs1 Pc1). apply (tie_sub c c1 zs Hz), T.
Qed.

(** otherwise it ends *)
Lemma loop_terminates m : forall fuel F G' c S, st F G' -> proj (map IZR F) (map IZR G') c -> ~ tie c ->
  max_bitsize F G' = Ok S -> (S <= 53 + Z.of_nat m)%Z -> (m + 2 <= fuel)%nat ->
  exists F1 G1 c1, reduce_loop quo fuel f g 53 F G' = Ok (F1, G1) /\ st F1 G1 /\ proj (map IZR F1) (map IZR G1) c1 /\
    forall i, (i < n)%nat -> Rabs (nth i c1 0) < / 2.
Proof.
  assert (B53 : forall fuel F G' c, st F G' -> proj (map IZR F) (map IZR G') c -> ~ tie c ->
    max_bitsize F G' = Ok 53%Z -> (2 <= fuel)%nat ->
    exists F1 G1 c1, reduce_loop quo fuel f g 53 F G' = Ok (F1, G1) /\ st F1 G1 /\ proj (map IZR F1) (map IZR G1) c1 /\
      forall i, (i < n)%nat -> Rabs (nth i c1 0) < / 2).
  { intros fuel F G' c Hs Pc NT ES Hf. destruct fuel as [|[|fuel]]; [lia|lia|].
    destruct (round_loop (S fuel) F G' c Hs Pc) as (S & ES' & _ & [(_ & Z0 & ->)|(F1 & G1 & c1 & S1 & Hs1 & Pc1 & _ & -> & (zs & Hz) & _ & H53)]).
    { exists F, G', c. auto. }
    rewrite ES in ES'. apply Ok_inj in ES'. subst S. destruct (H53 eq_refl) as (-> & _ & Hc1).
    assert (NT1 : ~ tie c1) by (intros T; apply NT, (tie_sub c c1 zs Hz), T).
    destruct (round_loop fuel F1 G1 c1 Hs1 Pc1) as (S & ES' & _ & [(_ & Z0 & ->)|(F2 & G2 & c2 & S2 & _ & _ & Y & _ & _ & [X|X] & H53')]).
    - exists F1, G1, c1. auto.
    - exfalso. assert (S1 : S = 53%Z \/ S <> 53%Z) by lia. destruct S1 as [->|N].
      + destruct (H53' eq_refl) as (_ & (i & Hi & Hh) & _). apply NT1, (half_tie c1 i Hi (Hc1 i Hi) Hh).
      + destruct (size_S F1 G1 S c1 0 Hs1 ES' Pc1 ltac:(lia)) as [Q|Q]; [|lia|].
        * intros i Hi. pose proof (Hc1 i Hi). change (IZR (2 ^ 0)) with 1. lra.
        * destruct (max_bitsize_spec F1 G1 S ES') as (Q' & _). lia.
    - exfalso. destruct (max_bitsize_spec F2 G2 S2 Y) as (Q & _).
      destruct (size_S F1 G1 S c1 0 Hs1 ES' Pc1 ltac:(lia)) as [Q1|Q1]; [|lia|lia].
      intros i Hi. pose proof (Hc1 i Hi). change (IZR (2 ^ 0)) with 1. lra. }
  induction m as [|m IH]; intros fuel F G' c S Hs Pc NT ES HS Hf.
  { destruct (max_bitsize_spec F G' S ES) as (Q & _). assert (S = 53%Z) by lia. subst S. apply (B53 fuel F G' c); auto. }
  destruct fuel as [|fuel]; [lia|].
  destruct (round_loop fuel F G' c Hs Pc) as (S' & ES' & _ & [(_ & Z0 & ->)|(F1 & G1 & c1 & S1 & Hs1 & Pc1 & ES1 & -> & (zs & Hz) & X & H53)]).
  { exists F, G', c. auto. }
  rewrite ES in ES'. apply Ok_inj in ES'. subst S'.
  assert (NT1 : ~ tie c1) by (intros T; apply NT, (tie_sub c c1 zs Hz), T).
  apply (IH fuel F1 G1 c1 S1); auto; lia.
Qed.

Lemma best_proj A B c : length A = n -> length B = n -> best_mult n rf rg A B c <-> proj A B c.
Proof.
  intros LA LB. split.
  - intros [Lc H]. destruct (proj_exists roots G k k1 rf rg Lrf Lrg h Lh Inv A B LA LB) as (p & Pp). pose proof Pp as [Lp _].
    pose proof (pythagoras roots G k rf rg Lrf Lrg A B p c LA LB Pp Lc) as PY. specialize (H p Lp).
    set (t := fun i => Csqnorm (Csub (ceval c (P k i)) (ceval p (P k i))) * lam rf rg (P k i)) in *.
    assert (T0 : forall i, (i < n)%nat -> 0 <= t i) by (intros i Hi; apply Rmult_le_pos; [apply Csq_pos|apply lam_nonneg]).
    replace c with p; [exact Pp|]. apply (ceval_inj roots G k k1); auto. intros i Hi.
    pose proof (avg_member k t i Hi T0) as M. assert (N0 : 0 <= INR n) by apply pos_INR.
    assert (A0 : INR n * avg k t <= INR n * 0) by (apply Rmult_le_compat_l; lra).
    pose proof (T0 i Hi) as Ti. assert (E : t i = 0) by lra. unfold t in E.
    pose proof (lam_pos roots G k k1 rf rg Lrf Lrg h Lh Inv i Hi) as HL.
    apply Rmult_integral in E. destruct E as [E|E]; [|lra].
    destruct (ceval c (P k i)) as [x y], (ceval p (P k i)) as [x' y']. unfold Csqnorm, Csub in E. cbn [fst snd] in E.
    pose proof (Rle_0_sqr (x - x')) as S1. pose proof (Rle_0_sqr (y - y')) as S2. unfold Rsqr in *.
    assert (E1 : (x - x') * (x - x') = 0) by lra. assert (E2 : (y - y') * (y - y') = 0) by lra.
    apply Rmult_integral in E1, E2. f_equal; lra.
  - intros Pc. pose proof Pc as [Lc _]. split; [exact Lc|]. intros d Ld. apply (proj_min roots G k); auto.
Qed.

(** what is returned *)
Lemma exit_small fuel F G' F1 G1 c1 : reduce quo fuel f g F G' = Ok (F1, G1) -> st F1 G1 -> proj (map IZR F1) (map IZR G1) c1 ->
  forall i, (i < n)%nat -> Rabs (nth i c1 0) < / 2.
Proof.
  unfold reduce. rewrite max_fg. cbn [bind]. intros E Hs1 Pc1. apply reduce_loop_exit in E.
  destruct E as (S & ES & H).
  assert (L1 : reduce_loop quo 1 f g 53 F1 G1 = Ok (F1, G1)).
  { cbn [reduce_loop]. rewrite ES. cbn [bind]. destruct H as [H|(kk & Q & Z0)].
    - destruct (Z.ltb_spec S 53); [reflexivity|lia].
    - destruct (Z.ltb_spec S 53); [reflexivity|]. rewrite Q. cbn [bind]. apply AllZeroes_spec in Z0. rewrite Z0. reflexivity. }
  destruct (round_loop 0 F1 G1 c1 Hs1 Pc1) as (S' & _ & _ & [(_ & Z0 & _)|(F2 & G2 & c2 & S2 & _ & _ & _ & E2 & _)]).
  - exact Z0.
  - rewrite L1 in E2. discriminate.
Qed.
Lemma exit_bound fuel F G' F1 G1 : reduce quo fuel f g F G' = Ok (F1, G1) -> st F1 G1 -> forall i, (i < n)%nat ->
  Rabs (IZR (nth i F1 0%Z)) <= (1 + sqrt (INR n) / 2) * sqrt v /\ Rabs (IZR (nth i G1 0%Z)) <= (1 + sqrt (INR n) / 2) * sqrt v.
Proof.
  intros E Hs1 i Hi. pose proof Hs1 as (LF1 & LG1 & E1).
  assert (LA : length (map IZR F1) = n) by (now rewrite map_length). assert (LB : length (map IZR G1) = n) by (now rewrite map_length).
  destruct (proj_exists roots G k k1 rf rg Lrf Lrg h Lh Inv _ _ LA LB) as (c1 & Pc1).
  pose proof (exit_small fuel F G' F1 G1 c1 E Hs1 Pc1) as SM.
  pose proof (size_bound (map IZR F1) (map IZR G1) c1 (/ 2) LA LB E1 Pc1 ltac:(lra)
    (fun i Hi => Rlt_le _ _ (SM i Hi)) i Hi) as B. rewrite !nth_IZR in B.
  assert (V0 : 0 <= v) by (pose proof (sqnorm_pos n rf); pose proof (sqnorm_pos n rg); lra).
  rewrite sqrt_mult in B by (apply pos_INR || exact V0).
  replace ((1 + sqrt (INR n) / 2) * sqrt v) with (sqrt v + / 2 * (sqrt (INR n) * sqrt v)) by field. exact B.
Qed.
End Red.

(** ** From the NTRU equation *)
Section Top.
Context (k : nat) (Hk : (1 <= k)%nat).
Notation n := (2 ^ k)%nat.
Notation G0 := exact_good.
Lemma ntru_real f g F G : length f = n -> length g = n -> length F = n -> length G = n ->
  ntru_equation n f g F G -> rntru n 12289 (map IZR f) (map IZR g) (map IZR F) (map IZR G).
Proof.
  intros Lf Lg LF LG E. unfold rntru. rewrite !rmul_IZR. unfold ntru_equation in E.
  apply (nth_ext _ _ 0 0). { unfold rsub, rconst. rewrite !map_length. reflexivity. }
  intros i Hi. unfold rsub in Hi. rewrite map_length, seq_length in Hi. unfold rsub. rewrite nth_map_seq by exact Hi.
  rewrite !nth_IZR, <- minus_IZR. apply (f_equal (fun l => nth i l 0%Z)) in E. unfold psub in E. rewrite nth_map_seq in E by exact Hi.
  unfold coef in E. rewrite E. unfold rconst. rewrite nth_map_seq by exact Hi.
  unfold pconst. rewrite nth_map_seq by exact Hi. destruct i; reflexivity.
Qed.
Lemma gram_inv q (f g F G : list R) : length f = n -> length g = n -> length F = n -> length G = n -> q <> 0 ->
  rntru n q f g F G -> exists h, length h = n /\ rmul n (gram2 n f g f g) h = rconst n 1.
Proof.
  intros Lf Lg LF LG Hq E. pose proof (in_P exact_roots G0 k Hk) as IP. 
  pose proof (rntru_at exact_roots G0 k f g Lf Lg q F G) as RA. pose proof (ceval_lam exact_roots G0 k f g Lf Lg) as CL.
  pose proof (rmul_comm exact_roots G0 k Hk) as RC.
  destruct k as [|k']; [lia|].
  destruct (Div_exact exact_roots G0 k' (rconst (2 ^ S k') 1) (gram2 (2 ^ S k') f g f g)) as (d & _ & Ld & M).
  - apply rconst_length.
  - apply radd_length.
  - intros z Hz. destruct (IP z Hz) as (i & Hi & ->). rewrite CL by exact Hi. pose proof (RA i LF LG Hi E) as X.
    unfold lam. destruct (ceval f (Babai.P exact_roots (S k') i)) as [a a'], (ceval g (Babai.P exact_roots (S k') i)) as [b b'].
    unfold Csqnorm, RtoC, C0. cbn [fst snd]. intros Z0. apply (f_equal fst) in Z0. cbn [fst] in Z0.
    assert (a = 0 /\ a' = 0 /\ b = 0 /\ b' = 0) as (-> & -> & -> & ->) by (repeat split; nra).
    unfold Cmul, Csub, RtoC in X. apply (f_equal fst) in X. cbn [fst snd] in X. lra.
  - exists d. split; [exact Ld|]. rewrite RC; [exact M|apply radd_length|exact Ld].
Qed.
Lemma gs_value f g h v : length f = n -> length g = n -> length h = n -> rmul n (gram2 n f g f g) h = rconst n 1 ->
  GsNorm_at exactR exact_roots f g 12289 = Ok v -> sqnorm n f + sqnorm n g <= v /\ gs2 exact_roots k f g 12289 <= v.
Proof.
  intros Lf Lg Lh Inv E. rewrite (GsNorm_exact exact_roots G0 k Hk f g Lf Lg h Lh Inv) in E. apply Ok_inj in E. rewrite <- E.
  split; [apply Rmax_l|apply Rmax_r].
Qed.
End Top.

Notation exact_quo := (reduce_quotient_at exactR exact_roots).

(** Babai's rounding, or no end *)
Theorem reduce_exact k f g F G v c : (1 <= k <= 10)%nat ->
  let n := (2 ^ k)%nat in
  length f = n -> length g = n -> length F = n -> length G = n -> ntru_equation n f g F G ->
  GsNorm_at exactR exact_roots (map IZR f) (map IZR g) 12289 = Ok v -> INR n * v <= 1073741824 ->
  best_mult n (map IZR f) (map IZR g) (map IZR F) (map IZR G) c ->
  (halfway n c -> forall fuel, reduce exact_quo fuel f g F G = Diverge) /\
  (~ halfway n c -> exists F' G' z, length z = n /\ (forall i, (i < n)%nat -> Rabs (nth i c 0 - IZR (nth i z 0%Z)) < / 2) /\
    F' = psub n F (negacyc n f z) /\ G' = psub n G (negacyc n g z) /\
    exists fuel0, forall fuel, (fuel0 <= fuel)%nat -> reduce exact_quo fuel f g F G = Ok (F', G')).
Proof.
  cbv zeta. intros Hk Lf Lg LF LG E EV Hv Bc.
  pose proof (ntru_real k f g F G Lf Lg LF LG E) as RN.
  assert (LRf : length (map IZR f) = (2 ^ k)%nat) by (now rewrite map_length).
  assert (LRg : length (map IZR g) = (2 ^ k)%nat) by (now rewrite map_length).
  assert (LRF : length (map IZR F) = (2 ^ k)%nat) by (now rewrite map_length).
  assert (LRG : length (map IZR G) = (2 ^ k)%nat) by (now rewrite map_length).
  destruct (gram_inv k ltac:(lia) 12289 _ _ _ _ LRf LRg LRF LRG ltac:(lra) RN) as (h & Lh & Inv).
  destruct (gs_value k ltac:(lia) _ _ h v LRf LRg Lh Inv EV) as [V1 V2].
  pose proof (proj1 (best_proj exact_roots exact_good k Hk f g Lf Lg h Lh Inv _ _ c LRF LRG) Bc) as Pc.
  assert (ST : st k f g F G) by (split; [exact LF|split; [exact LG|exact RN]]).
  assert (RL : forall fuel, reduce exact_quo fuel f g F G = reduce_loop exact_quo fuel f g 53 F G).
  { intros fuel. unfold reduce. rewrite (max_fg k Hk f g Lf Lg h Lh v V1 Hv). reflexivity. }
  split.
  - intros T fuel. rewrite RL. apply (loop_diverges exact_roots exact_good k Hk f g Lf Lg h Lh Inv v V1 V2 Hv fuel F G c ST Pc T).
  - intros NT. assert (NF : F <> []) by (apply (nonempty_len F (2 ^ k)); [exact LF|pose proof (pow2_ge1 k); lia]).
    assert (NG : G <> []) by (apply (nonempty_len G (2 ^ k)); [exact LG|pose proof (pow2_ge1 k); lia]).
    destruct (max_bitsize_Ok F G NF NG) as (S & ES). destruct (max_bitsize_spec F G S ES) as (H53 & _).
    set (m := Z.to_nat (S - 53)).
    assert (TL : forall fuel, (m + 2 <= fuel)%nat -> exists F1 G1 c1, reduce_loop exact_quo fuel f g 53 F G = Ok (F1, G1) /\ st k f g F1 G1 /\
      GsExact.proj k (map IZR f) (map IZR g) (map IZR F1) (map IZR G1) c1 /\ forall i, (i < 2 ^ k)%nat -> Rabs (nth i c1 0) < / 2).
    { intros fuel Hf. apply (loop_terminates exact_roots exact_good k Hk f g Lf Lg h Lh Inv v V1 V2 Hv m fuel F G c S ST Pc NT ES); lia. }
    assert (SH : forall F1 G1 c1, GsExact.proj k (map IZR f) (map IZR g) (map IZR F1) (map IZR G1) c1 ->
      forall z, length z = (2 ^ k)%nat -> F1 = psub (2 ^ k) F (negacyc (2 ^ k) f z) -> G1 = psub (2 ^ k) G (negacyc (2 ^ k) g z) ->
      forall i, (i < 2 ^ k)%nat -> nth i c1 0 = nth i c 0 - IZR (nth i z 0%Z)).
    { intros F1 G1 c1 P1 z Lz EF EG i Hi.
      destruct (step exact_roots exact_good k Hk f g Lf Lg h Lh F G 53 c z ST Pc Lz) as (c2 & _ & P2 & N2).
      assert (PS : forall N, pscale (2 ^ (53 - 53)) N = N).
      { intros N. unfold pscale. transitivity (map (fun x : Z => x) N); [|apply map_id]. apply map_ext. intros x. apply Z.mul_1_l. }
      rewrite !PS in P2. rewrite <- EF, <- EG in P2.
      assert (c1 = c2).
      { apply (proj_uniq exact_roots exact_good k Hk f g Lf Lg h Lh Inv (map IZR F1) (map IZR G1)); auto;
          rewrite map_length; [rewrite EF|rewrite EG]; apply psub_length. }
      subst c2. rewrite N2 by exact Hi. change (IZR (2 ^ (53 - 53))) with 1. ring. }
    destruct (TL (m + 2)%nat ltac:(lia)) as (F1 & G1 & c1 & R1 & _ & P1 & SM1).
    destruct (reduce_loop_ok exact_quo (m + 2) k f g 53 F G (F1, G1) Lf Lg LF LG R1) as (z & Lz & EZ).
    injection EZ as EF EG. exists F1, G1, z. split; [exact Lz|]. split; [|split; [exact EF|split; [exact EG|]]].
    + intros i Hi. rewrite <- (SH F1 G1 c1 P1 z Lz EF EG i Hi). apply SM1, Hi.
    + exists (m + 2)%nat. intros fuel Hf. rewrite RL. destruct (TL fuel Hf) as (F2 & G2 & c2 & R2 & _ & P2 & SM2).
      destruct (reduce_loop_ok exact_quo fuel k f g 53 F G (F2, G2) Lf Lg LF LG R2) as (z2 & Lz2 & EZ2). injection EZ2 as EF2 EG2.
      assert (z2 = z).
      { apply (nth_ext _ _ 0%Z 0%Z); [congruence|]. intros i Hi. rewrite Lz2 in Hi.
        pose proof (SM1 i Hi) as A1. pose proof (SM2 i Hi) as A2. rewrite (SH F1 G1 c1 P1 z Lz EF EG i Hi) in A1.
        rewrite (SH F2 G2 c2 P2 z2 Lz2 EF2 EG2 i Hi) in A2. apply Rabs_def2 in A1, A2.
        assert (X1 : IZR (nth i z2 0%Z) < IZR (nth i z 0%Z + 1)) by (rewrite plus_IZR; lra).
        assert (X2 : IZR (nth i z 0%Z) < IZR (nth i z2 0%Z + 1)) by (rewrite plus_IZR; lra).
        apply lt_IZR in X1, X2. lia. }
      subst z2. rewrite R2, EF2, EG2, <- EF, <- EG. reflexivity.
Qed.

(** the size of what is returned *)
Theorem reduce_bound k f g F G F' G' v fuel : (1 <= k <= 10)%nat ->
  let n := (2 ^ k)%nat in
  length f = n -> length g = n -> length F' = n -> length G' = n -> ntru_equation n f g F' G' ->
  GsNorm_at exactR exact_roots (map IZR f) (map IZR g) 12289 = Ok v -> INR n * v <= 1073741824 ->
  reduce exact_quo fuel f g F G = Ok (F', G') -> forall i, (i < n)%nat ->
  Rabs (IZR (nth i F' 0%Z)) <= (1 + sqrt (INR n) / 2) * sqrt v /\ Rabs (IZR (nth i G' 0%Z)) <= (1 + sqrt (INR n) / 2) * sqrt v.
Proof.
  cbv zeta. intros Hk Lf Lg LF LG E EV Hv R1.
  pose proof (ntru_real k f g F' G' Lf Lg LF LG E) as RN.
  assert (LRf : length (map IZR f) = (2 ^ k)%nat) by (now rewrite map_length).
  assert (LRg : length (map IZR g) = (2 ^ k)%nat) by (now rewrite map_length).
  destruct (gram_inv k ltac:(lia) 12289 _ _ (map IZR F') (map IZR G') LRf LRg ltac:(now rewrite map_length) ltac:(now rewrite map_length)
    ltac:(lra) RN) as (h & Lh & Inv).
  destruct (gs_value k ltac:(lia) _ _ h v LRf LRg Lh Inv EV) as [V1 V2].
  apply (exit_bound exact_roots exact_good k Hk f g Lf Lg h Lh Inv v V1 V2 Hv fuel F G F' G' R1).
  split; [exact LF|split; [exact LG|exact RN]].
Qed.
