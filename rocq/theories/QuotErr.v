(** The quotient of [reduce] (ntrugen.go:155-205) in binary64 arithmetic: its
    distance from the projection of (F, G) on the multiples of (f, g). *)
From Coq Require Import Reals Lra Lia ZArith List.
From Flocq Require Import Core BinarySingleNaN.
From Verif Require Import GoBase Util BaseProofs Spec Float FftTables Fft FftShape SpecFft SpecBabai ExactReal FftProofs
  RootsProofs RootsTable Binary64 B64Proofs FloatErr FftErr Ntrugen KeyGen Babai GsExact GsBound GsReduce CdivErr FftL1.
Local Open Scope R_scope.

(** integers up to 2^53 are exact *)
Lemma of_int_exact' z : (Z.abs z <= 2 ^ 53)%Z -> B2R (b_of_int z) = IZR z /\ is_finite (b_of_int z) = true.
Proof.
  intros H. destruct (Z.eq_dec (Z.abs z) (2 ^ 53)) as [E|]; [|apply of_int_exact; lia].
  assert (C : (z = 2 ^ 53 \/ z = - 2 ^ 53)%Z) by lia. destruct C as [-> | ->].
  - unfold b_of_int. pose proof (binary_normalize_correct 53 1024 _ _ mode_NE (2 ^ 53) 0 false) as A. cbv zeta in A.
    replace (F2R (Float radix2 (2 ^ 53) 0)) with (bpow radix2 53) in A by (unfold F2R; cbn; ring).
    assert (E' : round radix2 fexp64 (round_mode mode_NE) (bpow radix2 53) = bpow radix2 53).
    { apply round_generic; [auto with typeclass_instances|]. apply generic_format_bpow. unfold SpecFloat.fexp, SpecFloat.emin. lia. }
    rewrite E' in A. rewrite Rlt_bool_true in A.
    + destruct A as (A & Fa & _). split; [exact A|exact Fa].
    + rewrite Rabs_pos_eq by apply bpow_ge_0. apply bpow_lt. lia.
  - unfold b_of_int. pose proof (binary_normalize_correct 53 1024 _ _ mode_NE (- 2 ^ 53) 0 false) as A. cbv zeta in A.
    replace (F2R (Float radix2 (- 2 ^ 53) 0)) with (- bpow radix2 53) in A by (unfold F2R; cbn; ring).
    assert (E' : round radix2 fexp64 (round_mode mode_NE) (- bpow radix2 53) = - bpow radix2 53).
    { apply round_generic; [auto with typeclass_instances|]. apply generic_format_opp, generic_format_bpow. unfold SpecFloat.fexp, SpecFloat.emin. lia. }
    rewrite E' in A. rewrite Rlt_bool_true in A.
    + destruct A as (A & Fa & _). split; [exact A|exact Fa].
    + rewrite Rabs_Ropp, Rabs_pos_eq by apply bpow_ge_0. apply bpow_lt. lia.
Qed.
(** the quotient, point by point *)
Section Shape.
Context (FO : floats) (roots : nat -> list (cplx FO)).
Notation C := (cplx FO).
Lemma list_seq {A} (l : list A) n d : length l = n -> l = map (fun i => nth i l d) (seq 0 n).
Proof.
  intros <-. apply (nth_ext _ _ d d); [now rewrite map_length, seq_length|]. intros i Hi. now rewrite nth_map_seq.
Qed.
Lemma zip_seq {A B D} (op : A -> B -> D) n (a : nat -> A) (b : nat -> B) da db :
  map (fun i => op (nth i (map a (seq 0 n)) da) (nth i (map b (seq 0 n)) db)) (seq 0 n) = map (fun i => op (a i) (b i)) (seq 0 n).
Proof. apply map_seq_ext. intros i Hi. now rewrite !nth_map_seq. Qed.
Lemma MulFFT_seq n (a b : nat -> C) :
  MulFFT FO (map a (seq 0 n)) (map b (seq 0 n)) = Ok (map (fun i => c_mul FO (a i) (b i)) (seq 0 n)).
Proof. rewrite MulFFT_ok by (rewrite !map_length; lia). rewrite map_length, seq_length. now rewrite zip_seq. Qed.
Lemma AddFFT_seq n (a b : nat -> C) :
  AddFFT FO (map a (seq 0 n)) (map b (seq 0 n)) = Ok (map (fun i => c_add FO (a i) (b i)) (seq 0 n)).
Proof. rewrite AddFFT_ok by (now rewrite !map_length). rewrite map_length, seq_length. now rewrite zip_seq. Qed.
Lemma DivFFT_seq n (a b : nat -> C) :
  DivFFT FO (map a (seq 0 n)) (map b (seq 0 n)) = Ok (map (fun i => c_div FO (a i) (b i)) (seq 0 n)).
Proof. rewrite DivFFT_ok by (now rewrite !map_length). rewrite map_length, seq_length. now rewrite zip_seq. Qed.
Lemma AdjFFT_seq n (a : nat -> C) : AdjFFT FO (map a (seq 0 n)) = map (fun i => c_conj FO (a i)) (seq 0 n).
Proof. unfold AdjFFT. now rewrite map_map. Qed.
Lemma quotient_shape n f g A B Ff Fg FA FB :
  FFT FO roots (map (f_of_int FO) f) = Ok Ff -> FFT FO roots (map (f_of_int FO) g) = Ok Fg ->
  FFT FO roots (map (f_of_int FO) A) = Ok FA -> FFT FO roots (map (f_of_int FO) B) = Ok FB ->
  length Ff = n -> length Fg = n -> length FA = n -> length FB = n ->
  let at_ (l : list C) i := nth i l (c0 FO) in
  reduce_quotient_at FO roots f g A B =
  (r <- IFFT FO roots (map (fun i => c_div FO
      (c_add FO (c_mul FO (at_ FA i) (c_conj FO (at_ Ff i))) (c_mul FO (at_ FB i) (c_conj FO (at_ Fg i))))
      (c_add FO (c_mul FO (at_ Ff i) (c_conj FO (at_ Ff i))) (c_mul FO (at_ Fg i) (c_conj FO (at_ Fg i))))) (seq 0 n)) ;;
   Ok (RoundAll FO r)).
Proof.
  cbv zeta. intros Ef Eg EA EB L1 L2 L3 L4.
  rewrite (list_seq Ff n (c0 FO) L1) in Ef. rewrite (list_seq Fg n (c0 FO) L2) in Eg.
  rewrite (list_seq FA n (c0 FO) L3) in EA. rewrite (list_seq FB n (c0 FO) L4) in EB.
  unfold reduce_quotient_at. rewrite Ef, Eg, EA, EB. cbn [bind].
  rewrite !AdjFFT_seq, !MulFFT_seq. cbn [bind]. rewrite AddFFT_seq. cbn [bind].
  rewrite ?MulFFT_seq. cbn [bind]. rewrite AddFFT_seq. cbn [bind]. rewrite DivFFT_seq. reflexivity.
Qed.
End Shape.

(** ** Maxima *)
Fixpoint rmax (l : list R) : R := match l with [] => 1 | x :: l => Rmax (Rabs x) (rmax l) end.
Lemma rmax_ge1 l : 1 <= rmax l.
Proof. induction l as [|x l IH]; cbn [rmax]; [lra|]. apply Rle_trans with (1 := IH), Rmax_r. Qed.
Lemma rmax_ub l i : Rabs (nth i l 0) <= rmax l.
Proof.
  revert i. induction l as [|x l IH]; intros [|i]; cbn [rmax nth]; try (rewrite Rabs_R0; lra); [apply Rmax_l|].
  apply Rle_trans with (1 := IH i), Rmax_r.
Qed.
Lemma rmax_att l : rmax l = 1 \/ exists i, (i < length l)%nat /\ rmax l = Rabs (nth i l 0).
Proof.
  induction l as [|x l IH]; cbn [rmax length]; [now left|]. unfold Rmax. destruct (Rle_dec (Rabs x) (rmax l)) as [H|H].
  - destruct IH as [IH|(i & Hi & IH)]; [now left|right]. exists (S i). split; [lia|exact IH].
  - right. exists 0%nat. split; [lia|reflexivity].
Qed.
Fixpoint zmax (l : list Z) : Z := match l with [] => 1 | x :: l => Z.max (Z.abs x) (zmax l) end.
Lemma zmax_ge1 l : (1 <= zmax l)%Z.
Proof. induction l as [|x l IH]; cbn [zmax]; lia. Qed.
Lemma zmax_ub l x : In x l -> (Z.abs x <= zmax l)%Z.
Proof. induction l as [|y l IH]; cbn [In zmax]; [tauto|]. intros [-> |H]; [lia|]. specialize (IH H). lia. Qed.
Lemma zmax_att l : zmax l = 1%Z \/ exists x, In x l /\ zmax l = Z.abs x.
Proof.
  induction l as [|y l IH]; cbn [In zmax]; [now left|]. destruct (Z.max_spec (Z.abs y) (zmax l)) as [[H ->]|[H ->]].
  - destruct IH as [IH|(x & Hx & IH)]; [now left|right; exists x; auto].
  - right. exists y. auto.
Qed.

Section Q.
Context (ci cu : b64 -> Z).
Notation FO := (binary64 ci cu).

Lemma near_ints' n B zs : length zs = n -> Forall (fun z => (Z.abs z <= B)%Z) zs -> (B <= 2 ^ 53)%Z ->
  near ci cu n 0 (IZR B) (map b_of_int zs) (map IZR zs).
Proof.
  intros L H HB. split; [rewrite map_length; exact L|]. split; [rewrite map_length; exact L|]. intros i Hi.
  assert (E' : nth i (map b_of_int zs) (f0 FO) = b_of_int (nth i zs 0%Z)) by (apply (map_nth b_of_int zs 0%Z)).
  rewrite nth_IZR, E'. pose proof (proj1 (Forall_nth _ _) H i 0%Z ltac:(lia)) as Hz. cbv beta in Hz.
  destruct (of_int_exact' (nth i zs 0%Z) ltac:(lia)) as [V F1].
  split; [|rewrite <- abs_IZR; apply IZR_le, Hz]. rewrite <- V. apply approx_exact, F1.
Qed.

(** the rounding *)
Lemma round_close x : is_finite x = true -> Rabs (B2R x) <= 2 ^ 61 ->
  Rabs (B2R x - IZR (wrap64 (f_to_int FO (f_round FO x)))) <= / 2.
Proof.
  intros Fx Hx. cbn [f_round f_to_int binary64].
  destruct (Bnearbyint_correct 53 1024 _ mode_NA x) as (E & Fe & _). fold (b_round x) in E, Fe.
  set (z := Znearest (Zle_bool 0) (B2R x)).
  assert (E' : B2R (b_round x) = IZR z).
  { rewrite E. unfold round, scaled_mantissa, F2R, cexp, FIX_exp. cbn [Fnum Fexp]. change (bpow radix2 (- 0)) with 1.
    change (bpow radix2 0) with 1. rewrite !Rmult_1_r. reflexivity. }
  rewrite Fx in Fe.
  pose proof (Btrunc_correct 53 1024 _ (b_round x)) as T. rewrite round_FIX_IZR, E', Ztrunc_IZR in T. apply eq_IZR in T.
  pose proof (Znearest_half (Zle_bool 0) (B2R x)) as HZ. fold z in HZ.
  assert (Z62 : (- 2 ^ 62 <= z <= 2 ^ 62)%Z).
  { apply abs_inv in Hx. apply abs_inv in HZ. split; apply le_IZR; cbn in Hx |- *; lra. }
  unfold b_conv. rewrite Fe, T.
  destruct (Z.leb_spec (- 2 ^ 63) z); [|lia]. destruct (Z.ltb_spec z (2 ^ 63)); [|lia].
  cbn [andb]. unfold wrap64. rewrite wrap_id by lia. exact HZ.
Qed.

Context (k : nat) (Hk : (1 <= k <= 10)%nat) (f g : list Z).
Notation n := (2 ^ k)%nat.
Notation rf := (map IZR f).
Notation rg := (map IZR g).
Notation roots := (roots_dict FO).
Notation P := (P exact_roots).
Notation G0 := exact_good.
Context (Lf : length f = n) (Lg : length g = n).
Context (h : list R) (Lh : length h = n) (Inv : rmul n (gram2 n rf rg rf rg) h = rconst n 1).
Context (v : R) (Hv1 : sqnorm n rf + sqnorm n rg <= v) (Hv2 : gs2 exact_roots k rf rg 12289 <= v) (Hv : v <= 17000).

Let Lrf : length rf = n. Proof. now rewrite map_length. Qed.
Let Lrg : length rg = n. Proof. now rewrite map_length. Qed.
Let k1 : (1 <= k)%nat. Proof. lia. Qed.

Lemma Pn i : P k i = nth i (exact_roots n) C0.
Proof. unfold Babai.P, pts. destruct k; [lia|reflexivity]. Qed.
Lemma nth_ev (a : list R) i : (i < n)%nat -> nth i (map (ceval a) (exact_roots n)) C0 = ceval a (P k i).
Proof. intros Hi. rewrite Pn. apply nth_map_ceval. rewrite (gr_len _ G0) by exact k1. exact Hi. Qed.
Lemma P_unit i : (i < n)%nat -> Cle (P k i) 1.
Proof. intros Hi. rewrite Pn. apply exact_unit; [exact k1|exact Hi]. Qed.

Lemma fg_bound : Forall (fun z => (Z.abs z <= 131)%Z) f /\ Forall (fun z => (Z.abs z <= 131)%Z) g.
Proof.
  pose proof (sqnorm_pos n rf). pose proof (sqnorm_pos n rg).
  assert (T : forall l : list Z, length l = n -> sqnorm n (map IZR l) <= 17000 -> Forall (fun z => (Z.abs z <= 131)%Z) l).
  { intros l Ll Hl. apply Forall_forall. intros x Hx. apply (In_nth _ _ 0%Z) in Hx. destruct Hx as (i & Hi & <-).
    pose proof (coef_sqnorm n (map IZR l) i ltac:(lia)) as C. rewrite nth_IZR, <- mult_IZR in C.
    assert (C' : IZR (nth i l 0 * nth i l 0)%Z <= IZR 17000) by lra. apply le_IZR in C'. nia. }
  split; apply T; auto; lra.
Qed.
Lemma lam_low i : (i < n)%nat -> 86 / 10 <= lam rf rg (P k i).
Proof.
  intros Hi. pose proof (lam_pos exact_roots G0 k k1 rf rg Lrf Lrg h Lh Inv i Hi) as LP.
  pose proof (avg_member k (fun i => / lam rf rg (P k i)) i Hi) as H. cbv beta in H.
  specialize (H ltac:(intros j Hj; left; apply Rinv_0_lt_compat; exact (lam_pos exact_roots G0 k k1 rf rg Lrf Lrg h Lh Inv j Hj))).
  unfold gs2 in Hv2. set (a := Babai.avg k _) in *. pose proof (pow2_1024 k ltac:(lia)) as H10.
  assert (N0 : 0 <= INR n) by apply pos_INR.
  assert (HA : a <= 17000 / (12289 * 12289)) by lra.
  set (l := lam rf rg (P k i)) in *.
  assert (HI : / l <= 1024 * (17000 / (12289 * 12289))).
  { apply Rle_trans with (INR n * (17000 / (12289 * 12289))).
    - eapply Rle_trans; [exact H|]. apply Rmult_le_compat_l; lra.
    - apply Rmult_le_compat_r; lra. }
  apply Rmult_le_reg_r with (/ l); [apply Rinv_0_lt_compat; lra|]. rewrite Rinv_r by lra. lra.
Qed.

(** one transform *)
Lemma FFT_ints (l : list Z) B : length l = n -> Forall (fun z => (Z.abs z <= B)%Z) l -> (1 <= B <= 2 ^ 53)%Z ->
  exists Fl, FFT FO roots (map b_of_int l) = Ok Fl /\
    cnear ci cu n (204800 * (IZR B * u53)) (1024 * IZR B) Fl (map (ceval (map IZR l)) (exact_roots n)).
Proof.
  intros Ll HB HB1. pose proof (near_ints' n B l Ll HB ltac:(lia)) as N.
  assert (B1 : 1 <= IZR B) by (apply (IZR_le 1); lia). assert (B53 : IZR B <= IZR (2 ^ 53)) by (apply IZR_le; lia).
  assert (PK : 1 <= 2 ^ k <= 1024).
  { split; [apply pow2_pos|]. replace 1024 with (2 ^ 10) by (cbn; lra). apply Rle_pow; [lra|lia]. }
  pose proof (INR_le10 k Hk) as K10.
  assert (BB : 8 * (2 ^ k * IZR B) <= big).
  { apply Rle_trans with (8 * (1024 * IZR (2 ^ 53))).
    - apply Rmult_le_compat_l; [lra|]. apply Rmult_le_compat; lra.
    - unfold big. apply Rle_trans with (bpow radix2 70); [|apply bpow_le; lia]. cbn; lra. }
  destruct (FFT_err ci cu k (map b_of_int l) (map IZR l) 0 (IZR B) Hk N B1 ltac:(lra) BB) as (Fl & E & L1 & L2 & C).
  exists Fl. split; [exact E|]. split; [exact L1|]. split; [exact L2|]. intros i Hi. destruct (C i Hi) as [C1' C2'].
  assert (BU : 0 <= IZR B * u53) by (apply Rmult_le_pos; unfold u53; lra).
  split.
  - eapply capprox_le; [|exact C1']. rewrite Rplus_0_l.
    apply Rle_trans with (1024 * (10 * (20 * (IZR B * u53)))); [|lra].
    apply Rmult_le_compat; try lra.
    + apply Rmult_le_pos; lra.
    + apply Rmult_le_compat_r; lra.
  - eapply Cle_le; [|exact C2']. apply Rmult_le_compat_r; lra.
Qed.

Lemma big_ge (x : R) : x <= 2 ^ 200 -> x <= big.
Proof.
  intros H. apply Rle_trans with (1 := H). unfold big.
  apply Rle_trans with (bpow radix2 200); [|apply bpow_le; lia]. cbn; lra.
Qed.
(** the transforms of f and g *)
Lemma lsum_fg (l : list Z) : length l = n -> sqnorm n (map IZR l) <= 17000 -> lsum (map IZR l) <= 5197.
Proof.
  intros Ll Hl. assert (A : lsum (map IZR l) <= / 8 * sqnorm n (map IZR l) + INR n * 3).
  { unfold lsum, sqnorm. rewrite map_length, Ll, <- rsum_scal. clear. generalize n. intros N. induction N as [|m IH]; [cbn; lra|].
    rewrite S_INR. cbn [rsum]. cbv beta. set (x := nth m (map IZR l) 0) in *.
    assert (Rabs x <= / 8 * (x * x) + 2).
    { assert (Q : 0 <= (Rabs x - 4) * (Rabs x - 4)) by apply Rle_0_sqr.
      replace (x * x) with (Rabs x * Rabs x) by (rewrite <- Rabs_mult; apply Rabs_pos_eq, Rle_0_sqr). lra. }
    lra. }
  pose proof (pow2_1024 k ltac:(lia)). lra.
Qed.
Lemma FFT_fg (l : list Z) : length l = n -> sqnorm n (map IZR l) <= 17000 -> Forall (fun z => (Z.abs z <= 131)%Z) l ->
  exists Fl, FFT FO roots (map b_of_int l) = Ok Fl /\
    cnear ci cu n (5197 * (300 * u53)) 5197 Fl (map (ceval (map IZR l)) (exact_roots n)).
Proof.
  intros Ll Hl HB. pose proof (near_ints' n 131 l Ll HB ltac:(lia)) as N.
  pose proof (lsum_fg l Ll Hl) as LS. pose proof (lsum_ge (map IZR l)) as LG. pose proof (pos_INR (length (map IZR l))) as LP.
  destruct (FFT_l1 ci cu k (map b_of_int l) (map IZR l) (IZR 131) Hk N) as (Fl & E & L1 & L2 & C).
  { apply big_ge. cbn; lra. }
  exists Fl. split; [exact E|]. split; [exact L1|]. split; [exact L2|]. intros i Hi. destruct (C i Hi) as [C1' C2'].
  pose proof (INR_le10 k Hk) as K10. assert (U0 : 0 <= u53) by (unfold u53; lra). split.
  - eapply capprox_le; [|exact C1']. apply Rmult_le_compat; try lra.
    + apply Rmult_le_pos; lra.
    + apply Rle_trans with (10 * (30 * u53)); [apply Rmult_le_compat_r|]; lra.
  - eapply Cle_le; [|exact C2']. lra.
Qed.
(** |z|^2 and z * conj(w) at one point *)
Lemma norm_err z c : capprox (5197 * (300 * u53)) z c -> Cle c 5197 ->
  capprox (182 / 100000000) (c_mul FO z (c_conj FO z)) (Cmul c (Cconj c)) /\ B2R (snd (c_mul FO z (c_conj FO z))) = 0.
Proof.
  intros A M. pose proof (cconj_approx ci cu _ _ _ A) as A'. pose proof (Cle_conj _ _ M) as M'. split.
  - eapply capprox_le; [|apply (cmul_approx ci cu _ _ _ _ _ _ _ _ 27008810 A A' M M')].
    + unfold u53. lra.
    + unfold u53. lra.
    + lra.
    + apply big_ge. cbn; lra.
  - apply (norm_real ci cu z (5197 + 5197 * (300 * u53))); [apply A|exact (capprox_bound _ _ _ _ A M)|].
    apply big_ge. unfold u53. cbn; lra.
Qed.
Lemma num_err z w c d X : 1 <= X <= 2 ^ 53 -> capprox (204800 * (X * u53)) z c -> Cle c (1024 * X) ->
  capprox (5197 * (300 * u53)) w d -> Cle d 5197 ->
  capprox (X * (299 / 1000000000)) (c_mul FO z (c_conj FO w)) (Cmul c (Cconj d)).
Proof.
  intros HX A M B N. pose proof (cconj_approx ci cu _ _ _ B) as B'. pose proof (Cle_conj _ _ N) as N'.
  eapply capprox_le; [|apply (cmul_approx ci cu _ _ _ _ _ _ _ _ (5321729 * X) A B' M N')].
  - unfold u53. lra.
  - unfold u53. lra.
  - lra.
  - apply big_ge. cbn in *. lra.
Qed.

Lemma quo_err A B c X K : length A = n -> length B = n -> (1 <= X <= 2 ^ 53)%Z ->
  Forall (fun z => (Z.abs z <= X)%Z) A -> Forall (fun z => (Z.abs z <= X)%Z) B ->
  proj k rf rg (map IZR A) (map IZR B) c -> 1 <= K <= 2 ^ 60 -> (forall i, (i < n)%nat -> Rabs (nth i c 0) <= K) ->
  exists q, reduce_quotient_at FO roots f g A B = Ok (RoundAll FO q) /\
    near ci cu n (IZR X * (72 / 1000000000) + K * (437 / 1000000)) (1024 * K + IZR X) q c.
Proof.
  intros LA LB HX HA HB Pc HK Hc. pose proof Pc as [Lc _]. destruct fg_bound as [Bf Bg].
  pose proof (sqnorm_pos n rf) as Nf0. pose proof (sqnorm_pos n rg) as Ng0.
  destruct (FFT_fg f Lf ltac:(lra) Bf) as (Ff & Ef & Lf1 & _ & Cf).
  destruct (FFT_fg g Lg ltac:(lra) Bg) as (Fg & Eg & Lg1 & _ & Cg).
  destruct (FFT_ints A X LA HA HX) as (FA & EA & LA1 & _ & CA).
  destruct (FFT_ints B X LB HB HX) as (FB & EB & LB1 & _ & CB).
  assert (X1 : 1 <= IZR X <= 2 ^ 53).
  { split; [apply (IZR_le 1); lia|]. replace (2 ^ 53) with (IZR (2 ^ 53)) by (cbn; lra). apply IZR_le. lia. }
  set (x := IZR X) in *. clearbody x. clear HX HA HB.
  rewrite (quotient_shape FO roots n f g A B Ff Fg FA FB Ef Eg EA EB Lf1 Lg1 LA1 LB1). cbv zeta.
  match goal with |- context [IFFT FO _ ?l] => set (Q := l) end.
  assert (NQ : cnear ci cu n (x * (71 / 1000000000) + K * (436 / 1000000)) (1024 * K + x) Q (map (ceval c) (exact_roots n))).
  { split; [unfold Q; rewrite map_length, seq_length; reflexivity|]. split; [rewrite map_length; apply (gr_len _ G0); exact k1|]. intros i Hi.
    rewrite (nth_ev c i Hi). unfold Q. rewrite (nth_map_seq _ n i _ Hi).
    destruct (Cf i Hi) as [F1 F2]. destruct (Cg i Hi) as [G1 G2]. destruct (CA i Hi) as [A1 A2]. destruct (CB i Hi) as [B1 B2].
    rewrite nth_ev in F1, F2, G1, G2, A1, A2, B1, B2 by exact Hi.
    pose proof (proj_at exact_roots G0 k rf rg Lrf Lrg (map IZR A) (map IZR B) c i ltac:(now rewrite map_length) ltac:(now rewrite map_length) Pc Hi) as EP.
    pose proof (lam_low i Hi) as LL.
    assert (MC : Cle (ceval c (P k i)) (1024 * K)).
    { eapply Cle_le; [|apply (Cle_ceval c (P k i) K); [apply P_unit, Hi|intros j Hj; apply Hc; lia]]. rewrite Lc.
      apply Rmult_le_compat_r; [lra|]. apply pow2_1024. lia. }
    destruct (norm_err _ _ F1 F2) as [NF1 NF2]. destruct (norm_err _ _ G1 G2) as [NG1 NG2].
    pose proof (num_err _ _ _ _ _ X1 A1 A2 F1 F2) as NA1. pose proof (num_err _ _ _ _ _ X1 B1 B2 G1 G2) as NB1.
    set (zf := nth i Ff _) in *. set (zg := nth i Fg _) in *. set (zA := nth i FA _) in *. set (zB := nth i FB _) in *.
    set (a := ceval rf (P k i)) in *. set (b := ceval rg (P k i)) in *.
    set (p := ceval (map IZR A) (P k i)) in *. set (q := ceval (map IZR B) (P k i)) in *.
    assert (LE : Cadd (Cmul a (Cconj a)) (Cmul b (Cconj b)) = RtoC (lam rf rg (P k i))).
    { unfold lam. fold a b. destruct a, b. unfold Csqnorm, Cadd, Cmul, Cconj, RtoC. cbn [fst snd]. apply f_equal2; ring. }
    set (l := lam rf rg (P k i)) in *.
    (* the denominator *)
    assert (DEN : capprox (365 / 100000000) (c_add FO (c_mul FO zf (c_conj FO zf)) (c_mul FO zg (c_conj FO zg))) (RtoC l)).
    { rewrite <- LE. eapply capprox_le; [|apply (cadd_approx ci cu _ _ _ _ _ _ (2 * 27008809) NF1 NG1)].
      - unfold u53. lra.
      - replace (2 * 27008809) with (5197 * 5197 + 5197 * 5197) by lra.
        apply Cle_add; apply Cle_mul; auto using Cle_conj.
      - split; [lra|]. apply big_ge. cbn; lra. }
    assert (DEN0 : B2R (snd (c_add FO (c_mul FO zf (c_conj FO zf)) (c_mul FO zg (c_conj FO zg)))) = 0).
    { change (snd (c_add FO (c_mul FO zf (c_conj FO zf)) (c_mul FO zg (c_conj FO zg))))
        with (b_add (snd (c_mul FO zf (c_conj FO zf))) (snd (c_mul FO zg (c_conj FO zg)))).
      destruct (add_0 (snd (c_mul FO zf (c_conj FO zf))) (snd (c_mul FO zg (c_conj FO zg)))) as [_ V].
      - apply NF1.
      - split; [apply NG1|exact NG2].
      - rewrite V. exact NF2. }
    (* the numerator *)
    assert (NUM : capprox (x * (6 / 10000000)) (c_add FO (c_mul FO zA (c_conj FO zf)) (c_mul FO zB (c_conj FO zg)))
      (Cadd (Cmul p (Cconj a)) (Cmul q (Cconj b)))).
    { eapply capprox_le; [|apply (cadd_approx ci cu _ _ _ _ _ _ (10643456 * x) NA1 NB1)].
      - unfold u53. lra.
      - replace (10643456 * x) with (1024 * x * 5197 + 1024 * x * 5197) by lra.
        apply Cle_add; apply Cle_mul; auto using Cle_conj.
      - split; [lra|]. apply big_ge. cbn in *; lra. }
    split; [|eapply Cle_le; [|exact MC]; lra].
    eapply capprox_le; [|apply (cdiv_approx ci cu _ _ _ _ _ l _ (8599 / 1000) (1024 * K) (1025 * K + x) NUM DEN DEN0 (eq_sym EP) MC)].
    - unfold u53. lra.
    - lra.
    - lra.
    - split; [lra|]. apply big_ge. cbn in *; lra.
    - lra. }
  clearbody Q.
  pose proof (small_ku k Hk) as KU. pose proof (INR_le10 k Hk) as K10.
  assert (IM : INR k * (50 * ((1024 * K + x) * u53)) <= 10 * (50 * ((1024 * K + x) * u53))).
  { apply Rmult_le_compat_r; [|lra]. apply Rmult_le_pos; [lra|]. apply Rmult_le_pos; unfold u53; lra. }
  destruct (IFFT_err ci cu k Q c _ _ Hk NQ Lc) as (r & ER & LR & LR' & NR).
  - lra.
  - unfold u53 in *. lra.
  - apply big_ge. cbn in *; lra.
  - rewrite ER. cbn [bind]. exists r. split; [reflexivity|]. split; [exact LR|]. split; [exact LR'|]. intros i Hi.
    destruct (NR i Hi) as [R1 R2]. split; [|exact R2]. eapply approx_le; [|exact R1]. unfold u53 in *. lra.
Qed.

(** ** The end of the loop *)
Lemma RoundAll_nth (q : list b64) i : (i < length q)%nat ->
  nth i (RoundAll FO q) 0%Z = wrap64 (f_to_int FO (f_round FO (nth i q (f0 FO)))).
Proof.
  intros Hi. set (r := fun v : b64 => wrap64 (f_to_int FO (f_round FO v))).
  change (RoundAll FO q) with (map r q). rewrite (nth_indep (map r q) 0%Z (r (f0 FO))) by (rewrite map_length; exact Hi).
  exact (map_nth r q (f0 FO) i).
Qed.
Let Hv30 : INR n * v <= 1073741824.
Proof.
  pose proof (pow2_1024 k ltac:(lia)). assert (0 <= v) by (pose proof (sqnorm_pos n rf); pose proof (sqnorm_pos n rg); lra).
  assert (INR n * v <= 1024 * 17000) by (apply Rmult_le_compat; auto using pos_INR). lra.
Qed.

Lemma near_round e y c : approx e y c -> Rabs c + e <= 2 ^ 61 ->
  Rabs (B2R y - c) <= e /\ Rabs (B2R y - IZR (wrap64 (f_to_int FO (f_round FO y)))) <= / 2.
Proof.
  intros [Fy Dy] HB. pose proof (approx_bound _ _ _ (conj Fy Dy)) as AB. split; [exact Dy|]. apply round_close; [exact Fy|lra].
Qed.
(** the integer quotient, against the projection *)
Lemma quo_close A B c X : length A = n -> length B = n -> (1 <= X <= 2 ^ 53)%Z ->
  Forall (fun z => (Z.abs z <= X)%Z) A -> Forall (fun z => (Z.abs z <= X)%Z) B ->
  proj k rf rg (map IZR A) (map IZR B) c ->
  exists kk, reduce_quotient_at FO roots f g A B = Ok kk /\ length kk = n /\
  forall K, 1 <= K -> (forall i, (i < n)%nat -> Rabs (nth i c 0) <= K) -> forall i, (i < n)%nat ->
  exists y, Rabs (y - nth i c 0) <= IZR X * (72 / 1000000000) + K * (437 / 1000000) /\ Rabs (y - IZR (nth i kk 0%Z)) <= / 2.
Proof.
  intros LA LB HX HA HB Pc. pose proof Pc as [Lc _]. set (K := rmax c).
  assert (X1 : 1 <= IZR X <= 2 ^ 53).
  { split; [apply (IZR_le 1); lia|]. replace (2 ^ 53) with (IZR (2 ^ 53)) by (cbn; lra). apply IZR_le. lia. }
  assert (K60 : 1 <= K <= 2 ^ 60).
  { split; [apply rmax_ge1|]. destruct (rmax_att c) as [E|(j & Hj & E)]; fold K in E; rewrite E; [cbn; lra|]. rewrite Lc in Hj.
    apply abs_of_sq; [apply pow_le; lra|].
    assert (LRA : length (map IZR A) = n) by (now rewrite map_length). assert (LRB : length (map IZR B) = n) by (now rewrite map_length).
    eapply Rle_trans; [apply (coef_sqnorm n c j Hj)|].
    eapply Rle_trans; [apply (proj_bound exact_roots G0 k Hk f g Lf Lg h Lh Inv v Hv2 Hv30 _ _ c LRA LRB Pc)|].
    assert (SQ : forall l : list Z, length l = n -> Forall (fun z => (Z.abs z <= X)%Z) l -> sqnorm n (map IZR l) <= INR n * 2 ^ 106).
    { intros l Ll Hl. apply sq_sum_bound. intros m Hm. rewrite nth_IZR, <- mult_IZR.
      replace (2 ^ 106) with (IZR (2 ^ 106)) by (cbn; lra). apply IZR_le.
      pose proof (proj1 (Forall_nth _ _) Hl m 0%Z ltac:(lia)) as Hz. cbv beta in Hz.
      assert (Z.abs (nth m l 0) * Z.abs (nth m l 0) <= 2 ^ 53 * 2 ^ 53)%Z by (apply Z.mul_le_mono_nonneg; lia).
      set (y := nth m l 0%Z) in *. clear - H. lia. }
    pose proof (SQ A LA HA). pose proof (SQ B LB HB). pose proof (pow2_1024 k ltac:(lia)) as N10.
    assert (INR n * 2 ^ 106 <= 1024 * 2 ^ 106) by (apply Rmult_le_compat_r; [apply pow_le; lra|exact N10]).
    cbn in *. lra. }
  destruct (quo_err A B c X K LA LB HX HA HB Pc K60 (fun i _ => rmax_ub c i)) as (q & EQ' & Lq & _ & NQ).
  assert (LK : length (RoundAll FO q) = n) by (unfold RoundAll; rewrite map_length; exact Lq).
  exists (RoundAll FO q). split; [exact EQ'|]. split; [exact LK|]. intros K' HK' Hc i Hi.
  destruct (NQ i Hi) as [AQ _]. pose proof (rmax_ub c i) as U. fold K in U.
  assert (KK : K <= K').
  { destruct (rmax_att c) as [E|(j & Hj & E)]; fold K in E; [lra|]. rewrite E. apply Hc. lia. }
  destruct (near_round _ _ _ AQ) as [N1 N2].
  - assert (P61 : 2 ^ 61 = 2 * 2 ^ 60) by (cbn; lra). assert (P53 : 2 ^ 53 <= 2 ^ 60) by (apply Rle_pow; [lra|lia]). lra.
  - exists (B2R (nth i q (f0 FO))). split.
    + eapply Rle_trans; [exact N1|]. lra.
    + rewrite RoundAll_nth by lia. exact N2.
Qed.
(** a quotient of zeroes *)
Lemma quo_zero A B c X kk : length A = n -> length B = n -> (1 <= X <= 2 ^ 53)%Z ->
  Forall (fun z => (Z.abs z <= X)%Z) A -> Forall (fun z => (Z.abs z <= X)%Z) B ->
  proj k rf rg (map IZR A) (map IZR B) c ->
  reduce_quotient_at FO roots f g A B = Ok kk -> Forall (fun z => z = 0%Z) kk ->
  forall i, (i < n)%nat -> Rabs (nth i c 0) <= 5005 / 10000 + IZR X * (73 / 1000000000).
Proof.
  intros LA LB HX HA HB Pc EQ Z0 i Hi. pose proof Pc as [Lc _]. set (K := rmax c).
  destruct (quo_close A B c X LA LB HX HA HB Pc) as (kk' & EQ' & LK & H). rewrite EQ in EQ'. apply Ok_inj in EQ'. subst kk'.
  assert (X1 : 1 <= IZR X) by (apply (IZR_le 1); lia).
  specialize (H K (rmax_ge1 c) (fun i _ => rmax_ub c i)).
  assert (S : forall j, (j < n)%nat -> Rabs (nth j c 0) <= / 2 + IZR X * (72 / 1000000000) + K * (437 / 1000000)).
  { intros j Hj. destruct (H j Hj) as (y & Y1 & Y2). rewrite (proj1 (Forall_nth _ _) Z0 j 0%Z ltac:(lia)) in Y2.
    apply abs_inv in Y1. apply abs_inv in Y2. apply Rabs_le. lra. }
  destruct (rmax_att c) as [E|(j & Hj & E)]; fold K in E; [pose proof (S i Hi); lra|]. rewrite Lc in Hj. pose proof (S j Hj).
  pose proof (rmax_ub c i) as U. fold K in U. lra.
Qed.

Notation quo := (reduce_quotient_at FO roots).
Lemma sqrt_17000 : sqrt v <= 131 /\ sqrt (INR n * v) <= 4173.
Proof.
  assert (V0 : 0 <= v) by (pose proof (sqnorm_pos n rf); pose proof (sqnorm_pos n rg); lra).
  pose proof (pow2_1024 k ltac:(lia)) as N10. assert (N0 : 0 <= INR n) by apply pos_INR.
  assert (INR n * v <= 1024 * 17000) by (apply Rmult_le_compat; lra).
  split; [replace 131 with (sqrt (131 * 131)) by (apply sqrt_square; lra)|replace 4173 with (sqrt (4173 * 4173)) by (apply sqrt_square; lra)];
    apply sqrt_le_1_alt; lra.
Qed.
Lemma exit_size fuel F G' F1 G1 : reduce quo fuel f g F G' = Ok (F1, G1) -> st k f g F1 G1 ->
  (forall c, proj k rf rg (map IZR F1) (map IZR G1) c -> forall i, (i < n)%nat -> Rabs (nth i c 0) <= 5007 / 10000) /\
  Forall (fun x => (Z.abs x <= 2220)%Z) F1 /\ Forall (fun x => (Z.abs x <= 2220)%Z) G1.
Proof.
  intros E Hs. unfold reduce in E. rewrite (max_fg k Hk f g Lf Lg h Lh v Hv1 Hv30) in E. cbn [bind] in E.
  apply reduce_loop_exit in E. destruct E as (S & ES & H). pose proof Hs as (LF & LG & RN).
  destruct (max_bitsize_spec F1 G1 S ES) as (H53 & BND & BIG).
  destruct H as [H|(kk & EQ & Z0)]; [lia|].
  assert (LRF : length (map IZR F1) = n) by (now rewrite map_length). assert (LRG : length (map IZR G1) = n) by (now rewrite map_length).
  destruct (proj_exists exact_roots G0 k k1 rf rg Lrf Lrg h Lh Inv _ _ LRF LRG) as (c & Pc).
  destruct (quo_proj exact_roots G0 k Hk f g Lf Lg h Lh Inv v Hv1 Hv2 Hv30 F1 G1 S c Hs ES Pc) as (c' & Pc' & _ & Lc' & Cc & C53).
  destruct (adjust_fg k Hk f g Lf Lg h Lh v Hv1 Hv30) as [AF AG]. rewrite AF, AG in EQ.
  rewrite (adjust_ok S F1), (adjust_ok S G1) in Pc', EQ by (try exact H53; intros; apply BND; auto).
  set (D := (2 ^ (S - 53))%Z) in *. assert (HD : (0 < D)%Z) by (apply Z.pow_pos_nonneg; lia).
  set (dv := fun x => (x / D)%Z) in *. set (A := map dv F1) in *. set (B := map dv G1) in *.
  assert (LA : length A = n) by (unfold A; now rewrite map_length). assert (LB : length B = n) by (unfold B; now rewrite map_length).
  set (X := zmax (A ++ B)).
  assert (E53 : (2 ^ S = 2 ^ 53 * D)%Z) by (unfold D; rewrite <- Z.pow_add_r by lia; f_equal; lia).
  assert (IA : forall x, In x (A ++ B) <-> exists y, (In y F1 \/ In y G1) /\ x = dv y).
  { intros x. rewrite in_app_iff. unfold A, B. rewrite !in_map_iff. split.
    - intros [(y & <- & Hy)|(y & <- & Hy)]; exists y; auto.
    - intros (y & [Hy|Hy] & ->); [left|right]; exists y; auto. }
  assert (X53 : (1 <= X <= 2 ^ 53)%Z).
  { split; [apply zmax_ge1|]. destruct (zmax_att (A ++ B)) as [EX|(x & Hx & EX)]; fold X in EX; rewrite EX; [lia|].
    apply IA in Hx. destruct Hx as (y & Hy & ->). specialize (BND y Hy). unfold dv.
    assert (- 2 ^ 53 <= y / D)%Z by (apply Z.div_le_lower_bound; lia).
    assert (y / D <= 2 ^ 53)%Z by (apply Z.div_le_upper_bound; lia). lia. }
  assert (HA : Forall (fun z => (Z.abs z <= X)%Z) A) by (apply Forall_forall; intros x Hx; apply zmax_ub, in_or_app; auto).
  assert (HB : Forall (fun z => (Z.abs z <= X)%Z) B) by (apply Forall_forall; intros x Hx; apply zmax_ub, in_or_app; auto).
  pose proof (quo_zero A B c' X kk LA LB X53 HA HB Pc' EQ Z0) as SM.
  assert (X1 : 1 <= IZR X) by (apply (IZR_le 1); lia). destruct sqrt_17000 as [Q1 Q2].
  pose proof (sqrt_pos (INR n * v)) as Q0.
  assert (RD : 1 <= IZR D) by (apply (IZR_le 1); lia).
  (* the size from a bound on the projection *)
  assert (SZ : forall K y, 0 <= K -> (forall i, (i < n)%nat -> Rabs (nth i c 0) <= K) -> In y F1 \/ In y G1 -> Rabs (IZR y) <= 131 + K * 4173).
  { intros K y HK Hc Hy. assert (K * sqrt (INR n * v) <= K * 4173) by (apply Rmult_le_compat_l; lra).
    pose proof (size_bound exact_roots G0 k Hk f g Lf Lg h Lh Inv v Hv1 Hv2 (map IZR F1) (map IZR G1) c K LRF LRG RN Pc HK Hc) as SB.
    destruct Hy as [Hy|Hy]; apply (In_nth _ _ 0%Z) in Hy; destruct Hy as (i & Hi & <-);
      destruct (SB i ltac:(lia)) as [S1 S2]; rewrite nth_IZR in S1, S2; lra. }
  assert (S53 : S = 53%Z).
  { destruct BIG as [BIG|(y & Hy & BY)]; [exact BIG|exfalso].
    assert (KC : forall i, (i < n)%nat -> Rabs (nth i c 0) <= IZR D * (129 + IZR X * (73 / 1000000000))).
    { intros i Hi. specialize (Cc i Hi). specialize (SM i Hi).
      pose proof (Rabs_triang (nth i c 0 - IZR D * nth i c' 0) (IZR D * nth i c' 0)) as T.
      replace (nth i c 0 - IZR D * nth i c' 0 + IZR D * nth i c' 0) with (nth i c 0) in T by ring.
      rewrite (Rabs_mult (IZR D)), (Rabs_pos_eq (IZR D)) in T by lra.
      assert (IZR D * Rabs (nth i c' 0) <= IZR D * (5005 / 10000 + IZR X * (73 / 1000000000))) by (apply Rmult_le_compat_l; lra).
      lra. }
    assert (K0 : 0 <= IZR D * (129 + IZR X * (73 / 1000000000))) by (apply Rmult_le_pos; lra).
    assert (XB : IZR X <= 543000).
    { destruct (zmax_att (A ++ B)) as [EX|(x & Hx & EX)]; fold X in EX; [rewrite EX; lra|].
      apply IA in Hx. destruct Hx as (w & Hw & ->). unfold dv in EX. pose proof (SZ _ w K0 KC Hw) as Bw.
      destruct (div_frac w D HD) as (e & He & Ew). rewrite EX in *. rewrite abs_IZR in *.
      rewrite Ew, Rabs_mult, (Rabs_pos_eq (IZR D)) in Bw by lra.
      assert (T : Rabs (IZR (w / D)) <= Rabs (IZR (w / D) + e) + 1).
      { pose proof (Rabs_triang (IZR (w / D) + e) (- e)) as T. replace (IZR (w / D) + e + - e) with (IZR (w / D)) in T by ring.
        rewrite Rabs_Ropp, (Rabs_pos_eq e) in T by lra. lra. }
      set (a := Rabs (IZR (w / D))) in *. set (b := Rabs (IZR (w / D) + e)) in *.
      assert (IZR D * b <= IZR D * (131 + (129 + a * (73 / 1000000000)) * 4173)) by lra.
      apply Rmult_le_reg_l in H; [|lra]. lra. }
    assert (2 ^ 45 <= X)%Z.
    { apply Z.le_trans with (Z.abs (dv y)); [|apply zmax_ub, IA; exists y; auto]. unfold dv.
      assert (P45 : (2 ^ (S - 8) = 2 ^ 45 * D)%Z) by (unfold D; rewrite <- Z.pow_add_r by lia; f_equal; lia).
      destruct (Z_le_gt_dec 0 y).
      - assert (2 ^ 45 <= y / D)%Z by (apply Z.div_le_lower_bound; lia). lia.
      - assert (y / D <= - 2 ^ 45)%Z by (apply Z.div_le_upper_bound; lia). lia. }
    apply le_IZR in XB. lia. }
  assert (D1 : D = 1%Z) by (unfold D; rewrite S53; reflexivity).
  assert (KC : forall i, (i < n)%nat -> Rabs (nth i c 0) <= 5005 / 10000 + IZR X * (73 / 1000000000)).
  { intros i Hi. rewrite <- (C53 S53). apply SM, Hi. }
  assert (XB : (X <= 2220)%Z).
  { destruct (zmax_att (A ++ B)) as [EX|(x & Hx & EX)]; fold X in EX; [lia|].
    apply IA in Hx. destruct Hx as (w & Hw & ->). unfold dv in EX. rewrite D1, Z.div_1_r in EX.
    pose proof (SZ (5005 / 10000 + IZR X * (73 / 1000000000)) w ltac:(lra) KC Hw) as Bw. rewrite <- abs_IZR, <- EX in Bw.
    assert (IZR X < IZR 2221) by lra. apply lt_IZR in H. lia. }
  assert (DV : forall y, dv y = y) by (intros y; unfold dv; rewrite D1; apply Z.div_1_r).
  split.
  { intros d Pd i Hi. rewrite (proj_uniq exact_roots G0 k Hk f g Lf Lg h Lh Inv _ _ d c LRF LRG Pd Pc).
    apply IZR_le in XB. pose proof (KC i Hi). lra. }
  split; apply Forall_forall; intros y Hy.
  - eapply Z.le_trans; [|exact XB]. rewrite <- (DV y). apply zmax_ub, IA. exists y. auto.
  - eapply Z.le_trans; [|exact XB]. rewrite <- (DV y). apply zmax_ub, IA. exists y. auto.
Qed.
End Q.
