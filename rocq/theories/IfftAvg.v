(** [IFFT] (fft/fft.go:60-77) on arbitrary vectors: its values at the roots, and its error in
    binary64 arithmetic in terms of the average of the vector. *)
From Coq Require Import Reals Lra Lia ZArith List.
From Flocq Require Import Core BinarySingleNaN.
From Verif Require Import GoBase Util BaseProofs Spec Float FftTables Fft FftShape SpecFft SpecBabai ExactReal FftProofs
  RootsProofs RootsTable Binary64 B64Proofs FloatErr FftErr Babai GsBound.
Local Open Scope R_scope.

Notation P := (Babai.P exact_roots).

(** ** The exact transform *)
Definition half0 (X : nat -> Cx) (i : nat) : Cx := Cmul (Cadd (X (2 * i)%nat) (X (2 * i + 1)%nat)) (RtoC (/ 2)).
Definition half1 (k : nat) (X : nat -> Cx) (i : nat) : Cx :=
  Cmul (Cmul (Csub (X (2 * i)%nat) (X (2 * i + 1)%nat)) (RtoC (/ 2))) (Cconj (P (S k) (2 * i))).
Fixpoint cinv (k : nat) (X : nat -> Cx) : list R :=
  match k with
  | O => []
  | S k' =>
      match k' with
      | O => [fst (X 0%nat); snd (X 0%nat)]
      | S _ => interleave (fun i => nth i (cinv k' (half0 X)) 0) (fun i => nth i (cinv k' (half1 k' X)) 0) (2 ^ k')
      end
  end.
Lemma cinv_SS k X : cinv (S (S k)) X =
  interleave (fun i => nth i (cinv (S k) (half0 X)) 0) (fun i => nth i (cinv (S k) (half1 (S k) X)) 0) (2 ^ S k).
Proof. reflexivity. Qed.
Lemma cinv_length k X : (1 <= k)%nat -> length (cinv k X) = (2 ^ k)%nat.
Proof. intros Hk. destruct k as [|[|k]]; [lia|reflexivity|]. rewrite cinv_SS, interleave_length. reflexivity. Qed.
Lemma evens_inter (a b : nat -> R) m : evens 0 (interleave a b m) = map a (seq 0 m).
Proof.
  assert (D : Nat.div (length (interleave a b m)) 2 = m) by (rewrite interleave_length, Nat.mul_comm, Nat.div_mul; lia).
  apply (nth_ext _ _ 0 0); [now rewrite evens_length, D, map_length, seq_length|].
  intros i Hi. rewrite evens_length, D in Hi. rewrite evens_nth by (rewrite D; exact Hi). now rewrite interleave_even, nth_map_seq.
Qed.
Lemma odds_inter (a b : nat -> R) m : odds 0 (interleave a b m) = map b (seq 0 m).
Proof.
  assert (D : Nat.div (length (interleave a b m)) 2 = m) by (rewrite interleave_length, Nat.mul_comm, Nat.div_mul; lia).
  apply (nth_ext _ _ 0 0); [now rewrite odds_length, D, map_length, seq_length|].
  intros i Hi. rewrite odds_length, D in Hi. rewrite odds_nth by (rewrite D; exact Hi). now rewrite interleave_odd, nth_map_seq.
Qed.
Lemma seq_nth_id (l : list R) m : length l = m -> map (fun i => nth i l 0) (seq 0 m) = l.
Proof. intros <-. apply (nth_ext _ _ 0 0); [now rewrite map_length, seq_length|]. intros i Hi. rewrite map_length, seq_length in Hi. now rewrite nth_map_seq. Qed.
Lemma cinv_ceval k X z : ceval (cinv (S (S k)) X) z =
  Cadd (ceval (cinv (S k) (half0 X)) (Cmul z z)) (Cmul z (ceval (cinv (S k) (half1 (S k) X)) (Cmul z z))).
Proof.
  rewrite (ceval_even_odd (2 ^ S k)) by (rewrite cinv_length by lia; reflexivity).
  rewrite cinv_SS, evens_inter, odds_inter, !seq_nth_id by (apply cinv_length; lia). reflexivity.
Qed.
Lemma P1 : P 1 0 = Ci /\ P 1 1 = Copp Ci.
Proof. unfold Babai.P, pts. change (2 ^ 1)%nat with 2%nat. rewrite (gr_two _ exact_good). split; reflexivity. Qed.
Lemma two_sq a b : Cmul a a = Cmul b b -> a = b \/ a = Copp b.
Proof.
  destruct a as [x y], b as [z w]. unfold Cmul, Copp. cbn [fst snd]. intros E.
  pose proof (f_equal fst E) as E1. pose proof (f_equal snd E) as E2. cbn [fst snd] in E1, E2. clear E.
  (* (a-b)(a+b) = 0 *)
  set (p := x - z). set (q := y - w). set (r := x + z). set (s := y + w).
  assert (H1 : p * r - q * s = 0) by (unfold p, q, r, s; lra). assert (H2 : p * s + q * r = 0) by (unfold p, q, r, s; lra).
  assert (H : (p * p + q * q) * (r * r + s * s) = 0).
  { replace ((p * p + q * q) * (r * r + s * s)) with ((p * r - q * s) * (p * r - q * s) + (p * s + q * r) * (p * s + q * r)) by ring.
    rewrite H1, H2. ring. }
  assert (SQ : forall a b : R, a * a + b * b = 0 -> a = 0 /\ b = 0).
  { intros a b H0. pose proof (Rle_0_sqr a) as A. pose proof (Rle_0_sqr b) as B. unfold Rsqr in A, B.
    split; apply Rsqr_0_uniq; unfold Rsqr; lra. }
  apply Rmult_integral in H. destruct H as [H|H]; apply SQ in H; destruct H as [Ha Hb]; [left|right]; apply f_equal2; unfold p, q, r, s in *; lra.
Qed.
(** half of the values are kept, the others become the conjugates of these *)
Lemma cinv_eval k : (1 <= k)%nat -> forall i, (i < 2 ^ k)%nat ->
  (forall X, ceval (cinv k X) (P k i) = X i) \/
  exists i', (i' < 2 ^ k)%nat /\ P k i' = Cconj (P k i) /\ forall X, ceval (cinv k X) (P k i) = Cconj (X i').
Proof.
  induction k as [|k IH]; intros Hk i Hi; [lia|]. destruct k as [|k].
  - destruct P1 as [Q0 Q1]. destruct i as [|[|i]]; [left|right|cbn in Hi; lia].
    + intros X. rewrite Q0. cbn [cinv]. destruct (X 0%nat) as [x y].
      unfold ceval, Ci; cbn [length Csum Cpow nth fst snd]; unfold Cadd, Cmul, RtoC, C0, C1; cbn [fst snd]. apply f_equal2; ring.
    + exists 0%nat. split; [cbn; lia|]. rewrite Q0, Q1. split; [unfold Ci, Copp, Cconj; cbn [fst snd]; apply f_equal2; ring|].
      intros X. cbn [cinv]. destruct (X 0%nat) as [x y].
      unfold ceval, Ci, Copp, Cconj; cbn [length Csum Cpow nth fst snd]; unfold Cadd, Cmul, RtoC, C0, C1; cbn [fst snd]. apply f_equal2; ring.
  - specialize (IH ltac:(lia)).
    assert (J : exists j s, (j < 2 ^ S k)%nat /\ (s = 0 \/ s = 1)%nat /\ i = (2 * j + s)%nat).
    { exists (i / 2)%nat, (i mod 2)%nat. pose proof (Nat.div_mod i 2 ltac:(lia)). pose proof (Nat.mod_upper_bound i 2 ltac:(lia)).
      rewrite (pow2_S (S k)) in Hi. lia. }
    destruct J as (j & s & Hj & Hs & ->). set (w := P (S (S k)) (2 * j)).
    assert (PO : P (S (S k)) (2 * j + 1) = Copp w) by (apply (P_opp exact_roots exact_good); exact Hj).
    assert (PS : Cmul w w = P (S k) j) by (apply (P_sqr exact_roots exact_good); exact Hj).
    assert (PU : Cmul w (Cconj w) = C1) by (apply (P_unit exact_roots exact_good (S (S k))); rewrite (pow2_S (S k)); lia).
    assert (Pi : P (S (S k)) (2 * j + s) = if Nat.eqb s 0 then w else Copp w).
    { destruct Hs as [-> | ->]; [rewrite Nat.add_0_r; reflexivity|exact PO]. }
    assert (PQ : Cmul (P (S (S k)) (2 * j + s)) (P (S (S k)) (2 * j + s)) = P (S k) j).
    { rewrite Pi. destruct (Nat.eqb s 0); rewrite <- PS; [reflexivity|]. ring. }
    destruct (IH j Hj) as [A|(j' & Hj' & CJ & A)].
    + left. intros X. rewrite cinv_ceval, PQ, !A. unfold half0, half1. fold w. rewrite Pi.
      destruct Hs as [-> | ->]; cbn [Nat.eqb].
      * rewrite Nat.add_0_r. set (a := X (2 * j)%nat). set (b := X (2 * j + 1)%nat).
        transitivity (Cadd (Cmul (Cadd a b) (RtoC (/ 2))) (Cmul (Cmul (Csub a b) (RtoC (/ 2))) (Cmul w (Cconj w)))); [ring|].
        rewrite PU. destruct a, b. unfold Cadd, Csub, Cmul, RtoC, C1. cbn [fst snd]. apply f_equal2; field.
      * set (a := X (2 * j)%nat). set (b := X (2 * j + 1)%nat).
        transitivity (Csub (Cmul (Cadd a b) (RtoC (/ 2))) (Cmul (Cmul (Csub a b) (RtoC (/ 2))) (Cmul w (Cconj w)))); [ring|].
        rewrite PU. destruct a, b. unfold Cadd, Csub, Cmul, RtoC, C1. cbn [fst snd]. apply f_equal2; field.
    + right. set (w' := P (S (S k)) (2 * j')).
      assert (PO' : P (S (S k)) (2 * j' + 1) = Copp w') by (apply (P_opp exact_roots exact_good); exact Hj').
      assert (PS' : Cmul w' w' = P (S k) j') by (apply (P_sqr exact_roots exact_good); exact Hj').
      assert (PU' : Cmul w' (Cconj w') = C1) by (apply (P_unit exact_roots exact_good (S (S k))); rewrite (pow2_S (S k)); lia).
      set (W := P (S (S k)) (2 * j + s)) in *.
      assert (CW : Cconj W = w' \/ Cconj W = Copp w').
      { apply two_sq. rewrite PS', CJ, <- PQ. destruct W. unfold Cmul, Cconj. cbn [fst snd]. apply f_equal2; ring. }
      assert (R : forall X, ceval (cinv (S (S k)) X) W =
        Cconj (Cadd (half0 X j') (Cmul (Cconj W) (half1 (S k) X j')))).
      { intros X. rewrite cinv_ceval, PQ, !A. destruct (half0 X j'), (half1 (S k) X j'), W. unfold Cadd, Cmul, Cconj. cbn [fst snd]. apply f_equal2; ring. }
      rewrite (pow2_S (S k)).
      destruct CW as [CW|CW].
      * exists (2 * j')%nat. split; [lia|]. split; [symmetry; exact CW|]. intros X. rewrite R, CW. f_equal. unfold half0, half1. fold w'.
        set (a := X (2 * j')%nat). set (b := X (2 * j' + 1)%nat).
        transitivity (Cadd (Cmul (Cadd a b) (RtoC (/ 2))) (Cmul (Cmul (Csub a b) (RtoC (/ 2))) (Cmul w' (Cconj w')))); [ring|].
        rewrite PU'. destruct a, b. unfold Cadd, Csub, Cmul, RtoC, C1. cbn [fst snd]. apply f_equal2; field.
      * exists (2 * j' + 1)%nat. split; [lia|]. split; [rewrite PO'; symmetry; exact CW|]. intros X. rewrite R, CW. f_equal. unfold half0, half1. fold w'.
        set (a := X (2 * j')%nat). set (b := X (2 * j' + 1)%nat).
        transitivity (Csub (Cmul (Cadd a b) (RtoC (/ 2))) (Cmul (Cmul (Csub a b) (RtoC (/ 2))) (Cmul w' (Cconj w')))); [ring|].
        rewrite PU'. destruct a, b. unfold Cadd, Csub, Cmul, RtoC, C1. cbn [fst snd]. apply f_equal2; field.
Qed.
Lemma ceval_conj v z : ceval v (Cconj z) = Cconj (ceval v z).
Proof.
  assert (PC : forall i, Cpow (Cconj z) i = Cconj (Cpow z i)).
  { induction i as [|i IH]; cbn [Cpow]; [unfold Cconj, C1; cbn [fst snd]; apply f_equal2; ring|]. rewrite IH.
    destruct z, (Cpow _ i). unfold Cmul, Cconj. cbn [fst snd]. apply f_equal2; ring. }
  unfold ceval. generalize (length v). intros m. induction m as [|m IH]; cbn [Csum]; [unfold Cconj, C0; cbn [fst snd]; apply f_equal2; ring|].
  rewrite IH, PC. destruct (Csum m _), (Cpow z m). unfold Cadd, Cmul, RtoC, Cconj. cbn [fst snd]. apply f_equal2; ring.
Qed.
(** a vector near the values of a real polynomial: so are the values of the result *)
Lemma cinv_close k v X e : (1 <= k)%nat ->
  (forall i j, (i < 2 ^ k)%nat -> (j < 2 ^ k)%nat -> P k j = Cconj (P k i) -> e j = e i) ->
  (forall i, (i < 2 ^ k)%nat -> Cle (Csub (X i) (ceval v (P k i))) (e i)) ->
  forall i, (i < 2 ^ k)%nat -> Cle (Csub (ceval (cinv k X) (P k i)) (ceval v (P k i))) (e i).
Proof.
  intros Hk He H i Hi. destruct (cinv_eval k Hk i Hi) as [A|(j & Hj & CJ & A)]; rewrite A; [apply H, Hi|].
  rewrite <- (He i j Hi Hj CJ). pose proof (Cle_conj _ _ (H j Hj)) as C. rewrite CJ, ceval_conj in C.
  replace (Csub (Cconj (X j)) (ceval v (P k i))) with (Cconj (Csub (X j) (Cconj (ceval v (P k i))))); [exact C|].
  destruct (X j), (ceval v _). unfold Csub, Cconj. cbn [fst snd]. apply f_equal2; ring.
Qed.

(** ** In binary64 *)
Lemma rsum_nonneg n h : (forall i, (i < n)%nat -> 0 <= h i) -> 0 <= rsum n h.
Proof. induction n as [|n IH]; intros H; cbn [rsum]; [lra|]. pose proof (H n ltac:(lia)). pose proof (IH ltac:(intros; apply H; lia)). lra. Qed.
Lemma rsum_one n h i : (forall i, (i < n)%nat -> 0 <= h i) -> (i < n)%nat -> h i <= rsum n h.
Proof.
  induction n as [|n IH]; intros H Hi; [lia|]. cbn [rsum]. pose proof (rsum_nonneg n h ltac:(intros; apply H; lia)). destruct (Nat.eq_dec i n) as [->|]; [lra|].
  pose proof (IH ltac:(intros; apply H; lia) ltac:(lia)). pose proof (H n ltac:(lia)). lra.
Qed.
Lemma rsum_weights k Mf : rsum (2 ^ k) (fun i => (Mf (2 * i)%nat + Mf (2 * i + 1)%nat) / 2) = rsum (2 ^ S k) Mf / 2.
Proof.
  rewrite pow2_S, rsum_double. unfold Rdiv. rewrite Rmult_comm, <- rsum_scal. apply rsum_ext. intros i _. ring.
Qed.
Section Err.
Context (ci cu : b64 -> Z).
Notation FO := (binary64 ci cu).
Notation roots := (roots_dict FO).

Lemma split_two w a b W A B E Ma Mb : 1 <= Ma -> 1 <= Mb -> 0 <= E <= 1 / 100 -> 8 * (Ma + Mb) <= big ->
  capprox (20 * u53) w W -> Cle W 1 -> capprox (Ma * E) a A -> capprox (Mb * E) b B -> Cle A Ma -> Cle B Mb ->
  capprox ((Ma + Mb) / 2 * (E + 50 * u53)) (c_mul FO (c_add FO a b) (c_half FO)) (Cmul (Cadd A B) (RtoC (/ 2))) /\
  Cle (Cmul (Cadd A B) (RtoC (/ 2))) ((Ma + Mb) / 2) /\
  capprox ((Ma + Mb) / 2 * (E + 50 * u53)) (c_mul FO (c_mul FO (c_sub FO a b) (c_half FO)) (c_conj FO w))
    (Cmul (Cmul (Csub A B) (RtoC (/ 2))) (Cconj W)) /\
  Cle (Cmul (Cmul (Csub A B) (RtoC (/ 2))) (Cconj W)) ((Ma + Mb) / 2).
Proof.
  intros HA1 HB1 HE HB Hw HW Ha Hb HA HBB.
  assert (EA : 0 <= Ma * E <= Ma / 100).
  { split; [apply Rmult_le_pos; lra|]. unfold Rdiv. apply Rmult_le_compat_l; lra. }
  assert (EB : 0 <= Mb * E <= Mb / 100).
  { split; [apply Rmult_le_pos; lra|]. unfold Rdiv. apply Rmult_le_compat_l; lra. }
  replace ((Ma + Mb) / 2 * (E + 50 * u53)) with ((Ma * E + Mb * E) / 2 + 25 * ((Ma + Mb) * u53)) by field.
  set (e := Ma * E) in *. set (d := Mb * E) in *. clearbody e d.
  pose proof (Cle_add _ _ _ _ HA HBB) as HAB. pose proof (Cle_sub _ _ _ _ HA HBB) as HSB.
  assert (HH : Cle (RtoC (/ 2)) (/ 2)) by (apply Cle_real; rewrite Rabs_pos_eq; lra).
  set (M := Ma + Mb) in *. assert (M2 : 2 <= M) by (unfold M; lra). assert (ED : e + d <= M / 100) by (unfold M; lra).
  assert (PA : capprox (e + d + 2 * (M * u53)) (c_add FO a b) (Cadd A B)).
  { eapply capprox_le; [|apply (cadd_approx ci cu _ _ _ _ _ _ _ Ha Hb HAB)]; unfold u53; lra. }
  assert (PS : capprox (e + d + 2 * (M * u53)) (c_sub FO a b) (Csub A B)).
  { eapply capprox_le; [|apply (csub_approx ci cu _ _ _ _ _ _ _ Ha Hb HSB)]; unfold u53; lra. }
  assert (QA : capprox ((e + d) / 2 + 5 * (M * u53)) (c_mul FO (c_add FO a b) (c_half FO)) (Cmul (Cadd A B) (RtoC (/ 2)))).
  { eapply capprox_le; [|apply (cmul_approx ci cu _ _ _ _ _ _ _ _ (6 / 10 * M) PA (half_exact ci cu) HAB HH)]; unfold u53; lra. }
  assert (QS : capprox ((e + d) / 2 + 5 * (M * u53)) (c_mul FO (c_sub FO a b) (c_half FO)) (Cmul (Csub A B) (RtoC (/ 2)))).
  { eapply capprox_le; [|apply (cmul_approx ci cu _ _ _ _ _ _ _ _ (6 / 10 * M) PS (half_exact ci cu) HSB HH)]; unfold u53; lra. }
  assert (MA : Cle (Cmul (Cadd A B) (RtoC (/ 2))) (M / 2)) by (eapply Cle_le; [|apply (Cle_mul _ _ _ _ HAB HH)]; lra).
  assert (MS : Cle (Cmul (Csub A B) (RtoC (/ 2))) (M / 2)) by (eapply Cle_le; [|apply (Cle_mul _ _ _ _ HSB HH)]; lra).
  pose proof (cconj_approx ci cu _ _ _ Hw) as Hc. pose proof (Cle_conj _ _ HW) as HC.
  split; [|split; [exact MA|split]].
  - eapply capprox_le; [|exact QA]. unfold u53. lra.
  - eapply capprox_le; [|apply (cmul_approx ci cu _ _ _ _ _ _ _ _ (6 / 10 * M) QS Hc MS HC)]; unfold u53; lra.
  - eapply Cle_le; [|apply (Cle_mul _ _ _ _ MS HC)]. lra.
Qed.

Lemma IFFT_fuel_avg k : (1 <= k <= 10)%nat -> forall (Fl : list (b64 * b64)) X Mf fuel E, length Fl = (2 ^ k)%nat ->
  (forall i, (i < 2 ^ k)%nat -> capprox (Mf i * E) (nth i Fl (c0 FO)) (X i) /\ Cle (X i) (Mf i) /\ 1 <= Mf i) ->
  (2 ^ k <= fuel)%nat -> 0 <= E -> E + INR k * (50 * u53) <= 1 / 100 -> 8 * rsum (2 ^ k) Mf <= big ->
  exists f : list b64, IFFT_fuel FO roots fuel Fl = Ok f /\ length f = (2 ^ k)%nat /\
    forall i, (i < 2 ^ k)%nat -> approx (2 * avg k Mf * (E + INR k * (50 * u53))) (nth i f (f0 FO)) (nth i (cinv k X) 0).
Proof.
  induction k as [|k IH]; intros Hk Fl X Mf fuel E L N Hf E0 HE HBB; [lia|].
  destruct fuel as [|fuel]; [pose proof (pow2_ge1 (S k)); lia|].
  assert (U : 0 < u53) by (unfold u53; lra).
  assert (IK : 0 <= INR k * (50 * u53)) by (apply Rmult_le_pos; [apply pos_INR|lra]).
  rewrite S_INR in HE |- *.
  destruct k as [|k].
  - clear IH. change (2 ^ 1)%nat with 2%nat in *.
    destruct Fl as [|z [|z' [|? Fl]]]; cbn [length] in L; try lia.
    destruct (N 0%nat ltac:(lia)) as (X0 & _ & M0). destruct (N 1%nat ltac:(lia)) as (_ & _ & M1). cbn [nth] in X0.
    cbn [IFFT_fuel length Nat.ltb Nat.leb Nat.eqb idx nth_error bind].
    eexists. split; [reflexivity|]. split; [reflexivity|]. change (INR 0) with 0 in *.
    assert (A2 : 2 * avg 1 Mf = Mf 0%nat + Mf 1%nat).
    { unfold avg. change (2 ^ 1)%nat with 2%nat. replace (INR 2) with 2 by (cbn; lra). cbn [rsum]. field. }
    rewrite A2. assert (LE : Mf 0%nat * E <= (Mf 0%nat + Mf 1%nat) * (E + (0 + 1) * (50 * u53))).
    { apply Rmult_le_compat; lra. }
    pose proof (capprox_fst _ _ _ X0) as X1. pose proof (capprox_snd _ _ _ X0) as X2.
    intros i Hi. cbn [cinv]. destruct i as [|[|i]]; [| |lia]; cbn [nth]; eapply approx_le; try exact LE; assumption.
  - assert (P2 : (2 <= 2 ^ S k)%nat) by (pose proof (pow2_ge1 k); rewrite pow2_S; lia).
    set (m := (2 ^ S k)%nat) in *. assert (EM : (2 ^ S (S k) = 2 * m)%nat) by reflexivity.
    rewrite EM in *. cbn [IFFT_fuel].
    change (cplx FO) with (b64 * b64)%type. destruct (Nat.ltb_spec 2 (length Fl)); [|lia].
    pose proof (roots_dict_full FO (S (S k)) ltac:(lia)) as LR. rewrite EM in LR.
    rewrite (SplitFFT_ok FO roots Fl m L ltac:(rewrite LR; lia)). cbn [bind fst snd].
    set (Mh := fun i => (Mf (2 * i)%nat + Mf (2 * i + 1)%nat) / 2).
    assert (AH : avg (S (S k)) Mf = avg (S k) Mh).
    { apply avg_halve. intros i _. unfold Mh. field. }
    assert (SH : rsum m Mh = rsum (2 * m) Mf / 2) by (exact (rsum_weights (S k) Mf)).
    assert (MB : forall i, (i < m)%nat -> 8 * (Mf (2 * i)%nat + Mf (2 * i + 1)%nat) <= big).
    { intros i Hi. eapply Rle_trans; [|exact HBB]. apply Rmult_le_compat_l; [lra|]. rewrite rsum_double.
      apply (rsum_one m (fun i => Mf (2 * i)%nat + Mf (2 * i + 1)%nat)); [|exact Hi]. intros j Hj.
      destruct (N (2 * j)%nat ltac:(lia)) as (_ & _ & A1). destruct (N (2 * j + 1)%nat ltac:(lia)) as (_ & _ & A2). lra. }
    assert (STEP : forall i, (i < m)%nat ->
      let a := nth (2 * i) Fl (c0 FO) in let b := nth (2 * i + 1) Fl (c0 FO) in
      let w := nth (2 * i) (roots (2 * m)%nat) (c0 FO) in
      (capprox (Mh i * (E + 50 * u53)) (c_mul FO (c_add FO a b) (c_half FO)) (half0 X i) /\ Cle (half0 X i) (Mh i) /\ 1 <= Mh i) /\
      (capprox (Mh i * (E + 50 * u53)) (c_mul FO (c_mul FO (c_sub FO a b) (c_half FO)) (c_conj FO w)) (half1 (S k) X i) /\
       Cle (half1 (S k) X i) (Mh i) /\ 1 <= Mh i)).
    { intros i Hi a b w.
      pose proof (root_approx ci cu (S (S k)) (2 * i) ltac:(lia) ltac:(lia)) as RA. rewrite EM in RA.
      pose proof (exact_unit (S (S k)) (2 * i) ltac:(lia) ltac:(lia)) as RU. rewrite EM in RU.
      destruct (N (2 * i)%nat ltac:(lia)) as (Na & Ma & Ga). destruct (N (2 * i + 1)%nat ltac:(lia)) as (Nb & Mb & Gb).
      destruct (split_two _ _ _ _ _ _ E _ _ Ga Gb ltac:(lra) (MB i Hi) RA RU Na Nb Ma Mb) as (S1 & S2 & S3 & S4).
      assert (1 <= Mh i) by (unfold Mh; lra).
      split; (split; [|split]); try assumption. }
    assert (KE : E + 50 * u53 + INR (S k) * (50 * u53) = E + (INR (S k) + 1) * (50 * u53)) by ring.
    match goal with |- context [IFFT_fuel FO roots fuel ?x] =>
      destruct (IH ltac:(lia) x (half0 X) Mh fuel (E + 50 * u53)) as (fa & EA & LA & NA) end;
      [rewrite map_length, seq_length; reflexivity
      |intros i Hi; rewrite (nth_map_seq _ m i (c0 FO) Hi); apply (STEP i Hi)
      |lia|lra|rewrite KE; exact HE|rewrite SH; assert (0 <= rsum (2 * m) Mf) by (apply rsum_nonneg; intros i Hi; destruct (N i Hi) as (_ & _ & G1); lra); lra|].
    rewrite EA. cbn [bind].
    match goal with |- context [IFFT_fuel FO roots fuel ?x] =>
      destruct (IH ltac:(lia) x (half1 (S k) X) Mh fuel (E + 50 * u53)) as (fb & EB & LB & NB) end;
      [rewrite map_length, seq_length; reflexivity
      |intros i Hi; rewrite (nth_map_seq _ m i (c0 FO) Hi); apply (STEP i Hi)
      |lia|lra|rewrite KE; exact HE|rewrite SH; assert (0 <= rsum (2 * m) Mf) by (apply rsum_nonneg; intros i Hi; destruct (N i Hi) as (_ & _ & G1); lra); lra|].
    rewrite EB. cbn [bind]. change (F FO) with b64.
    rewrite (@MergePolys_ok b64 (f0 FO) fa fb) by (rewrite LA, LB; lia). rewrite LA.
    eexists. split; [reflexivity|]. split; [apply interleave_length|].
    rewrite KE in NA, NB. rewrite AH, cinv_SS. fold m.
    intros i Hi. destruct (Nat.Even_or_Odd i) as [[j ->]|[j ->]].
    + rewrite (interleave_even _ _ m j) by lia. rewrite interleave_even by lia. apply NA. lia.
    + rewrite (interleave_odd _ _ m j) by lia. rewrite interleave_odd by lia. apply NB. lia.
Qed.
End Err.
