(** The FFT in exact arithmetic: evaluation at the roots, inversion, and the
    ring operations built on them. *)
From Coq Require Import Lra.
From Verif Require Import GoBase Util BaseProofs PolyRing Float Fft FftShape SpecFft ExactReal.

(** ** Tables of exact roots *)
Record good_roots (roots : nat -> list Cx) : Prop := {
  gr_len : forall k, (1 <= k)%nat -> length (roots (2 ^ k)%nat) = (2 ^ k)%nat;
  gr_two : roots 2%nat = [Ci; Copp Ci];
  gr_sqr : forall k i, (1 <= k)%nat -> (i < 2 ^ k)%nat ->
    Cmul (nth (2 * i) (roots (2 * 2 ^ k)%nat) C0) (nth (2 * i) (roots (2 * 2 ^ k)%nat) C0)
    = nth i (roots (2 ^ k)%nat) C0;
  gr_opp : forall k i, (1 <= k)%nat -> (i < 2 ^ k)%nat ->
    nth (2 * i + 1) (roots (2 * 2 ^ k)%nat) C0 = Copp (nth (2 * i) (roots (2 * 2 ^ k)%nat) C0);
  gr_unit : forall k i, (1 <= k)%nat -> (i < 2 ^ k)%nat ->
    Cmul (nth i (roots (2 ^ k)%nat) C0) (Cconj (nth i (roots (2 ^ k)%nat) C0)) = C1;
  gr_conj : forall k i, (i < 2 ^ k)%nat ->
    nth (i + 2 ^ k) (roots (2 * 2 ^ k)%nat) C0 = Cconj (nth i (roots (2 * 2 ^ k)%nat) C0)
}.

Lemma good_full roots k : good_roots roots -> full_roots exactR roots k.
Proof. intros G j Hj. apply (gr_len _ G). lia. Qed.

(** ** Evaluation *)
Lemma Csum_ext n f g : (forall i, (i < n)%nat -> f i = g i) -> Csum n f = Csum n g.
Proof.
  induction n as [|n IH]; intros H; [reflexivity|]. cbn [Csum].
  rewrite IH by (intros; apply H; lia). now rewrite (H n) by lia.
Qed.

Lemma nth_RtoC f i : nth i (map RtoC f) C0 = RtoC (nth i f 0%R).
Proof. change C0 with (RtoC 0). apply map_nth. Qed.

Lemma ceval_geval f z : ceval f z = geval Cx C0 C1 Cadd Cmul (map RtoC f) z.
Proof.
  unfold ceval, geval. rewrite map_length.
  change (gsum Cx C0 Cadd) with Csum. apply Csum_ext. intros i Hi.
  unfold gcoef. rewrite nth_RtoC. reflexivity.
Qed.

Lemma ceval_even_odd m f z : length f = (2 * m)%nat ->
  ceval f z = Cadd (ceval (evens 0%R f) (Cmul z z)) (Cmul z (ceval (odds 0%R f) (Cmul z z))).
Proof.
  intros L. rewrite !ceval_geval.
  assert (Hd : Nat.div (length f) 2 = m) by (rewrite L, Nat.mul_comm, Nat.div_mul; lia).
  apply (geval_even_odd Cx C0 C1 Cadd Cmul Csub Copp eq _ Cx_reqe Cx_ring m).
  - rewrite map_length. exact L.
  - rewrite map_length, evens_length. exact Hd.
  - rewrite map_length, odds_length. exact Hd.
  - intros i Hi. unfold gcoef. rewrite !nth_RtoC, evens_nth by lia. reflexivity.
  - intros i Hi. unfold gcoef. rewrite !nth_RtoC, odds_nth by lia. reflexivity.
Qed.

Lemma nth_map_ceval f (l : list Cx) i : (i < length l)%nat ->
  nth i (map (ceval f) l) C0 = ceval f (nth i l C0).
Proof.
  intros H. rewrite (nth_indep _ C0 (ceval f C0)) by (rewrite map_length; exact H).
  apply map_nth.
Qed.

Lemma c_half_eq : c_half exactR = RtoC (/ 2).
Proof. unfold c_half, c_real, RtoC. cbn. apply f_equal2; [lra|reflexivity]. Qed.

Lemma FFT_base (f : list R) fuel : length f = 2%nat ->
  FFT_fuel exactR exact_roots (S fuel) f = Ok (map (ceval f) [Ci; Copp Ci]).
Proof.
  intros L. destruct f as [|a [|b [|c f]]]; cbn [length] in L; try lia.
  cbn [FFT_fuel length Nat.ltb Nat.leb Nat.eqb idx nth_error bind map].
  f_equal. f_equal; [|f_equal];
  unfold ceval, Ci, Copp; cbn [length Csum Cpow nth]; unfold c_add, c_sub, c_mul, c_real, c_i, Cadd, Cmul, RtoC, C0, C1;
    cbn; apply f_equal2; ring.
Qed.

Section Exact.
Context (roots : nat -> list Cx) (G : good_roots roots).

Lemma FFT_base' (f : list R) fuel : length f = 2%nat ->
  FFT_fuel exactR roots (S fuel) f = Ok (map (ceval f) [Ci; Copp Ci]).
Proof.
  intros L. rewrite <- (FFT_base f fuel L). cbn [FFT_fuel]. change (F exactR) with R. rewrite L. reflexivity.
Qed.

Lemma FFT_fuel_eval k : (1 <= k)%nat -> forall (f : list R) fuel,
  length f = (2 ^ k)%nat -> (2 ^ k <= fuel)%nat ->
  FFT_fuel exactR roots fuel f = Ok (map (ceval f) (roots (2 ^ k)%nat)).
Proof.
  induction k as [|k IH]; intros Hk f fuel L Hf; [lia|].
  destruct fuel as [|fuel]; [pose proof (pow2_ge1 (S k)); lia|].
  destruct k as [|k].
  - change (2 ^ 1)%nat with 2%nat in *. rewrite (gr_two _ G). apply FFT_base'. exact L.
  - rewrite pow2_S in L, Hf |- *. pose proof (pow2_ge1 k) as P1. cbn [FFT_fuel]. change (F exactR) with R.
    assert (P2 : (2 <= 2 ^ S k)%nat) by (rewrite pow2_S; lia).
    destruct (Nat.ltb_spec 2 (length f)); [|lia].
    rewrite (SplitPolys_ok 0%R). cbn [bind fst snd].
    assert (Hd : Nat.div (length f) 2 = (2 ^ S k)%nat) by (rewrite L, Nat.mul_comm, Nat.div_mul; lia).
    rewrite (IH ltac:(lia) (evens 0%R f) fuel); [|rewrite evens_length; assumption|lia]. cbn [bind].
    rewrite (IH ltac:(lia) (odds 0%R f) fuel); [|rewrite odds_length; assumption|lia]. cbn [bind].
    pose proof (gr_len _ G (S (S k)) ltac:(lia)) as LR. rewrite pow2_S in LR.
    pose proof (gr_len _ G (S k) ltac:(lia)) as LR1.
    rewrite (MergeFFT_ok exactR roots _ _ (2 ^ S k)%nat) by
      (try rewrite map_length; unfold cplx; cbn [F exactR]; fold Cx; lia).
    f_equal. apply (list_eq_pairs _ _ (2 ^ S k)%nat C0).
    + apply interleave_length.
    + rewrite map_length. exact LR.
    + intros i Hi. rewrite interleave_even, interleave_odd by exact Hi.
      change (c0 exactR) with C0.
      rewrite !nth_map_ceval by lia.
      pose proof (gr_sqr _ G (S k) i ltac:(lia) Hi) as Q.
      pose proof (gr_opp _ G (S k) i ltac:(lia) Hi) as O.
      rewrite !(ceval_even_odd (2 ^ S k) f) by exact L.
      rewrite O. set (w := nth (2 * i) (roots (2 * 2 ^ S k)%nat) C0) in *.
      replace (Cmul (Copp w) (Copp w)) with (Cmul w w) by ring. rewrite Q.
      set (A := ceval (evens 0%R f) _). set (B := ceval (odds 0%R f) _).
      split.
      * change (@eq Cx (Cadd (Cmul w B) A) (Cadd A (Cmul w B))). ring.
      * change (@eq Cx (Csub A (Cmul w B)) (Cadd A (Cmul (Copp w) B))). ring.
Qed.

Lemma FFT_eval k (f : list R) : (1 <= k)%nat -> length f = (2 ^ k)%nat ->
  FFT exactR roots f = Ok (map (ceval f) (roots (2 ^ k)%nat)).
Proof. intros Hk L. apply FFT_fuel_eval; auto. change (F exactR) with R. lia. Qed.

(** ** Inversion *)
(** SplitFFT takes the transform of f to those of its even and odd parts. *)
Lemma SplitFFT_eval k (f : list R) : (1 <= k)%nat -> length f = (2 * 2 ^ k)%nat ->
  SplitFFT exactR roots (map (ceval f) (roots (2 * 2 ^ k)%nat)) =
  Ok (map (ceval (evens 0%R f)) (roots (2 ^ k)%nat), map (ceval (odds 0%R f)) (roots (2 ^ k)%nat)).
Proof.
  intros Hk L.
  pose proof (gr_len _ G (S k) ltac:(lia)) as LR. rewrite pow2_S in LR.
  pose proof (gr_len _ G k ltac:(lia)) as LR1.
  rewrite (SplitFFT_ok exactR roots _ (2 ^ k)%nat) by
    (try rewrite map_length; unfold cplx; cbn [F exactR]; fold Cx; lia).
  apply f_equal. rewrite c_half_eq. change (c0 exactR) with C0.
  rewrite <- (map_seq_nth (roots (2 ^ k)%nat) C0), LR1, !map_map.
  apply f_equal2; apply map_seq_ext; intros i Hi.
  - rewrite !nth_map_ceval by lia.
    rewrite !(ceval_even_odd (2 ^ k) f) by exact L.
    rewrite (gr_opp _ G k i) by lia. pose proof (gr_sqr _ G k i ltac:(lia) Hi) as Q.
    set (w := nth (2 * i) (roots (2 * 2 ^ k)%nat) C0) in *.
    replace (Cmul (Copp w) (Copp w)) with (Cmul w w) by ring. rewrite Q.
    set (A := ceval (evens 0%R f) _). set (B := ceval (odds 0%R f) _).
    change (@eq Cx (Cmul (Cadd (Cadd A (Cmul w B)) (Cadd A (Cmul (Copp w) B))) (RtoC (/ 2))) A).
    destruct A, B, w. unfold Cadd, Cmul, Copp, RtoC. cbn [fst snd]. apply f_equal2; field.
  - rewrite !nth_map_ceval by lia.
    rewrite !(ceval_even_odd (2 ^ k) f) by exact L.
    rewrite (gr_opp _ G k i) by lia. pose proof (gr_sqr _ G k i ltac:(lia) Hi) as Q.
    pose proof (gr_unit _ G (S k) (2 * i) ltac:(lia) ltac:(rewrite pow2_S; lia)) as U.
    rewrite pow2_S in U.
    set (w := nth (2 * i) (roots (2 * 2 ^ k)%nat) C0) in *.
    replace (Cmul (Copp w) (Copp w)) with (Cmul w w) by ring. rewrite Q.
    set (A := ceval (evens 0%R f) _). set (B := ceval (odds 0%R f) _).
    change (@eq Cx (Cmul (Cmul (Csub (Cadd A (Cmul w B)) (Cadd A (Cmul (Copp w) B))) (RtoC (/ 2))) (Cconj w)) B).
    transitivity (Cmul (Cmul w (Cconj w)) (Cmul (Cadd B B) (RtoC (/ 2)))); [ring|].
    rewrite U. destruct B as [b1 b2]. unfold Cadd, Cmul, C1, RtoC. cbn [fst snd]. apply f_equal2; field.
Qed.

Lemma IFFT_fuel_FFT k : (1 <= k)%nat -> forall (f : list R) fuel,
  length f = (2 ^ k)%nat -> (2 ^ k <= fuel)%nat ->
  IFFT_fuel exactR roots fuel (map (ceval f) (roots (2 ^ k)%nat)) = Ok f.
Proof.
  induction k as [|k IH]; intros Hk f fuel L Hf; [lia|].
  destruct fuel as [|fuel]; [pose proof (pow2_ge1 (S k)); lia|].
  pose proof (gr_len _ G (S k) ltac:(lia)) as LR.
  destruct k as [|k].
  - change (2 ^ 1)%nat with 2%nat in *. rewrite (gr_two _ G). cbn [IFFT_fuel map length Nat.ltb Nat.leb Nat.eqb idx nth_error bind].
    destruct f as [|a [|b [|c f]]]; cbn [length] in L; try lia.
    unfold ceval, Ci. cbn [length Csum Cpow nth]. unfold Cadd, Cmul, RtoC, C0, C1. cbn [fst snd].
    f_equal. f_equal; [ring|]. f_equal. ring.
  - rewrite pow2_S in L, Hf, LR |- *. pose proof (pow2_ge1 k) as P1. cbn [IFFT_fuel]. unfold cplx. change (F exactR) with R. fold Cx.
    assert (P2 : (2 <= 2 ^ S k)%nat) by (rewrite pow2_S; lia).
    rewrite map_length, LR.
    destruct (Nat.ltb_spec 2 (2 * 2 ^ S k)); [|lia].
    pose proof (gr_len _ G (S k) ltac:(lia)) as LR1.
    assert (Hd : Nat.div (length f) 2 = (2 ^ S k)%nat) by (rewrite L, Nat.mul_comm, Nat.div_mul; lia).
    rewrite (SplitFFT_eval (S k) f) by (auto; lia). cbn [bind fst snd].
    rewrite (IH ltac:(lia) (evens 0%R f) fuel); [|rewrite evens_length; exact Hd|lia]. cbn [bind].
    rewrite (IH ltac:(lia) (odds 0%R f) fuel); [|rewrite odds_length; exact Hd|lia]. cbn [bind].
    rewrite (MergePolys_ok 0%R) by (rewrite evens_length, odds_length; lia).
    rewrite evens_length, Hd. f_equal. apply interleave_evens_odds. exact L.
Qed.

Lemma IFFT_eval k (f : list R) : (1 <= k)%nat -> length f = (2 ^ k)%nat ->
  IFFT exactR roots (map (ceval f) (roots (2 ^ k)%nat)) = Ok f.
Proof.
  intros Hk L. apply IFFT_fuel_FFT; auto. rewrite map_length, (gr_len _ G) by exact Hk. lia.
Qed.

(** A vector is the transform of a real polynomial iff its two halves are
    conjugate; IFFT then finds the polynomial. *)
Definition conj_sym (m : nat) (v : list Cx) : Prop :=
  length v = (2 * m)%nat /\ forall i, (i < m)%nat -> nth (i + m) v C0 = Cconj (nth i v C0).

Lemma Cconj_add a b : Cconj (Cadd a b) = Cadd (Cconj a) (Cconj b).
Proof. unfold Cconj, Cadd. cbn. apply f_equal2; ring. Qed.
Lemma Cconj_mul a b : Cconj (Cmul a b) = Cmul (Cconj a) (Cconj b).
Proof. unfold Cconj, Cmul. cbn. apply f_equal2; ring. Qed.
Lemma Cconj_sub a b : Cconj (Csub a b) = Csub (Cconj a) (Cconj b).
Proof. unfold Cconj, Csub. cbn. apply f_equal2; ring. Qed.
Lemma Cconj_pow a n : Cconj (Cpow a n) = Cpow (Cconj a) n.
Proof.
  induction n as [|n IH]; cbn [Cpow]; [unfold Cconj, C1; cbn; apply f_equal2; ring|].
  now rewrite Cconj_mul, IH.
Qed.
Lemma Cconj_sum n f : Cconj (Csum n f) = Csum n (fun i => Cconj (f i)).
Proof.
  induction n as [|n IH]; cbn [Csum]; [unfold Cconj, C0; cbn; apply f_equal2; ring|].
  now rewrite Cconj_add, IH.
Qed.
Lemma Cconj_RtoC x : Cconj (RtoC x) = RtoC x.
Proof. unfold Cconj, RtoC. cbn. apply f_equal2; ring. Qed.
Lemma Cconj_conj a : Cconj (Cconj a) = a.
Proof. destruct a. unfold Cconj. cbn. apply f_equal2; ring. Qed.
Lemma ceval_conj f z : ceval f (Cconj z) = Cconj (ceval f z).
Proof.
  unfold ceval. rewrite Cconj_sum. apply Csum_ext. intros i _.
  now rewrite Cconj_mul, Cconj_RtoC, Cconj_pow.
Qed.

Lemma ceval_sym k f : conj_sym (2 ^ k) (map (ceval f) (roots (2 * 2 ^ k)%nat)).
Proof.
  pose proof (gr_len _ G (S k) ltac:(lia)) as LR. rewrite pow2_S in LR.
  split; [rewrite map_length; exact LR|].
  intros i Hi. rewrite !nth_map_ceval by lia. rewrite (gr_conj _ G) by exact Hi. apply ceval_conj.
Qed.

Lemma FFT_surj k : forall v, conj_sym (2 ^ k) v ->
  exists f, length f = (2 * 2 ^ k)%nat /\ map (ceval f) (roots (2 * 2 ^ k)%nat) = v.
Proof.
  induction k as [|k IH]; intros v [Lv Hs].
  - change (2 * 2 ^ 0)%nat with 2%nat in *. destruct v as [|z [|z' [|x v]]]; cbn [length] in Lv; try lia.
    exists [fst z; snd z]. split; [reflexivity|]. rewrite (gr_two _ G). cbn [map].
    specialize (Hs 0%nat ltac:(cbn; lia)). cbn in Hs. subst z'. destruct z as [x y].
    unfold ceval, Ci, Copp, Cconj. cbn [length Csum Cpow nth fst snd]. unfold Cadd, Cmul, RtoC, C0, C1. cbn [fst snd].
    f_equal; [|f_equal]; apply f_equal2; ring.
  - set (m := (2 ^ S k)%nat) in *.
    pose proof (gr_len _ G (S (S k)) ltac:(lia)) as LR. rewrite pow2_S in LR. fold m in LR.
    pose proof (gr_len _ G (S k) ltac:(lia)) as LR1. fold m in LR1.
    assert (Em : m = (2 * 2 ^ k)%nat) by reflexivity.
    set (w := fun i => nth (2 * i) (roots (2 * m)%nat) C0).
    set (va := map (fun i => Cmul (Cadd (nth (2 * i) v C0) (nth (2 * i + 1) v C0)) (RtoC (/ 2))) (seq 0 m)).
    set (vb := map (fun i => Cmul (Cmul (Csub (nth (2 * i) v C0) (nth (2 * i + 1) v C0)) (RtoC (/ 2))) (Cconj (w i))) (seq 0 m)).
    assert (Sv : forall i, (i < 2 ^ k)%nat ->
      nth (2 * (i + 2 ^ k)) v C0 = Cconj (nth (2 * i) v C0) /\
      nth (2 * (i + 2 ^ k) + 1) v C0 = Cconj (nth (2 * i + 1) v C0)).
    { intros i Hi. split.
      - replace (2 * (i + 2 ^ k))%nat with (2 * i + m)%nat by lia. apply Hs. lia.
      - replace (2 * (i + 2 ^ k) + 1)%nat with (2 * i + 1 + m)%nat by lia. apply Hs. lia. }
    assert (Sw : forall i, (i < 2 ^ k)%nat -> w (i + 2 ^ k)%nat = Cconj (w i)).
    { intros i Hi. unfold w. replace (2 * (i + 2 ^ k))%nat with (2 * i + m)%nat by lia.
      apply (gr_conj _ G (S k)). fold m. lia. }
    destruct (IH va) as (fa & La & Ea).
    { split; [unfold va; rewrite map_length, seq_length; exact Em|].
      intros i Hi. unfold va. rewrite !nth_map_seq by lia. destruct (Sv i Hi) as [-> ->].
      now rewrite Cconj_mul, Cconj_add, Cconj_RtoC. }
    destruct (IH vb) as (fb & Lb & Eb).
    { split; [unfold vb; rewrite map_length, seq_length; exact Em|].
      intros i Hi. unfold vb. rewrite !nth_map_seq by lia. destruct (Sv i Hi) as [-> ->].
      rewrite (Sw i Hi). now rewrite !Cconj_mul, Cconj_sub, Cconj_RtoC. }
    rewrite <- Em in *.
    exists (interleave (fun i => nth i fa 0%R) (fun i => nth i fb 0%R) m).
    split; [apply interleave_length|].
    set (f := interleave _ _ m).
    assert (Lf : length f = (2 * m)%nat) by apply interleave_length.
    assert (Hd : Nat.div (length f) 2 = m) by (rewrite Lf, Nat.mul_comm, Nat.div_mul; lia).
    assert (Ee : evens 0%R f = fa).
    { apply nth_ext with (d := 0%R) (d' := 0%R); [rewrite evens_length; lia|].
      intros i Hi. rewrite evens_length, Hd in Hi. rewrite evens_nth by lia. exact (interleave_even (fun i => nth i fa 0%R) (fun i => nth i fb 0%R) m i 0%R Hi). }
    assert (Eo : odds 0%R f = fb).
    { apply nth_ext with (d := 0%R) (d' := 0%R); [rewrite odds_length; lia|].
      intros i Hi. rewrite odds_length, Hd in Hi. rewrite odds_nth by lia. exact (interleave_odd (fun i => nth i fa 0%R) (fun i => nth i fb 0%R) m i 0%R Hi). }
    apply (list_eq_pairs _ _ m C0); [rewrite map_length; exact LR|exact Lv|].
    intros i Hi. rewrite !nth_map_ceval by lia.
    rewrite !(ceval_even_odd m f) by exact Lf. rewrite Ee, Eo.
    pose proof (gr_opp _ G (S k) i ltac:(lia) Hi) as O. fold m in O. rewrite O.
    pose proof (gr_sqr _ G (S k) i ltac:(lia) Hi) as Q. fold m in Q.
    pose proof (gr_unit _ G (S (S k)) (2 * i) ltac:(lia) ltac:(rewrite pow2_S; fold m; lia)) as U.
    rewrite pow2_S in U. fold m in U.
    assert (A : ceval fa (nth i (roots m) C0) = nth i va C0).
    { rewrite <- Ea. symmetry. apply nth_map_ceval. lia. }
    assert (B : ceval fb (nth i (roots m) C0) = nth i vb C0).
    { rewrite <- Eb. symmetry. apply nth_map_ceval. lia. }
    fold (w i) in *.
    replace (Cmul (Copp (w i)) (Copp (w i))) with (Cmul (w i) (w i)) by ring.
    rewrite Q, A, B. unfold va, vb. rewrite !nth_map_seq by exact Hi.
    set (x := nth (2 * i) v C0). set (y := nth (2 * i + 1) v C0).
    assert (H2 : forall z, Cmul (Cadd z z) (RtoC (/ 2)) = z).
    { intros [a b]. unfold Cadd, Cmul, RtoC. cbn [fst snd]. apply f_equal2; field. }
    split.
    + transitivity (Cadd (Cmul (Cadd x y) (RtoC (/ 2))) (Cmul (Cmul (w i) (Cconj (w i))) (Cmul (Csub x y) (RtoC (/ 2))))); [ring|].
      rewrite U. rewrite <- (H2 x) at 3. ring.
    + transitivity (Csub (Cmul (Cadd x y) (RtoC (/ 2))) (Cmul (Cmul (w i) (Cconj (w i))) (Cmul (Csub x y) (RtoC (/ 2))))); [ring|].
      rewrite U. rewrite <- (H2 y) at 3. ring.
Qed.

Lemma FFT_IFFT k (v : list Cx) : conj_sym (2 ^ k) v ->
  exists f : list R, IFFT exactR roots v = Ok f /\ length f = (2 * 2 ^ k)%nat /\ FFT exactR roots f = Ok v.
Proof.
  intros Hs. destruct (FFT_surj k v Hs) as (f & L & E). exists f.
  rewrite <- E. change (2 * 2 ^ k)%nat with (2 ^ S k)%nat in *.
  repeat split; [apply IFFT_eval; auto; lia|exact L|apply FFT_eval; auto; lia].
Qed.

(** ** Roots of x^n+1 *)
Lemma root_pow k : forall i, (i < 2 ^ k)%nat -> (1 <= k)%nat ->
  Cpow (nth i (roots (2 ^ k)%nat) C0) (2 ^ k) = Copp C1.
Proof.
  induction k as [|k IH]; intros i Hi Hk; [lia|]. destruct k as [|k].
  - change (2 ^ 1)%nat with 2%nat in *. rewrite (gr_two _ G).
    destruct i as [|[|i]]; [| |lia]; cbn; unfold Cmul, Copp, C1, Ci; cbn; apply f_equal2; ring.
  - rewrite pow2_S in Hi |- *. pose proof (pow2_ge1 (S k)) as P.
    assert (X : forall j, (j < 2 ^ S k)%nat ->
       Cpow (nth (2 * j) (roots (2 * 2 ^ S k)%nat) C0) (2 * 2 ^ S k) = Copp C1).
    { intros j Hj.
      pose proof (gpow_mul Cx C0 C1 Cadd Cmul Csub Copp eq _ Cx_reqe Cx_ring
        (nth (2 * j) (roots (2 * 2 ^ S k)%nat) C0) 2 (2 ^ S k)) as M.
      change (gpow Cx C1 Cmul) with Cpow in M. rewrite M.
      pose proof (gr_sqr _ G (S k) j ltac:(lia) Hj) as Q.
      replace (Cpow (nth (2 * j) (roots (2 * 2 ^ S k)%nat) C0) 2) with (nth j (roots (2 ^ S k)%nat) C0).
      2:{ rewrite <- Q. cbn [Cpow]. ring. }
      apply IH; [exact Hj|lia]. }
    destruct (Nat.Even_or_Odd i) as [[j ->]|[j ->]].
    + apply X. lia.
    + rewrite (gr_opp _ G (S k) j) by lia. rewrite <- (X j) by lia.
      set (w := nth _ _ _).
      pose proof (gpow_mul Cx C0 C1 Cadd Cmul Csub Copp eq _ Cx_reqe Cx_ring (Copp w) 2 (2 ^ S k)) as M.
      pose proof (gpow_mul Cx C0 C1 Cadd Cmul Csub Copp eq _ Cx_reqe Cx_ring w 2 (2 ^ S k)) as M'.
      change (gpow Cx C1 Cmul) with Cpow in M, M'. rewrite M, M'. f_equal. cbn [Cpow]. ring.
Qed.

(** ** Ring operations *)
Lemma rsum_RtoC n f : RtoC (rsum n f) = Csum n (fun i => RtoC (f i)).
Proof.
  induction n as [|n IH]; [reflexivity|]. cbn [rsum Csum]. rewrite <- IH.
  unfold RtoC, Cadd. cbn [fst snd]. apply f_equal2; ring.
Qed.

Lemma rmul_length n f g : length (rmul n f g) = n.
Proof. unfold rmul. now rewrite map_length, seq_length. Qed.

Lemma ceval_rmul n f g z : length f = n -> length g = n -> Cpow z n = Copp C1 ->
  ceval (rmul n f g) z = Cmul (ceval f z) (ceval g z).
Proof.
  intros Lf Lg Hz. rewrite !ceval_geval.
  assert (E : map RtoC (rmul n f g) = gnega Cx C0 Cadd Cmul Copp n (map RtoC f) (map RtoC g)).
  { unfold rmul, gnega. rewrite map_map. apply map_seq_ext. intros i Hi.
    unfold rmul_coef, gnega_coef. rewrite rsum_RtoC.
    change (gsum Cx C0 Cadd) with Csum. apply Csum_ext. intros j Hj. unfold gcoef. rewrite !nth_RtoC.
    destruct (Nat.leb j i); unfold RtoC, Cmul, Copp; cbn [fst snd]; apply f_equal2; ring. }
  rewrite E. apply (gnega_eval Cx C0 C1 Cadd Cmul Csub Copp eq _ Cx_reqe Cx_ring n); auto;
    rewrite map_length; assumption.
Qed.

Lemma zip_map_ceval {C} (op : Cx -> Cx -> C) (l : list Cx) (f g : list R) n : length l = n ->
  map (fun i => op (nth i (map (ceval f) l) C0) (nth i (map (ceval g) l) C0)) (seq 0 n)
  = map (fun z => op (ceval f z) (ceval g z)) l.
Proof.
  intros L. subst n.
  transitivity (map (fun z => op (ceval f z) (ceval g z)) (map (fun i => nth i l C0) (seq 0 (length l))));
    [|now rewrite map_seq_nth]. rewrite map_map. apply map_seq_ext.
  intros i Hi. rewrite !nth_map_ceval by lia. reflexivity.
Qed.

Lemma roots_in k z : (1 <= k)%nat -> In z (roots (2 ^ k)%nat) -> Cpow z (2 ^ k) = Copp C1.
Proof.
  intros Hk H. apply (In_nth _ _ C0) in H. destruct H as (i & Hi & <-).
  rewrite (gr_len _ G) in Hi by exact Hk. apply root_pow; auto.
Qed.

Lemma roots_unit k z : (1 <= k)%nat -> In z (roots (2 ^ k)%nat) -> Cmul z (Cconj z) = C1.
Proof.
  intros Hk H. apply (In_nth _ _ C0) in H. destruct H as (i & Hi & <-).
  rewrite (gr_len _ G) in Hi by exact Hk. apply (gr_unit _ G); auto.
Qed.

Lemma Mul_exact k (f g : list R) : (1 <= k)%nat -> length f = (2 ^ k)%nat -> length g = (2 ^ k)%nat ->
  Mul exactR roots f g = Ok (rmul (2 ^ k) f g).
Proof.
  intros Hk Lf Lg. unfold Mul. rewrite (FFT_eval k f), (FFT_eval k g) by auto. cbn [bind].
  pose proof (gr_len _ G k Hk) as LR.
  rewrite MulFFT_ok by (rewrite !map_length; lia). cbn [bind].
  rewrite map_length. change (c0 exactR) with C0.
  rewrite zip_map_ceval by reflexivity.
  rewrite <- (IFFT_eval k (rmul (2 ^ k) f g)); [|exact Hk|apply rmul_length].
  f_equal. apply map_ext_in. intros z Hz. change (c_mul exactR) with Cmul.
  symmetry. apply ceval_rmul; auto. now apply roots_in.
Qed.

(** f(1/z) at a unit root *)
Lemma radj_length n f : length (radj n f) = n.
Proof. unfold radj. now rewrite map_length, seq_length. Qed.

Lemma Csum_rev n f : Csum n f = Csum n (fun i => f (n - 1 - i)%nat).
Proof.
  assert (A : forall m g, Csum (S m) g = Cadd (g 0%nat) (Csum m (fun i => g (S i)))).
  { induction m as [|m IH]; intros g; [cbn; ring|].
    change (Cadd (Csum (S m) g) (g (S m)) = Cadd (g 0%nat) (Csum (S m) (fun i => g (S i)))).
    rewrite IH. cbn [Csum]. ring. }
  revert f. induction n as [|n IH]; intros f; [reflexivity|].
  rewrite A. cbn [Csum]. rewrite IH.
  rewrite (Csum_ext n (fun i => f (S n - 1 - i)%nat) (fun i => f (S (n - 1 - i)))).
  2:{ intros i Hi. f_equal. lia. }
  replace (S n - 1 - n)%nat with 0%nat by lia. ring.
Qed.

Lemma Cpow_add x m n : Cpow x (m + n) = Cmul (Cpow x m) (Cpow x n).
Proof. exact (gpow_add Cx C0 C1 Cadd Cmul Csub Copp eq _ Cx_reqe Cx_ring x m n). Qed.

Lemma Cpow_conj_inv z i : Cmul z (Cconj z) = C1 -> Cmul (Cpow z i) (Cpow (Cconj z) i) = C1.
Proof.
  intros U. induction i as [|i IH]; cbn [Cpow]; [ring|].
  transitivity (Cmul (Cmul (Cpow z i) (Cpow (Cconj z) i)) (Cmul z (Cconj z))); [ring|].
  rewrite IH, U. ring.
Qed.

Lemma ceval_radj n f z : length f = n -> Cpow z n = Copp C1 -> Cmul z (Cconj z) = C1 ->
  ceval (radj n f) z = Cconj (ceval f z).
Proof.
  intros L Hz U. rewrite <- ceval_conj. unfold ceval. rewrite radj_length, L.
  destruct n as [|n]; [reflexivity|].
  assert (A : forall m g, Csum (S m) g = Cadd (g 0%nat) (Csum m (fun i => g (S i)))).
  { induction m as [|m IH]; intros g; [cbn; ring|].
    change (Cadd (Csum (S m) g) (g (S m)) = Cadd (g 0%nat) (Csum (S m) (fun i => g (S i)))).
    rewrite IH. cbn [Csum]. ring. }
  rewrite !A. unfold radj. f_equal.
  rewrite (Csum_rev n (fun i => Cmul (RtoC (nth (S i) f 0%R)) _)).
  apply Csum_ext. intros i Hi. rewrite nth_map_seq by lia.
  replace (S n - S i)%nat with (S (n - 1 - i)) by lia.
  set (a := nth (S (n - 1 - i)) f 0%R). set (j := S (n - 1 - i)).
  replace (RtoC (- a)) with (Copp (RtoC a)).
  2:{ unfold RtoC, Copp. cbn. apply f_equal2; ring. }
  assert (E : Copp (Cpow z (S i)) = Cpow (Cconj z) j).
  { replace (Cpow (Cconj z) j) with (Cmul (Cpow (Cconj z) j) (Copp (Cpow z (S n)))) by (rewrite Hz; ring).
    replace (S n) with (j + S i)%nat by (unfold j; lia). rewrite Cpow_add.
    transitivity (Copp (Cmul (Cmul (Cpow z j) (Cpow (Cconj z) j)) (Cpow z (S i)))).
    - rewrite Cpow_conj_inv by exact U. ring.
    - ring. }
  rewrite <- E. ring.
Qed.

Lemma Adj_exact k (f : list R) : (1 <= k)%nat -> length f = (2 ^ k)%nat ->
  Adj exactR roots f = Ok (radj (2 ^ k) f).
Proof.
  intros Hk Lf. unfold Adj. rewrite (FFT_eval k f) by auto. cbn [bind].
  unfold AdjFFT. change (c_conj exactR) with Cconj. rewrite map_map.
  rewrite <- (IFFT_eval k (radj (2 ^ k) f)); [|exact Hk|apply radj_length].
  f_equal. apply map_ext_in. intros z Hz. symmetry. apply ceval_radj; auto.
  - now apply roots_in.
  - now apply (roots_unit k).
Qed.

Lemma Csqnorm_0 z : Csqnorm z = 0%R -> z = C0.
Proof.
  destruct z as [x y]. unfold Csqnorm, C0. cbn [fst snd]. intros H. apply f_equal2; nra.
Qed.

Lemma Cdiv_mul a b : b <> C0 -> Cmul (Cdiv a b) b = a.
Proof.
  intros Hb. assert (Csqnorm b <> 0%R) by (intros E; apply Hb, Csqnorm_0, E).
  destruct a as [x y], b as [u v]. unfold Cdiv, Cmul, Csqnorm in *. cbn [fst snd] in *.
  apply f_equal2; field; assumption.
Qed.

Lemma Cconj_div a b : Cconj (Cdiv a b) = Cdiv (Cconj a) (Cconj b).
Proof.
  unfold Cconj, Cdiv, Csqnorm. cbn [fst snd].
  replace (- snd b * - snd b)%R with (snd b * snd b)%R by ring.
  apply f_equal2; [unfold Rdiv; ring|unfold Rdiv; ring].
Qed.

Lemma Div_exact k (f g : list R) : length f = (2 * 2 ^ k)%nat -> length g = (2 * 2 ^ k)%nat ->
  (forall z, In z (roots (2 * 2 ^ k)%nat) -> ceval g z <> C0) ->
  exists d : list R, Div exactR roots f g = Ok d /\ length d = (2 * 2 ^ k)%nat /\ rmul (2 * 2 ^ k) d g = f.
Proof.
  intros Lf Lg Nz. change (2 * 2 ^ k)%nat with (2 ^ S k)%nat in *.
  unfold Div. rewrite (FFT_eval (S k) f), (FFT_eval (S k) g) by (auto; lia). cbn [bind].
  pose proof (gr_len _ G (S k) ltac:(lia)) as LR.
  rewrite DivFFT_ok by (rewrite !map_length; reflexivity). cbn [bind].
  rewrite map_length. change (c0 exactR) with C0.
  rewrite zip_map_ceval by reflexivity. change (c_div exactR) with Cdiv.
  destruct (FFT_surj k (map (fun z => Cdiv (ceval f z) (ceval g z)) (roots (2 ^ S k)%nat))) as (d & Ld & Ed).
  { split; [rewrite map_length; exact LR|]. rewrite pow2_S in *. intros i Hi.
    rewrite !(nth_indep _ C0 (Cdiv (ceval f C0) (ceval g C0))) by (rewrite map_length; lia).
    rewrite !(map_nth (fun z => Cdiv (ceval f z) (ceval g z))).
    rewrite (gr_conj _ G) by exact Hi. now rewrite !ceval_conj, Cconj_div. }
  change (2 * 2 ^ k)%nat with (2 ^ S k)%nat in *.
  exists d. pose proof (IFFT_eval (S k) d ltac:(lia) Ld) as I. rewrite Ed in I.
  split; [exact I|]. split; [exact Ld|]. clear I.
  assert (E : map (ceval (rmul (2 ^ S k) d g)) (roots (2 ^ S k)%nat) = map (ceval f) (roots (2 ^ S k)%nat)).
  { apply map_ext_in. intros z Hz. rewrite ceval_rmul; auto; [|apply roots_in; auto; lia].
    assert (Hd : ceval d z = Cdiv (ceval f z) (ceval g z)).
    { apply (In_nth _ _ C0) in Hz. destruct Hz as (i & Hi & <-).
      rewrite <- nth_map_ceval by exact Hi. rewrite Ed.
      rewrite (nth_indep _ C0 (Cdiv (ceval f C0) (ceval g C0))) by (rewrite map_length; exact Hi).
      now rewrite (map_nth (fun z => Cdiv (ceval f z) (ceval g z))). }
    rewrite Hd. apply Cdiv_mul. now apply Nz. }
  apply Ok_inj. rewrite <- (IFFT_eval (S k) f), <- E by (auto; lia).
  symmetry. apply IFFT_eval; [lia|apply rmul_length].
Qed.
End Exact.
