(** What fft.go computes, index by index, for every behaviour of the float64
    operations: the shape of every result and the exact panic conditions. *)
From Verif Require Import GoBase Util BaseProofs Float FftTables Fft.

Lemma zipM_ok {A B C} (op : A -> B -> C) f g a b : (length f <= length g)%nat ->
  zipM op f g = Ok (map (fun i => op (nth i f a) (nth i g b)) (seq 0 (length f))).
Proof.
  intros H. unfold zipM. apply mapM_Ok. intros i Hi. apply in_seq in Hi.
  rewrite (idx_nth f i a), (idx_nth g i b) by lia. reflexivity.
Qed.

Lemma zipM_panic {A B C} (op : A -> B -> C) f g : (length g < length f)%nat -> zipM op f g = Panic.
Proof.
  intros H. destruct f as [|a f]; [cbn in H; lia|]. unfold zipM.
  assert (E : length (a :: f) = (length g + S (length (a :: f) - length g - 1))%nat) by lia.
  rewrite E, seq_app. cbn [Nat.add seq]. apply mapM_panic_at.
  - intros i Hi. apply in_seq in Hi.
    destruct g as [|b g]; [cbn in Hi; lia|].
    rewrite (idx_nth _ i a) by lia. rewrite (idx_nth _ i b) by lia. cbn [bind]. eauto.
  - rewrite (idx_nth _ _ a) by lia. cbn [bind]. rewrite idx_out by lia. reflexivity.
Qed.

Lemma pow2_S k : (2 ^ S k = 2 * 2 ^ k)%nat. Proof. reflexivity. Qed.
Lemma pow2_ge1 k : (1 <= 2 ^ k)%nat.
Proof. induction k; cbn; lia. Qed.

Section Shape.
Context (FO : floats).
Notation F := (F FO).
Notation cplx := (cplx FO).
Definition f0 : F := f_of_int FO 0.
Definition c0 : cplx := (f0, f0).
Context (roots : nat -> list cplx).

Lemma SplitFFT_ok f m : length f = (2 * m)%nat -> (2 * m <= length (roots (2 * m)) + 1)%nat ->
  SplitFFT FO roots f =
  Ok (map (fun i => c_mul FO (c_add FO (nth (2 * i) f c0) (nth (2 * i + 1) f c0)) (c_half FO)) (seq 0 m),
      map (fun i => c_mul FO (c_mul FO (c_sub FO (nth (2 * i) f c0) (nth (2 * i + 1) f c0)) (c_half FO))
                     (c_conj FO (nth (2 * i) (roots (2 * m)) c0))) (seq 0 m)).
Proof.
  intros L W. unfold SplitFFT. rewrite L.
  replace (Nat.div (2 * m) 2) with m by (rewrite Nat.mul_comm, Nat.div_mul; lia).
  rewrite (mapM_Ok _ (fun i =>
     (c_mul FO (c_add FO (nth (2 * i) f c0) (nth (2 * i + 1) f c0)) (c_half FO),
      c_mul FO (c_mul FO (c_sub FO (nth (2 * i) f c0) (nth (2 * i + 1) f c0)) (c_half FO))
                     (c_conj FO (nth (2 * i) (roots (2 * m)) c0))))).
  - cbn [bind]. rewrite !map_map. reflexivity.
  - intros i Hi. apply in_seq in Hi.
    rewrite (idx_nth f (2 * i) c0), (idx_nth f (2 * i + 1) c0), (idx_nth (roots _) (2 * i) c0) by lia.
    reflexivity.
Qed.

Lemma MergeFFT_ok a b m : length a = m -> (m <= length b)%nat -> (2 * m <= length (roots (2 * m)) + 1)%nat ->
  MergeFFT FO roots a b =
  Ok (interleave
       (fun i => c_add FO (c_mul FO (nth (2 * i) (roots (2 * m)) c0) (nth i b c0)) (nth i a c0))
       (fun i => c_sub FO (nth i a c0) (c_mul FO (nth (2 * i) (roots (2 * m)) c0) (nth i b c0))) m).
Proof.
  intros La Lb W. unfold MergeFFT. rewrite La.
  rewrite (mapM_Ok _ (fun i =>
    [c_add FO (c_mul FO (nth (2 * i) (roots (2 * m)) c0) (nth i b c0)) (nth i a c0);
     c_sub FO (nth i a c0) (c_mul FO (nth (2 * i) (roots (2 * m)) c0) (nth i b c0))])).
  - reflexivity.
  - intros i Hi. apply in_seq in Hi.
    rewrite (idx_nth a i c0), (idx_nth b i c0), (idx_nth (roots _) (2 * i) c0) by lia. reflexivity.
Qed.

(** The table has the entries the transforms read. *)
Definition full_roots (k : nat) : Prop :=
  forall j, (1 <= j <= k)%nat -> length (roots (2 ^ j)) = (2 ^ j)%nat.

Lemma full_le k k' : (k' <= k)%nat -> full_roots k -> full_roots k'.
Proof. intros H A j Hj. apply A. lia. Qed.

Lemma FFT_fuel_shape k : full_roots k -> (1 <= k)%nat -> forall f fuel,
  length f = (2 ^ k)%nat -> (2 ^ k <= fuel)%nat ->
  exists F, FFT_fuel FO roots fuel f = Ok F /\ length F = (2 ^ k)%nat.
Proof.
  induction k as [|k IH]; intros R Hk f fuel L Hf; [lia|].
  destruct fuel as [|fuel]; [pose proof (pow2_ge1 (S k)); lia|]. cbn [FFT_fuel].
  destruct k as [|k].
  - rewrite L. change (Nat.ltb 2 (2 ^ 1)) with false. change (Nat.eqb (2 ^ 1) 2) with true. cbv iota.
    change (2 ^ 1)%nat with 2%nat in L.
    rewrite (idx_nth f 0 f0), (idx_nth f 1 f0) by lia. cbn [bind]. eexists. split; reflexivity.
  - rewrite pow2_S in *. pose proof (pow2_ge1 k) as P1. rewrite pow2_S in *.
    destruct (Nat.ltb_spec 2 (length f)); [|lia].
    rewrite (SplitPolys_ok f0). cbn [bind fst snd].
    assert (Hd : Nat.div (length f) 2 = (2 * 2 ^ k)%nat) by (rewrite L, Nat.mul_comm, Nat.div_mul; lia).
    destruct (IH (full_le _ _ (Nat.le_succ_diag_r _) R) ltac:(lia) (evens f0 f) fuel) as (A & EA & LA);
      [rewrite evens_length; assumption|lia|].
    destruct (IH (full_le _ _ (Nat.le_succ_diag_r _) R) ltac:(lia) (odds f0 f) fuel) as (B & EB & LB);
      [rewrite odds_length; assumption|lia|].
    rewrite EA. cbn [bind]. rewrite EB. cbn [bind].
    pose proof (R (S (S k)) ltac:(lia)) as LR. rewrite !pow2_S in LR.
    rewrite (MergeFFT_ok _ _ (2 * 2 ^ k)%nat) by lia. eexists. split; [reflexivity|].
    rewrite interleave_length. reflexivity.
Qed.

Lemma FFT_shape k f : full_roots k -> (1 <= k)%nat -> length f = (2 ^ k)%nat ->
  exists F, FFT FO roots f = Ok F /\ length F = (2 ^ k)%nat.
Proof. intros R Hk L. apply FFT_fuel_shape; auto. lia. Qed.

Lemma IFFT_fuel_shape k : full_roots k -> (1 <= k)%nat -> forall f fuel,
  length f = (2 ^ k)%nat -> (2 ^ k <= fuel)%nat ->
  exists F, IFFT_fuel FO roots fuel f = Ok F /\ length F = (2 ^ k)%nat.
Proof.
  induction k as [|k IH]; intros R Hk f fuel L Hf; [lia|].
  destruct fuel as [|fuel]; [pose proof (pow2_ge1 (S k)); lia|]. cbn [IFFT_fuel].
  destruct k as [|k].
  - rewrite L. change (Nat.ltb 2 (2 ^ 1)) with false. change (Nat.eqb (2 ^ 1) 2) with true. cbv iota.
    change (2 ^ 1)%nat with 2%nat in L.
    rewrite (idx_nth f 0 c0) by lia. cbn [bind]. eexists. split; reflexivity.
  - rewrite pow2_S in *. pose proof (pow2_ge1 k) as P1. rewrite pow2_S in *.
    destruct (Nat.ltb_spec 2 (length f)); [|lia].
    pose proof (R (S (S k)) ltac:(lia)) as LR. rewrite !pow2_S in LR.
    rewrite (SplitFFT_ok f (2 * 2 ^ k)) by lia. cbn [bind fst snd].
    match goal with |- context [IFFT_fuel FO roots fuel ?x] =>
      destruct (IH (full_le _ _ (Nat.le_succ_diag_r _) R) ltac:(lia) x fuel) as (A & EA & LA);
      [rewrite map_length, seq_length; reflexivity|lia|rewrite EA; cbn [bind]] end.
    match goal with |- context [IFFT_fuel FO roots fuel ?x] =>
      destruct (IH (full_le _ _ (Nat.le_succ_diag_r _) R) ltac:(lia) x fuel) as (B & EB & LB);
      [rewrite map_length, seq_length; reflexivity|lia|rewrite EB; cbn [bind]] end.
    rewrite (MergePolys_ok f0) by lia. eexists. split; [reflexivity|].
    rewrite interleave_length, LA. reflexivity.
Qed.

Lemma IFFT_shape k f : full_roots k -> (1 <= k)%nat -> length f = (2 ^ k)%nat ->
  exists F, IFFT FO roots f = Ok F /\ length F = (2 ^ k)%nat.
Proof. intros R Hk L. apply IFFT_fuel_shape; auto. lia. Qed.

(** Pointwise operations. *)
Lemma AddFFT_ok f g : length f = length g ->
  AddFFT FO f g = Ok (map (fun i => c_add FO (nth i f c0) (nth i g c0)) (seq 0 (length f))).
Proof.
  intros E. unfold AddFFT. rewrite E, Nat.eqb_refl. cbn [negb].
  rewrite (zipM_ok _ f g c0 c0) by lia. now rewrite E.
Qed.
Lemma Add_ok f g : length f = length g ->
  Add FO f g = Ok (map (fun i => f_add FO (nth i f f0) (nth i g f0)) (seq 0 (length f))).
Proof.
  intros E. unfold Add. rewrite E, Nat.eqb_refl. cbn [negb].
  rewrite (zipM_ok _ f g f0 f0) by lia. now rewrite E.
Qed.
Lemma DivFFT_ok f g : length f = length g ->
  DivFFT FO f g = Ok (map (fun i => c_div FO (nth i f c0) (nth i g c0)) (seq 0 (length f))).
Proof.
  intros E. unfold DivFFT. rewrite E, Nat.eqb_refl. cbn [negb].
  rewrite (zipM_ok _ f g c0 c0) by lia. now rewrite E.
Qed.
Lemma MulFFT_ok f g : (length f <= length g)%nat ->
  MulFFT FO f g = Ok (map (fun i => c_mul FO (nth i f c0) (nth i g c0)) (seq 0 (length f))).
Proof. intros E. apply zipM_ok. exact E. Qed.
Lemma SubFFT_ok f g : length f = length g ->
  SubFFT FO f g = Ok (map (fun i => c_add FO (nth i f c0) (nth i (NegFFT FO g) c0)) (seq 0 (length f))).
Proof. intros E. apply AddFFT_ok. unfold NegFFT. rewrite map_length. exact E. Qed.

Lemma Mul_shape k f g : full_roots k -> (1 <= k)%nat -> length f = (2 ^ k)%nat -> length g = (2 ^ k)%nat ->
  exists p, Mul FO roots f g = Ok p /\ length p = (2 ^ k)%nat.
Proof.
  intros R Hk Lf Lg. unfold Mul.
  destruct (FFT_shape k f R Hk Lf) as (A & -> & LA). cbn [bind].
  destruct (FFT_shape k g R Hk Lg) as (B & -> & LB). cbn [bind].
  rewrite MulFFT_ok by lia. cbn [bind]. apply IFFT_shape; auto. now rewrite map_length, seq_length.
Qed.
Lemma Adj_shape k f : full_roots k -> (1 <= k)%nat -> length f = (2 ^ k)%nat ->
  exists p, Adj FO roots f = Ok p /\ length p = (2 ^ k)%nat.
Proof.
  intros R Hk Lf. unfold Adj.
  destruct (FFT_shape k f R Hk Lf) as (A & -> & LA). cbn [bind].
  apply IFFT_shape; auto. unfold AdjFFT. now rewrite map_length.
Qed.
Lemma Div_shape k f g : full_roots k -> (1 <= k)%nat -> length f = (2 ^ k)%nat -> length g = (2 ^ k)%nat ->
  exists p, Div FO roots f g = Ok p /\ length p = (2 ^ k)%nat.
Proof.
  intros R Hk Lf Lg. unfold Div.
  destruct (FFT_shape k f R Hk Lf) as (A & -> & LA). cbn [bind].
  destruct (FFT_shape k g R Hk Lg) as (B & -> & LB). cbn [bind].
  rewrite DivFFT_ok by lia. cbn [bind]. apply IFFT_shape; auto. now rewrite map_length, seq_length.
Qed.
End Shape.

(** The repository's table has the ten entries. *)
Lemma roots_dict_full FO : full_roots FO (roots_dict FO) 10.
Proof.
  intros j Hj.
  destruct j as [|[|[|[|[|[|[|[|[|[|[|j]]]]]]]]]]]; try lia;
    unfold roots_dict; cbn -[phi4_roots phi8_roots phi16_roots phi32_roots phi64_roots phi128_roots
      phi256_roots phi512_roots phi1024_roots phi2048_roots]; rewrite map_length; reflexivity.
Qed.
