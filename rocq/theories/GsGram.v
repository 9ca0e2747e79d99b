(** GsNorm (ntrugen.go:276-283) in binary64 arithmetic: the adjoints, the
    products and the Gram value. *)
From Coq Require Import Reals Lra Lia ZArith List.
From Flocq Require Import Core BinarySingleNaN.
From Verif Require Import GoBase Util BaseProofs Spec Float FftTables Fft FftShape SpecFft SpecBabai ExactReal FftProofs
  RootsProofs RootsTable Binary64 B64Proofs FloatErr FftErr Ntrugen KeyGen Babai GsExact GsBound GsReduce CdivErr FftL1 QuotErr
  IfftAvg CdivGen GsFloat.
Local Open Scope R_scope.

Lemma capprox_tri e d z a b : capprox e z a -> Cle (Csub a b) d -> capprox (e + d) z b.
Proof.
  intros [F1 H] D. split; [exact F1|]. replace (Csub (toC z) b) with (Cadd (Csub (toC z) a) (Csub a b)).
  - apply Cle_add; assumption.
  - destruct (toC z), a, b. unfold Cadd, Csub. cbn [fst snd]. apply f_equal2; ring.
Qed.
Lemma Cmul_conj_sq c : Cmul c (Cconj c) = RtoC (Csqnorm c).
Proof. destruct c. unfold Cmul, Cconj, RtoC, Csqnorm. cbn [fst snd]. apply f_equal2; ring. Qed.
Lemma Csqnorm_RtoC x : Csqnorm (RtoC x) = x * x.
Proof. unfold Csqnorm, RtoC. cbn [fst snd]. ring. Qed.
Lemma Csqnorm_conj c : Csqnorm (Cconj c) = Csqnorm c.
Proof. unfold Csqnorm, Cconj. cbn [fst snd]. ring. Qed.
Lemma avg_lin k h a b : avg k (fun i => a * h i + b) = a * avg k h + b.
Proof. rewrite avg_plus, avg_scal, avg_const. reflexivity. Qed.

Section One.
Context (ci cu : b64 -> Z) (k : nat) (Hk : (1 <= k <= 10)%nat).
Notation FO := (binary64 ci cu).
Notation roots := (roots_dict FO).
Notation n := (2 ^ k)%nat.
Context (a : list Z) (La : length a = n) (Ha : sqnorm n (map IZR a) <= 17000).
Notation ra := (map IZR a).
Notation av j := (ceval (map IZR a) (P k j)).
Let k1 : (1 <= k)%nat. Proof. lia. Qed.
Let Lra : length ra = n. Proof. now rewrite map_length. Qed.

Lemma a_bound : Forall (fun z => (Z.abs z <= 131)%Z) a.
Proof.
  apply Forall_forall. intros x Hx. apply (In_nth _ _ 0%Z) in Hx. destruct Hx as (i & Hi & <-).
  pose proof (coef_sqnorm n ra i ltac:(lia)) as C. rewrite nth_IZR, <- mult_IZR in C.
  assert (C' : IZR (nth i a 0 * nth i a 0)%Z <= IZR 17000) by lra. apply le_IZR in C'. nia.
Qed.
Lemma av_avg : avg k (fun j => Csqnorm (av j)) <= 17000.
Proof. rewrite (parseval exact_roots G0 k ra Lra). exact Ha. Qed.

Lemma FFT_a : exists Fa : list (b64 * b64), FFT FO roots (map b_of_int a) = Ok Fa /\ length Fa = n /\
  forall j, (j < n)%nat -> capprox (2 / 10000000000) (nth j Fa (c0 FO)) (av j) /\ Cle (av j) 5197.
Proof.
  destruct (FFT_fg ci cu k Hk a a La La ra Lra a La Ha a_bound) as (Fa & E & L1 & L2 & C).
  exists Fa. split; [exact E|]. split; [exact L1|]. intros j Hj. destruct (C j Hj) as [C1' C2'].
  rewrite nth_evk in C1', C2' by assumption. split; [|exact C2']. eapply capprox_le; [|exact C1']. unfold u53. lra.
Qed.
Lemma av_le j : (j < n)%nat -> Cle (av j) 5197.
Proof. intros Hj. destruct FFT_a as (Fa & _ & _ & C). apply (C j Hj). Qed.
Lemma sq_le27 j : (j < n)%nat -> 0 <= Csqnorm (av j) <= 27008809.
Proof. intros Hj. destruct (av_le j Hj) as [_ H]. pose proof (Csqnorm_pos (av j)). lra. Qed.

Lemma Adj_a : exists x : list b64, Adj FO roots (map b_of_int a) = Ok x /\ length x = n /\ fins x /\
  forall j, (j < n)%nat -> Cle (Csub (ceval (vals x) (P k j)) (Cconj (av j))) (16 / 1000000000).
Proof.
  destruct FFT_a as (Fa & E & L & C). unfold Adj. rewrite E. cbn [bind].
  rewrite (list_seq Fa n (c0 FO) L), AdjFFT_seq.
  set (Fl := map (fun i => c_conj FO (nth i Fa (c0 FO))) (seq 0 n)).
  assert (Hn : forall j, (j < n)%nat -> nth j Fl (c0 FO) = c_conj FO (nth j Fa (c0 FO))) by (intros j Hj; unfold Fl; now rewrite nth_map_seq).
  assert (VJ : forall j, (j < n)%nat -> ceval (radj n ra) (P k j) = Cconj (av j)).
  { intros j Hj. apply (ceval_radj_P exact_roots G0 k); assumption. }
  destruct (IFFT_at ci cu k Hk Fl (fun j => / 264 * Csqnorm (av j) + 67) (radj n ra) (2 / 10000000000) 132) as (x & E' & Lx & Fx & Cx').
  - unfold Fl. now rewrite map_length, seq_length.
  - intros j Hj. pose proof (Csqnorm_pos (av j)). lra.
  - intros j Hj. destruct (C j Hj) as [C1' C2']. rewrite Hn, VJ by exact Hj. split; [apply cconj_approx, C1'|].
    apply Cle_conj. eapply Cle_le; [|apply (Cle_lin (av j) 132); lra]. lra.
  - rewrite avg_lin. pose proof av_avg. lra.
  - cbn. lra.
  - exists x. split; [exact E'|]. split; [exact Lx|]. split; [exact Fx|]. intros j Hj. rewrite <- VJ by exact Hj.
    eapply Cle_le; [|apply Cx', Hj]. unfold u53. lra.
Qed.

Context (x : list b64) (Lx : length x = n) (Fx : fins x)
  (Hx : forall j, (j < n)%nat -> Cle (Csub (ceval (vals x) (P k j)) (Cconj (av j))) (16 / 1000000000)).
Lemma FFT_adj : exists X : list (b64 * b64), FFT FO roots x = Ok X /\ length X = n /\
  forall j, (j < n)%nat -> capprox (17 / 1000000000) (nth j X (c0 FO)) (Cconj (av j)).
Proof.
  assert (SQ : sqnorm n (vals x) <= 17001).
  { eapply Rle_trans; [apply (sqnorm_vals k (vals x) (fun j => 1 * Csqnorm (av j) + 1))|].
    - now rewrite map_length.
    - intros j Hj. pose proof (Csq_close _ _ _ _ (Hx j Hj) (Cle_conj _ _ (av_le j Hj))) as S. rewrite Csqnorm_conj in S. lra.
    - rewrite avg_lin. pose proof av_avg. lra. }
  assert (LS : lsum (vals x) <= 5200).
  { eapply Rle_trans; [apply (lsum_sq (vals x) n 4); [now rewrite map_length|lra]|]. pose proof (n_bound k Hk). lra. }
  destruct (FFT_f ci cu k Hk x 5200 Lx Fx LS ltac:(cbn; lra)) as (X & E & LX & C).
  exists X. split; [exact E|]. split; [exact LX|]. intros j Hj.
  eapply capprox_le; [|apply (capprox_tri _ _ _ _ _ (C j Hj) (Hx j Hj))]. unfold u53. lra.
Qed.
Lemma Mul_a : exists y : list b64, Mul FO roots (map b_of_int a) x = Ok y /\ length y = n /\ fins y /\
  forall j, (j < n)%nat -> Cle (Csub (ceval (vals y) (P k j)) (RtoC (Csqnorm (av j)))) (92 / 1000000).
Proof.
  destruct FFT_a as (Fa & E & L & C). destruct FFT_adj as (X & EX & LX & CX).
  unfold Mul. rewrite E. cbn [bind]. rewrite EX. cbn [bind].
  rewrite (list_seq Fa n (c0 FO) L), (list_seq X n (c0 FO) LX), (MulFFT_seq FO roots). cbn [bind].
  set (Fl := map (fun i => c_mul FO (nth i Fa (c0 FO)) (nth i X (c0 FO))) (seq 0 n)).
  assert (Hn : forall j, (j < n)%nat -> nth j Fl (c0 FO) = c_mul FO (nth j Fa (c0 FO)) (nth j X (c0 FO))) by (intros j Hj; unfold Fl; now rewrite nth_map_seq).
  assert (VJ : forall j, (j < n)%nat -> ceval (rmul n ra (radj n ra)) (P k j) = RtoC (Csqnorm (av j))).
  { intros j Hj. rewrite (ceval_rmul_P exact_roots G0 k), (ceval_radj_P exact_roots G0 k) by (assumption || apply radj_length). apply Cmul_conj_sq. }
  destruct (IFFT_at ci cu k Hk Fl (fun j => 1 * Csqnorm (av j) + 2) (rmul n ra (radj n ra)) (90 / 1000000) 17002) as (y & E' & Ly & Fy & Cy).
  - unfold Fl. now rewrite map_length, seq_length.
  - intros j Hj. pose proof (Csqnorm_pos (av j)). lra.
  - intros j Hj. destruct (C j Hj) as [C1' C2']. rewrite Hn, VJ by exact Hj. split.
    + rewrite <- Cmul_conj_sq. eapply capprox_le; [|apply (cmul_approx ci cu _ _ _ _ _ _ _ _ 27100000 C1' (CX j Hj) C2' (Cle_conj _ _ C2'))].
      * unfold u53. lra.
      * lra.
      * lra.
      * apply big_le. cbn; lra.
    + pose proof (Csqnorm_pos (av j)) as S0. apply Cle_real. rewrite Rabs_pos_eq; lra.
  - rewrite avg_lin. pose proof av_avg. lra.
  - cbn. lra.
  - exists y. split; [exact E'|]. split; [exact Ly|]. split; [exact Fy|]. intros j Hj. rewrite <- VJ by exact Hj.
    eapply Cle_le; [|apply Cy, Hj]. unfold u53. lra.
Qed.
Lemma coef_y (y : list b64) : length y = n ->
  (forall j, (j < n)%nat -> Cle (Csub (ceval (vals y) (P k j)) (RtoC (Csqnorm (av j)))) (92 / 1000000)) ->
  forall i, (i < n)%nat -> Rabs (nth i (vals y) 0) <= 700000.
Proof.
  intros Ly Hy i Hi.
  assert (SQ : sqnorm n (vals y) <= 460000000000).
  { eapply Rle_trans; [apply (sqnorm_vals k (vals y) (fun j => 27008810 * Csqnorm (av j) + 1))|].
    - now rewrite map_length.
    - intros j Hj. pose proof (sq_le27 j Hj) as S27. set (s := Csqnorm (av j)) in *.
      assert (M : Cle (RtoC s) s) by (apply Cle_real; rewrite Rabs_pos_eq; lra).
      pose proof (Csq_close _ _ _ _ (Hy j Hj) M) as S. rewrite Csqnorm_RtoC in S. fold s in S.
      assert (s * s <= 27008809 * s) by (apply Rmult_le_compat_r; lra). lra.
    - rewrite avg_lin. pose proof av_avg. lra. }
  apply sq_le; [lra|]. pose proof (coef_sqnorm n (vals y) i Hi). lra.
Qed.
End One.
