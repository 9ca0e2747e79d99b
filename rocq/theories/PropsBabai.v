(** The nearest plane algorithm FfnpFFT of src/internal/ffsampling.go in exact
    arithmetic (C68).  [ldl_tree], [leaf_sum] and the ring operations are those
    of SpecBabai.v and SpecFft.v. *)
From Coq Require Import Lra Lia.
From Verif Require Import GoBase Util BaseProofs PolyRing Float Fft FftShape SpecFft SpecBabai ExactReal FftProofs
  RootsProofs RootsAll Ntrugen Ffsampling FfExact Babai PropsFft.
Local Open Scope R_scope.

(** The tree as the Go code holds it: node polynomials transformed. *)
Fixpoint go_tree (k : nat) (T : ltree) (V : list (iface exactR)) : Prop :=
  match k, T with
  | S k', Node l T0 T1 => exists v V0 V1,
      V = [IPoly (v : list (cplx exactR)); ITree V0; ITree V1] /\ FFT exactR exact_roots l = Ok v /\
      go_tree k' T0 V0 /\ go_tree k' T1 V1
  | _, _ => True
  end.

Lemma go_tree_carries k : forall g00 g10 g11 T V, ldl_tree k g00 g10 g11 T -> go_tree k T V ->
  carries exact_roots k T V.
Proof.
  induction k as [|k IH]; intros g00 g10 g11 T V HT HV; [exact I|].
  destruct T as [|l T0 T1]; [destruct HT|]. destruct HT as (Ll & _ & HT0 & HT1).
  destruct HV as (v & V0 & V1 & -> & E & HV0 & HV1). exists V0, V1.
  rewrite (C43_fft (S k) l) in E by (auto; lia). injection E as <-.
  split; [reflexivity|]. split; eapply IH; eauto.
Qed.

(** The squared distance from the target t*B to the lattice point z*B, for
    row vectors t, z and the basis B = [[b00, b01], [b10, b11]]. *)
Definition dist2 (n : nat) (b00 b01 b10 b11 t0 t1 : list R) (z0 z1 : list Z) : R :=
  let e0 := rsub n t0 (map IZR z0) in let e1 := rsub n t1 (map IZR z1) in
  sqnorm n (radd n (rmul n e0 b00) (rmul n e1 b10)) + sqnorm n (radd n (rmul n e0 b01) (rmul n e1 b11)).

(** C68.  The point returned is an integer point, and its squared distance to
    the target is at most a quarter of the sum of the leaves of the LDL tree of
    the Gram matrix, which is the bound of Babai's nearest plane algorithm. *)
Theorem C68_nearest_plane : forall k (b00 b01 b10 b11 t0 t1 : list R) T V v0 v1 fuel,
  (1 <= k)%nat -> Forall (fun p => length p = (2 ^ k)%nat) [b00; b01; b10; b11; t0; t1] ->
  let n := (2 ^ k)%nat in
  let g00 := gram2 n b00 b01 b00 b01 in let g10 := gram2 n b10 b11 b00 b01 in let g11 := gram2 n b10 b11 b10 b11 in
  ldl_tree k g00 g10 g11 T -> go_tree k T V ->
  FFT exactR exact_roots t0 = Ok v0 -> FFT exactR exact_roots t1 = Ok v1 -> (k < fuel)%nat ->
  exists (z0 z1 : list Z) w0 w1, length z0 = n /\ length z1 = n /\
    FfnpFFT exactR exact_roots fuel [v0; v1] V = Ok [w0; w1] /\
    FFT exactR exact_roots (map IZR z0) = Ok w0 /\ FFT exactR exact_roots (map IZR z1) = Ok w1 /\
    dist2 n b00 b01 b10 b11 t0 t1 z0 z1 <= / 4 * leaf_sum k g00 g11 T.
Proof.
  intros k b00 b01 b10 b11 t0 t1 T V v0 v1 fuel Hk HL n g00 g10 g11 HT HV E0 E1 Hf.
  repeat match goal with H : Forall _ (_ :: _) |- _ => inversion H; subst; clear H end.
  rewrite (C43_fft k t0) in E0 by auto. rewrite (C43_fft k t1) in E1 by auto. injection E0 as <-. injection E1 as <-.
  pose proof (go_tree_carries k _ _ _ T V HT HV) as HC.
  destruct (ffnp_bound exact_roots exact_good k g00 g10 g11 T V t0 t1 fuel HC) as (z0 & z1 & Lz0 & Lz1 & E & B); auto.
  { apply radd_length. } { apply radd_length. } { apply gram_psd; auto using exact_good. } { lia. }
  destruct k as [|k]; [lia|]. cbn [trans] in E.
  exists z0, z1. eexists _, _. split; [exact Lz0|]. split; [exact Lz1|]. split; [exact E|].
  split; [apply C43_fft; auto; rewrite map_length; exact Lz0|].
  split; [apply C43_fft; auto; rewrite map_length; exact Lz1|].
  unfold dist2, n. cbv zeta. rewrite <- (Q_lattice exact_roots exact_good (S k)) by (auto; apply rsub_length). exact B.
Qed.
Print Assumptions C68_nearest_plane.

(** The same without the tree: the leaves sum to at most n times the squared
    length of the basis. *)
Theorem C68_leaves : forall k (b00 b01 b10 b11 : list R) T,
  Forall (fun p => length p = (2 ^ k)%nat) [b00; b01; b10; b11] ->
  let n := (2 ^ k)%nat in
  let g00 := gram2 n b00 b01 b00 b01 in let g10 := gram2 n b10 b11 b00 b01 in let g11 := gram2 n b10 b11 b10 b11 in
  ldl_tree k g00 g10 g11 T ->
  leaf_sum k g00 g11 T <= INR n * (sqnorm n b00 + sqnorm n b01 + sqnorm n b10 + sqnorm n b11).
Proof.
  intros k b00 b01 b10 b11 T HL n g00 g10 g11 HT.
  repeat match goal with H : Forall _ (_ :: _) |- _ => inversion H; subst; clear H end.
  pose proof (leaf_sum_le exact_roots exact_good k g00 g10 g11 T (radd_length _ _ _) (radd_length _ _ _)
    (gram_psd exact_roots exact_good k b00 b01 b10 b11 ltac:(auto) ltac:(auto) ltac:(auto) ltac:(auto)) HT) as B.
  fold n in B.
  assert (A : forall u v, length u = n -> length v = n -> nth 0 (gram2 n u v u v) 0 = sqnorm n u + sqnorm n v).
  { intros u v Lu Lv. unfold n in *. rewrite <- (avg_const_coef exact_roots exact_good k) by apply radd_length.
    rewrite <- !(parseval exact_roots exact_good k) by assumption. rewrite <- avg_plus. apply avg_ext. intros i Hi.
    rewrite (ceval_gram exact_roots exact_good) by assumption.
    unfold Csqnorm, Cadd, Cmul, Cconj. cbn [fst snd]. ring. }
  pose proof (A b00 b01 ltac:(assumption) ltac:(assumption)) as A0. pose proof (A b10 b11 ltac:(assumption) ltac:(assumption)) as A1.
  fold g00 in A0. fold g11 in A1. rewrite A0, A1 in B. lra.
Qed.
Print Assumptions C68_leaves.

(** Every basis whose determinant is invertible has a tree. *)
Theorem C68_tree_exists : forall k (b00 b01 b10 b11 : list R),
  (1 <= k)%nat -> Forall (fun p => length p = (2 ^ k)%nat) [b00; b01; b10; b11] ->
  (forall z, Cpow z (2 ^ k) = Copp C1 ->
     Csub (Cmul (ceval b00 z) (ceval b11 z)) (Cmul (ceval b01 z) (ceval b10 z)) <> C0) ->
  let n := (2 ^ k)%nat in
  exists T V, ldl_tree k (gram2 n b00 b01 b00 b01) (gram2 n b10 b11 b00 b01) (gram2 n b10 b11 b10 b11) T /\
    go_tree k T V.
Proof.
  intros k b00 b01 b10 b11 Hk HL Hd n.
  repeat match goal with H : Forall _ (_ :: _) |- _ => inversion H; subst; clear H end.
  destruct (ldl_tree_exists exact_roots exact_good k (gram2 n b00 b01 b00 b01) (gram2 n b10 b11 b00 b01) (gram2 n b10 b11 b10 b11))
    as [T HT]; try apply radd_length.
  - apply gram_pd; auto using exact_good. intros i Hi. apply Hd. apply (P_pow exact_roots exact_good), Hi.
  - exists T. revert HT. generalize (gram2 n b00 b01 b00 b01), (gram2 n b10 b11 b00 b01), (gram2 n b10 b11 b10 b11).
    clear. intros g00 g10 g11 HT.
    assert (A : forall k g00 g10 g11 T, ldl_tree k g00 g10 g11 T -> exists V, go_tree k T V).
    { clear. induction k as [|k IH]; intros g00 g10 g11 T HT; [exists []; exact I|].
      destruct T as [|l T0 T1]; [destruct HT|]. destruct HT as (Ll & _ & HT0 & HT1).
      destruct (IH _ _ _ _ HT0) as [V0 H0]. destruct (IH _ _ _ _ HT1) as [V1 H1].
      eexists. cbn [go_tree]. eexists _, V0, V1. split; [reflexivity|]. split; [apply (C43_fft (S k)); auto; lia|]. auto. }
    destruct (A k _ _ _ T HT) as [V HV]. exists V. auto.
Qed.
Print Assumptions C68_tree_exists.

(** n = 2, the basis [[1 + 2x, 3 + 4x], [x, 2]] with Gram matrix
    [[30, .], [8 - 7x, 5]]; the target is far from every lattice point. *)
Example C68_nonvacuous :
  let T := Node [8 / 30; -7 / 30] Leaf Leaf in
  let g00 := gram2 2 [1; 2] [3; 4] [1; 2] [3; 4] in
  let g10 := gram2 2 [0; 1] [2; 0] [1; 2] [3; 4] in
  let g11 := gram2 2 [0; 1] [2; 0] [0; 1] [2; 0] in
  ldl_tree 1 g00 g10 g11 T /\ leaf_sum 1 g00 g11 T = 2 * 30 + 2 * (37 / 30) /\
  exists V v0 v1, go_tree 1 T V /\ FFT exactR exact_roots [1 / 2; 7 / 3] = Ok v0 /\ FFT exactR exact_roots [5; - 4 / 9] = Ok v1 /\
  exists z0 z1 w0 w1, FfnpFFT exactR exact_roots 2 [v0; v1] V = Ok [w0; w1] /\
    FFT exactR exact_roots (map IZR z0) = Ok w0 /\ FFT exactR exact_roots (map IZR z1) = Ok w1 /\
    dist2 2 [1; 2] [3; 4] [0; 1] [2; 0] [1 / 2; 7 / 3] [5; - 4 / 9] z0 z1 <= / 4 * (2 * 30 + 2 * (37 / 30)).
Proof.
  intros T g00 g10 g11.
  assert (HT : ldl_tree 1 g00 g10 g11 T).
  { cbn [ldl_tree T]. split; [reflexivity|]. split; [|split; exact I].
    unfold g00, g10, gram2, rmul, rmul_coef, radj, radd. cbn.
    apply f_equal2; [field|]. apply f_equal2; [field|reflexivity]. }
  assert (HS : leaf_sum 1 g00 g11 T = 2 * 30 + 2 * (37 / 30)).
  { unfold T, g00, g11. cbn [leaf_sum]. unfold schur, gram2, rsub, reven, rmul, rmul_coef, radj, radd. cbn. field. }
  split; [exact HT|]. split; [exact HS|].
  assert (HV : exists V, go_tree 1 T V).
  { eexists. cbn [go_tree T]. eexists _, [], []. split; [reflexivity|]. split; [apply (C43_fft 1); auto|]. split; exact I. }
  destruct HV as [V HV]. eexists V, _, _. split; [exact HV|].
  split; [apply (C43_fft 1); auto|]. split; [apply (C43_fft 1); auto|].
  destruct (C68_nearest_plane 1 [1; 2] [3; 4] [0; 1] [2; 0] [1 / 2; 7 / 3] [5; - 4 / 9] T V _ _ 2 ltac:(lia)
    ltac:(repeat constructor) HT HV (C43_fft 1 [1 / 2; 7 / 3] ltac:(lia) eq_refl) (C43_fft 1 [5; - 4 / 9] ltac:(lia) eq_refl) ltac:(lia))
    as (z0 & z1 & w0 & w1 & _ & _ & E & Z0 & Z1 & B).
  exists z0, z1, w0, w1. split; [exact E|]. split; [exact Z0|]. split; [exact Z1|].
  fold g00 g11 in B. change (2 ^ 1)%nat with 2%nat in B. fold g00 g11 in B. rewrite HS in B. exact B.
Qed.
