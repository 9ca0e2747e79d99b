(** Property theorems about src/internal/transforms/fft and the exact-arithmetic
    part of src/internal/ffsampling.go (C43 - C46, C49).  [exactR] interprets
    the float64 operations as exact real operations. *)
From Coq Require Import Lra.
From Verif Require Import GoBase Util BaseProofs PolyRing Float Fft FftShape SpecFft ExactReal FftProofs
  RootsProofs RootsAll RootsTable Ffsampling FfExact.
Local Open Scope R_scope.

(** C43.  The specification's list of roots has n different entries, which are
    exactly the complex solutions of z^n = -1. *)
Theorem C43_roots : forall k, (1 <= k)%nat ->
  length (exact_roots (2 ^ k)) = (2 ^ k)%nat /\ NoDup (exact_roots (2 ^ k)) /\
  forall z, In z (exact_roots (2 ^ k)) <-> Cpow z (2 ^ k) = Copp C1.
Proof.
  intros k Hk. split; [apply (gr_len _ exact_good), Hk|]. split; [apply (roots_NoDup _ exact_good), Hk|].
  intros z. split; [apply (roots_in _ exact_good); exact Hk|apply (roots_all _ exact_good); exact Hk].
Qed.
Print Assumptions C43_roots.
Theorem C43_fft : forall k (f : list R), (1 <= k)%nat -> length f = (2 ^ k)%nat ->
  FFT exactR exact_roots f = Ok (map (ceval f) (exact_roots (2 ^ k))).
Proof. intros k f Hk L. exact (FFT_eval exact_roots exact_good k f Hk L). Qed.
Print Assumptions C43_fft.
Theorem C43_ifft : forall k (f : list R), (1 <= k)%nat -> length f = (2 ^ k)%nat ->
  exists v, FFT exactR exact_roots f = Ok v /\ IFFT exactR exact_roots v = Ok f.
Proof.
  intros k f Hk L. eexists. split; [exact (FFT_eval exact_roots exact_good k f Hk L)|].
  exact (IFFT_eval exact_roots exact_good k f Hk L).
Qed.
Print Assumptions C43_ifft.
(** The other direction: FFT(IFFT(v)) = v for every v whose second half is the
    conjugate of the first, which holds of every transform. *)
Theorem C43_fft_ifft : forall k (v : list Cx), conj_sym (2 ^ k) v ->
  exists f : list R, IFFT exactR exact_roots v = Ok f /\ FFT exactR exact_roots f = Ok v.
Proof.
  intros k v H. destruct (FFT_IFFT exact_roots exact_good k v H) as (f & E1 & _ & E2). exists f. auto.
Qed.
Print Assumptions C43_fft_ifft.
(** The tables of the repository: each entry, read as a decimal number, is within
    2*10^-15 of the exact root at the same place. *)
Theorem C43_tables : forall k i, (1 <= k <= 10)%nat -> (i < 2 ^ k)%nat ->
  length (roots_dict exactR (2 ^ k)) = (2 ^ k)%nat /\
  Csqnorm (Csub (nth i (roots_dict exactR (2 ^ k)) C0) (nth i (exact_roots (2 ^ k)) C0)) <= (2 / 10 ^ 15) ^ 2.
Proof.
  intros k i Hk Hi. destruct (roots_dict_close k i Hk Hi) as [L C]. split; [exact L|].
  replace ((2 / 10 ^ 15) ^ 2) with (4 / 10 ^ 30); [exact C|]. field.
Qed.
Print Assumptions C43_tables.
Example C43_nonvacuous : FFT exactR exact_roots [1; 2] = Ok [(1, 2); (1, -2)].
Proof.
  rewrite (C43_fft 1 [1; 2] ltac:(lia) eq_refl). pose proof (gr_two _ exact_good) as T.
  change (2 ^ 1)%nat with 2%nat. rewrite T. unfold ceval. cbn.
  unfold Cadd, Cmul, Copp, Ci, C0, C1, RtoC. cbn [fst snd].
  f_equal; f_equal; [apply f_equal2; ring|f_equal; apply f_equal2; ring].
Qed.

(** C44 *)
Theorem C44_mul : forall k (f g : list R), (1 <= k)%nat -> length f = (2 ^ k)%nat -> length g = (2 ^ k)%nat ->
  Mul exactR exact_roots f g = Ok (rmul (2 ^ k) f g).
Proof. intros k f g Hk Lf Lg. exact (Mul_exact exact_roots exact_good k f g Hk Lf Lg). Qed.
Print Assumptions C44_mul.
Theorem C44_div : forall k (f g : list R), (1 <= k)%nat -> length f = (2 ^ k)%nat -> length g = (2 ^ k)%nat ->
  (forall z, Cpow z (2 ^ k) = Copp C1 -> ceval g z <> C0) ->
  exists d : list R, Div exactR exact_roots f g = Ok d /\ length d = (2 ^ k)%nat /\ rmul (2 ^ k) d g = f.
Proof.
  intros [|k] f g Hk Lf Lg Nz; [lia|]. apply (Div_exact exact_roots exact_good k f g Lf Lg).
  intros z Hz. apply Nz. apply (C43_roots (S k)); [lia|exact Hz].
Qed.
Print Assumptions C44_div.
Theorem C44_adj : forall k (f : list R), (1 <= k)%nat -> length f = (2 ^ k)%nat ->
  Adj exactR exact_roots f = Ok (radj (2 ^ k) f).
Proof. intros k f Hk Lf. exact (Adj_exact exact_roots exact_good k f Hk Lf). Qed.
Print Assumptions C44_adj.
(** radj is f(1/x): its value at a root z is the value of f at the inverse of z,
    the conjugate *)
Theorem C44_adj_meaning : forall k (f : list R) z, (1 <= k)%nat -> length f = (2 ^ k)%nat ->
  Cpow z (2 ^ k) = Copp C1 ->
  Cmul z (Cconj z) = C1 /\ ceval (radj (2 ^ k) f) z = ceval f (Cconj z).
Proof.
  intros k f z Hk L Hz. apply (C43_roots k Hk) in Hz as Hi.
  pose proof (roots_unit _ exact_good k z Hk Hi) as U. split; [exact U|].
  rewrite ceval_conj. apply (ceval_radj (2 ^ k) f z L Hz U).
Qed.
Print Assumptions C44_adj_meaning.
Theorem C44_sum : forall n (f g : list R), length f = n -> length g = n ->
  Add exactR f g = Ok (radd n f g) /\
  Sub exactR f g = Ok (map (fun i => nth i f 0 - nth i g 0) (seq 0 n)).
Proof.
  intros n f g Lf Lg. split; [apply (Add_exact n f g Lf Lg)|].
  unfold Sub. pose proof (Add_exact n f (Neg exactR g) Lf) as A. rewrite A.
  - f_equal. unfold radd. apply map_seq_ext. intros i Hi. unfold Neg. change (f_neg exactR) with Ropp.
    assert (N : nth i (map Ropp g) 0 = - nth i g 0).
    { rewrite (nth_indep _ 0 (- 0)) by (rewrite map_length; lia). apply map_nth. }
    change (nth i f 0 + nth i (map Ropp g) 0 = nth i f 0 - nth i g 0). rewrite N. ring.
  - unfold Neg. rewrite map_length. exact Lg.
Qed.
Print Assumptions C44_sum.
Example C44_nonvacuous : Mul exactR exact_roots [1; 2] [3; 4] = Ok [-5; 10] /\
  Adj exactR exact_roots [1; 2] = Ok [1; -2] /\
  exists d : list R, Div exactR exact_roots [-5; 10] [3; 4] = Ok d /\ rmul 2 d [3; 4] = [-5; 10].
Proof.
  split; [|split].
  - rewrite (C44_mul 1 [1; 2] [3; 4] ltac:(lia) eq_refl eq_refl). unfold rmul, rmul_coef. cbn.
    f_equal. f_equal; [ring|f_equal; ring].
  - rewrite (C44_adj 1 [1; 2] ltac:(lia) eq_refl). unfold radj. cbn. f_equal.
  - destruct (C44_div 1 [-5; 10] [3; 4] ltac:(lia) eq_refl eq_refl) as (d & E & _ & M).
    + intros z Hz H. apply (C43_roots 1 ltac:(lia)) in Hz. change (2 ^ 1)%nat with 2%nat in Hz.
      pose proof (gr_two _ exact_good) as T. rewrite T in Hz.
      destruct Hz as [<- | [<- | []]]; apply (f_equal fst) in H; unfold ceval in H; cbn in H; lra.
    + exists d. auto.
Qed.

(** C45, for matrices of any number of rows and columns.  [gram_entry] is
    sum_k B[i][k] * adj(B[j][k]) with the ring operations of the specification. *)
Theorem C45_gram : forall (B : list (list (list R))) cols k,
  (1 <= k)%nat -> (1 <= length B)%nat -> (1 <= cols)%nat -> shaped B cols (2 ^ k) ->
  Gram exactR exact_roots B =
  Ok (map (fun i => map (fun j => gram_entry (2 ^ k) cols B i j) (seq 0 (length B))) (seq 0 (length B))).
Proof. intros B cols k Hk Hr Hc HB. exact (Gram_exact exact_roots exact_good B cols k Hk Hr Hc HB). Qed.
Print Assumptions C45_gram.

Lemma ceval_radd n f g z : length f = n -> length g = n -> ceval (radd n f g) z = Cadd (ceval f z) (ceval g z).
Proof.
  intros Lf Lg. unfold ceval. rewrite radd_length, Lf, Lg.
  assert (A : forall m, (m <= n)%nat -> Csum m (fun i => Cmul (RtoC (nth i (radd n f g) 0)) (Cpow z i)) =
    Cadd (Csum m (fun i => Cmul (RtoC (nth i f 0)) (Cpow z i)))
         (Csum m (fun i => Cmul (RtoC (nth i g 0)) (Cpow z i)))).
  { induction m as [|m IH]; intros Hm; cbn [Csum]; [ring|]. rewrite IH by lia.
    unfold radd. rewrite nth_map_seq by lia.
    replace (RtoC (nth m f 0 + nth m g 0)) with (Cadd (RtoC (nth m f 0)) (RtoC (nth m g 0)))
      by (unfold Cadd, RtoC; cbn; apply f_equal2; ring).
    ring. }
  apply A. lia.
Qed.

Lemma Csum_shift n (f : nat -> Cx) : Csum (S n) f = Cadd (f 0%nat) (Csum n (fun i => f (S i))).
Proof.
  induction n as [|n IH]; [cbn [Csum]; ring|]. cbn [Csum] in *. rewrite IH. ring.
Qed.

Lemma ceval_fold n z (l : list (list R)) : Forall (fun p => length p = n) l -> forall a, length a = n ->
  ceval (fold_left (radd n) l a) z = Cadd (ceval a z) (Csum (length l) (fun k => ceval (nth k l []) z)).
Proof.
  induction 1 as [|p l Hp Hl IH]; intros a La; [cbn [fold_left length Csum]; ring|].
  cbn [fold_left length]. rewrite IH by apply radd_length. rewrite ceval_radd by assumption.
  rewrite Csum_shift. cbn [nth]. ring.
Qed.

Lemma Csum_0 n : Csum n (fun _ => C0) = C0.
Proof. induction n as [|n IH]; [reflexivity|]. cbn [Csum]. rewrite IH. ring. Qed.

Lemma ceval_zero n z : ceval (repeat 0 n) z = C0.
Proof.
  unfold ceval. rewrite repeat_length. erewrite Csum_ext; [apply (Csum_0 n)|].
  intros i Hi. cbn beta. replace (nth i (repeat 0 n) 0) with 0.
  - unfold Cmul, RtoC, C0. cbn [fst snd]. apply f_equal2; ring.
  - symmetry. clear Hi. revert i. induction n as [|n IH]; intros [|i]; cbn; auto.
Qed.

(** The same entry by entry at the roots: value of G[i][j] is the Hermitian
    product of rows i and j, so the matrix of values is Hermitian. *)
Theorem C45_hermitian : forall (B : list (list (list R))) cols k i j z,
  (1 <= k)%nat -> shaped B cols (2 ^ k) -> (i < length B)%nat -> (j < length B)%nat ->
  Cpow z (2 ^ k) = Copp C1 ->
  ceval (gram_entry (2 ^ k) cols B i j) z =
    Csum cols (fun l => Cmul (ceval (entry B i l) z) (Cconj (ceval (entry B j l) z))) /\
  ceval (gram_entry (2 ^ k) cols B j i) z = Cconj (ceval (gram_entry (2 ^ k) cols B i j) z).
Proof.
  intros B cols k i j z Hk HB Hi Hj Hz.
  assert (A : forall i j, (i < length B)%nat -> (j < length B)%nat ->
    ceval (gram_entry (2 ^ k) cols B i j) z =
    Csum cols (fun l => Cmul (ceval (entry B i l) z) (Cconj (ceval (entry B j l) z)))).
  { clear i j Hi Hj. intros i j Hi Hj. unfold gram_entry. rewrite ceval_fold.
    - rewrite ceval_zero, map_length, seq_length.
      replace (Cadd C0 _) with (Csum cols (fun l => ceval (nth l (map (fun k0 => rmul (2 ^ k) (entry B i k0)
        (radj (2 ^ k) (entry B j k0))) (seq 0 cols)) []) z)) by ring.
      apply Csum_ext. intros l Hl. rewrite nth_map_seq by exact Hl.
      destruct (shaped_entry B cols _ i l HB Hi Hl) as [_ Li].
      destruct (shaped_entry B cols _ j l HB Hj Hl) as [_ Lj].
      rewrite ceval_rmul by (auto; apply radj_length). f_equal.
      destruct (C44_adj_meaning k (entry B j l) z Hk Lj Hz) as [_ E]. rewrite E. apply ceval_conj.
    - apply Forall_forall. intros p Hp. apply in_map_iff in Hp. destruct Hp as (x & <- & _). apply rmul_length.
    - apply repeat_length. }
  split; [apply A; assumption|]. rewrite !A by assumption. rewrite Cconj_sum. apply Csum_ext.
  intros l _. rewrite Cconj_mul, Cconj_conj. ring.
Qed.
Print Assumptions C45_hermitian.
Example C45_nonvacuous : Gram exactR exact_roots [[[1; 2]; [3; 4]]; [[0; 1]; [2; 0]]]
  = Ok [[[30; 0]; [8; 7]]; [[8; -7]; [5; 0]]].
Proof.
  rewrite (C45_gram [[[1; 2]; [3; 4]]; [[0; 1]; [2; 0]]] 2 1).
  - unfold gram_entry, entry, rmul, rmul_coef, radj, radd. cbn. repeat f_equal; ring.
  - lia.
  - cbn; lia.
  - lia.
  - repeat constructor.
Qed.

(** C46.  [mat2] are 2x2 complex matrices; the statement is pointwise, at each
    of the n evaluation points. *)
Definition mat2 := ((Cx * Cx) * (Cx * Cx))%type.
Definition mmul (a b : mat2) : mat2 :=
  let '((a00, a01), (a10, a11)) := a in let '((b00, b01), (b10, b11)) := b in
  ((Cadd (Cmul a00 b00) (Cmul a01 b10), Cadd (Cmul a00 b01) (Cmul a01 b11)),
   (Cadd (Cmul a10 b00) (Cmul a11 b10), Cadd (Cmul a10 b01) (Cmul a11 b11))).
Definition mstar (a : mat2) : mat2 :=
  let '((a00, a01), (a10, a11)) := a in ((Cconj a00, Cconj a10), (Cconj a01, Cconj a11)).
(** the matrix of values at point i *)
Definition at_point (M : list (list (list Cx))) (i : nat) : mat2 :=
  let e r c := nth i (nth c (nth r M []) []) C0 in ((e 0 0, e 0 1), (e 1 0, e 1 1))%nat.

Theorem C46_ldl : forall (g00 g01 g10 g11 : list Cx) n,
  length g00 = n -> length g01 = n -> length g10 = n -> length g11 = n ->
  let G := [[g00; g01]; [g10; g11]] in
  (forall i, (i < n)%nat -> mstar (at_point G i) = at_point G i /\ nth i g00 C0 <> C0) ->
  exists L D, LdlFFT exactR G = Ok (L, D) /\
    forall i, (i < n)%nat ->
      (exists l, at_point L i = ((C1, C0), (l, C1))) /\
      (exists d0 d1, at_point D i = ((d0, C0), (C0, d1))) /\
      mmul (mmul (at_point L i) (at_point D i)) (mstar (at_point L i)) = at_point G i.
Proof.
  intros g00 g01 g10 g11 n L00 L01 L10 L11 G HG.
  destruct (Ldl_exact g00 g01 g10 g11 n L00 L10 L11) as (l10 & d11 & E & Ll & Ld & H).
  eexists _, _. split; [exact E|]. intros i Hi.
  assert (Rp : forall c : Cx, nth i (repeat c n) C0 = c).
  { intros c. clear - Hi. revert i Hi. induction n as [|n IH]; intros [|i] Hi; cbn; try lia; auto. apply IH. lia. }
  destruct (H i Hi) as [H1 H2]. destruct (HG i Hi) as [Hs Nz].
  unfold at_point in *. cbn [nth] in *. unfold G in *. cbn [nth] in *. rewrite !Rp.
  set (a := nth i g00 C0) in *. set (b := nth i g01 C0) in *. set (c := nth i g10 C0) in *. set (d := nth i g11 C0) in *.
  set (l := nth i l10 C0) in *. set (e := nth i d11 C0) in *.
  split; [exists l; reflexivity|]. split; [exists a, e; reflexivity|].
  unfold mstar in Hs. injection Hs as S1 S2 S3 S4.
  assert (Er : Cconj a = a) by exact S1. assert (Eb : Cconj c = b) by exact S2.
  assert (La : Cmul l a = c) by (rewrite H1; apply Cdiv_mul; exact Nz).
  assert (Lb : Cmul a (Cconj l) = b).
  { rewrite <- Eb, <- La, Cconj_mul, Er. ring. }
  assert (J1 : Cconj C1 = C1) by (unfold Cconj, C1; cbn; apply f_equal2; ring).
  assert (J0 : Cconj C0 = C0) by (unfold Cconj, C0; cbn; apply f_equal2; ring).
  unfold mmul, mstar. rewrite J1, J0.
  repeat apply f_equal2.
  - ring.
  - transitivity (Cmul a (Cconj l)); [ring|exact Lb].
  - transitivity (Cmul l a); [ring|exact La].
  - rewrite H2. ring.
Qed.
Print Assumptions C46_ldl.
Example C46_nonvacuous :
  let G := [[[(2, 0)]; [(0, -1)]]; [[(0, 1)]; [(3, 0)]]] : list (list (list Cx)) in
  mstar (at_point G 0) = at_point G 0 /\
  exists L D, LdlFFT exactR G = Ok (L, D) /\
    mmul (mmul (at_point L 0) (at_point D 0)) (mstar (at_point L 0)) = at_point G 0.
Proof.
  assert (S : mstar (at_point [[[(2, 0)]; [(0, -1)]]; [[(0, 1)]; [(3, 0)]]] 0)
              = at_point [[[(2, 0)]; [(0, -1)]]; [[(0, 1)]; [(3, 0)]]] 0).
  { unfold mstar, at_point, Cconj. cbn. repeat apply f_equal2; ring. }
  split; [exact S|].
  destruct (C46_ldl [(2, 0)] [(0, -1)] [(0, 1)] [(3, 0)] 1 eq_refl eq_refl eq_refl eq_refl) as (L & D & E & H).
  - intros [|i] Hi; [|lia]. split; [exact S|]. cbn. intros H. apply (f_equal fst) in H. cbn in H. lra.
  - exists L, D. split; [exact E|]. apply H. lia.
Qed.

(** C49.  For n = 1 the transform of a constant is the constant. *)
Definition transform_of (k : nat) (p : list R) (v : list Cx) : Prop :=
  match k with O => v = map RtoC p | S _ => FFT exactR exact_roots p = Ok v end.
Theorem C49_integer : forall k T (t0 t1 : list Cx) fuel,
  matching k T -> length t0 = (2 ^ k)%nat -> length t1 = (2 ^ k)%nat -> (k < fuel)%nat ->
  exists z0 z1 (a b : list Z), FfnpFFT exactR exact_roots fuel [t0; t1] T = Ok [z0; z1] /\
    length a = (2 ^ k)%nat /\ length b = (2 ^ k)%nat /\
    transform_of k (map IZR a) z0 /\ transform_of k (map IZR b) z1.
Proof.
  intros k T t0 t1 fuel HT L0 L1 Hf.
  destruct (Ffnp_exact exact_roots exact_good k T t0 t1 fuel HT L0 L1 Hf) as (a & b & La & Lb & E).
  eexists _, _, a, b. split; [exact E|]. repeat split; auto.
  all: destruct k as [|k]; [reflexivity|]; apply C43_fft; [lia|rewrite map_length; assumption].
Qed.
Print Assumptions C49_integer.
Example C49_nonvacuous :
  let T := [IPoly (FO := exactR) [(1, 0); (1, 0)]; ITree []; ITree []] in
  matching 1 T /\ exists z0 z1, FfnpFFT exactR exact_roots 2 [[(1, 2); (3, 4)]; [(5, 6); (7, 8)]] T = Ok [z0; z1].
Proof.
  intros T. assert (M : matching 1 T).
  { cbn. do 3 eexists. split; [reflexivity|]. split; [cbn; lia|split; exact I]. }
  split; [exact M|].
  destruct (C49_integer 1 T [(1, 2); (3, 4)] [(5, 6); (7, 8)] 2 M eq_refl eq_refl ltac:(lia)) as (z0 & z1 & _ & _ & E & _).
  exists z0, z1. exact E.
Qed.
