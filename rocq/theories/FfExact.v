(** ffsampling.go in exact arithmetic: the Gram matrix, the LDL decomposition
    and the nearest-plane algorithm. *)
From Coq Require Import Lra.
From Verif Require Import GoBase Util BaseProofs PolyRing Float Fft FftShape SpecFft ExactReal FftProofs
  Ntrugen Ffsampling.

Lemma foldM_Ok {A B} (f : A -> B -> res A) (g : A -> B -> A) (P : A -> Prop) l :
  (forall a b, P a -> In b l -> f a b = Ok (g a b) /\ P (g a b)) ->
  forall a, P a -> foldM f l a = Ok (fold_left g l a) /\ P (fold_left g l a).
Proof.
  induction l as [|b l IH]; intros H a Pa; [split; [reflexivity|exact Pa]|].
  cbn [foldM fold_left]. destruct (H a b Pa ltac:(left; reflexivity)) as [-> P']. cbn [bind].
  apply IH; [|exact P']. intros; apply H; auto. right; assumption.
Qed.

Section Exact.
Context (roots : nat -> list Cx) (G : good_roots roots).

(** ** Gram, ffsampling.go:32-58 *)
Lemma radd_length n f g : length (radd n f g) = n.
Proof. unfold radd. now rewrite map_length, seq_length. Qed.

Lemma Add_exact n (f g : list R) : length f = n -> length g = n -> Add exactR f g = Ok (radd n f g).
Proof.
  intros Lf Lg. pose proof (Add_ok exactR f g) as A. cbn [f_add exactR] in A. change (F exactR) with R in *.
  rewrite A by lia. unfold radd. rewrite Lf. reflexivity.
Qed.

(** The matrix B has [rows] rows of [cols] polynomials of degree below 2^k. *)
Definition shaped (B : list (list (list R))) (cols n : nat) : Prop :=
  Forall (fun row => length row = cols /\ Forall (fun p => length p = n) row) B.
Definition entry (B : list (list (list R))) (i j : nat) : list R := nth j (nth i B []) [].
(** the specification: sum_k B[i][k] * adj(B[j][k]) in R[x]/(x^n+1) *)
Definition gram_entry (n cols : nat) (B : list (list (list R))) (i j : nat) : list R :=
  fold_left (radd n)
    (map (fun k => rmul n (entry B i k) (radj n (entry B j k))) (seq 0 cols)) (repeat 0%R n).

Lemma shaped_entry B cols n i j : shaped B cols n -> (i < length B)%nat -> (j < cols)%nat ->
  idx2 B i j = Ok (entry B i j) /\ length (entry B i j) = n.
Proof.
  intros H Hi Hj. unfold shaped in H. rewrite Forall_forall in H.
  destruct (H (nth i B []) (nth_In _ _ Hi)) as [L A]. rewrite Forall_forall in A.
  unfold idx2, entry. rewrite (idx_nth B i []) by exact Hi. cbn [bind].
  split; [apply idx_nth; lia|]. apply A, nth_In. lia.
Qed.

Lemma Gram_exact B cols k : (1 <= k)%nat -> (1 <= length B)%nat -> (1 <= cols)%nat ->
  shaped B cols (2 ^ k) ->
  Gram exactR roots B =
  Ok (map (fun i => map (fun j => gram_entry (2 ^ k) cols B i j) (seq 0 (length B))) (seq 0 (length B))).
Proof.
  intros Hk Hr Hc HB. unfold Gram. change (F exactR) with R.
  assert (Lc : length (nth 0 B []) = cols).
  { unfold shaped in HB. rewrite Forall_forall in HB. apply (HB (nth 0 B [])), nth_In. lia. }
  rewrite (idx_nth B 0 []) by lia. cbn [bind]. rewrite (idx_nth _ 0 []) by lia. cbn [bind].
  destruct (shaped_entry B cols (2 ^ k) 0 0 HB ltac:(lia) ltac:(lia)) as [_ L0]. unfold entry in L0.
  change (F exactR) with R in *. rewrite L0, Lc.
  apply mapM_Ok. intros i Hi. apply mapM_Ok. intros j Hj. apply in_seq in Hi, Hj.
  unfold gram_entry.
  pose proof (foldM_Ok
    (fun g k0 => bik <- idx2 B i k0 ;; bjk <- idx2 B j k0 ;; a <- Adj exactR roots bjk ;;
                 p <- Mul exactR roots bik a ;; Add exactR g p)
    (fun g k0 => radd (2 ^ k) g (rmul (2 ^ k) (entry B i k0) (radj (2 ^ k) (entry B j k0))))
    (fun g => length g = (2 ^ k)%nat) (seq 0 cols)) as M.
  destruct (M) with (a := repeat 0%R (2 ^ k)) as [E _].
  - intros g k0 Lg Hk0. apply in_seq in Hk0.
    destruct (shaped_entry B cols _ i k0 HB ltac:(lia) ltac:(lia)) as [-> Li]. cbn [bind].
    destruct (shaped_entry B cols _ j k0 HB ltac:(lia) ltac:(lia)) as [-> Lj]. cbn [bind].
    pose proof (Adj_exact roots G k (entry B j k0) Hk Lj) as A. rewrite A. cbn [bind].
    pose proof (Mul_exact roots G k (entry B i k0) (radj (2 ^ k) (entry B j k0)) Hk Li (radj_length _ _)) as P.
    rewrite P. cbn [bind]. split; [|apply radd_length].
    apply Add_exact; [exact Lg|apply rmul_length].
  - apply repeat_length.
  - refine (eq_trans E _). f_equal. generalize (repeat 0%R (2 ^ k)). clear.
    induction (seq 0 cols) as [|x l IH]; intros a; [reflexivity|]. cbn [map fold_left]. apply IH.
Qed.

(** ** LdlFFT, ffsampling.go:85-108 *)
Lemma Ldl_exact (g00 g01 g10 g11 : list Cx) n :
  length g00 = n -> length g10 = n -> length g11 = n ->
  exists L10 D11 : list Cx,
    LdlFFT exactR [[g00; g01]; [g10; g11]] =
      Ok ([[repeat C1 n; repeat C0 n]; [L10; repeat C1 n]],
          [[g00; repeat C0 n]; [repeat C0 n; D11]]) /\
    length L10 = n /\ length D11 = n /\
    forall i, (i < n)%nat ->
      nth i L10 C0 = Cdiv (nth i g10 C0) (nth i g00 C0) /\
      nth i D11 C0 = Csub (nth i g11 C0)
        (Cmul (Cmul (nth i L10 C0) (Cconj (nth i L10 C0))) (nth i g00 C0)).
Proof.
  intros L0 L1 L2. unfold LdlFFT. cbn [idx2 idx nth_error bind length].
  change (cplx exactR) with Cx. change (F exactR) with R in *.
  cbn [Nat.eqb negb orb].
  set (q := map (fun i => Cdiv (nth i g10 C0) (nth i g00 C0)) (seq 0 n)).
  assert (Eq : DivFFT exactR g10 g00 = Ok q).
  { pose proof (DivFFT_ok exactR g10 g00) as A. change (cplx exactR) with Cx in A. rewrite A by lia.
    unfold q. now rewrite L1. }
  rewrite Eq. cbn [bind].
  assert (Lq : length q = n) by (unfold q; now rewrite map_length, seq_length).
  set (m1 := map (fun i => Cmul (nth i q C0) (Cconj (nth i q C0))) (seq 0 n)).
  assert (E1 : MulFFT exactR q (AdjFFT exactR q) = Ok m1).
  { pose proof (MulFFT_ok exactR q (AdjFFT exactR q)) as A. change (cplx exactR) with Cx in *.
    rewrite A by (unfold AdjFFT; rewrite map_length; apply Nat.le_refl). change (cplx exactR) with Cx. rewrite Lq. unfold m1.
    f_equal. apply map_seq_ext. intros i Hi. unfold AdjFFT.
    change (c0 exactR) with C0.
    change (@eq Cx (Cmul (nth i q C0) (nth i (map Cconj q) C0)) (Cmul (nth i q C0) (Cconj (nth i q C0)))).
    f_equal. rewrite (nth_indep _ C0 (Cconj C0)) by (rewrite map_length; lia). apply map_nth. }
  rewrite E1. cbn [bind].
  assert (Lm1 : length m1 = n) by (unfold m1; now rewrite map_length, seq_length).
  set (m2 := map (fun i => Cmul (nth i m1 C0) (nth i g00 C0)) (seq 0 n)).
  assert (E2 : MulFFT exactR m1 g00 = Ok m2).
  { pose proof (MulFFT_ok exactR m1 g00) as A. change (cplx exactR) with Cx in *. rewrite A by lia.
    unfold m2. now rewrite Lm1. }
  rewrite E2. cbn [bind].
  assert (Lm2 : length m2 = n) by (unfold m2; now rewrite map_length, seq_length).
  set (d := map (fun i => Csub (nth i g11 C0) (nth i m2 C0)) (seq 0 n)).
  assert (E3 : SubFFT exactR g11 m2 = Ok d).
  { pose proof (SubFFT_ok exactR g11 m2) as A. change (cplx exactR) with Cx in *. rewrite A by lia.
    unfold d. change (cplx exactR) with Cx. rewrite L2. f_equal. apply map_seq_ext. intros i Hi.
    change (c0 exactR) with C0. unfold NegFFT.
    change (@eq Cx (Cadd (nth i g11 C0) (nth i (map Copp m2) C0)) (Csub (nth i g11 C0) (nth i m2 C0))).
    assert (N : nth i (map Copp m2) C0 = Copp (nth i m2 C0)).
    { rewrite (nth_indep _ C0 (Copp C0)) by (pose proof (map_length Copp m2) as ML; lia). apply map_nth. }
    rewrite N. ring. }
  rewrite E3. cbn [bind]. exists q, d. split.
  - change (cplx exactR) with Cx. rewrite L0. reflexivity.
  - split; [exact Lq|]. split; [unfold d; now rewrite map_length, seq_length|].
    intros i Hi. split.
    + unfold q. now rewrite nth_map_seq.
    + unfold d. rewrite nth_map_seq by exact Hi. unfold m2. rewrite nth_map_seq by exact Hi.
      unfold m1. now rewrite nth_map_seq by exact Hi.
Qed.

(** ** FfnpFFT, ffsampling.go:211-228 *)
(** The transform; for degree 0 polynomials the constant itself. *)
Definition trans (k : nat) (f : list R) : list Cx :=
  match k with O => map RtoC f | S _ => map (ceval f) (roots (2 ^ k)%nat) end.

Lemma trans_length k f : length f = (2 ^ k)%nat -> length (trans k f) = (2 ^ k)%nat.
Proof.
  intros L. destruct k as [|k]; cbn [trans]; rewrite map_length; [exact L|].
  apply (gr_len _ G). lia.
Qed.

Definition inter (a b : list R) (m : nat) : list R :=
  interleave (fun i => nth i a 0%R) (fun i => nth i b 0%R) m.

Lemma MergeFFT_trans k (a b : list R) : length a = (2 ^ k)%nat -> length b = (2 ^ k)%nat ->
  MergeFFT exactR roots (trans k a) (trans k b) = Ok (trans (S k) (inter a b (2 ^ k))).
Proof.
  intros La Lb.
  pose proof (gr_len _ G (S k) ltac:(lia)) as LR. rewrite pow2_S in LR.
  pose proof (trans_length k a La) as Ta. pose proof (trans_length k b Lb) as Tb.
  pose proof (MergeFFT_ok exactR roots (trans k a) (trans k b) (2 ^ k)) as M.
  change (cplx exactR) with Cx in M. rewrite M by lia. clear M. f_equal. unfold trans at 5. fold (trans (S k)).
  set (f := inter a b (2 ^ k)).
  assert (Lf : length f = (2 * 2 ^ k)%nat) by apply interleave_length.
  change (c0 exactR) with C0. rewrite pow2_S.
  destruct k as [|k].
  - change (2 * 2 ^ 0)%nat with 2%nat. rewrite (gr_two _ G).
    destruct a as [|x [|? ?]]; cbn [length] in La; try (cbn in La; lia).
    destruct b as [|y [|? ?]]; cbn [length] in Lb; try (cbn in Lb; lia).
    unfold f, inter. cbn. unfold ceval. cbn [length Csum Cpow nth].
    unfold Cadd, Cmul, Csub, Copp, RtoC, C0, C1, Ci, c_add, c_sub, c_mul. cbn [f_add f_sub f_mul exactR fst snd].
    f_equal; [|f_equal]; apply f_equal2;
      match goal with |- @eq _ ?a ?b => change (@eq R a b) end; ring.
  - pose proof (gr_len _ G (S k) ltac:(lia)) as LR1.
    assert (Hd : Nat.div (length f) 2 = (2 ^ S k)%nat) by (rewrite Lf, Nat.mul_comm, Nat.div_mul; lia).
    assert (Ee : evens 0%R f = a).
    { apply nth_ext with (d := 0%R) (d' := 0%R); [rewrite evens_length; lia|].
      intros i Hi. rewrite evens_length, Hd in Hi. rewrite evens_nth by lia. exact (interleave_even (fun i => nth i a 0%R) (fun i => nth i b 0%R) _ i 0%R Hi). }
    assert (Eo : odds 0%R f = b).
    { apply nth_ext with (d := 0%R) (d' := 0%R); [rewrite odds_length; lia|].
      intros i Hi. rewrite odds_length, Hd in Hi. rewrite odds_nth by lia. exact (interleave_odd (fun i => nth i a 0%R) (fun i => nth i b 0%R) _ i 0%R Hi). }
    apply (list_eq_pairs _ _ (2 ^ S k)%nat C0).
    + apply interleave_length.
    + rewrite map_length. exact LR.
    + intros i Hi. rewrite interleave_even, interleave_odd by exact Hi.
      cbn [trans]. rewrite !nth_map_ceval by lia.
      pose proof (gr_sqr _ G (S k) i ltac:(lia) Hi) as Q.
      pose proof (gr_opp _ G (S k) i ltac:(lia) Hi) as O.
      rewrite !(ceval_even_odd (2 ^ S k) f) by exact Lf. rewrite Ee, Eo.
      rewrite O. set (w := nth (2 * i) (roots (2 * 2 ^ S k)%nat) C0) in *.
      replace (Cmul (Copp w) (Copp w)) with (Cmul w w) by ring. rewrite Q.
      set (A := ceval a _). set (B := ceval b _).
      split.
      * change (@eq Cx (Cadd (Cmul w B) A) (Cadd A (Cmul w B))). ring.
      * change (@eq Cx (Csub A (Cmul w B)) (Cadd A (Cmul (Copp w) B))). ring.
Qed.

(** Trees of the shape the recursion needs: the polynomial of a node must have
    at least 2^k values. *)
Fixpoint matching (k : nat) (T : list (iface exactR)) : Prop :=
  match k with
  | O => True
  | S k' => exists l10 T0 T1, T = [IPoly l10; ITree T0; ITree T1] /\
      (2 ^ k <= length l10)%nat /\ matching k' T0 /\ matching k' T1
  end.

Lemma Split_list_ok k (t : list Cx) : length t = (2 ^ S k)%nat ->
  exists a b : list Cx, Split_list exactR roots t = Ok [a; b] /\
    length a = (2 ^ k)%nat /\ length b = (2 ^ k)%nat.
Proof.
  intros L. pose proof (gr_len _ G (S k) ltac:(lia)) as LR. rewrite pow2_S in LR, L.
  unfold Split_list.
  pose proof (SplitFFT_ok exactR roots t (2 ^ k)) as S. change (cplx exactR) with Cx in S.
  rewrite S by lia. cbn [bind fst snd]. eexists _, _. split; [reflexivity|].
  split; rewrite map_length, seq_length; reflexivity.
Qed.

Lemma inter_IZR (a b : list Z) m : length a = m -> length b = m ->
  inter (map IZR a) (map IZR b) m = map IZR (interleave (fun i => nth i a 0%Z) (fun i => nth i b 0%Z) m).
Proof.
  intros La Lb. apply (list_eq_pairs _ _ m 0%R); [apply interleave_length|rewrite map_length; apply interleave_length|].
  intros i Hi. unfold inter. rewrite interleave_even, interleave_odd by exact Hi.
  rewrite !(map_nth IZR _ 0%Z). rewrite interleave_even, interleave_odd by exact Hi. auto.
Qed.

Lemma Ffnp_exact k : forall T (t0 t1 : list Cx) fuel, matching k T ->
  length t0 = (2 ^ k)%nat -> length t1 = (2 ^ k)%nat -> (k < fuel)%nat ->
  exists a b : list Z, length a = (2 ^ k)%nat /\ length b = (2 ^ k)%nat /\
    FfnpFFT exactR roots fuel [t0; t1] T = Ok [trans k (map IZR a); trans k (map IZR b)].
Proof.
  induction k as [|k IH]; intros T t0 t1 fuel HT L0 L1 Hf; (destruct fuel as [|fuel]; [lia|]); cbn [FfnpFFT idx nth_error bind];
    change (cplx exactR) with Cx.
  - change (2 ^ 0)%nat with 1%nat in *. rewrite L0. cbn [Nat.ltb Nat.leb Nat.eqb].
    destruct t0 as [|x [|? ?]]; cbn [length] in L0; try lia.
    destruct t1 as [|y [|? ?]]; cbn [length] in L1; try lia.
    cbn [idx2 idx nth_error bind].
    exists [Rround (fst x)], [Rround (fst y)]. repeat split.
  - destruct HT as (l10 & T0 & T1 & -> & Hl & M0 & M1).
    assert (P : (1 < 2 ^ S k)%nat) by (rewrite pow2_S; pose proof (pow2_ge1 k); lia).
    rewrite L0. destruct (Nat.ltb_spec 1 (2 ^ S k)); [|lia].
    cbn [idx nth_error bind as_poly as_tree].
    destruct (Split_list_ok k t1 L1) as (s10 & s11 & -> & Ls10 & Ls11). cbn [bind].
    destruct (IH T1 s10 s11 fuel M1 Ls10 Ls11 ltac:(lia)) as (a1 & b1 & La1 & Lb1 & ->). cbn [bind].
    unfold MergeFFT_list. cbn [idx nth_error bind].
    rewrite MergeFFT_trans by (rewrite map_length; assumption). cbn [bind].
    rewrite inter_IZR by assumption.
    set (z1 := interleave _ _ _).
    assert (Lz1 : length z1 = (2 ^ S k)%nat) by apply interleave_length.
    pose proof (trans_length (S k) (map IZR z1) ltac:(rewrite map_length; exact Lz1)) as Lt1.
    pose proof (SubFFT_ok exactR t1 (trans (S k) (map IZR z1))) as D. change (cplx exactR) with Cx in D.
    rewrite D by lia. clear D. cbn [bind]. change (cplx exactR) with Cx. rewrite L1.
    set (d := map _ (seq 0 _)). assert (Ld : length d = (2 ^ S k)%nat) by (unfold d; now rewrite map_length, seq_length).
    pose proof (MulFFT_ok exactR d l10) as D. change (cplx exactR) with Cx in D, Hl.
    rewrite D by lia. clear D. cbn [bind]. change (cplx exactR) with Cx. rewrite Ld.
    set (m := map _ (seq 0 _)). assert (Lm : length m = (2 ^ S k)%nat) by (unfold m; now rewrite map_length, seq_length).
    pose proof (AddFFT_ok exactR t0 m) as D. change (cplx exactR) with Cx in D.
    rewrite D by lia. clear D. cbn [bind]. change (cplx exactR) with Cx. rewrite L0.
    set (t0b := map _ (seq 0 _)). assert (Lt : length t0b = (2 ^ S k)%nat) by (unfold t0b; now rewrite map_length, seq_length).
    destruct (Split_list_ok k t0b Lt) as (s00 & s01 & -> & Ls00 & Ls01). cbn [bind].
    destruct (IH T0 s00 s01 fuel M0 Ls00 Ls01 ltac:(lia)) as (a0 & b0 & La0 & Lb0 & ->). cbn [bind idx nth_error].
    rewrite MergeFFT_trans by (rewrite map_length; assumption). cbn [bind].
    rewrite inter_IZR by assumption.
    exists (interleave (fun i => nth i a0 0%Z) (fun i => nth i b0 0%Z) (2 ^ k)), z1.
    split; [apply interleave_length|]. split; [exact Lz1|]. reflexivity.
Qed.
End Exact.
