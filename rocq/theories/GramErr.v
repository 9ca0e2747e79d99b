(** The Gram matrix in binary64: distance from the exact Gram matrix. *)
From Coq Require Import Reals Lra Lia ZArith List.
From Flocq Require Import Core BinarySingleNaN.
From Verif Require Import GoBase Util BaseProofs Float FftTables Fft FftShape SpecFft ExactReal FftProofs
  Binary64 B64Proofs FloatErr FftErr Ntrugen Ffsampling FfExact.
Local Open Scope R_scope.

(** 2^100 *)
Definition cap : R := 1267650600228229401496703205376.
Lemma cap_pow : cap = 2 ^ 100.
Proof. rewrite pow_IZR. reflexivity. Qed.
Lemma cap_big : 100000 * (1024 * 1024 * 1024 * (cap * cap)) <= big.
Proof.
  unfold big. apply Rle_trans with (bpow radix2 300); [|apply bpow_le; lia].
  change (bpow radix2 300) with (IZR (2 ^ 300)). unfold cap. rewrite <- !mult_IZR. apply IZR_le.
  vm_compute. discriminate.
Qed.
Lemma pow2_le1024 k : (k <= 10)%nat -> 2 ^ k <= 1024.
Proof. intros H. replace 1024 with (2 ^ 10) by ring. apply Rle_pow; [lra|exact H]. Qed.

Section Gram64.
Context (ci cu : b64 -> Z).
Notation FO := (binary64 ci cu).
Notation roots := (roots_dict FO).
Notation near := (near ci cu).

Definition bentry (B : list (list (list b64))) (i j : nat) : list b64 := nth j (nth i B []) [].
Definition bshaped (B : list (list (list b64))) (cols n : nat) (X : R) : Prop :=
  Forall (fun row => length row = cols /\
    Forall (fun p => length p = n /\ Forall (fun x => is_finite x = true /\ Rabs (B2R x) <= X) p) row) B.
Definition toR (B : list (list (list b64))) : list (list (list R)) := map (map (map B2R)) B.

Lemma bounded_near n X p : length p = n -> Forall (fun x => is_finite x = true /\ Rabs (B2R x) <= X) p ->
  near n 0 X p (map B2R p).
Proof.
  intros L H. apply near_exact; [exact L| |]; intros i Hi;
    apply (proj1 (Forall_nth _ _) H i (f0 FO) ltac:(rewrite L; exact Hi)).
Qed.
Lemma toR_entry B i j : entry (toR B) i j = map B2R (bentry B i j).
Proof.
  unfold entry, toR, bentry. set (f := @B2R 53 1024). change (@nil (list R)) with (map (map f) []). rewrite map_nth.
  change (@nil R) with (map f []) at 1. apply map_nth.
Qed.
Lemma bshaped_entry B cols n X i j : bshaped B cols n X -> (i < length B)%nat -> (j < cols)%nat ->
  idx2 B i j = Ok (bentry B i j) /\ near n 0 X (bentry B i j) (entry (toR B) i j).
Proof.
  intros H Hi Hj. unfold bshaped in H. rewrite Forall_forall in H.
  destruct (H (nth i B []) (nth_In _ _ Hi)) as [L A]. rewrite Forall_forall in A.
  rewrite toR_entry. unfold idx2, bentry. rewrite (idx_nth B i []) by exact Hi. cbn [bind].
  assert (Hj' : (j < length (nth i B []))%nat) by (refine (eq_ind_r (fun m => (j < m)%nat) Hj L)).
  split; [apply idx_nth, Hj'|]. destruct (A (nth j (nth i B []) [])) as [A1 A2]; [apply nth_In, Hj'|].
  apply bounded_near; assumption.
Qed.

(** sums of approximate polynomials *)
Lemma Add_err n e1 e2 B1 B2 X f g v w : near n e1 B1 f v -> near n e2 B2 g w ->
  B1 + B2 + e1 + e2 <= X -> 1 <= X <= big ->
  exists p, Add FO f g = Ok p /\ near n (e1 + e2 + X * u53) (B1 + B2) p (radd n v w).
Proof.
  intros (Lf & Lv & Nf) (Lg & Lw & Ng) HX HB.
  eexists. split; [apply (Add_ok FO f g (eq_trans Lf (eq_sym Lg)))|].
  split; [rewrite map_length, seq_length; exact Lf|]. split; [apply radd_length|]. intros i Hi.
  change (length (f : list (F FO))) with (length (f : list b64)). rewrite Lf.
  rewrite (nth_map_seq _ n i (f0 FO) Hi). unfold radd. rewrite (nth_map_seq _ n i 0 Hi).
  destruct (Nf i Hi) as [F1 F2]. destruct (Ng i Hi) as [G1 G2].
  pose proof (Rabs_triang (nth i v 0) (nth i w 0)) as T. split; [|lra].
  apply add_approx; auto. lra.
Qed.

Lemma gram_step B cols k X i j c : (1 <= k <= 10)%nat -> 1 <= X <= cap -> bshaped B cols (2 ^ k) X ->
  (i < length B)%nat -> (j < length B)%nat -> (c < cols)%nat ->
  exists p, (bik <- idx2 B i c ;; bjk <- idx2 B j c ;; a <- Adj FO roots bjk ;; Mul FO roots bik a) = Ok p /\
    near (2 ^ k) (121 * (2 ^ k * 2 ^ k * 2 ^ k * (X * X) * (INR k * u53))) (2 ^ k * (X * X)) p
      (rmul (2 ^ k) (entry (toR B) i c) (radj (2 ^ k) (entry (toR B) j c))).
Proof.
  intros Hk HX HB Hi Hj Hc.
  destruct (bshaped_entry B cols _ X i c HB Hi Hc) as [E1 N1].
  destruct (bshaped_entry B cols _ X j c HB Hj Hc) as [E2 N2].
  rewrite E1. cbn [bind]. rewrite E2. cbn [bind].
  pose proof (small_ku k Hk) as KU. pose proof (pow2_pos k) as PP. pose proof (pow2_le1024 k ltac:(lia)) as PL.
  pose proof cap_big as CB.
  assert (P2 : 2 <= 2 ^ k) by (replace 2 with (2 ^ 1) at 1 by ring; apply Rle_pow; [lra|lia]).
  set (N := 2 ^ k) in *. set (ku := INR k * u53) in *.
  assert (XX : 1 <= X * X <= cap * cap).
  { split; [replace 1 with (1 * 1) by ring|]; apply Rmult_le_compat; lra. }
  assert (XC : X <= X * X) by (rewrite <- (Rmult_1_r X) at 1; apply Rmult_le_compat_l; lra).
  assert (NN : 4 <= N * N <= 1024 * 1024) by (split; [replace 4 with (2 * 2) by ring|]; apply Rmult_le_compat; lra).
  assert (NNX : N * N * (X * X) <= 1024 * 1024 * (cap * cap)) by (apply Rmult_le_compat; lra).
  assert (NNX1 : 4 * 1 <= N * N * (X * X)) by (apply Rmult_le_compat; lra).
  assert (NX : N * X <= N * N * (X * X)).
  { replace (N * N * (X * X)) with ((N * X) * (N * X)) by ring. rewrite <- (Rmult_1_r (N * X)) at 1.
    apply Rmult_le_compat_l; [apply Rmult_le_pos; lra|]. replace 1 with (1 * 1) by ring. apply Rmult_le_compat; lra. }
  assert (N2' : near (2 ^ k) (X * 0) X (bentry B j c) (entry (toR B) j c)) by (rewrite Rmult_0_r; exact N2).
  assert (N1' : near (2 ^ k) (X * 0) X (bentry B i c) (entry (toR B) i c)) by (rewrite Rmult_0_r; exact N1).
  destruct (Adj_err ci cu k _ _ 0 X Hk N2' ltac:(lra) ltac:(lra)) as (a & EA & NA).
  { fold N. lra. }
  rewrite EA. cbn [bind]. fold N in NA. fold ku in NA.
  replace (N * X * (0 + 70 * ku)) with (X * (N * (70 * ku))) in NA by ring.
  assert (S1 : 0 <= N * (70 * ku) <= / 1000).
  { split; [apply Rmult_le_pos; lra|]. apply Rle_trans with (1024 * (70 * ku)); [apply Rmult_le_compat_r; lra|]. lra. }
  destruct (Mul_err ci cu k _ _ _ _ 0 (N * (70 * ku)) X X Hk N1' NA ltac:(lra) ltac:(lra) ltac:(lra) S1) as (p & EP & NP).
  { fold N. replace (N * X * (N * X)) with (N * N * (X * X)) by ring. lra. }
  fold N in NP. fold ku in NP.
  exists p. split; [exact EP|]. destruct NP as (LP & LP' & NP). split; [exact LP|]. split; [exact LP'|].
  intros x Hx. destruct (NP x Hx) as [A _]. split.
  - eapply approx_le; [|exact A].
    replace (N * X * (N * X) * (101 / 100 * (0 + N * (70 * ku)) + 100 * ku))
      with (N * N * (X * X) * ku * (101 / 100 * 70 * N + 100)) by ring.
    replace (121 * (N * N * N * (X * X) * ku)) with (N * N * (X * X) * ku * (121 * N)) by ring.
    apply Rmult_le_compat_l; [|lra]. apply Rmult_le_pos; lra.
  - unfold N. rewrite <- (INR_pow2 k). destruct N1 as (_ & L1 & B1). destruct NA as (_ & L2 & B2).
    apply rmul_bound; auto; [lra| |]; intros y Hy; [apply B1, Hy|apply B2, Hy].
Qed.

(** the error of one entry *)
Definition gram_err (k cols : nat) (X : R) : R :=
  INR cols * ((121 + INR cols) * (2 ^ k * 2 ^ k * 2 ^ k * (X * X) * (INR k * u53))).

Lemma Gram_err B cols k X : (1 <= k <= 10)%nat -> 1 <= X <= cap -> (1 <= length B)%nat -> (1 <= cols <= 1000)%nat ->
  bshaped B cols (2 ^ k) X ->
  exists G, Gram FO roots B = Ok G /\ length G = length B /\ forall i, (i < length B)%nat ->
    length (nth i G []) = length B /\ forall j, (j < length B)%nat ->
    near (2 ^ k) (gram_err k cols X) (INR cols * (2 ^ k * (X * X))) (bentry G i j)
      (gram_entry (2 ^ k) cols (toR B) i j).
Proof.
  intros Hk HX Hr Hc HB. unfold Gram. change (F FO) with b64.
  assert (Lc : length (nth 0 B []) = cols).
  { unfold bshaped in HB. rewrite Forall_forall in HB. apply (HB (nth 0 B [])), nth_In. lia. }
  rewrite (idx_nth B 0 []) by lia. cbn [bind]. rewrite (idx_nth _ 0 []) by lia. cbn [bind].
  destruct (bshaped_entry B cols (2 ^ k) X 0 0 HB ltac:(lia) ltac:(lia)) as [_ [L0 _]]. unfold bentry in L0.
  rewrite L0, Lc.
  assert (ONE : forall i j, (i < length B)%nat -> (j < length B)%nat -> exists g,
    foldM (fun g k0 => bik <- idx2 B i k0 ;; bjk <- idx2 B j k0 ;; a <- Adj FO roots bjk ;;
                 p <- Mul FO roots bik a ;; Add FO g p) (seq 0 cols) (repeat (f_of_int FO 0) (2 ^ k)) = Ok g /\
    near (2 ^ k) (gram_err k cols X) (INR cols * (2 ^ k * (X * X))) g (gram_entry (2 ^ k) cols (toR B) i j)).
  { intros i j Hi Hj. unfold gram_err, gram_entry.
    pose proof (small_ku k Hk) as KU. pose proof (pow2_pos k) as PP. pose proof (pow2_le1024 k ltac:(lia)) as PL.
    pose proof cap_big as CB. pose proof (INR_le10 k Hk) as K10.
    assert (P2 : 2 <= 2 ^ k) by (replace 2 with (2 ^ 1) at 1 by ring; apply Rle_pow; [lra|lia]).
    assert (HC : 1 <= INR cols <= 1000).
    { split; [change 1 with (INR 1)|replace 1000 with (INR 1000) by (rewrite INR_IZR_INZ; reflexivity)]; apply le_INR; lia. }
    set (N := 2 ^ k) in *. set (ku := INR k * u53) in *. set (C := INR cols) in *.
    assert (XX : 1 <= X * X <= cap * cap).
    { split; [replace 1 with (1 * 1) by ring|]; apply Rmult_le_compat; lra. }
    assert (NN : 4 <= N * N <= 1024 * 1024) by (split; [replace 4 with (2 * 2) by ring|]; apply Rmult_le_compat; lra).
    set (W := N * N * N * (X * X)).
    assert (WW : 4 * (N * (X * X)) <= W).
    { unfold W. replace (N * N * N * (X * X)) with (N * N * (N * (X * X))) by ring. apply Rmult_le_compat_r; [|lra].
      apply Rmult_le_pos; lra. }
    assert (NX : 2 * 1 <= N * (X * X)) by (apply Rmult_le_compat; lra).
    assert (W2 : W <= 1024 * 1024 * 1024 * (cap * cap)).
    { unfold W. apply Rmult_le_compat; try lra; repeat apply Rmult_le_pos; try lra. apply Rmult_le_compat; try lra. }
    set (S1 := (121 + C) * (W * ku)).
    assert (Wku : 0 <= W * ku <= W * / 100000000000000) by (split; [apply Rmult_le_pos|apply Rmult_le_compat_l]; lra).
    assert (S1b : 0 <= S1 <= W / 1000000).
    { unfold S1. split; [apply Rmult_le_pos; lra|]. apply Rle_trans with (2000 * (W * ku)); [apply Rmult_le_compat_r; lra|lra]. }
    assert (LOOP : forall l m g v, Forall (fun c => (c < cols)%nat) l -> (m + length l <= cols)%nat ->
      near (2 ^ k) (INR m * S1) (INR m * (N * (X * X))) g v -> exists g',
      foldM (fun g k0 => bik <- idx2 B i k0 ;; bjk <- idx2 B j k0 ;; a <- Adj FO roots bjk ;;
                 p <- Mul FO roots bik a ;; Add FO g p) l g = Ok g' /\
      near (2 ^ k) (INR (m + length l) * S1) (INR (m + length l) * (N * (X * X))) g'
        (fold_left (radd (2 ^ k)) (map (fun c => rmul (2 ^ k) (entry (toR B) i c) (radj (2 ^ k) (entry (toR B) j c))) l) v)).
    { induction l as [|c l IH]; intros m g v HF Hm Ng.
      - exists g. split; [reflexivity|]. cbn [length map fold_left]. rewrite Nat.add_0_r. exact Ng.
      - apply Forall_cons_iff in HF. destruct HF as [Hcc HF']. cbn [length] in Hm.
        destruct (gram_step B cols k X i j c Hk HX HB Hi Hj Hcc) as (p & EP & NP). fold N in NP. fold ku in NP. fold W in NP.
        assert (MC : 0 <= INR m /\ INR m + 1 <= C).
        { split; [apply pos_INR|]. rewrite <- S_INR. apply le_INR. lia. }
        assert (M1 : (INR m + 1) * (N * (X * X)) <= C * (N * (X * X))) by (apply Rmult_le_compat_r; lra).
        assert (M2 : (INR m + 1) * S1 <= C * S1) by (apply Rmult_le_compat_r; lra).
        assert (M3 : C * S1 <= C * (W / 1000000)) by (apply Rmult_le_compat_l; lra).
        assert (M4 : C * (N * (X * X)) <= C * (W / 4)) by (apply Rmult_le_compat_l; lra).
        assert (PS : 121 * (W * ku) <= S1).
        { unfold S1. apply Rmult_le_compat_r; lra. }
        assert (CW : 1 * 1 <= C * W <= 1000 * (1024 * 1024 * 1024 * (cap * cap))).
        { split; apply Rmult_le_compat; lra. }
        destruct (Add_err (2 ^ k) _ _ _ _ (C * W) g p _ _ Ng NP) as (g1 & EG & N1).
        { lra. } { lra. }
        assert (STEP : (bik <- idx2 B i c ;; bjk <- idx2 B j c ;; a <- Adj FO roots bjk ;;
                 p <- Mul FO roots bik a ;; Add FO g p) = Ok g1).
        { rewrite <- EG. revert EP.
          destruct (idx2 B i c) as [x|?| |]; cbn [bind]; try discriminate.
          destruct (idx2 B j c) as [y|?| |]; cbn [bind]; try discriminate.
          destruct (Adj FO roots y) as [a|?| |]; cbn [bind]; try discriminate. intros ->. reflexivity. }
        cbn [foldM]. rewrite STEP. cbn [bind map fold_left].
        destruct (IH (S m) g1 (radd (2 ^ k) v (rmul (2 ^ k) (entry (toR B) i c) (radj (2 ^ k) (entry (toR B) j c))))) as (g' & E' & N').
        + exact HF'.
        + lia.
        + eapply near_le; [| |exact N1]; rewrite S_INR.
          * assert (Q : C * W * u53 <= C * (W * ku)).
            { rewrite Rmult_assoc. apply Rmult_le_compat_l; [lra|]. apply Rmult_le_compat_l; lra. }
            unfold S1. lra.
          * lra.
        + exists g'. split; [exact E'|]. cbn [length]. replace (m + S (length l))%nat with (S m + length l)%nat by lia. exact N'. }
    destruct (LOOP (seq 0 cols) 0%nat (repeat (f_of_int FO 0) (2 ^ k)) (repeat 0 (2 ^ k))) as (g & E & Ng).
    - apply Forall_forall. intros c Hin. apply in_seq in Hin. lia.
    - rewrite seq_length. lia.
    - split; [apply repeat_length|]. split; [apply repeat_length|]. intros x Hx. cbn [INR]. rewrite !Rmult_0_l.
      rewrite !nth_repeat. rewrite Rabs_R0. split; [|lra]. split; [reflexivity|].
      change (B2R (f0 FO : b64)) with 0. rewrite Rminus_0_r, Rabs_R0. lra.
    - exists g. split; [exact E|]. rewrite seq_length in Ng. exact Ng. }
  (* collect the entries *)
  assert (ROW : forall i, (i < length B)%nat -> exists row,
    mapM (fun j => foldM (fun g k0 => bik <- idx2 B i k0 ;; bjk <- idx2 B j k0 ;; a <- Adj FO roots bjk ;;
                 p <- Mul FO roots bik a ;; Add FO g p) (seq 0 cols) (repeat (f_of_int FO 0) (2 ^ k))) (seq 0 (length B)) = Ok row /\
    length row = length B /\ forall j, (j < length B)%nat ->
    near (2 ^ k) (gram_err k cols X) (INR cols * (2 ^ k * (X * X))) (nth j row []) (gram_entry (2 ^ k) cols (toR B) i j)).
  { intros i Hi.
    assert (A : forall n s, (s + n <= length B)%nat -> exists row,
      mapM (fun j => foldM (fun g k0 => bik <- idx2 B i k0 ;; bjk <- idx2 B j k0 ;; a <- Adj FO roots bjk ;;
                 p <- Mul FO roots bik a ;; Add FO g p) (seq 0 cols) (repeat (f_of_int FO 0) (2 ^ k))) (seq s n) = Ok row /\
      length row = n /\ forall j, (j < n)%nat ->
      near (2 ^ k) (gram_err k cols X) (INR cols * (2 ^ k * (X * X))) (nth j row []) (gram_entry (2 ^ k) cols (toR B) i (s + j))).
    { induction n as [|n IH]; intros s Hs.
      - exists []. split; [reflexivity|]. split; [reflexivity|]. intros j Hj; lia.
      - destruct (ONE i s Hi ltac:(lia)) as (g & EG & NG). destruct (IH (S s) ltac:(lia)) as (row & ER & LR & NR).
        exists (g :: row). cbn [seq mapM]. rewrite EG. cbn [bind]. rewrite ER. cbn [bind].
        split; [reflexivity|]. split; [cbn [length]; lia|]. intros j Hj. destruct j as [|j]; cbn [nth].
        + rewrite Nat.add_0_r. exact NG.
        + replace (s + S j)%nat with (S s + j)%nat by lia. apply NR. lia. }
    destruct (A (length B) 0%nat ltac:(lia)) as (row & E). exists row. exact E. }
  assert (ALL : forall n s, (s + n <= length B)%nat -> exists G,
    mapM (fun i => mapM (fun j => foldM (fun g k0 => bik <- idx2 B i k0 ;; bjk <- idx2 B j k0 ;; a <- Adj FO roots bjk ;;
                 p <- Mul FO roots bik a ;; Add FO g p) (seq 0 cols) (repeat (f_of_int FO 0) (2 ^ k))) (seq 0 (length B))) (seq s n) = Ok G /\
    length G = n /\ forall i, (i < n)%nat -> length (nth i G []) = length B /\ forall j, (j < length B)%nat ->
    near (2 ^ k) (gram_err k cols X) (INR cols * (2 ^ k * (X * X))) (bentry G i j) (gram_entry (2 ^ k) cols (toR B) (s + i) j)).
  { induction n as [|n IH]; intros s Hs.
    - exists []. split; [reflexivity|]. split; [reflexivity|]. intros i Hi; lia.
    - destruct (ROW s ltac:(lia)) as (g & EG & LG & NG). destruct (IH (S s) ltac:(lia)) as (G & ER & LR & NR).
      exists (g :: G). cbn [seq mapM]. rewrite EG. cbn [bind]. rewrite ER. cbn [bind].
      split; [reflexivity|]. split; [cbn [length]; lia|]. intros i Hi. destruct i as [|i]; cbn [nth].
      + rewrite Nat.add_0_r. split; [exact LG|]. exact NG.
      + replace (s + S i)%nat with (S s + i)%nat by lia. apply NR. lia. }
  destruct (ALL (length B) 0%nat ltac:(lia)) as (G & E & LG & NG). exists G. split; [exact E|]. split; [exact LG|]. exact NG.
Qed.
End Gram64.
