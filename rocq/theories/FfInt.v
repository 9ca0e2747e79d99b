(** FfnpFFT and FfSamplingFFT merge integers: for any float64 arithmetic whose
    addition commutes, what they return is, value for value, what FFT returns on
    a polynomial of rounded (or sampled) coefficients. *)
From Coq Require Import Lia.
From Verif Require Import GoBase Util BaseProofs Float FftTables Fft FftShape Samplerz Ntrugen Ffsampling.

Lemma evens_interleave {A} (d : A) a b m : length a = m -> evens d (interleave (fun i => nth i a d) (fun i => nth i b d) m) = a.
Proof.
  intros L. unfold evens. rewrite interleave_length. replace (Nat.div (2 * m) 2) with m by (rewrite Nat.mul_comm, Nat.div_mul; lia).
  apply (nth_ext _ _ d d); [now rewrite map_length, seq_length|].
  intros i Hi. rewrite map_length, seq_length in Hi.
  rewrite (nth_map_seq (fun i => nth (2 * i) (interleave (fun i => nth i a d) (fun i => nth i b d) m) d)) by exact Hi.
  now rewrite interleave_even.
Qed.
Lemma odds_interleave {A} (d : A) a b m : length b = m -> odds d (interleave (fun i => nth i a d) (fun i => nth i b d) m) = b.
Proof.
  intros L. unfold odds. rewrite interleave_length. replace (Nat.div (2 * m) 2) with m by (rewrite Nat.mul_comm, Nat.div_mul; lia).
  apply (nth_ext _ _ d d); [now rewrite map_length, seq_length|].
  intros i Hi. rewrite map_length, seq_length in Hi.
  rewrite (nth_map_seq (fun i => nth (2 * i + 1) (interleave (fun i => nth i a d) (fun i => nth i b d) m) d)) by exact Hi.
  now rewrite interleave_odd.
Qed.
Lemma Forall_interleave {A} (P : A -> Prop) (d : A) a b m : length a = m -> length b = m -> Forall P a -> Forall P b ->
  Forall P (interleave (fun i => nth i a d) (fun i => nth i b d) m).
Proof.
  intros La Lb Ha Hb. unfold interleave. apply Forall_concat. apply Forall_forall. intros l Hl. apply in_map_iff in Hl.
  destruct Hl as (i & <- & Hi). apply in_seq in Hi. repeat constructor.
  - apply (proj1 (Forall_forall P a) Ha). apply nth_In. lia.
  - apply (proj1 (Forall_forall P b) Hb). apply nth_In. lia.
Qed.
Lemma map_interleave {A B} (f : A -> B) (d : A) (e : B) a b m : length a = m -> length b = m ->
  map f (interleave (fun i => nth i a d) (fun i => nth i b d) m)
  = interleave (fun i => nth i (map f a) e) (fun i => nth i (map f b) e) m.
Proof.
  intros La Lb. unfold interleave. rewrite concat_map, map_map. f_equal. apply map_ext_in. intros i Hi. apply in_seq in Hi.
  cbn [map]. rewrite !(nth_indep (map f _) e (f d)), !map_nth by (rewrite map_length; lia). reflexivity.
Qed.

Section Merged.
Context (FO : floats).
Notation F := (F FO).
Notation cplx := (cplx FO).
Notation roots := (roots_dict FO).
Notation zero := (f0 FO).
Hypothesis add_comm : forall x y : F, f_add FO x y = f_add FO y x.
Hypothesis const_0 : f_const FO 0 0 = f_of_int FO 0.
Hypothesis const_1 : f_const FO 1 0 = f_of_int FO 1.

(** w is obtained from the coefficients z by merging *)
Inductive merged : nat -> list F -> list cplx -> Prop :=
| merged_O x : merged 0 [x] [c_real FO x]
| merged_S k z w0 w1 w : length z = (2 ^ S k)%nat -> merged k (evens zero z) w0 -> merged k (odds zero z) w1 ->
    MergeFFT FO roots w0 w1 = Ok w -> merged (S k) z w.

Lemma merged_length k : forall z w, merged k z w -> length z = (2 ^ k)%nat.
Proof. intros z w H. destruct H; [reflexivity|assumption]. Qed.
Lemma merged_0 z w : merged 0 z w -> exists x, z = [x] /\ w = [c_real FO x].
Proof.
  intros M. remember O as k eqn:Ek. destruct M; [|discriminate Ek]. eexists. split; reflexivity.
Qed.
Lemma merged_join k z0 z1 w0 w1 w : merged k z0 w0 -> merged k z1 w1 -> MergeFFT FO roots w0 w1 = Ok w ->
  merged (S k) (interleave (fun i => nth i z0 zero) (fun i => nth i z1 zero) (2 ^ k)) w.
Proof.
  intros M0 M1 E. pose proof (merged_length _ _ _ M0) as L0. pose proof (merged_length _ _ _ M1) as L1.
  apply (merged_S k _ w0 w1 w); [now rewrite interleave_length, pow2_S| | |exact E].
  - now rewrite evens_interleave.
  - now rewrite odds_interleave.
Qed.

Lemma merged_fuel k : forall z w fuel, (1 <= k)%nat -> merged k z w -> (2 ^ k <= fuel)%nat -> FFT_fuel FO roots fuel z = Ok w.
Proof.
  induction k as [|k IH]; intros z w fuel Hk M Hf; [lia|]. inversion M as [|k' z' w0 w1 w' L M0 M1 E]; subst k' z' w'.
  destruct fuel as [|fuel]; [pose proof (pow2_ge1 (S k)); lia|]. cbn [FFT_fuel].
  destruct k as [|k].
  - rewrite L. change (Nat.ltb 2 (2 ^ 1)) with false. change (Nat.eqb (2 ^ 1) 2) with true. cbv iota.
    change (2 ^ 1)%nat with 2%nat in L. destruct z as [|x [|y [|? ?]]]; cbn [length] in L; try lia.
    cbn [idx nth_error bind]. destruct (merged_0 _ _ M0) as (x0 & Ex & ->). destruct (merged_0 _ _ M1) as (y0 & Ey & ->).
    change (evens zero [x; y]) with [x] in Ex. change (odds zero [x; y]) with [y] in Ey.
    injection Ex as <-. injection Ey as <-.
    unfold MergeFFT in E. cbn [length Nat.mul Nat.add seq mapM idx nth_error bind roots_dict map] in E.
    change (map (c_literal FO) phi4_roots) with [c_literal FO ((0, 0), (1, 0)); c_literal FO ((0, 0), (-1, 0))] in E.
    cbn [nth_error bind concat app c_literal fst snd] in E. apply Ok_inj in E. subst w.
    unfold c_literal. cbn [fst snd]. rewrite const_0, const_1. change (f_of_int FO 0, f_of_int FO 1) with (c_i FO).
    cbn [concat app]. unfold c_add at 1 2. rewrite (add_comm (fst (c_real FO x))), (add_comm (snd (c_real FO x))). reflexivity.
  - rewrite pow2_S in *. pose proof (pow2_ge1 k) as P1. rewrite pow2_S in *.
    destruct (Nat.ltb_spec 2 (length z)); [|lia].
    rewrite (SplitPolys_ok zero). cbn [bind fst snd].
    rewrite (IH _ _ fuel ltac:(lia) M0 ltac:(lia)), (IH _ _ fuel ltac:(lia) M1 ltac:(lia)). cbn [bind]. exact E.
Qed.
Lemma merged_FFT k z w : (1 <= k)%nat -> merged k z w -> FFT FO roots z = Ok w.
Proof. intros Hk M. unfold FFT. apply (merged_fuel k); [exact Hk|exact M|]. rewrite (merged_length _ _ _ M). lia. Qed.

Lemma split_len k t s : (k <= 9)%nat -> length t = (2 ^ S k)%nat -> Split_list FO roots t = Ok s ->
  exists a b, s = [a; b] /\ length a = (2 ^ k)%nat /\ length b = (2 ^ k)%nat.
Proof.
  intros Hk L E. unfold Split_list in E. rewrite (SplitFFT_ok FO roots t (2 ^ k)) in E; [|rewrite L; apply pow2_S|].
  - cbn [bind fst snd] in E. apply Ok_inj in E. subst s. eexists _, _. split; [reflexivity|]. split; now rewrite map_length, seq_length.
  - pose proof (roots_dict_full FO (S k) ltac:(lia)) as FR. unfold full_roots in FR. rewrite <- pow2_S. lia.
Qed.
Lemma add_len t m u : AddFFT FO t m = Ok u -> length u = length t.
Proof.
  intros E. unfold AddFFT in E. destruct (Nat.eqb_spec (length t) (length m)) as [Q|Q]; [|discriminate].
  pose proof (AddFFT_ok FO t m Q) as A. unfold AddFFT in A. rewrite Q, Nat.eqb_refl in A. cbn [negb] in A, E.
  rewrite Q in *. rewrite A in E. apply Ok_inj in E. subst u. now rewrite map_length, seq_length.
Qed.

(** the coefficients come from math.Round *)
Definition rounded (x : F) : Prop := exists y, x = f_round FO y.
Lemma np_merged k : (k <= 10)%nat -> forall fuel t0 t1 T r, length t0 = (2 ^ k)%nat -> length t1 = (2 ^ k)%nat ->
  FfnpFFT FO roots fuel [t0; t1] T = Ok r ->
  exists z0 z1 w0 w1, r = [w0; w1] /\ merged k z0 w0 /\ merged k z1 w1 /\ Forall rounded z0 /\ Forall rounded z1.
Proof.
  induction k as [|k IH]; intros Hk fuel t0 t1 T r L0 L1 E; (destruct fuel as [|fuel]; [discriminate|]); cbn [FfnpFFT idx nth_error bind] in E.
  - change (2 ^ 0)%nat with 1%nat in *. rewrite L0 in E. cbn [Nat.ltb Nat.leb Nat.eqb] in E.
    destruct t0 as [|x [|? ?]]; cbn [length] in L0; try lia. destruct t1 as [|y [|? ?]]; cbn [length] in L1; try lia.
    cbn [idx2 idx nth_error bind] in E. apply Ok_inj in E. subst r.
    exists [f_round FO (fst x)], [f_round FO (fst y)]. eexists _, _. split; [reflexivity|].
    repeat split; try constructor; try (eexists; reflexivity); constructor.
  - assert (P2 : (1 < 2 ^ S k)%nat) by (rewrite pow2_S; pose proof (pow2_ge1 k); lia).
    rewrite L0 in E. destruct (Nat.ltb_spec 1 (2 ^ S k)); [|lia].
    match type of E with bind ?e _ = _ => destruct e as [i0| | |]; cbn [bind] in E; try discriminate end.
    destruct (as_poly FO i0) as [l10| | |]; cbn [bind] in E; try discriminate.
    match type of E with bind ?e _ = _ => destruct e as [i1| | |]; cbn [bind] in E; try discriminate end.
    destruct (as_tree FO i1) as [T0| | |]; cbn [bind] in E; try discriminate.
    match type of E with bind ?e _ = _ => destruct e as [i2| | |]; cbn [bind] in E; try discriminate end.
    destruct (as_tree FO i2) as [T1| | |]; cbn [bind] in E; try discriminate.
    destruct (Split_list FO roots t1) as [s1| | |] eqn:S1; cbn [bind] in E; try discriminate.
    destruct (split_len k t1 s1 ltac:(lia) L1 S1) as (a & b & -> & La & Lb).
    destruct (FfnpFFT FO roots fuel [a; b] T1) as [r1| | |] eqn:R1; cbn [bind] in E; try discriminate.
    destruct (IH ltac:(lia) _ _ _ _ _ La Lb R1) as (y0 & y1 & x0 & x1 & -> & M0 & M1 & Q0 & Q1).
    cbn [MergeFFT_list idx nth_error bind] in E.
    destruct (MergeFFT FO roots x0 x1) as [z1| | |] eqn:G1; cbn [bind] in E; try discriminate.
    destruct (SubFFT FO t1 z1) as [d| | |]; cbn [bind] in E; try discriminate.
    destruct (MulFFT FO d l10) as [m| | |]; cbn [bind] in E; try discriminate.
    destruct (AddFFT FO t0 m) as [u| | |] eqn:A; cbn [bind] in E; try discriminate.
    assert (Lu : length u = (2 ^ S k)%nat) by (rewrite (add_len _ _ _ A); exact L0).
    destruct (Split_list FO roots u) as [s0| | |] eqn:S0; cbn [bind] in E; try discriminate.
    destruct (split_len k u s0 ltac:(lia) Lu S0) as (a' & b' & -> & La' & Lb').
    destruct (FfnpFFT FO roots fuel [a'; b'] T0) as [r0| | |] eqn:R0; cbn [bind] in E; try discriminate.
    destruct (IH ltac:(lia) _ _ _ _ _ La' Lb' R0) as (y2 & y3 & x2 & x3 & -> & M2 & M3 & Q2 & Q3).
    cbn [MergeFFT_list idx nth_error bind] in E.
    destruct (MergeFFT FO roots x2 x3) as [z0| | |] eqn:G0; cbn [bind] in E; try discriminate.
    apply Ok_inj in E. subst r.
    eexists _, _, z0, z1. split; [reflexivity|].
    split; [exact (merged_join _ _ _ _ _ _ M2 M3 G0)|]. split; [exact (merged_join _ _ _ _ _ _ M0 M1 G1)|].
    split; apply Forall_interleave; auto; eapply merged_length; eassumption.
Qed.

(** a tree with a polynomial and two subtrees at every node *)
Fixpoint shaped (k : nat) (T : list (iface FO)) : Prop :=
  match k with
  | O => True
  | S k' => exists l10 T0 T1, T = [IPoly l10; ITree T0; ITree T1] /\ length l10 = (2 ^ k)%nat /\ shaped k' T0 /\ shaped k' T1
  end.
Lemma split_ok k t : (k <= 9)%nat -> length t = (2 ^ S k)%nat ->
  exists a b, Split_list FO roots t = Ok [a; b] /\ length a = (2 ^ k)%nat /\ length b = (2 ^ k)%nat.
Proof.
  intros Hk L. unfold Split_list. rewrite (SplitFFT_ok FO roots t (2 ^ k)); [|rewrite L; apply pow2_S|].
  - cbn [bind fst snd]. eexists _, _. split; [reflexivity|]. split; now rewrite map_length, seq_length.
  - pose proof (roots_dict_full FO (S k) ltac:(lia)) as FR. unfold full_roots in FR. rewrite <- pow2_S. lia.
Qed.
Lemma merge_ok k a b : (k <= 9)%nat -> length a = (2 ^ k)%nat -> length b = (2 ^ k)%nat ->
  exists w, MergeFFT FO roots a b = Ok w /\ length w = (2 ^ S k)%nat.
Proof.
  intros Hk La Lb. pose proof (roots_dict_full FO (S k) ltac:(lia)) as FR. rewrite pow2_S in FR.
  rewrite (MergeFFT_ok FO roots a b (2 ^ k)) by lia. eexists. split; [reflexivity|]. now rewrite interleave_length, pow2_S.
Qed.
Lemma np_returns k : (k <= 10)%nat -> forall fuel t0 t1 T, length t0 = (2 ^ k)%nat -> length t1 = (2 ^ k)%nat ->
  shaped k T -> (k < fuel)%nat ->
  exists w0 w1, FfnpFFT FO roots fuel [t0; t1] T = Ok [w0; w1] /\ length w0 = (2 ^ k)%nat /\ length w1 = (2 ^ k)%nat.
Proof.
  induction k as [|k IH]; intros Hk fuel t0 t1 T L0 L1 HT Hf; (destruct fuel as [|fuel]; [lia|]); cbn [FfnpFFT idx nth_error bind].
  - change (2 ^ 0)%nat with 1%nat in *. rewrite L0. cbn [Nat.ltb Nat.leb Nat.eqb].
    destruct t0 as [|x [|? ?]]; cbn [length] in L0; try lia. destruct t1 as [|y [|? ?]]; cbn [length] in L1; try lia.
    cbn [idx2 idx nth_error bind]. eexists _, _. repeat split.
  - assert (P2 : (1 < 2 ^ S k)%nat) by (rewrite pow2_S; pose proof (pow2_ge1 k); lia).
    rewrite L0. destruct (Nat.ltb_spec 1 (2 ^ S k)); [|lia].
    destruct HT as (l10 & T0 & T1 & -> & Ll & H0 & H1). cbn [idx nth_error bind as_poly as_tree].
    destruct (split_ok k t1 ltac:(lia) L1) as (a & b & -> & La & Lb). cbn [bind].
    destruct (IH ltac:(lia) fuel a b T1 La Lb H1 ltac:(lia)) as (x0 & x1 & -> & X0 & X1). cbn [bind MergeFFT_list idx nth_error].
    destruct (merge_ok k x0 x1 ltac:(lia) X0 X1) as (z1 & -> & Z1). cbn [bind].
    rewrite SubFFT_ok by congruence. cbn [bind].
    rewrite MulFFT_ok by (rewrite map_length, seq_length; lia). cbn [bind].
    rewrite AddFFT_ok by (rewrite !map_length, !seq_length; lia). cbn [bind].
    match goal with |- context [Split_list FO roots ?u] => destruct (split_ok k u ltac:(lia)) as (a' & b' & -> & La' & Lb') end.
    { rewrite map_length, seq_length. exact L0. }
    cbn [bind]. destruct (IH ltac:(lia) fuel a' b' T0 La' Lb' H0 ltac:(lia)) as (x2 & x3 & -> & X2 & X3). cbn [bind MergeFFT_list idx nth_error].
    destruct (merge_ok k x2 x3 ltac:(lia) X2 X3) as (z0 & -> & Z0). cbn [bind]. exists z0, z1. auto.
Qed.

(** the 2n coefficients in the order in which the sampler draws them *)
Fixpoint draw_order (k : nat) (z0 z1 : list Z) : list Z :=
  match k with
  | O => z0 ++ z1
  | S k' => draw_order k' (evens 0%Z z1) (odds 0%Z z1) ++ draw_order k' (evens 0%Z z0) (odds 0%Z z0)
  end.
(** the sampler is called once for each centre, each call on the random blocks
    after those of the one before *)
Fixpoint drawn {A : Type} (S : A -> nat -> Z -> nat -> Prop) (c : nat) (mus : list A) (zs : list Z) (c' : nat) : Prop :=
  match mus, zs with
  | [], [] => c' = c
  | mu :: mus', z :: zs' => exists c1, S mu c z c1 /\ drawn S c1 mus' zs' c'
  | _, _ => False
  end.
Lemma drawn_app {A : Type} (S : A -> nat -> Z -> nat -> Prop) m1 : forall c z1 c1 m2 z2 c2,
  drawn S c m1 z1 c1 -> drawn S c1 m2 z2 c2 -> drawn S c (m1 ++ m2) (z1 ++ z2) c2.
Proof.
  induction m1 as [|mu m1 IH]; intros c [|z z1] c1 m2 z2 c2 H1 H2; cbn [drawn app] in *; try tauto.
  - now subst c1.
  - destruct H1 as (c3 & E & H1). exists c3. split; [exact E|]. exact (IH _ _ _ _ _ _ H1 H2).
Qed.

Lemma samp_merged rb sf sigmin T k : (k <= 10)%nat -> forall fuel t0 t1 c r c', length t0 = (2 ^ k)%nat -> length t1 = (2 ^ k)%nat ->
  FfSamplingFFT FO roots rb sf sigmin T fuel [t0; t1] c = Ok (r, c') ->
  exists (z0 z1 : list Z) w0 w1 mus, r = [w0; w1] /\ merged k (map (f_of_int FO) z0) w0 /\ merged k (map (f_of_int FO) z1) w1 /\
    drawn (fun mu c z c' => exists v, idx (t_Value FO T) 0 = Ok v /\ Samplerz FO rb sf mu (fst v) sigmin c = Ok (z, c'))
      c mus (draw_order k z0 z1) c'.
Proof.
  induction k as [|k IH]; intros Hk fuel t0 t1 c r c' L0 L1 E; (destruct fuel as [|fuel]; [discriminate|]); cbn [FfSamplingFFT idx nth_error bind] in E.
  - change (2 ^ 0)%nat with 1%nat in *. rewrite L0 in E. cbn [Nat.ltb Nat.leb Nat.eqb] in E.
    destruct t0 as [|x [|? ?]]; cbn [length] in L0; try lia. destruct t1 as [|y [|? ?]]; cbn [length] in L1; try lia.
    cbn [idx2 idx nth_error bind] in E.
    destruct (idx (t_Value FO T) 0) as [v| | |] eqn:EV; cbn [bind] in E; try discriminate.
    destruct (Samplerz FO rb sf (fst x) (fst v) sigmin c) as [[x0 c1]| | |] eqn:E0; cbn [bind fst snd] in E; try discriminate.
    destruct (Samplerz FO rb sf (fst y) (fst v) sigmin c1) as [[x1 c2]| | |] eqn:E1; cbn [bind fst snd] in E; try discriminate.
    apply Ok_inj in E. injection E as <- <-. exists [x0], [x1]. eexists _, _, [fst x; fst y]. split; [reflexivity|].
    split; [constructor|]. split; [constructor|].
    cbn [draw_order app drawn]. exists c1. split; [exists v; auto|]. exists c2. split; [exists v; auto|reflexivity].
  - assert (P2 : (1 < 2 ^ S k)%nat) by (rewrite pow2_S; pose proof (pow2_ge1 k); lia).
    rewrite L0 in E. destruct (Nat.ltb_spec 1 (2 ^ S k)); [|lia].
    destruct (Split_list FO roots t1) as [s1| | |] eqn:S1; cbn [bind] in E; try discriminate.
    destruct (split_len k t1 s1 ltac:(lia) L1 S1) as (a & b & -> & La & Lb).
    destruct (FfSamplingFFT FO roots rb sf sigmin T fuel [a; b] c) as [[r1 c1]| | |] eqn:R1; cbn [bind fst snd] in E; try discriminate.
    destruct (IH ltac:(lia) _ _ _ _ _ _ La Lb R1) as (y0 & y1 & x0 & x1 & m1 & -> & M0 & M1 & D1).
    cbn [MergeFFT_list idx nth_error bind] in E.
    destruct (MergeFFT FO roots x0 x1) as [z1| | |] eqn:G1; cbn [bind] in E; try discriminate.
    destruct (SubFFT FO t1 z1) as [d| | |]; cbn [bind] in E; try discriminate.
    destruct (MulFFT FO d (t_Value FO T)) as [m| | |]; cbn [bind] in E; try discriminate.
    destruct (AddFFT FO t0 m) as [u| | |] eqn:A; cbn [bind] in E; try discriminate.
    assert (Lu : length u = (2 ^ S k)%nat) by (rewrite (add_len _ _ _ A); exact L0).
    destruct (Split_list FO roots u) as [s0| | |] eqn:S0; cbn [bind] in E; try discriminate.
    destruct (split_len k u s0 ltac:(lia) Lu S0) as (a' & b' & -> & La' & Lb').
    destruct (FfSamplingFFT FO roots rb sf sigmin T fuel [a'; b'] c1) as [[r0 c2]| | |] eqn:R0; cbn [bind fst snd] in E; try discriminate.
    destruct (IH ltac:(lia) _ _ _ _ _ _ La' Lb' R0) as (y2 & y3 & x2 & x3 & m2 & -> & M2 & M3 & D2).
    cbn [MergeFFT_list idx nth_error bind] in E.
    destruct (MergeFFT FO roots x2 x3) as [z0| | |] eqn:G0; cbn [bind] in E; try discriminate.
    apply Ok_inj in E. injection E as <- <-.
    assert (LL : length y0 = (2 ^ k)%nat /\ length y1 = (2 ^ k)%nat /\ length y2 = (2 ^ k)%nat /\ length y3 = (2 ^ k)%nat).
    { apply merged_length in M0, M1, M2, M3. rewrite map_length in M0, M1, M2, M3. auto. }
    destruct LL as (K0 & K1 & K2 & K3).
    exists (interleave (fun i => nth i y2 0%Z) (fun i => nth i y3 0%Z) (2 ^ k)), (interleave (fun i => nth i y0 0%Z) (fun i => nth i y1 0%Z) (2 ^ k)).
    exists z0, z1, (m1 ++ m2). split; [reflexivity|].
    rewrite !(map_interleave _ 0%Z zero) by assumption.
    split; [exact (merged_join _ _ _ _ _ _ M2 M3 G0)|]. split; [exact (merged_join _ _ _ _ _ _ M0 M1 G1)|].
    cbn [draw_order]. rewrite !evens_interleave, !odds_interleave by assumption.
    exact (drawn_app _ _ _ _ _ _ _ _ D1 D2).
Qed.
End Merged.
