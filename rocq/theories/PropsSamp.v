(** C83: what FfSamplingFFT (src/internal/ffsampling.go:250-273) samples, in exact
    arithmetic. *)
From Coq Require Import Lra Lia.
From Verif Require Import GoBase Util BaseProofs PolyRing Float Fft FftShape SpecFft SpecBabai ExactReal FftProofs
  RootsProofs RootsAll Samplerz Ntrugen Ffsampling FfExact Babai PropsFft Binary64.
Local Open Scope R_scope.

(** Sampling recursively on the coefficients, modulo x^n+1 with n = 2^k.
    [S mu c z c'] says that the sampler with centre mu, started at random block
    c, returns z and stops before block c'.  [l j] is the polynomial multiplied
    with at degree 2^j.  At the leaves the two centres are sampled one after the
    other.  At a node t1 is sampled first, by halves, then t0 + (t1 - z1) l. *)
Definition weave (m : nat) (a b : list Z) : list Z :=
  map (fun i => if Nat.even i then nth (Nat.div2 i) a 0%Z else nth (Nat.div2 i) b 0%Z) (seq 0 (2 * m)).
Fixpoint sampled (S : R -> nat -> Z -> nat -> Prop) (l : nat -> list R) (k : nat)
    (c : nat) (t0 t1 : list R) (z0 z1 : list Z) (c' : nat) : Prop :=
  match k with
  | O => exists x0 x1 c1, z0 = [x0] /\ z1 = [x1] /\ S (nth 0 t0 0) c x0 c1 /\ S (nth 0 t1 0) c1 x1 c'
  | S k' =>
      let n := (2 ^ k)%nat in let m := (2 ^ k')%nat in
      exists a b a' b' c1,
      sampled S l k' c (reven m t1) (rodd m t1) a b c1 /\ z1 = weave m a b /\
      let u := radd n t0 (rmul n (rsub n t1 (map IZR z1)) (l k)) in
      sampled S l k' c1 (reven m u) (rodd m u) a' b' c' /\ z0 = weave m a' b'
  end.

Lemma weave_inter m a b : weave m a b = interleave (fun i => nth i a 0%Z) (fun i => nth i b 0%Z) m.
Proof.
  apply (list_eq_pairs _ _ m 0%Z); [unfold weave; now rewrite map_length, seq_length|apply interleave_length|].
  intros i Hi. rewrite interleave_even, interleave_odd by exact Hi. unfold weave.
  rewrite !nth_map_seq by lia. rewrite Nat.even_mul, Nat.div2_double. cbn [Nat.even orb].
  replace (2 * i + 1)%nat with (S (2 * i)) by lia. rewrite Nat.even_succ, <- Nat.negb_even, Nat.even_mul. cbn [Nat.even orb negb].
  rewrite Nat.div2_succ_double. auto.
Qed.
Lemma weave_length m a b : length (weave m a b) = (2 * m)%nat.
Proof. unfold weave. now rewrite map_length, seq_length. Qed.
Lemma sampled_length S l k : forall c t0 t1 z0 z1 c', sampled S l k c t0 t1 z0 z1 c' -> length z0 = (2 ^ k)%nat /\ length z1 = (2 ^ k)%nat.
Proof.
  destruct k as [|k]; intros c t0 t1 z0 z1 c' H; cbn [sampled] in H.
  - destruct H as (x0 & x1 & c1 & -> & -> & _). split; reflexivity.
  - destruct H as (a & b & a' & b' & c1 & _ & -> & _ & ->). rewrite pow2_S, !weave_length. split; reflexivity.
Qed.

Notation roots := exact_roots.
Notation G := exact_good.
Section Run.
Context (rb : rand) (sf : nat) (sigmin : R) (T : FFTtree exactR) (l : nat -> list R).
Notation V := (t_Value exactR T : list Cx).
Definition draw (mu : R) (c : nat) (z : Z) (c' : nat) : Prop :=
  Samplerz exactR rb sf mu (fst (nth 0 V C0)) sigmin c = Ok (z, c').
Notation FfS := (FfSamplingFFT exactR roots rb sf sigmin T).

Lemma samp_iff k : (forall j, (1 <= j <= k)%nat -> length (l j) = (2 ^ j)%nat /\ firstn (2 ^ j) V = trans roots j (l j)) ->
  (1 <= length V)%nat ->
  forall t0 t1 fuel c r c', length t0 = (2 ^ k)%nat -> length t1 = (2 ^ k)%nat -> (k < fuel)%nat ->
  (FfS fuel [trans roots k t0; trans roots k t1] c = Ok (r, c') <->
   exists z0 z1, sampled draw l k c t0 t1 z0 z1 c' /\ r = [trans roots k (map IZR z0); trans roots k (map IZR z1)]).
Proof.
  induction k as [|k IH]; intros HV V1 t0 t1 fuel c r c' L0 L1 Hf; (destruct fuel as [|fuel]; [lia|]); cbn [FfSamplingFFT idx nth_error bind];
    change (cplx exactR) with Cx.
  - change (2 ^ 0)%nat with 1%nat in *. rewrite (trans_length roots G 0) by exact L0.
    change (2 ^ 0)%nat with 1%nat. cbn [Nat.ltb Nat.leb Nat.eqb].
    destruct t0 as [|x [|? ?]]; cbn [length] in L0; try lia.
    destruct t1 as [|y [|? ?]]; cbn [length] in L1; try lia.
    cbn [trans map idx2 idx nth_error bind fst RtoC sampled nth]. unfold draw.
    destruct (t_Value exactR T) as [|v V'] eqn:EV; [cbn in V1; lia|]. cbn [idx nth_error bind nth].
    split.
    + destruct (Samplerz exactR rb sf x (fst v) sigmin c) as [[x0 c1]| | |] eqn:E0; try discriminate. cbn [bind fst snd].
      destruct (Samplerz exactR rb sf y (fst v) sigmin c1) as [[x1 c2]| | |] eqn:E1; try discriminate. cbn [bind fst snd].
      intros E. apply Ok_inj in E. injection E as <- <-. exists [x0], [x1]. split; [|reflexivity]. exists x0, x1, c1. auto.
    + intros (z0 & z1 & (x0 & x1 & c1 & -> & -> & E0 & E1) & ->). 
      destruct (Samplerz exactR rb sf x (fst v) sigmin c) as [[x0' c1']| | |] eqn:E0'; pose proof (eq_trans (eq_sym E0') E0) as K; try discriminate K.
      injection K as -> ->. cbn [bind fst snd].
      destruct (Samplerz exactR rb sf y (fst v) sigmin c1) as [[x1' c2']| | |] eqn:E1'; pose proof (eq_trans (eq_sym E1') E1) as K; try discriminate K.
      injection K as -> ->. reflexivity.
  - specialize (IH ltac:(intros j Hj; apply HV; lia) V1).
    destruct (HV (S k) ltac:(lia)) as [Ll EL].
    set (n := (2 ^ S k)%nat) in *. set (m := (2 ^ k)%nat) in *.
    assert (Hn : n = (2 * m)%nat) by apply pow2_S.
    assert (P2 : (1 < n)%nat) by (rewrite Hn; pose proof (pow2_ge1 k); unfold m; lia).
    rewrite (trans_length roots G (S k)) by exact L0. fold n.
    destruct (Nat.ltb_spec 1 n); [|lia].
    cbn [idx nth_error bind].
    rewrite (Split_trans roots G) by exact L1. cbn [bind]. fold m.
    pose proof (trans_length roots G (S k) t1 L1) as Tt1. pose proof (trans_length roots G (S k) t0 L0) as Tt0. fold n in Tt1, Tt0.
    assert (LV : (n <= length V)%nat).
    { pose proof (trans_length roots G (S k) (l (S k)) Ll) as TL. rewrite <- EL, firstn_length in TL. fold n in TL. lia. }
    assert (NV : forall i, (i < n)%nat -> nth i V C0 = ceval (l (S k)) (P roots (S k) i)).
    { intros i Hi. rewrite <- (nth_trans roots G) by assumption. rewrite <- EL, <- (firstn_skipn n V) at 1. rewrite app_nth1; [reflexivity|].
      rewrite firstn_length. lia. }
    (* the run after the first half *)
    assert (REST : forall a b c1, length a = m -> length b = m ->
      let z1 := weave m a b in let u := radd n t0 (rmul n (rsub n t1 (map IZR z1)) (l (S k))) in
      (z1 <- MergeFFT_list exactR roots [trans roots k (map IZR a); trans roots k (map IZR b)] ;;
       d <- SubFFT exactR (trans roots (S k) t1) z1 ;;
       m0 <- MulFFT exactR d (t_Value exactR T) ;;
       t0b <- AddFFT exactR (trans roots (S k) t0) m0 ;;
       s0 <- Split_list exactR roots t0b ;;
       r0 <- FfS fuel s0 c1 ;;
       z0 <- MergeFFT_list exactR roots (fst r0) ;; Ok ([z0; z1], snd r0)) =
      (r0 <- FfS fuel [trans roots k (reven m u); trans roots k (rodd m u)] c1 ;;
       z0 <- MergeFFT_list exactR roots (fst r0) ;; Ok ([z0; trans roots (S k) (map IZR z1)], snd r0))).
    { intros a b c1 La Lb z1 u. unfold MergeFFT_list at 1. cbn [idx nth_error bind].
      rewrite (MergeFFT_trans roots G) by (rewrite map_length; assumption). cbn [bind].
      rewrite inter_IZR by assumption. fold m. rewrite <- weave_inter. fold z1.
      assert (Lz1 : length z1 = n) by (rewrite Hn; apply weave_length).
      assert (LZ1 : length (map IZR z1) = n) by (rewrite map_length; exact Lz1).
      pose proof (trans_length roots G (S k) (map IZR z1) LZ1) as TZ1. fold n in TZ1.
      set (e1 := rsub n t1 (map IZR z1)) in *.
      assert (Le1 : length e1 = n) by apply rsub_length.
      pose proof (SubFFT_ok exactR (trans roots (S k) t1) (trans roots (S k) (map IZR z1))) as D. change (cplx exactR) with Cx in D.
      rewrite D by lia. clear D. cbn [bind]. change (cplx exactR) with Cx. rewrite Tt1.
      match goal with |- context [MulFFT exactR ?x _] => assert (Ed : x = trans roots (S k) e1) end.
      { apply (trans_ext roots G); [exact Le1|now rewrite map_length, seq_length|]. intros i Hi. rewrite nth_map_seq by exact Hi.
        change (c0 exactR) with C0. unfold NegFFT.
        assert (Nn : nth i (map Copp (trans roots (S k) (map IZR z1))) C0 = Copp (nth i (trans roots (S k) (map IZR z1)) C0)).
        { rewrite (nth_indep _ C0 (Copp C0)) by (rewrite map_length, TZ1; exact Hi). apply map_nth. }
        change (@eq Cx (Cadd (nth i (trans roots (S k) t1) C0) (nth i (map Copp (trans roots (S k) (map IZR z1))) C0)) (ceval e1 (P roots (S k) i))).
        rewrite Nn, !(nth_trans roots G) by assumption. unfold e1. rewrite ceval_rsub by assumption. ring. }
      rewrite Ed. clear Ed.
      pose proof (trans_length roots G (S k) e1 Le1) as Te1. fold n in Te1.
      pose proof (MulFFT_ok exactR (trans roots (S k) e1) (t_Value exactR T)) as D. change (cplx exactR) with Cx in D.
      rewrite D by lia. clear D. cbn [bind]. change (cplx exactR) with Cx. rewrite Te1.
      match goal with |- context [AddFFT exactR _ ?x] => assert (Ed : x = trans roots (S k) (rmul n e1 (l (S k)))) end.
      { apply (trans_ext roots G); [apply rmul_length|now rewrite map_length, seq_length|]. intros i Hi. rewrite nth_map_seq by exact Hi.
        change (c0 exactR) with C0.
        change (@eq Cx (Cmul (nth i (trans roots (S k) e1) C0) (nth i V C0)) (ceval (rmul n e1 (l (S k))) (P roots (S k) i))).
        rewrite NV by exact Hi. rewrite !(nth_trans roots G) by assumption. symmetry. apply (ceval_rmul_P roots G); assumption. }
      rewrite Ed. clear Ed.
      pose proof (trans_length roots G (S k) (rmul n e1 (l (S k))) (rmul_length _ _ _)) as Tm. fold n in Tm.
      pose proof (AddFFT_ok exactR (trans roots (S k) t0) (trans roots (S k) (rmul n e1 (l (S k))))) as D. change (cplx exactR) with Cx in D.
      rewrite D by lia. clear D. cbn [bind]. change (cplx exactR) with Cx. rewrite Tt0.
      assert (Lu : length u = n) by apply radd_length.
      match goal with |- context [Split_list exactR _ ?x] => assert (Ed : x = trans roots (S k) u) end.
      { apply (trans_ext roots G); [exact Lu|now rewrite map_length, seq_length|]. intros i Hi. rewrite nth_map_seq by exact Hi.
        change (c0 exactR) with C0.
        change (@eq Cx (Cadd (nth i (trans roots (S k) t0) C0) (nth i (trans roots (S k) (rmul n e1 (l (S k)))) C0)) (ceval u (P roots (S k) i))).
        rewrite !(nth_trans roots G) by (try apply rmul_length; assumption). unfold u. symmetry. apply ceval_radd'; [assumption|apply rmul_length]. }
      rewrite Ed. clear Ed.
      rewrite (Split_trans roots G) by exact Lu. cbn [bind]. fold m. reflexivity. }
    cbv zeta in REST.
    assert (LH : forall t, length (reven m t) = m /\ length (rodd m t) = m) by (intros t; split; [apply reven_length|apply rodd_length]).
    assert (MG : forall a b, length a = m -> length b = m ->
      MergeFFT_list exactR roots [trans roots k (map IZR a); trans roots k (map IZR b)] = Ok (trans roots (S k) (map IZR (weave m a b)))).
    { intros a b La Lb. unfold MergeFFT_list. cbn [idx nth_error bind]. rewrite (MergeFFT_trans roots G) by (rewrite map_length; assumption).
      rewrite inter_IZR by assumption. fold m. now rewrite <- weave_inter. }
    split.
    + destruct (FfS fuel [trans roots k (reven m t1); trans roots k (rodd m t1)] c) as [[r1 c1]| | |] eqn:E1; try discriminate.
      cbn [bind fst snd].
      apply IH in E1; [|apply LH|apply LH|lia]. destruct E1 as (a & b & SA & ->).
      destruct (sampled_length _ _ _ _ _ _ _ _ _ SA) as [La Lb]. intros E. pose proof (eq_trans (eq_sym (REST a b c1 La Lb)) E) as E'. clear E. revert E'.
      set (z1 := weave m a b). set (u := radd n t0 _).
      destruct (FfS fuel [trans roots k (reven m u); trans roots k (rodd m u)] c1) as [[r0 c2]| | |] eqn:E0; try discriminate. cbn [bind fst snd].
      apply IH in E0; [|apply LH|apply LH|lia]. destruct E0 as (a' & b' & SB & ->).
      destruct (sampled_length _ _ _ _ _ _ _ _ _ SB) as [La' Lb']. rewrite (MG a' b' La' Lb'). cbn [bind].
      intros E. apply Ok_inj in E. injection E as <- <-. exists (weave m a' b'), z1. split; [|reflexivity].
      cbn [sampled]. exists a, b, a', b', c1. auto.
    + intros (z0 & z1 & SP & ->). cbn [sampled] in SP. destruct SP as (a & b & a' & b' & c1 & SA & EZ1 & SB & EZ0).
      pose proof (sampled_length _ _ _ _ _ _ _ _ _ SA) as [La Lb]. pose proof (sampled_length _ _ _ _ _ _ _ _ _ SB) as [La' Lb'].
      rewrite (proj2 (IH _ _ fuel c _ c1 (proj1 (LH t1)) (proj2 (LH t1)) ltac:(lia)) (ex_intro _ a (ex_intro _ b (conj SA eq_refl)))).
      cbn [bind fst snd]. refine (eq_trans (REST a b c1 La Lb) _). fold m in EZ1, EZ0. fold n m in SB. rewrite <- EZ1.
      set (u := radd n t0 _) in *.
      rewrite (proj2 (IH _ _ fuel c1 _ c' (proj1 (LH u)) (proj2 (LH u)) ltac:(lia)) (ex_intro _ a' (ex_intro _ b' (conj SB eq_refl)))).
      cbn [bind fst snd]. rewrite (MG a' b' La' Lb'). cbn [bind]. rewrite <- EZ0. reflexivity.
Qed.
End Run.

(** C83.  [l j] has the first 2^j values of the tree as its transform; the code
    uses the same values at every level, and their first real part as the
    deviation of every sample. *)
Theorem C83_sampling : forall rb sf sigmin T k l (t0 t1 : list R) v0 v1 fuel c r c', (1 <= k < fuel)%nat ->
  length t0 = (2 ^ k)%nat -> length t1 = (2 ^ k)%nat ->
  (forall j, (1 <= j <= k)%nat -> length (l j) = (2 ^ j)%nat /\ FFT exactR roots (l j) = Ok (firstn (2 ^ j) (t_Value exactR T))) ->
  FFT exactR roots t0 = Ok v0 -> FFT exactR roots t1 = Ok v1 ->
  let sigma := fst (nth 0 (t_Value exactR T : list Cx) C0) in
  (FfSamplingFFT exactR roots rb sf sigmin T fuel [v0; v1] c = Ok (r, c') <->
   exists z0 z1 w0 w1, sampled (fun mu c z c' => Samplerz exactR rb sf mu sigma sigmin c = Ok (z, c')) l k c t0 t1 z0 z1 c' /\
     length z0 = (2 ^ k)%nat /\ length z1 = (2 ^ k)%nat /\
     FFT exactR roots (map IZR z0) = Ok w0 /\ FFT exactR roots (map IZR z1) = Ok w1 /\ r = [w0; w1]).
Proof.
  intros rb sf sigmin T k l t0 t1 v0 v1 fuel c r c' Hk L0 L1 HV E0 E1 sigma.
  assert (TR : forall t, length t = (2 ^ k)%nat -> FFT exactR roots t = Ok (trans roots k t)).
  { intros t L. destruct k as [|k]; [lia|]. apply C43_fft; [lia|exact L]. }
  rewrite TR in E0, E1 by assumption. apply Ok_inj in E0. apply Ok_inj in E1. rewrite <- E0, <- E1.
  assert (HV' : forall j, (1 <= j <= k)%nat -> length (l j) = (2 ^ j)%nat /\ firstn (2 ^ j) (t_Value exactR T : list Cx) = trans roots j (l j)).
  { intros j Hj. destruct (HV j Hj) as [L E]. split; [exact L|]. destruct j as [|j]; [lia|].
    pose proof (eq_trans (eq_sym E) (C43_fft (S j) (l (S j)) ltac:(lia) L)) as K. apply Ok_inj in K. exact K. }
  assert (V1 : (1 <= length (t_Value exactR T : list Cx))%nat).
  { destruct (HV' k ltac:(lia)) as [L E]. pose proof (trans_length roots G k (l k) L) as TL. rewrite <- E, firstn_length in TL.
    pose proof (pow2_ge1 k). lia. }
  pose proof (samp_iff rb sf sigmin T l k HV' V1 t0 t1 fuel c r c' L0 L1 ltac:(lia)) as IFF.
  eapply iff_trans; [exact IFF|]. split.
  - intros (z0 & z1 & S & ->). destruct (sampled_length _ _ _ _ _ _ _ _ _ S) as [A B].
    exists z0, z1, (trans roots k (map IZR z0)), (trans roots k (map IZR z1)). rewrite !TR by (rewrite map_length; assumption). auto 10.
  - intros (z0 & z1 & w0 & w1 & S & A & B & F0 & F1 & ->). rewrite TR in F0, F1 by (rewrite map_length; assumption).
    apply Ok_inj in F0. apply Ok_inj in F1. exists z0, z1. split; [exact S|]. now rewrite F0, F1.
Qed.
Print Assumptions C83_sampling.

(** the sampler is called once for each of the 2n coefficients, with centres mus
    and results zs, each call on the random blocks after those of the one before *)
Fixpoint in_turn {A : Type} (S : A -> nat -> Z -> nat -> Prop) (c : nat) (mus : list A) (zs : list Z) (c' : nat) : Prop :=
  match mus, zs with
  | [], [] => c' = c
  | mu :: mus', z :: zs' => exists c1, S mu c z c1 /\ in_turn S c1 mus' zs' c'
  | _, _ => False
  end.
Lemma in_turn_app {A : Type} (S : A -> nat -> Z -> nat -> Prop) m1 : forall c z1 c1 m2 z2 c2,
  in_turn S c m1 z1 c1 -> in_turn S c1 m2 z2 c2 -> in_turn S c (m1 ++ m2) (z1 ++ z2) c2.
Proof.
  induction m1 as [|mu m1 IH]; intros c [|z z1] c1 m2 z2 c2 H1 H2; cbn [in_turn app] in *; try tauto.
  - now subst c1.
  - destruct H1 as (c3 & E & H1). exists c3. split; [exact E|]. exact (IH _ _ _ _ _ _ H1 H2).
Qed.
Section Calls.
Context (FO : floats) (rb : rand) (sf : nat) (sigmin : F FO) (T : FFTtree FO).
Notation roots := (roots_dict FO).
Lemma split_length k t s : (k <= 9)%nat -> length t = (2 ^ S k)%nat -> Split_list FO roots t = Ok s ->
  exists a b, s = [a; b] /\ length a = (2 ^ k)%nat /\ length b = (2 ^ k)%nat.
Proof.
  intros Hk L E. unfold Split_list in E. rewrite (SplitFFT_ok FO roots t (2 ^ k)) in E; [|rewrite L; apply pow2_S|].
  - cbn [bind fst snd] in E. apply Ok_inj in E. subst s. eexists _, _. split; [reflexivity|]. split; now rewrite map_length, seq_length.
  - pose proof (roots_dict_full FO (S k) ltac:(lia)) as FR. unfold full_roots in FR. rewrite <- pow2_S. lia.
Qed.
Lemma calls k : (k <= 10)%nat -> forall fuel t0 t1 c r c', length t0 = (2 ^ k)%nat -> length t1 = (2 ^ k)%nat ->
  FfSamplingFFT FO roots rb sf sigmin T fuel [t0; t1] c = Ok (r, c') ->
  exists mus zs, length zs = (2 * 2 ^ k)%nat /\
    in_turn (fun mu c z c' => exists v, idx (t_Value FO T) 0 = Ok v /\ Samplerz FO rb sf mu (fst v) sigmin c = Ok (z, c')) c mus zs c'.
Proof.
  induction k as [|k IH]; intros Hk fuel t0 t1 c r c' L0 L1 E; (destruct fuel as [|fuel]; [discriminate|]); cbn [FfSamplingFFT idx nth_error bind] in E.
  - change (2 ^ 0)%nat with 1%nat in *. rewrite L0 in E. cbn [Nat.ltb Nat.leb Nat.eqb] in E.
    destruct t0 as [|x [|? ?]]; cbn [length] in L0; try lia. destruct t1 as [|y [|? ?]]; cbn [length] in L1; try lia.
    cbn [idx2 idx nth_error bind] in E.
    destruct (idx (t_Value FO T) 0) as [v| | |] eqn:EV; cbn [bind] in E; try discriminate.
    destruct (Samplerz FO rb sf (fst x) (fst v) sigmin c) as [[x0 c1]| | |] eqn:E0; cbn [bind fst snd] in E; try discriminate.
    destruct (Samplerz FO rb sf (fst y) (fst v) sigmin c1) as [[x1 c2]| | |] eqn:E1; cbn [bind fst snd] in E; try discriminate.
    apply Ok_inj in E. injection E as _ <-. exists [fst x; fst y], [x0; x1]. split; [reflexivity|].
    cbn [in_turn]. exists c1. split; [exists v; auto|]. exists c2. split; [exists v; auto|reflexivity].
  - assert (P2 : (1 < 2 ^ S k)%nat) by (rewrite pow2_S; pose proof (pow2_ge1 k); lia).
    rewrite L0 in E. destruct (Nat.ltb_spec 1 (2 ^ S k)); [|lia].
    destruct (Split_list FO roots t1) as [s1| | |] eqn:S1; cbn [bind] in E; try discriminate.
    destruct (split_length k t1 s1 ltac:(lia) L1 S1) as (a & b & -> & La & Lb).
    destruct (FfSamplingFFT FO roots rb sf sigmin T fuel [a; b] c) as [[r1 c1]| | |] eqn:R1; cbn [bind fst snd] in E; try discriminate.
    destruct (MergeFFT_list FO roots r1) as [z1| | |]; cbn [bind] in E; try discriminate.
    destruct (SubFFT FO t1 z1) as [d| | |]; cbn [bind] in E; try discriminate.
    destruct (MulFFT FO d (t_Value FO T)) as [m| | |]; cbn [bind] in E; try discriminate.
    destruct (AddFFT FO t0 m) as [u| | |] eqn:A; cbn [bind] in E; try discriminate.
    assert (Lu : length u = (2 ^ S k)%nat).
    { destruct (Nat.eq_dec (length t0) (length m)) as [Q|Q].
      - rewrite AddFFT_ok in A by exact Q. apply Ok_inj in A. subst u. now rewrite map_length, seq_length.
      - unfold AddFFT in A. destruct (Nat.eqb_spec (length t0) (length m)); [contradiction|discriminate]. }
    destruct (Split_list FO roots u) as [s0| | |] eqn:S0; cbn [bind] in E; try discriminate.
    destruct (split_length k u s0 ltac:(lia) Lu S0) as (a' & b' & -> & La' & Lb').
    destruct (FfSamplingFFT FO roots rb sf sigmin T fuel [a'; b'] c1) as [[r0 c2]| | |] eqn:R0; cbn [bind fst snd] in E; try discriminate.
    destruct (MergeFFT_list FO roots r0) as [z0| | |]; cbn [bind] in E; try discriminate.
    apply Ok_inj in E. injection E as _ <-.
    destruct (IH ltac:(lia) _ _ _ _ _ _ La Lb R1) as (m1 & y1 & Ly1 & I1). destruct (IH ltac:(lia) _ _ _ _ _ _ La' Lb' R0) as (m2 & y2 & Ly2 & I2).
    exists (m1 ++ m2), (y1 ++ y2). split; [rewrite app_length, pow2_S; lia|]. exact (in_turn_app _ _ _ _ _ _ _ _ I1 I2).
Qed.
End Calls.
Theorem C83_calls : forall FO rb sf sigmin T k fuel t0 t1 c r c', (k <= 10)%nat ->
  length t0 = (2 ^ k)%nat -> length t1 = (2 ^ k)%nat ->
  FfSamplingFFT FO (roots_dict FO) rb sf sigmin T fuel [t0; t1] c = Ok (r, c') ->
  exists mus zs, length zs = (2 * 2 ^ k)%nat /\
    in_turn (fun mu c z c' => exists v, idx (t_Value FO T) 0 = Ok v /\ Samplerz FO rb sf mu (fst v) sigmin c = Ok (z, c')) c mus zs c'.
Proof. intros FO rb sf sigmin T k fuel t0 t1 c r c' Hk L0 L1 E. exact (calls FO rb sf sigmin T k Hk fuel t0 t1 c r c' L0 L1 E). Qed.
Print Assumptions C83_calls.

(** a run at degree 2 in binary64: nine bytes 255 make the base sampler return 0 *)
Definition ones_blocks : rand := fun _ => Some (repeat 255 9 ++ [0; 0])%Z.
Example C83_nonvacuous :
  (length [3; 0]%R = 2%nat /\ exists v, FFT exactR roots [3; 0] = Ok v /\ length v = 2%nat) /\
  forall ci cu, let FO := binary64 ci cu in
  (r <- FfSamplingFFT FO (roots_dict FO) ones_blocks 1 (f_const FO 12 1)
     {| t_Value := [c_real FO (f_const FO 15 1); c_real FO (f_of_int FO 0)]; t_Leftchild := []; t_Rightchild := [] |}
     2 [[c_real FO (f_of_int FO 5); c_real FO (f_of_int FO 5)]; [c_real FO (f_of_int FO 7); c_real FO (f_of_int FO 7)]] 3 ;;
   Ok (map (map (fun z => to_int FO (fst z))) (fst r), snd r)) = Ok ([[5; 5]; [7; 7]]%Z, 7%nat).
Proof.
  split.
  - split; [reflexivity|]. eexists. split; [apply (C43_fft 1); [lia|reflexivity]|]. rewrite map_length. apply (gr_len _ G 1). lia.
  - intros ci cu. vm_compute. reflexivity.
Qed.
