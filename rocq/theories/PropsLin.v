(** C85: the operations on transforms.  C86: addNTT and subNTT. *)
From Coq Require Import Reals Lra Lia ZArith List.
From Flocq Require Import Core BinarySingleNaN.
From Verif Require Import GoBase Util BaseProofs PolyRing Float Fft FftShape SpecFft ExactReal FftProofs
  RootsProofs RootsAll PropsFft SpecBabai Babai Binary64 B64Proofs Spec PolyZ Ntt NttProofs FalconProofs VerifyProofs2 Witness NttProps PropsNtt KeyGen PolyEval.
Local Open Scope R_scope.

(** the result of combining two lists element by element *)
Definition pointwise {A B C} (op : A -> B -> C) (f : list A) (g : list B) (r : list C) : Prop :=
  length r = length f /\ forall i a b, nth_error f i = Some a -> nth_error g i = Some b -> nth_error r i = Some (op a b).
Lemma zipM_cons {A B C} (op : A -> B -> C) a f b g : zipM op (a :: f) (b :: g) = (r <- zipM op f g ;; Ok (op a b :: r)).
Proof.
  unfold zipM. cbn [length seq mapM]. unfold idx at 1 2. cbn [nth_error bind].
  assert (E : forall m l, mapM m (map S l) = mapM (fun i => m (S i)) l :> res (list C)).
  { intros m l. induction l as [|x l IH]; [reflexivity|]. cbn [map mapM]. rewrite IH. reflexivity. }
  rewrite <- seq_shift, E. f_equal. 
Qed.
Lemma zipM_pointwise {A B C} (op : A -> B -> C) f : forall g, (length f <= length g)%nat -> exists r, zipM op f g = Ok r /\ pointwise op f g r.
Proof.
  induction f as [|a f IH]; intros [|b g] H; cbn [length] in H; try lia.
  - exists []. split; [reflexivity|]. split; [reflexivity|]. intros [|i] ? ? E; discriminate E.
  - exists []. split; [reflexivity|]. split; [reflexivity|]. intros [|i] ? ? E; discriminate E.
  - destruct (IH g ltac:(lia)) as (r & E & [L P]). exists (op a b :: r). rewrite zipM_cons, E. split; [reflexivity|].
    split; [cbn [length]; now rewrite L|]. intros [|i] x y E1 E2; cbn [nth_error] in *; [congruence|]. apply P; assumption.
Qed.
(** For any floats: what is computed at each place, and when there is a panic. *)
Theorem C85_pointwise : forall FO f g,
  (length f = length g ->
    (exists r, AddFFT FO f g = Ok r /\ pointwise (c_add FO) f g r) /\
    (exists r, SubFFT FO f g = Ok r /\ pointwise (fun a b => c_add FO a (c_neg FO b)) f g r) /\
    (exists r, DivFFT FO f g = Ok r /\ pointwise (c_div FO) f g r)) /\
  ((length f <= length g)%nat -> exists r, MulFFT FO f g = Ok r /\ pointwise (c_mul FO) f g r) /\
  (AddFFT FO f g = Panic <-> length f <> length g) /\ (SubFFT FO f g = Panic <-> length f <> length g) /\
  (DivFFT FO f g = Panic <-> length f <> length g) /\ (MulFFT FO f g = Panic <-> (length g < length f)%nat).
Proof.
  intros FO f g. 
  assert (AO : forall g, length f = length g -> exists r, AddFFT FO f g = Ok r /\ pointwise (c_add FO) f g r).
  { intros g' L. unfold AddFFT. rewrite L, Nat.eqb_refl. cbn [negb]. apply zipM_pointwise, Nat.eq_le_incl, L. }
  assert (AP : forall g, length f <> length g -> AddFFT FO f g = Panic).
  { intros g' L. unfold AddFFT. apply Nat.eqb_neq in L. rewrite L. reflexivity. }
  assert (SO : length f = length g -> exists r, SubFFT FO f g = Ok r /\ pointwise (fun a b => c_add FO a (c_neg FO b)) f g r).
  { intros L. unfold SubFFT. destruct (AO (NegFFT FO g)) as (r & E & [Lr P]); [unfold NegFFT; rewrite map_length; exact L|].
    exists r. split; [exact E|]. split; [exact Lr|]. intros i a b Ea Eb. apply P; [exact Ea|]. unfold NegFFT. now apply map_nth_error. }
  assert (DO : length f = length g -> exists r, DivFFT FO f g = Ok r /\ pointwise (c_div FO) f g r).
  { intros L. unfold DivFFT. rewrite L, Nat.eqb_refl. cbn [negb]. apply zipM_pointwise, Nat.eq_le_incl, L. }
  assert (MO : (length f <= length g)%nat -> exists r, MulFFT FO f g = Ok r /\ pointwise (c_mul FO) f g r) by apply zipM_pointwise.
  split; [auto|]. split; [exact MO|]. 
  assert (K : forall X (P Q : Prop) (m : res X), (Q \/ ~ Q) -> (~ Q -> exists r, m = Ok r) -> (Q -> m = Panic) -> (m = Panic <-> Q)).
  { intros X P Q0 m [q0|q0] H1 H2; [now split; auto|]. split; [|contradiction]. intros E. destruct (H1 q0) as (r & Er). rewrite Er in E. discriminate. }
  split; [|split; [|split]].
  - apply K; [exact True|destruct (Nat.eq_dec (length f) (length g)); tauto| |apply AP]. intros L. destruct (AO g ltac:(destruct (Nat.eq_dec (length f) (length g)); tauto)) as (r & E & _). exists r. exact E.
  - apply K; [exact True|destruct (Nat.eq_dec (length f) (length g)); tauto| |]. { intros L. destruct (SO ltac:(destruct (Nat.eq_dec (length f) (length g)); tauto)) as (r & E & _). exists r. exact E. }
    intros L. apply AP. unfold NegFFT. now rewrite map_length.
  - apply K; [exact True|destruct (Nat.eq_dec (length f) (length g)); tauto| |]. { intros L. destruct (DO ltac:(destruct (Nat.eq_dec (length f) (length g)); tauto)) as (r & E & _). exists r. exact E. }
    intros L. unfold DivFFT. apply Nat.eqb_neq in L. rewrite L. reflexivity.
  - apply K; [exact True|destruct (Nat.lt_ge_cases (length g) (length f)) as [L|L]; [left; exact L|right; apply Nat.nlt_ge; exact L]| |apply zipM_panic]. intros L. destruct (MO ltac:(apply Nat.nlt_ge; exact L)) as (r & E & _). exists r. exact E.
Qed.
Print Assumptions C85_pointwise.
(** In exact arithmetic the transform takes sums, differences, negations,
    products and adjoints to those computed on the transforms. *)
Theorem C85_ring : forall k (f g : list R), (1 <= k)%nat -> length f = (2 ^ k)%nat -> length g = (2 ^ k)%nat ->
  exists F G, FFT exactR exact_roots f = Ok F /\ FFT exactR exact_roots g = Ok G /\
  FFT exactR exact_roots (radd (2 ^ k) f g) = AddFFT exactR F G /\
  FFT exactR exact_roots (rsub (2 ^ k) f g) = SubFFT exactR F G /\
  FFT exactR exact_roots (rmul (2 ^ k) f g) = MulFFT exactR F G /\
  FFT exactR exact_roots (map Ropp f) = Ok (NegFFT exactR F) /\
  FFT exactR exact_roots (radj (2 ^ k) f) = Ok (AdjFFT exactR F).
Proof.
  intros k f g Hk Lf Lg. set (n := (2 ^ k)%nat) in *. set (ws := exact_roots n).
  exists (map (ceval f) ws), (map (ceval g) ws).
  assert (T : forall h, length h = n -> FFT exactR exact_roots h = Ok (map (ceval h) ws)) by (intros h Lh; exact (C43_fft k h Hk Lh)).
  assert (W : length ws = n) by apply (C43_roots k Hk).
  assert (Z : forall (op : Cx -> Cx -> Cx) (u v : Cx -> Cx), zipM op (map u ws) (map v ws) = Ok (map (fun z => op (u z) (v z)) ws)).
  { intros op u v. clear. induction ws as [|w ws IH]; [reflexivity|]. cbn [map]. rewrite zipM_cons, IH. reflexivity. }
  split; [apply T, Lf|]. split; [apply T, Lg|].
  split; [|split; [|split; [|split]]].
  - rewrite T by (unfold radd; rewrite map_length, seq_length; reflexivity). unfold AddFFT. rewrite !map_length, Nat.eqb_refl. cbn [negb].
    rewrite Z. f_equal. apply map_ext. intros z. apply ceval_radd; assumption.
  - rewrite T by (unfold rsub; rewrite map_length, seq_length; reflexivity). unfold SubFFT, AddFFT, NegFFT. rewrite !map_length, Nat.eqb_refl. cbn [negb].
    rewrite map_map. refine (eq_trans _ (eq_sym (Z (c_add exactR) (ceval f) (fun z => c_neg exactR (ceval g z))))). f_equal. apply map_ext. intros z.
    rewrite (ceval_rsub n f g z Lf Lg). unfold c_add, c_neg, Csub, Cadd, Copp. cbn [f_add f_neg exactR fst snd]. reflexivity.
  - rewrite T by (unfold rmul; rewrite map_length, seq_length; reflexivity). unfold MulFFT. rewrite Z. f_equal. apply map_ext_in. intros z Hz.
    apply ceval_rmul; try assumption. apply (C43_roots k Hk), Hz.
  - rewrite T by (rewrite map_length; exact Lf). f_equal. unfold NegFFT. rewrite map_map. apply map_ext. intros z.
    assert (E : map Ropp f = rsub n (map (fun _ => 0) f) f).
    { unfold rsub. apply nth_ext with (d := 0) (d' := 0); [rewrite !map_length, seq_length; exact Lf|]. intros i Hi. rewrite map_length, Lf in Hi.
      rewrite nth_map_seq by exact Hi. rewrite (nth_indep _ 0 (- 0)) by (rewrite map_length; lia). rewrite map_nth.
      pose proof (map_nth (fun _ : R => 0) f 0 i) as E0. cbv beta in E0. rewrite E0. ring. }
    rewrite E, (ceval_rsub n _ f z) by (rewrite ?map_length; exact Lf).
    assert (E0 : ceval (map (fun _ => 0) f) z = C0).
    { replace (map (fun _ => 0) f) with (rsub n f f); [rewrite (ceval_rsub n f f z Lf Lf); ring|]. unfold rsub.
      apply nth_ext with (d := 0) (d' := 0); [rewrite !map_length, seq_length; symmetry; exact Lf|]. intros i Hi. rewrite map_length, seq_length in Hi.
      rewrite nth_map_seq by exact Hi.
      pose proof (map_nth (fun _ : R => 0) f 0 i) as E0. cbv beta in E0. rewrite E0. ring. }
    rewrite E0. unfold c_neg, Csub, Cadd, Copp, C0. cbn [f_neg exactR fst snd]. apply f_equal2; cbn; ring.
  - rewrite T by (unfold radj; rewrite map_length, seq_length; reflexivity). f_equal. unfold AdjFFT. rewrite map_map. apply map_ext_in. intros z Hz.
    apply (C43_roots k Hk) in Hz as Hp. destruct (C44_adj_meaning k f z Hk Lf Hp) as [U E]. fold n in E. rewrite E, FftProofs.ceval_conj. reflexivity.
Qed.

Print Assumptions C85_ring.
(** binary64: each element of Add and Sub is the correctly rounded sum or
    difference *)
Theorem C85_rounded : forall ci cu (f g : list b64), length f = length g -> exists a s : list b64,
  Add (binary64 ci cu) f g = Ok a /\ Sub (binary64 ci cu) f g = Ok s /\ length a = length f /\ length s = length f /\
  forall i, (i < length f)%nat -> let x := nth i f (B754_zero false) in let y := nth i g (B754_zero false) in
  is_finite x = true -> is_finite y = true ->
  let p := round radix2 (FLT_exp (-1074) 53) ZnearestE (B2R x + B2R y) in
  let m := round radix2 (FLT_exp (-1074) 53) ZnearestE (B2R x - B2R y) in
  (Rabs p < bpow radix2 1024 -> B2R (nth i a (B754_zero false)) = p /\ is_finite (nth i a (B754_zero false)) = true) /\
  (Rabs m < bpow radix2 1024 -> B2R (nth i s (B754_zero false)) = m /\ is_finite (nth i s (B754_zero false)) = true).
Proof.
  intros ci cu f g L. 
  assert (AD : forall x y : b64, is_finite x = true -> is_finite y = true ->
    Rabs (round radix2 (FLT_exp (-1074) 53) ZnearestE (B2R x + B2R y)) < bpow radix2 1024 ->
    B2R (b_add x y) = round radix2 (FLT_exp (-1074) 53) ZnearestE (B2R x + B2R y) /\ is_finite (b_add x y) = true).
  { intros x y Fx Fy H. pose proof (Bplus_correct 53 1024 _ _ mode_NE x y Fx Fy) as A.
    rewrite Rlt_bool_true in A by exact H. destruct A as (A1 & A2 & _). split; [exact A1|exact A2]. }
  assert (AO : forall g : list b64, length f = length g -> exists r : list b64, Add (binary64 ci cu) f g = Ok r /\ pointwise b_add f g r).
  { intros g' L'. unfold Add. change (F (binary64 ci cu)) with b64. rewrite L', Nat.eqb_refl. cbn [negb]. apply (zipM_pointwise b_add f g'), Nat.eq_le_incl, L'. }
  destruct (AO g L) as (a & Ea & La & Pa).
  destruct (AO (map Bopp g) ltac:(rewrite map_length; exact L)) as (s & Es & Ls & Ps).
  exists a, s. split; [exact Ea|]. split; [exact Es|]. split; [exact La|]. split; [exact Ls|].
  intros i Hi x y Fx Fy p m.
  assert (NX : nth_error f i = Some x) by (apply nth_error_nth', Hi).
  assert (NY : nth_error g i = Some y) by (apply nth_error_nth'; rewrite <- L; exact Hi).
  specialize (Pa i x y NX NY). specialize (Ps i x (Bopp y) NX (map_nth_error _ _ _ NY)).
  rewrite (nth_error_nth _ _ _ Pa), (nth_error_nth _ _ _ Ps).
  split; intros H.
  - apply AD; assumption.
  - assert (E : B2R x + B2R (Bopp y) = B2R x - B2R y) by (rewrite B2R_Bopp; reflexivity).
    assert (Fo : is_finite (Bopp y) = true) by (rewrite is_finite_Bopp; exact Fy).
    pose proof (AD x (Bopp y) Fx Fo) as A. rewrite E in A. apply A, H.
Qed.
Print Assumptions C85_rounded.
Example C85_nonvacuous :
  AddFFT exactR [(1, 2); (3, 4)] [(5, 6); (7, 8)] = Ok [(1 + 5, 2 + 6); (3 + 7, 4 + 8)] /\
  AddFFT exactR [(1, 2)] [] = Panic /\ MulFFT exactR [] [(1, 2)] = Ok [] /\
  (a <- Sub (binary64 (fun _ => 0%Z) (fun _ => 0%Z)) [b_of_int 3; b_of_int 4] [b_of_int 5; b_of_int 1] ;; Ok (RoundAll (binary64 (fun _ => 0%Z) (fun _ => 0%Z)) a)) = Ok [(-2)%Z; 3%Z].
Proof. split; [reflexivity|]. split; [reflexivity|]. split; [reflexivity|]. vm_compute. reflexivity. Qed.
Local Open Scope Z_scope.

(** C86 *)
Theorem C86_ntt_linear : forall n f g, valid_degree n -> length f = n -> length g = n -> int16s f -> int16s g ->
  exists F G, NTT wrap64 f = Ok F /\ NTT wrap64 g = Ok G /\
  addNTT F G = NTT wrap64 (pmod q (padd n f g)) /\
  subNTT F G = NTT wrap64 (pmod q (psub n f g)).
Proof.
  intros n f g D Lf Lg If Ig. destruct (NTT_spec64 n D) as (ws & Lw & _ & _ & T).
  exists (map (fun w => eval f w mod q) ws), (map (fun w => eval g w mod q) ws).
  split; [apply T; assumption|]. split; [apply T; assumption|].
  assert (IQ : forall h, int16s (pmod q h)).
  { intros h. unfold pmod. apply Forall_forall. intros c Hc. apply in_map_iff in Hc. destruct Hc as (x & <- & _).
    pose proof (Z.mod_pos_bound x q ltac:(reflexivity)). change q with 12289 in *. unfold is_int16. lia. }
  assert (EQ : forall h w, eval (pmod q h) w mod q = eval h w mod q).
  { clear. intros h w. induction h as [|c h IH]; [reflexivity|]. unfold pmod in *. cbn [map]. rewrite !PolyEval.eval_cons.
    rewrite Z.add_mod, Z.mul_mod, IH, <- Z.mul_mod, Z.mod_mod, <- Z.add_mod by discriminate. reflexivity. }
  assert (NW : forall h i, (i < n)%nat -> nth i (map (fun w => eval h w mod q) ws) 0 = eval h (nth i ws 0) mod q).
  { intros h i Hi. rewrite (nth_indep _ 0 ((fun w => eval h w mod q) 0)) by (rewrite map_length; lia). apply (map_nth (fun w => eval h w mod q)). }
  assert (B : forall h i, 0 <= eval h (nth i ws 0) mod q < 12289) by (intros h i; apply (Z.mod_pos_bound _ q); reflexivity).
  split.
  - rewrite T; [|unfold pmod, padd; rewrite !map_length, seq_length; reflexivity|apply IQ].
    unfold addNTT. rewrite (addZq_ok n); try (rewrite map_length; exact Lw).
    + f_equal. apply nth_ext with (d := 0) (d' := 0); [rewrite !map_length, seq_length; symmetry; exact Lw|].
      intros i Hi. rewrite map_length, seq_length in Hi. rewrite nth_map_seq by exact Hi. rewrite !NW by exact Hi.
      rewrite EQ, (PolyEval.eval_padd n f g) by assumption. symmetry; apply Z.add_mod; discriminate.
    + intros i Hi. rewrite !NW by exact Hi. pose proof (B f i). pose proof (B g i). unfold is_int16. lia.
  - rewrite T; [|unfold pmod, psub; rewrite !map_length, seq_length; reflexivity|apply IQ].
    unfold subNTT. rewrite (SubZq_ok n); try (rewrite map_length; exact Lw).
    + f_equal. apply nth_ext with (d := 0) (d' := 0); [unfold pmod, psub; rewrite !map_length, seq_length; symmetry; exact Lw|].
      intros i Hi. unfold pmod, psub in Hi. rewrite !map_length, seq_length in Hi. unfold pmod at 1, psub at 1. rewrite map_map, nth_map_seq by exact Hi.
      unfold coef. rewrite !NW by exact Hi.
      rewrite EQ, (PolyEval.eval_psub n f g) by assumption. symmetry. apply Zminus_mod.
    + apply Forall_forall. intros c Hc. apply in_map_iff in Hc. destruct Hc as (w & <- & _). pose proof (Z.mod_pos_bound (eval f w) q ltac:(reflexivity)). change q with 12289 in *. lia.
    + apply Forall_forall. intros c Hc. apply in_map_iff in Hc. destruct Hc as (w & <- & _). pose proof (Z.mod_pos_bound (eval g w) q ltac:(reflexivity)). change q with 12289 in *. lia.
Qed.
Print Assumptions C86_ntt_linear.
Example C86_nonvacuous : addNTT [5540; 8194; 736; 10112] [1; 12288; 0; 5000] = Ok [5541; 8193; 736; 2823] /\
  subNTT [5540; 8194; 736; 10112] [1; 12288; 0; 11000] = Ok [5539; 8195; 736; 11401].
Proof. split; vm_compute; reflexivity. Qed.
