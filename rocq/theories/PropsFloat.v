(** C71, C72: the transforms and the ring operations of fft.go in binary64, with
    the repository's decimal tables.  [ci] and [cu], what a conversion of an
    out-of-range float64 to an integer gives, are arbitrary. *)
From Coq Require Import Reals Lra Lia ZArith List.
From Flocq Require Import Core BinarySingleNaN.
From Verif Require Import GoBase Util BaseProofs Float Fft FftShape Spec SpecFft ExactReal FftProofs RootsProofs
  Binary64 B64Proofs FloatErr FftErr Ntrugen Ffsampling FfExact KeyGen GramErr.
Local Open Scope R_scope.

(** finite and at most B in absolute value *)
Definition bounded (B : R) (f : list b64) : Prop :=
  Forall (fun x => is_finite x = true /\ Rabs (B2R x) <= B) f.
(** the distance of two complex numbers is at most e *)
Definition cdist_le (a b : Cx) (e : R) : Prop := sqrt (Csqnorm (Csub a b)) <= e.
(** the complex number of a pair of finite floats *)
Definition cval (z : b64 * b64) : Cx := (B2R (fst z), B2R (snd z)).
(** the unit roundoff 2^-53 and the bound 2^100 on the inputs *)
Definition u : R := / 2 ^ 53.
Definition zero : b64 := B754_zero false.

Lemma u_eq : u = u53.
Proof. unfold u, u53. f_equal. rewrite pow_IZR. reflexivity. Qed.
Lemma Cle_cdist a b e : Cle (Csub a b) e -> cdist_le a b e.
Proof.
  intros [H1 H2]. unfold cdist_le. rewrite <- (sqrt_square e) by exact H1. apply sqrt_le_1_alt, H2.
Qed.
Lemma cdist_Cle a b e : cdist_le a b e -> Cle (Csub a b) e.
Proof.
  intros H. unfold cdist_le in H. pose proof (sqrt_pos (Csqnorm (Csub a b))) as P. split; [lra|].
  rewrite <- (sqrt_sqrt (Csqnorm (Csub a b))) by apply Csqnorm_pos. apply Rmult_le_compat; lra.
Qed.
Lemma sqrt_Cle c M : sqrt (Csqnorm c) <= M -> Cle c M.
Proof.
  intros H. pose proof (sqrt_pos (Csqnorm c)) as P. split; [lra|].
  rewrite <- (sqrt_sqrt (Csqnorm c)) by apply Csqnorm_pos. apply Rmult_le_compat; lra.
Qed.
Lemma cap_le n X : 0 <= X <= 2 ^ 100 -> (n <= 10)%nat -> 8 * (2 ^ n * X) <= big.
Proof.
  intros HX Hn. rewrite <- cap_pow in HX. pose proof cap_big as CB. pose proof (pow2_le1024 n Hn) as PL.
  pose proof (pow2_pos n). assert (C1 : 1 <= cap) by (unfold cap; lra).
  assert (A : 2 ^ n * X <= 1024 * cap) by (apply Rmult_le_compat; lra).
  assert (C2 : cap * 1 <= cap * cap) by (apply Rmult_le_compat_l; lra). lra.
Qed.
Lemma cap_le2 n X Y : 0 <= X <= 2 ^ 100 -> 0 <= Y <= 2 ^ 100 -> (n <= 10)%nat -> 8 * (2 ^ n * X * (2 ^ n * Y)) <= big.
Proof.
  intros HX HY Hn. rewrite <- cap_pow in HX, HY. pose proof cap_big as CB. pose proof (pow2_le1024 n Hn) as PL.
  pose proof (pow2_pos n). assert (C1 : 1 <= cap) by (unfold cap; lra).
  assert (A : 2 ^ n * X <= 1024 * cap) by (apply Rmult_le_compat; lra).
  assert (A' : 2 ^ n * Y <= 1024 * cap) by (apply Rmult_le_compat; lra).
  assert (P1 : 0 <= 2 ^ n * X) by (apply Rmult_le_pos; lra). assert (P2 : 0 <= 2 ^ n * Y) by (apply Rmult_le_pos; lra).
  assert (AA : 2 ^ n * X * (2 ^ n * Y) <= 1024 * cap * (1024 * cap)) by (apply Rmult_le_compat; lra).
  assert (C2 : 1 * 1 <= cap * cap) by (apply Rmult_le_compat; lra). lra.
Qed.

(** ** C71 *)
(** Every output of FFT is finite and within 20 k 2^k B 2^-53 of the value of the
    polynomial at the exact root. *)
Theorem C71_fft : forall ci cu k B (f : list b64), (1 <= k <= 10)%nat -> 1 <= B <= 2 ^ 100 ->
  length f = (2 ^ k)%nat -> bounded B f ->
  exists v, FFT (binary64 ci cu) (roots_dict (binary64 ci cu)) f = Ok v /\ length v = (2 ^ k)%nat /\
    forall i, (i < 2 ^ k)%nat ->
      let z := nth i v (zero, zero) in
      is_finite (fst z) = true /\ is_finite (snd z) = true /\
      cdist_le (cval z) (ceval (map B2R f) (nth i (exact_roots (2 ^ k)) C0)) (20 * INR k * 2 ^ k * B * u).
Proof.
  intros ci cu k B f Hk HB L H.
  destruct (FFT_err ci cu k f (map B2R f) 0 B Hk) as (v & E & L1 & _ & N).
  - apply bounded_near; assumption.
  - lra.
  - lra.
  - apply cap_le; lia || lra.
  - exists v. split; [exact E|]. split; [exact L1|]. intros i Hi z. destruct (N i Hi) as [[[F1 F2] A] _].
    split; [exact F1|]. split; [exact F2|]. apply Cle_cdist. rewrite nth_map_ceval in A by (rewrite (gr_len _ exact_good) by lia; exact Hi).
    rewrite u_eq. eapply Cle_le; [|exact A]. apply Req_le. ring.
Qed.
Print Assumptions C71_fft.

(** IFFT on values within E of the evaluations of a polynomial, all at most M. *)
Theorem C71_ifft : forall ci cu k E M (v : list (b64 * b64)) (p : list R), (1 <= k <= 10)%nat ->
  1 <= M <= 2 ^ 100 -> length v = (2 ^ k)%nat -> length p = (2 ^ k)%nat -> 0 <= E <= M / 8 ->
  (forall i, (i < 2 ^ k)%nat ->
    let z := nth i v (zero, zero) in let y := ceval p (nth i (exact_roots (2 ^ k)) C0) in
    is_finite (fst z) = true /\ is_finite (snd z) = true /\ cdist_le (cval z) y E /\ sqrt (Csqnorm y) <= M) ->
  exists f, IFFT (binary64 ci cu) (roots_dict (binary64 ci cu)) v = Ok f /\ length f = (2 ^ k)%nat /\
    forall i, (i < 2 ^ k)%nat -> is_finite (nth i f zero) = true /\
      Rabs (B2R (nth i f zero) - nth i p 0) <= E + 50 * INR k * M * u.
Proof.
  intros ci cu k E M v p Hk HM Lv Lp HE H.
  pose proof (small_ku k Hk) as KU.
  destruct (IFFT_err ci cu k v p E M Hk) as (f & EF & L & _ & N).
  - split; [exact Lv|]. pose proof (gr_len _ exact_good k ltac:(lia)) as LR. split; [rewrite map_length; exact LR|].
    intros i Hi. rewrite nth_map_ceval by lia. destruct (H i Hi) as (F1 & F2 & D & S1).
    split; [split; [split; assumption|apply cdist_Cle, D]|apply sqrt_Cle, S1].
  - exact Lp.
  - lra.
  - assert (Q : M * (INR k * u53) <= M * / 100000000000000) by (apply Rmult_le_compat_l; lra).
    replace (INR k * (50 * (M * u53))) with (50 * (M * (INR k * u53))) by ring. lra.
  - pose proof (cap_le 0 M ltac:(lra) ltac:(lia)) as Q. lra.
  - exists f. split; [exact EF|]. split; [exact L|]. intros i Hi. destruct (N i Hi) as [[F1 A] _]. split; [exact F1|].
    rewrite u_eq. eapply Rle_trans; [exact A|]. apply Req_le. ring.
Qed.
Print Assumptions C71_ifft.

Lemma round_trip ci cu k B (f : list b64) v : (1 <= k <= 10)%nat -> 1 <= B <= 2 ^ 100 ->
  near ci cu (2 ^ k) 0 B f v ->
  exists F g, FFT (binary64 ci cu) (roots_dict (binary64 ci cu)) f = Ok F /\
    IFFT (binary64 ci cu) (roots_dict (binary64 ci cu)) F = Ok g /\
    near ci cu (2 ^ k) (70 * INR k * 2 ^ k * B * u53) (2 ^ k * B) g v.
Proof.
  intros Hk HB Nv. pose proof (small_ku k Hk) as KU. pose proof (pow2_pos k) as PP.
  pose proof (cap_le k B ltac:(lra) ltac:(lia)) as HC.
  destruct (FFT_err ci cu k f v 0 B Hk Nv ltac:(lra) ltac:(lra) HC) as (F & E & N).
  assert (MB : 1 <= 2 ^ k * B) by (replace 1 with (1 * 1) by ring; apply Rmult_le_compat; lra).
  pose proof Nv as (_ & Lv & _).
  destruct (IFFT_err ci cu k F v _ _ Hk N Lv MB) as (g & EG & N').
  - replace (2 ^ k * (0 + INR k * (20 * (B * u53))) + INR k * (50 * (2 ^ k * B * u53)))
      with (70 * (2 ^ k * B * (INR k * u53))) by ring.
    assert (Q : 2 ^ k * B * (INR k * u53) <= 2 ^ k * B * / 100000000000000) by (apply Rmult_le_compat_l; lra). lra.
  - exact HC.
  - exists F, g. split; [exact E|]. split; [exact EG|]. eapply near_le; [| |exact N']; [apply Req_le; ring|lra].
Qed.

Theorem C71_round_trip : forall ci cu k B (f : list b64), (1 <= k <= 10)%nat -> 1 <= B <= 2 ^ 100 ->
  length f = (2 ^ k)%nat -> bounded B f ->
  exists v g, FFT (binary64 ci cu) (roots_dict (binary64 ci cu)) f = Ok v /\
    IFFT (binary64 ci cu) (roots_dict (binary64 ci cu)) v = Ok g /\ length g = (2 ^ k)%nat /\
    forall i, (i < 2 ^ k)%nat -> is_finite (nth i g zero) = true /\
      Rabs (B2R (nth i g zero) - B2R (nth i f zero)) <= 70 * INR k * 2 ^ k * B * u.
Proof.
  intros ci cu k B f Hk HB L H.
  destruct (round_trip ci cu k B f (map B2R f) Hk HB) as (F & g & E1 & E2 & L1 & _ & N); [apply bounded_near; assumption|].
  exists F, g. split; [exact E1|]. split; [exact E2|]. split; [exact L1|]. intros i Hi. destruct (N i Hi) as [[F1 A] _].
  split; [exact F1|]. rewrite u_eq. replace (B2R (nth i f zero)) with (nth i (map B2R f) 0); [exact A|].
  change 0 with (B2R zero). apply map_nth.
Qed.
Print Assumptions C71_round_trip.

(** Integer polynomials with coefficients up to 2^30, in particular int16 ones,
    come back exactly after rounding. *)
Theorem C71_integers : forall ci cu k (f : list Z), (1 <= k <= 10)%nat -> length f = (2 ^ k)%nat ->
  Forall (fun z => (Z.abs z <= 2 ^ 30)%Z) f ->
  exists v g, FFT (binary64 ci cu) (roots_dict (binary64 ci cu)) (Int16ToFloat64 (binary64 ci cu) f) = Ok v /\
    IFFT (binary64 ci cu) (roots_dict (binary64 ci cu)) v = Ok g /\ RoundAll (binary64 ci cu) g = f.
Proof.
  intros ci cu k f Hk L H.
  destruct (round_trip ci cu k (IZR (2 ^ 30)) (map b_of_int f) (map IZR f) Hk) as (F & g & E1 & E2 & N).
  - rewrite <- cap_pow. unfold cap. split; apply IZR_le; lia.
  - apply near_ints; auto. lia.
  - exists F, g. split; [exact E1|]. split; [exact E2|]. unfold RoundAll. apply (near_round ci cu _ _ _ _ _ N).
    + pose proof (INR_le10 k Hk) as K. pose proof (pow2_pos k) as PP. pose proof (pow2_le1024 k ltac:(lia)) as PL.
      assert (A : INR k * 2 ^ k <= 10 * 1024) by (apply Rmult_le_compat; lra).
      replace (70 * INR k * 2 ^ k * IZR (2 ^ 30) * u53) with (INR k * 2 ^ k * (70 * IZR (2 ^ 30) * u53)) by ring.
      apply Rle_lt_trans with (10 * 1024 * (70 * IZR (2 ^ 30) * u53)).
      * apply Rmult_le_compat_r; [|exact A]. unfold u53. change (2 ^ 30)%Z with 1073741824%Z. lra.
      * unfold u53. change (2 ^ 30)%Z with 1073741824%Z. lra.
    + pose proof (pow2_le1024 k ltac:(lia)) as PL. pose proof (pow2_pos k).
      apply Rle_trans with (1024 * IZR (2 ^ 30)); [apply Rmult_le_compat_r; [apply IZR_le|]; lra || lia|].
      rewrite <- mult_IZR. apply IZR_le. lia.
Qed.
Print Assumptions C71_integers.

(** ** C72 *)
Theorem C72_mul : forall ci cu k B D (f g : list b64), (1 <= k <= 10)%nat -> 1 <= B <= 2 ^ 100 -> 1 <= D <= 2 ^ 100 ->
  length f = (2 ^ k)%nat -> length g = (2 ^ k)%nat -> bounded B f -> bounded D g ->
  exists p, Mul (binary64 ci cu) (roots_dict (binary64 ci cu)) f g = Ok p /\ length p = (2 ^ k)%nat /\
    forall i, (i < 2 ^ k)%nat -> is_finite (nth i p zero) = true /\
      Rabs (B2R (nth i p zero) - nth i (rmul (2 ^ k) (map B2R f) (map B2R g)) 0) <= 100 * INR k * (2 ^ k * B) * (2 ^ k * D) * u.
Proof.
  intros ci cu k B D f g Hk HB HD Lf Lg Hf Hg.
  destruct (Mul_err ci cu k f g (map B2R f) (map B2R g) 0 0 B D Hk) as (p & E & L & _ & N);
    try lra; try (rewrite Rmult_0_r; apply bounded_near; assumption).
  { apply cap_le2; lra || lia. }
  exists p. split; [exact E|]. split; [exact L|]. intros i Hi. destruct (N i Hi) as [[F1 A] _]. split; [exact F1|].
  rewrite u_eq. eapply Rle_trans; [exact A|]. apply Req_le. ring.
Qed.
Print Assumptions C72_mul.

(** Integer products are exact after rounding when the product of the two
    coefficient bounds is at most 2^22. *)
Theorem C72_integer_mul : forall ci cu k B D (f g : list Z), (1 <= k <= 10)%nat -> (1 <= B)%Z -> (1 <= D)%Z ->
  (B * D <= 2 ^ 22)%Z -> length f = (2 ^ k)%nat -> length g = (2 ^ k)%nat ->
  Forall (fun z => (Z.abs z <= B)%Z) f -> Forall (fun z => (Z.abs z <= D)%Z) g ->
  exists p, Mul (binary64 ci cu) (roots_dict (binary64 ci cu))
      (Int16ToFloat64 (binary64 ci cu) f) (Int16ToFloat64 (binary64 ci cu) g) = Ok p /\
    RoundAll (binary64 ci cu) p = negacyc (2 ^ k) f g.
Proof.
  intros ci cu k B D f g Hk HB HD HBD Lf Lg Hf Hg.
  assert (HB1 : (B <= 2 ^ 22)%Z) by nia. assert (HD1 : (D <= 2 ^ 22)%Z) by nia.
  assert (CB : forall x, (1 <= x <= 2 ^ 22)%Z -> 1 <= IZR x <= 2 ^ 100).
  { intros x Hx. rewrite <- cap_pow. unfold cap. split; apply IZR_le; lia. }
  pose proof (CB B ltac:(lia)) as RB. pose proof (CB D ltac:(lia)) as RD.
  destruct (Mul_err ci cu k (map b_of_int f) (map b_of_int g) (map IZR f) (map IZR g) 0 0 (IZR B) (IZR D) Hk) as (p & E & N);
    try lra; try (rewrite Rmult_0_r; apply near_ints; auto; lia).
  { apply cap_le2; lra || lia. }
  exists p. split; [exact E|]. rewrite rmul_IZR in N.
  pose proof (INR_le10 k Hk) as K. pose proof (pow2_pos k) as PP. pose proof (pow2_le1024 k ltac:(lia)) as PL.
  assert (BD : 1 <= IZR B * IZR D <= 4194304).
  { rewrite <- mult_IZR. split; apply IZR_le; nia. }
  assert (NN : 1 <= 2 ^ k * 2 ^ k <= 1048576).
  { split; [replace 1 with (1 * 1) by ring|replace 1048576 with (1024 * 1024) by ring]; apply Rmult_le_compat; lra. }
  assert (NB : 1 <= 2 ^ k * IZR B * (2 ^ k * IZR D) <= 1048576 * 4194304).
  { replace (2 ^ k * IZR B * (2 ^ k * IZR D)) with ((2 ^ k * 2 ^ k) * (IZR B * IZR D)) by ring.
    split; [replace 1 with (1 * 1) by ring|]; apply Rmult_le_compat; lra. }
  unfold RoundAll. apply (near_round ci cu _ _ _ _ _ N).
  - apply Rle_lt_trans with (1048576 * 4194304 * (100 * (10 * u53))); [|unfold u53; lra].
    apply Rmult_le_compat; unfold u53; lra.
  - eapply Rle_trans; [apply NB|]. rewrite <- mult_IZR. apply IZR_le. lia.
Qed.
Print Assumptions C72_integer_mul.

Theorem C72_adj : forall ci cu k B (f : list b64), (1 <= k <= 10)%nat -> 1 <= B <= 2 ^ 100 ->
  length f = (2 ^ k)%nat -> bounded B f ->
  exists p, Adj (binary64 ci cu) (roots_dict (binary64 ci cu)) f = Ok p /\ length p = (2 ^ k)%nat /\
    forall i, (i < 2 ^ k)%nat -> is_finite (nth i p zero) = true /\
      Rabs (B2R (nth i p zero) - nth i (radj (2 ^ k) (map B2R f)) 0) <= 70 * INR k * 2 ^ k * B * u.
Proof.
  intros ci cu k B f Hk HB Lf Hf.
  destruct (Adj_err ci cu k f (map B2R f) 0 B Hk) as (p & E & L & _ & N);
    try lra; try (rewrite Rmult_0_r; apply bounded_near; assumption).
  { apply cap_le; lra || lia. }
  exists p. split; [exact E|]. split; [exact L|]. intros i Hi. destruct (N i Hi) as [[F1 A] _]. split; [exact F1|].
  rewrite u_eq. eapply Rle_trans; [exact A|]. apply Req_le. ring.
Qed.
Print Assumptions C72_adj.

(** The Gram matrix of ffsampling.go:38-58, for matrices of any shape up to 1000
    columns (the code's has two). *)
Theorem C72_gram : forall ci cu (B : list (list (list b64))) cols k X,
  (1 <= k <= 10)%nat -> 1 <= X <= 2 ^ 100 -> (1 <= length B)%nat -> (1 <= cols <= 1000)%nat ->
  Forall (fun row => length row = cols /\ Forall (fun p => length p = (2 ^ k)%nat /\ bounded X p) row) B ->
  exists G, Gram (binary64 ci cu) (roots_dict (binary64 ci cu)) B = Ok G /\ length G = length B /\
    forall i, (i < length B)%nat -> length (nth i G []) = length B /\
    forall j, (j < length B)%nat -> length (nth j (nth i G []) []) = (2 ^ k)%nat /\
    forall t, (t < 2 ^ k)%nat -> is_finite (nth t (nth j (nth i G []) []) zero) = true /\
      Rabs (B2R (nth t (nth j (nth i G []) []) zero)
        - nth t (gram_entry (2 ^ k) cols (map (map (map B2R)) B) i j) 0)
      <= INR cols * (121 + INR cols) * INR k * (2 ^ k) ^ 3 * X ^ 2 * u.
Proof.
  intros ci cu B cols k X Hk HX Hr Hc HB. rewrite <- cap_pow in HX.
  destruct (Gram_err ci cu B cols k X Hk HX Hr Hc HB) as (G & E & L & N).
  exists G. split; [exact E|]. split; [exact L|]. intros i Hi. destruct (N i Hi) as [Lr Nr]. split; [exact Lr|].
  intros j Hj. destruct (Nr j Hj) as (L1 & _ & Nt). split; [exact L1|]. intros t Ht. destruct (Nt t Ht) as [[F1 A] _].
  split; [exact F1|]. rewrite u_eq. eapply Rle_trans; [exact A|]. unfold gram_err. apply Req_le. ring.
Qed.
Print Assumptions C72_gram.

(** ** Concrete cases *)
Definition b64_any : floats := binary64 (fun _ => 0%Z) (fun _ => 0%Z).
(** IFFT(FFT(f)) in binary64 *)
Definition back (f : list Z) : res (list b64) :=
  v <- FFT b64_any (roots_dict b64_any) (Int16ToFloat64 b64_any f) ;; IFFT b64_any (roots_dict b64_any) v.
(** The transforms are not exact: 2 comes back as a smaller number, so that
    truncating gives 1; rounding gives 2. *)
Example C71_nonvacuous :
  (1 <= 2 <= 10)%nat /\ length [1; 2; 3; 4]%Z = (2 ^ 2)%nat /\ Forall (fun z => (Z.abs z <= 2 ^ 30)%Z) [1; 2; 3; 4]%Z /\
  exists g, back [1; 2; 3; 4]%Z = Ok g /\ RoundAll b64_any g = [1; 2; 3; 4]%Z /\
    map (fun x => f_to_int b64_any x) g = [1; 1; 3; 4]%Z.
Proof.
  split; [lia|]. split; [reflexivity|]. split; [repeat constructor; discriminate|].
  assert (A : match back [1; 2; 3; 4]%Z with
    | Ok g => (RoundAll b64_any g, map (fun x => f_to_int b64_any x) g) | _ => ([], []) end
    = ([1; 2; 3; 4], [1; 1; 3; 4])%Z) by (vm_compute; reflexivity).
  destruct (back [1; 2; 3; 4]%Z) as [g|e| |] eqn:E; [|discriminate A ..].
  exists g. split; [reflexivity|].
  injection A as A1 A2. split; [exact A1|exact A2].
Qed.
Example C72_nonvacuous :
  (1 <= 2 <= 10)%nat /\ (127 * 12289 <= 2 ^ 22)%Z /\
  Forall (fun z => (Z.abs z <= 127)%Z) [127; -127; 5; 0]%Z /\ Forall (fun z => (Z.abs z <= 12289)%Z) [12288; 1; 0; -7]%Z /\
  exists p, Mul b64_any (roots_dict b64_any) (Int16ToFloat64 b64_any [127; -127; 5; 0]%Z)
      (Int16ToFloat64 b64_any [12288; 1; 0; -7]%Z) = Ok p /\
    RoundAll b64_any p = negacyc 4 [127; -127; 5; 0]%Z [12288; 1; 0; -7]%Z.
Proof.
  split; [lia|]. split; [lia|]. split; [repeat constructor; discriminate|]. split; [repeat constructor; discriminate|].
  apply (C72_integer_mul _ _ 2 127 12289); try lia; try reflexivity; repeat constructor; discriminate.
Qed.

(** ** C73: RoundFFTtoInt16 *)
(** what rounding to the nearest int16 would give for a value near an integer *)
Definition rounds_to (x : b64) (z : Z) : Prop :=
  is_finite x = true /\ Rabs (B2R x - IZR z) < / 2 /\ (- 32768 <= z <= 32767)%Z.
Lemma Forall2_nth {A B} (P : A -> B -> Prop) d e : forall (l : list A) (l' : list B), length l = length l' ->
  (forall i, (i < length l)%nat -> P (nth i l d) (nth i l' e)) -> Forall2 P l l'.
Proof.
  induction l as [|a l IH]; intros [|b l'] L H; try discriminate; constructor.
  - apply (H 0%nat). cbn. lia.
  - apply IH; [injection L; auto|]. intros i Hi. apply (H (S i)). cbn. lia.
Qed.
Lemma near_rounds ci cu E M (g : list b64) f : near ci cu (length f) E M g (map IZR f) -> E < / 2 ->
  Forall (fun z => - 32768 <= z <= 32767)%Z f -> Forall2 rounds_to g f.
Proof.
  intros (L1 & L2 & N) HE HR. apply (Forall2_nth _ zero 0%Z); [exact L1|].
  intros i Hi. replace (@length b64 g) with (length f) in Hi by (symmetry; exact L1). destruct (N i Hi) as [[F1 A] _].
  rewrite (map_nth IZR f 0%Z) in A.
  split; [exact F1|]. split; [eapply Rle_lt_trans; [exact A|exact HE]|].
  rewrite Forall_forall in HR. apply HR. apply nth_In, Hi.
Qed.
Lemma back_rounds k (f : list Z) : (1 <= k <= 10)%nat -> length f = (2 ^ k)%nat -> Forall (fun z => - 32768 <= z <= 32767)%Z f ->
  exists g, back f = Ok g /\ Forall2 rounds_to g f.
Proof.
  intros Hk L HR.
  destruct (round_trip (fun _ => 0%Z) (fun _ => 0%Z) k (IZR 32768) (map b_of_int f) (map IZR f) Hk) as (F & g & E1 & E2 & N).
  - rewrite <- cap_pow. unfold cap. split; apply IZR_le; lia.
  - apply near_ints; [exact L|eapply Forall_impl; [|exact HR]; cbv beta; intros; lia|lia].
  - exists g. split.
    + unfold back, b64_any. unfold Int16ToFloat64. cbn [f_of_int binary64].
      match goal with |- bind ?m ?k = _ => replace m with (Ok F) by (symmetry; exact E1) end. cbn [bind]. exact E2.
    + rewrite <- L in N. apply (near_rounds _ _ _ _ g f N); [|exact HR].
      pose proof (INR_le10 k Hk) as K. pose proof (pow2_pos k) as PP. pose proof (pow2_le1024 k ltac:(lia)) as PL.
      assert (A : INR k * 2 ^ k <= 10 * 1024) by (apply Rmult_le_compat; lra).
      replace (70 * INR k * 2 ^ k * 32768 * u53) with (INR k * 2 ^ k * (70 * 32768 * u53)) by ring.
      apply Rle_lt_trans with (10 * 1024 * (70 * 32768 * u53)).
      * apply Rmult_le_compat_r; [unfold u53; lra|exact A].
      * unfold u53. lra.
Qed.
(** int16 polynomials always come back close enough for rounding to recover them,
    and RoundFFTtoInt16 gives another one. *)
Theorem C73_round_refuted :
  (forall k (f : list Z), (1 <= k <= 10)%nat -> length f = (2 ^ k)%nat -> Forall (fun z => - 32768 <= z <= 32767)%Z f ->
    exists g, back f = Ok g /\ Forall2 rounds_to g f) /\
  exists (f : list Z) (g : list b64), back f = Ok g /\ Forall2 rounds_to g f /\
    RoundFFTtoInt16 b64_any (map (c_real b64_any) g) <> f.
Proof.
  split; [exact back_rounds|]. exists [1; 2; 3; 4]%Z.
  assert (A : match back [1; 2; 3; 4]%Z with
    | Ok g => RoundFFTtoInt16 b64_any (map (c_real b64_any) g) | _ => [] end = [1; 1; 3; 4]%Z) by (vm_compute; reflexivity).
  destruct (back_rounds 2 [1; 2; 3; 4]%Z) as (g & E & N); [lia|reflexivity|repeat constructor; discriminate|].
  exists g. split; [exact E|]. split; [exact N|]. rewrite E in A. intros C. rewrite C in A. clear - A. discriminate A.
Qed.
Print Assumptions C73_round_refuted.

(** What it computes: the real part truncated towards zero, for the values in the
    range of an int16 (Go leaves the others to the implementation). *)
Lemma conv_trunc ci (x : b64) : is_finite x = true -> - 32769 < B2R x < 32768 ->
  (- 32768 <= Ztrunc (B2R x) <= 32767)%Z /\ b_conv ci (- 2 ^ 63) (2 ^ 63) x = Ztrunc (B2R x).
Proof.
  intros Fx [B1 B2].
  assert (R : (- 32768 <= Ztrunc (B2R x) <= 32767)%Z).
  { destruct (Rle_or_lt 0 (B2R x)) as [P|P].
    - rewrite Ztrunc_floor by exact P. split.
      + apply Z.le_trans with 0%Z; [lia|]. apply Zfloor_lub. exact P.
      + apply Zlt_succ_le, lt_IZR. eapply Rle_lt_trans; [apply Zfloor_lb|exact B2].
    - rewrite Ztrunc_ceil by lra. split.
      + apply (Zlt_le_succ (-32769)), lt_IZR. pose proof (Zceil_ub (B2R x)). lra.
      + apply Z.le_trans with 0%Z; [|lia]. apply Zceil_glb. lra. }
  split; [exact R|]. unfold b_conv. rewrite Fx.
  pose proof (Btrunc_correct 53 1024 eq_refl x) as T. rewrite round_FIX_IZR in T. apply eq_IZR in T. rewrite T.
  destruct (Z.leb_spec (- 2 ^ 63) (Ztrunc (B2R x))); [|lia].
  destruct (Z.ltb_spec (Ztrunc (B2R x)) (2 ^ 63)); [|lia]. reflexivity.
Qed.
Theorem C73_truncates : forall ci cu (v : list (b64 * b64)),
  Forall (fun z => is_finite (fst z) = true /\ - 32769 < B2R (fst z) < 32768) v ->
  RoundFFTtoInt16 (binary64 ci cu) v = map (fun z => Ztrunc (B2R (fst z))) v.
Proof.
  intros ci cu v H. unfold RoundFFTtoInt16. apply map_ext_in. intros z Hz. rewrite Forall_forall in H. destruct (H z Hz) as [Fz Bz].
  destruct (conv_trunc ci (fst z) Fz Bz) as [R E].
  transitivity (wrap16 (Ztrunc (B2R (fst z)))); [exact (f_equal wrap16 E)|].
  unfold wrap16, wrap. lia.
Qed.
Print Assumptions C73_truncates.

(** So it agrees with rounding exactly for the values that are not closer to the
    next integer away from zero. *)
Theorem C73_near_partial : forall ci cu (x y : b64) z, rounds_to x z ->
  (RoundFFTtoInt16 (binary64 ci cu) [(x, y)] = [z] <-> IZR (Z.abs z) <= Rabs (B2R x) \/ (z = 0)%Z).
Proof.
  intros ci cu x y z (Fx & Hd & Hz).
  assert (ZB : -32768 <= IZR z <= 32767) by (split; apply IZR_le; lia).
  apply Rabs_def2 in Hd. destruct Hd as [D1 D2].
  rewrite (C73_truncates ci cu [(x, y)]).
  2:{ constructor; [|constructor]. split; [exact Fx|]. cbn [fst]. lra. }
  cbn [map fst]. rewrite abs_IZR.
  assert (EQ : forall t, [t] = [z] <-> t = z) by (intros t; split; [intros E; injection E; auto|intros ->; reflexivity]).
  destruct (Z.lt_trichotomy z 0) as [N|[->|P]].
  - assert (Zn : IZR z <= -1) by (apply (IZR_le z (-1)); lia).
    rewrite (Rabs_left (IZR z)) by lra. rewrite (Rabs_left (B2R x)) by lra. rewrite Ztrunc_ceil by lra.
    assert (C : (Zceil (B2R x) = z \/ Zceil (B2R x) = z + 1)%Z /\ (Zceil (B2R x) = z <-> B2R x <= IZR z)).
    { destruct (Rle_or_lt (B2R x) (IZR z)) as [L|L].
      - assert (E : Zceil (B2R x) = z) by (apply Zceil_imp; rewrite minus_IZR; lra). split; [left; exact E|tauto].
      - assert (E : (Zceil (B2R x) = z + 1)%Z) by (apply Zceil_imp; rewrite minus_IZR, !plus_IZR; lra).
        split; [right; exact E|]. rewrite E. split; [lia|lra]. }
    destruct C as [C1 C2]. rewrite EQ. rewrite C2. split; [intros; left; lra|intros [A|A]; [lra|lia]].
  - split; [right; reflexivity|]. intros _. rewrite EQ.
      destruct (Rle_or_lt 0 (B2R x)) as [L|L].
      * rewrite Ztrunc_floor by exact L. apply Zfloor_imp. cbn [IZR] in *. cbn. lra.
      * rewrite Ztrunc_ceil by lra. apply Zceil_imp. cbn. lra.
  - assert (Zn : 1 <= IZR z) by (apply (IZR_le 1 z); lia).
    rewrite (Rabs_pos_eq (IZR z)) by lra. rewrite (Rabs_pos_eq (B2R x)) by lra. rewrite Ztrunc_floor by lra.
    assert (C : (Zfloor (B2R x) = z \/ Zfloor (B2R x) = z - 1)%Z /\ (Zfloor (B2R x) = z <-> IZR z <= B2R x)).
    { destruct (Rle_or_lt (IZR z) (B2R x)) as [L|L].
      - assert (E : Zfloor (B2R x) = z) by (apply Zfloor_imp; rewrite plus_IZR; lra). split; [left; exact E|tauto].
      - assert (E : (Zfloor (B2R x) = z - 1)%Z) by (apply Zfloor_imp; rewrite plus_IZR, !minus_IZR; lra).
        split; [right; exact E|]. rewrite E. split; [lia|lra]. }
    destruct C as [C1 C2]. rewrite EQ. rewrite C2. split; [intros; left; lra|intros [A|A]; [lra|lia]].
Qed.
Print Assumptions C73_near_partial.
(** 7/4 rounds to 2 and is truncated to 1; 9/4 gives 2 both ways. *)
Definition b74 : b64 := @B754_finite 53 1024 false 7881299347898368 (-52) eq_refl.
Definition b94 : b64 := @B754_finite 53 1024 false 5066549580791808 (-51) eq_refl.
Example C73_nonvacuous : rounds_to b74 2 /\ rounds_to b94 2 /\
  RoundFFTtoInt16 b64_any [(b74, b74); (b94, b94)] = [1; 2]%Z.
Proof.
  split; [|split].
  - split; [reflexivity|]. split; [|lia]. assert (E : B2R b74 = 7 / 4) by (unfold b74, B2R, F2R; simpl; lra).
    rewrite E. apply Rabs_def1; lra.
  - split; [reflexivity|]. split; [|lia]. assert (E : B2R b94 = 9 / 4) by (unfold b94, B2R, F2R; simpl; lra).
    rewrite E. apply Rabs_def1; lra.
  - vm_compute. reflexivity.
Qed.
