(** C81: the Gram-Schmidt norm that NtruGen computes in binary64 arithmetic, and
    the keys that pass its test.  C82: the complex division of the Go runtime. *)
From Coq Require Import Reals Lra Lia ZArith List.
From Flocq Require Import Core BinarySingleNaN.
From Verif Require Import GoBase Util BaseProofs PolyZ PolyEval Spec Float Fft FftShape SpecFft SpecBabai ExactReal FftProofs RootsProofs FftErr
  Ntt Ntrugen NtruProofs NtruProofs2 NtruProofs3 NtruProps Samplerz KeyGen KeyGenProofs Falcon Binary64 B64Proofs FloatErr Babai GsExact GsBound GsReduce
  QuotErr QuotLoop Witness PropsKeyGen PropsGs PropsReduce CdivErr CdivGen SqrErr GsFloat GsAcc.
Local Open Scope R_scope.

(** GsNorm as NtruGen calls it (ntrugen.go:313-315) *)
Notation float_GsNorm ci cu f g :=
  (GsNorm (binary64 ci cu) (Int16ToFloat64 (binary64 ci cu) f) (Int16ToFloat64 (binary64 ci cu) g) (f_of_int (binary64 ci cu) 12289)).
(** the sum of the squares of integers *)
Notation zsum2 l := (fold_right (fun z s => z * z + s)%Z 0%Z l).

Lemma zsq_sqnorm f n : length f = n -> IZR (zsum2 f) = sqnorm n (map IZR f).
Proof. intros L. rewrite <- (fsq_sqnorm (map IZR f) n) by (now rewrite map_length). symmetry. apply fsq_IZR. Qed.
Lemma zsq_int16 f : int16s f -> (zsum2 f <= 2 ^ 30 * Z.of_nat (length f))%Z.
Proof.
  unfold int16s. induction 1 as [|x l Hx H IH]; [cbn; lia|]. cbn [fold_right length]. unfold is_int16 in Hx. rewrite Nat2Z.inj_succ. nia.
Qed.
Lemma zsq_both f g k : (k <= 10)%nat -> length f = (2 ^ k)%nat -> length g = (2 ^ k)%nat -> int16s f -> int16s g ->
  (zsum2 f + zsum2 g < 2 ^ 52)%Z.
Proof.
  intros Hk Lf Lg If Ig. pose proof (zsq_int16 f If). pose proof (zsq_int16 g Ig). rewrite Lf in *. rewrite Lg in *.
  assert ((2 ^ k <= 2 ^ 10)%nat) by (apply Nat.pow_le_mono_r; lia). change (2 ^ 10)%nat with 1024%nat in *. lia.
Qed.
Lemma gs_bound_value ci cu : is_finite (gs_bound (binary64 ci cu)) = true /\
  1682241 / 100 <= B2R (gs_bound (binary64 ci cu)) <= 1682242 / 100.
Proof.
  split; [reflexivity|].
  assert (E : B2R (gs_bound (binary64 ci cu)) = IZR 4624109427797419 * / IZR (2 ^ 38)).
  { rewrite <- SF2R_B2SF.
    assert (E : B2SF (gs_bound (binary64 ci cu)) = SpecFloat.S754_finite false 4624109427797419 (-38)) by reflexivity. rewrite E. reflexivity. }
  rewrite E. change (2 ^ 38)%Z with 274877906944%Z. lra.
Qed.
(** a number above a finite one and not above another is finite *)
Lemma Bltb_between (s b t : b64) : is_finite s = true -> is_finite b = true -> Bltb s t = true -> Bltb b t = false -> is_finite t = true.
Proof.
  intros Fs Fb H1 H2. destruct t as [| [|] | |]; try reflexivity; destruct s, b; try discriminate.
Qed.
Lemma accept_norm ci cu f g gs : (zsum2 f + zsum2 g < 2 ^ 52)%Z -> float_GsNorm ci cu f g = Ok gs ->
  f_ltb (binary64 ci cu) (gs_bound (binary64 ci cu)) gs = false -> (zsum2 f + zsum2 g <= 16822)%Z.
Proof.
  intros H E A. destruct (GsNorm_max ci cu f g gs H E) as (s & t & [Fs Vs] & EG). destruct (gs_bound_value ci cu) as (Fb & B1 & B2).
  cbn [f_ltb binary64] in A. change (zsq f + zsq g)%Z with (zsum2 f + zsum2 g)%Z in Vs.
  enough (IZR (zsum2 f + zsum2 g) < IZR 16823) as K by (apply lt_IZR in K; lia). rewrite <- Vs. set (b := gs_bound (binary64 ci cu)) in *. clearbody b.
  destruct (Bltb s t) eqn:L; subst gs.
  - assert (Ft : is_finite t = true) by (apply (Bltb_between s b t Fs Fb L A)).
    rewrite Bltb_correct in L, A by assumption.
    destruct (Rlt_bool_spec (B2R s) (B2R t)); [|discriminate]. destruct (Rlt_bool_spec (B2R b) (B2R t)); [discriminate|]. lra.
  - rewrite Bltb_correct in A by assumption. destruct (Rlt_bool_spec (B2R b) (B2R s)); [discriminate|]. lra.
Qed.

(** C81: the float value is within 0.4% + 0.1 of the exact one *)
Theorem C81_gs_norm : forall ci cu k f g h v, (1 <= k <= 10)%nat ->
  let n := (2 ^ k)%nat in
  length f = n -> length g = n -> (zsum2 f + zsum2 g <= 17000)%Z ->
  length h = n -> rmul n (gram2 n (map IZR f) (map IZR g) (map IZR f) (map IZR g)) h = rconst n 1 ->
  exact_GsNorm f g = Ok v -> v <= 1000000 ->
  exists gs : b64, float_GsNorm ci cu f g = Ok gs /\ is_finite gs = true /\ Rabs (B2R gs - v) <= v / 250 + / 10.
Proof.
  cbv zeta. intros ci cu k f g h v Hk Lf Lg Hs Lh Inv EV Hv.
  assert (LRf : length (map IZR f) = (2 ^ k)%nat) by (now rewrite map_length). assert (LRg : length (map IZR g) = (2 ^ k)%nat) by (now rewrite map_length).
  rewrite (GsNorm_exact exact_roots exact_good k ltac:(lia) _ _ LRf LRg h Lh Inv) in EV. apply Ok_inj in EV.
  assert (Hs' : sqnorm (2 ^ k) (map IZR f) + sqnorm (2 ^ k) (map IZR g) <= 17000).
  { rewrite <- (zsq_sqnorm f _ Lf), <- (zsq_sqnorm g _ Lg), <- plus_IZR. apply IZR_le, Hs. }
  pose proof (Rmax_r (sqnorm (2 ^ k) (map IZR f) + sqnorm (2 ^ k) (map IZR g)) (gs2 exact_roots k (map IZR f) (map IZR g) 12289)) as M2. rewrite EV in M2.
  destruct (GsNorm_float ci cu k Hk f g Lf Lg Hs' (lam_pos exact_roots exact_good k ltac:(lia) _ _ LRf LRg h Lh Inv) ltac:(lra)) as (gs & E & Fg & A).
  rewrite EV in A. exists gs. split; [exact E|]. split; [exact Fg|]. lra.
Qed.
Print Assumptions C81_gs_norm.
(** the test of NtruGen decides as exact arithmetic does, except near the bound *)
Theorem C81_test : forall ci cu k f g h v gs, (1 <= k <= 10)%nat ->
  let n := (2 ^ k)%nat in
  length f = n -> length g = n -> int16s f -> int16s g ->
  length h = n -> rmul n (gram2 n (map IZR f) (map IZR g) (map IZR f) (map IZR g)) h = rconst n 1 ->
  exact_GsNorm f g = Ok v -> float_GsNorm ci cu f g = Ok gs ->
  (v <= 16755 -> f_ltb (binary64 ci cu) (gs_bound (binary64 ci cu)) gs = false) /\
  (16891 <= v <= 1000000 -> f_ltb (binary64 ci cu) (gs_bound (binary64 ci cu)) gs = true).
Proof.
  cbv zeta. intros ci cu k f g h v gs Hk Lf Lg If Ig Lh Inv EV EF.
  destruct (gs_bound_value ci cu) as (Fb & B1 & B2). pose proof (zsq_both f g k ltac:(lia) Lf Lg If Ig) as Z52.
  assert (LRf : length (map IZR f) = (2 ^ k)%nat) by (now rewrite map_length). assert (LRg : length (map IZR g) = (2 ^ k)%nat) by (now rewrite map_length).
  destruct (gs_value k ltac:(lia) _ _ h v LRf LRg Lh Inv EV) as [V1 V2].
  rewrite <- (zsq_sqnorm f _ Lf), <- (zsq_sqnorm g _ Lg), <- plus_IZR in V1.
  split; intros Hv.
  - destruct (C81_gs_norm ci cu k f g h v Hk Lf Lg ltac:(apply le_IZR; lra) Lh Inv EV ltac:(lra)) as (gs' & EF' & Fg & A).
    rewrite EF in EF'. apply Ok_inj in EF'. subst gs'. apply abs_inv in A. cbn [f_ltb binary64]. rewrite Bltb_correct by assumption.
    apply Rlt_bool_false. lra.
  - destruct (Z_le_gt_dec (zsum2 f + zsum2 g) 17000) as [Z17|Z17].
    + destruct (C81_gs_norm ci cu k f g h v Hk Lf Lg Z17 Lh Inv EV ltac:(lra)) as (gs' & EF' & Fg & A).
      rewrite EF in EF'. apply Ok_inj in EF'. subst gs'. apply abs_inv in A. cbn [f_ltb binary64]. rewrite Bltb_correct by assumption.
      apply Rlt_bool_true. lra.
    + destruct (f_ltb (binary64 ci cu) (gs_bound (binary64 ci cu)) gs) eqn:A; [reflexivity|].
      pose proof (accept_norm ci cu f g gs Z52 EF A). lia.
Qed.
Print Assumptions C81_test.
(** a generated key has short f and g, whatever the arithmetic rounds to *)
Theorem C81_short : forall iw (iw_id : forall z, is_int64 z -> iw z = z) ci cu quo rb sf rf fuel n sk, (0 <= n)%Z ->
  let FO := binary64 ci cu in
  GeneratePrivateKey iw FO quo rb sf rf fuel n = Ok sk ->
  (zsum2 (sk_f sk) + zsum2 (sk_g sk) <= 16822)%Z.
Proof.
  intros iw Hiw ci cu quo rb sf rf fuel n sk Hn FO E.
  destruct (Generate_ok iw Hiw FO quo rb sf rf fuel n sk Hn E) as (k & Hk & En & Esn & EG).
  rewrite En in EG.
  destruct (NtruGen_ok iw Hiw FO quo rb sf rf k fuel Hk _ _ _ _ _ EG) as (Lf & Lg & If & Ig & Inv & (gs & EGs & A) & _).
  apply (accept_norm ci cu _ _ gs); [|exact EGs|exact A]. apply (zsq_both _ _ k); auto; lia.
Qed.
Print Assumptions C81_short.
(** the keys of GeneratePrivateKey solve the NTRU equation with small F and G *)
Theorem C81_keys : forall ci cu rb sf rf fuel n sk nf ng v, (0 <= n)%Z ->
  let FO := binary64 ci cu in
  GeneratePrivateKey wrap64 FO (reduce_quotient FO) rb sf rf fuel n = Ok sk ->
  let k := Nat.log2 (Z.to_nat n) in
  is_norm k (sk_f sk) nf -> is_norm k (sk_g sk) ng -> (Z.gcd nf ng < 2 ^ 64 - 1)%Z ->
  exact_GsNorm (sk_f sk) (sk_g sk) = Ok v -> v <= 1000000 ->
  v <= 16891 /\ ntru_equation (Z.to_nat n) (sk_f sk) (sk_g sk) (sk_F sk) (sk_G sk) /\
  Forall (fun x => (Z.abs x <= 2220)%Z) (sk_F sk) /\ Forall (fun x => (Z.abs x <= 2220)%Z) (sk_G sk).
Proof.
  intros ci cu rb sf rf fuel n sk nf ng v Hn FO E k0 Nf Ng GC EV Hv.
  assert (V : v <= 16891).
  { destruct (Generate_ok wrap64 id64 FO _ rb sf rf fuel n sk Hn E) as (k & Hk & En & Esn & EG).
    assert (Em : Z.to_nat n = (2 ^ k)%nat) by lia.
    assert (Ek : k0 = k) by (unfold k0; rewrite Em; apply Nat.log2_pow2; lia).
    rewrite En in EG.
    destruct (NtruGen_ok wrap64 id64 FO _ rb sf rf k fuel Hk _ _ _ _ _ EG) as (Lf & Lg & If & Ig & Inv & (gs & EGs & A) & BF & BG & ES & _).
    rewrite Ek in Nf, Ng.
    destruct (solve_eq _ _ _ _ _ _ _ Lf Lg ES) as (_ & _ & _ & _ & _ & _ & _ & _ & LF & LG & _).
    pose proof (solve_small _ _ _ _ _ _ _ _ _ Lf Lg Nf Ng GC ES) as NE.
    pose proof (ntru_real k _ _ BF BG Lf Lg LF LG NE) as RN.
    destruct (gram_inv k ltac:(lia) 12289 (map IZR (sk_f sk)) (map IZR (sk_g sk)) (map IZR BF) (map IZR BG) ltac:(now rewrite map_length) ltac:(now rewrite map_length)
      ltac:(now rewrite map_length) ltac:(now rewrite map_length) ltac:(lra) RN) as (h & Lh & GI).
    destruct (C81_test ci cu k _ _ h v gs Hk Lf Lg If Ig Lh GI EV EGs) as [_ T].
    destruct (Rle_lt_dec v 16891) as [H|H]; [exact H|exfalso]. pose proof (eq_trans (eq_sym (T ltac:(lra))) A). discriminate. }
  split; [exact V|]. apply (C77_keys ci cu rb sf rf fuel n sk nf ng v Hn E Nf Ng GC EV). lra.
Qed.
Print Assumptions C81_keys.
(** f = 100 + 20 x, g = 30 + x: an accepted pair; f = 127 + x, g = 26 + 30 x: a rejected one *)
Definition rej_f : list Z := [127; 1]%Z.
Definition rej_g : list Z := [26; 30]%Z.
Lemma red_inv : rmul 2 (gram2 2 (map IZR red_f) (map IZR red_g) (map IZR red_f) (map IZR red_g)) [/ 11301; 0] = rconst 2 1.
Proof. unfold red_f, red_g. two. repeat f_equal; field. Qed.
Example C81_nonvacuous : forall ci cu,
  rmul 2 (gram2 2 (map IZR red_f) (map IZR red_g) (map IZR red_f) (map IZR red_g)) [/ 11301; 0] = rconst 2 1 /\
  (exists v, exact_GsNorm red_f red_g = Ok v /\ v <= 17000) /\
  (gs <- float_GsNorm ci cu red_f red_g ;; Ok (f_ltb (binary64 ci cu) (gs_bound (binary64 ci cu)) gs)) = Ok false /\
  (gs <- float_GsNorm ci cu rej_f rej_g ;; Ok (f_ltb (binary64 ci cu) (gs_bound (binary64 ci cu)) gs)) = Ok true.
Proof.
  intros ci cu. split; [exact red_inv|]. split; [exact red_norm|]. split; vm_compute; reflexivity.
Qed.

(** C82: the quotient of two complex numbers.  [A] bounds the numerator, [S] is
    the larger part of the divisor; [w] is the exact quotient. *)
Theorem C82_complex_div : forall ci cu (z m : b64 * b64) A S (w : Cx), cfin z -> cfin m ->
  Rabs (fst (toC z)) <= A -> Rabs (snd (toC z)) <= A -> 1 <= A <= 2 ^ 180 ->
  S = Rmax (Rabs (fst (toC m))) (Rabs (snd (toC m))) -> / 10 <= S <= 2 ^ 180 ->
  Cmul w (toC m) = toC z ->
  approx ((64 * (A / S) + 1) / 2 ^ 53) (fst (c_div (binary64 ci cu) z m)) (fst w) /\
  approx ((64 * (A / S) + 1) / 2 ^ 53) (snd (c_div (binary64 ci cu) z m)) (snd w).
Proof.
  intros ci cu z m A S w Fz Fm H1 H2 HA ES HS E. cbn [c_div binary64].
  assert (NZ : Csqnorm (toC m) <> 0).
  { intros K. unfold Csqnorm in K. pose proof (Rle_0_sqr (fst (toC m))) as Q1. pose proof (Rle_0_sqr (snd (toC m))) as Q2. unfold Rsqr in *.
    assert (fst (toC m) = 0) as K1 by (apply Rsqr_0_uniq; unfold Rsqr; lra). assert (snd (toC m) = 0) as K2 by (apply Rsqr_0_uniq; unfold Rsqr; lra).
    rewrite K1, K2, Rabs_R0, Rmax_left in ES by lra. lra. }
  assert (W : w = cquo (toC z) (toC m)).
  { rewrite <- E. destruct w as [a b], (toC m) as [c d]. unfold cquo, Cmul, Csqnorm in *. cbn [fst snd] in *. apply f_equal2; field; exact NZ. }
  assert (B180 : forall x, x <= 2 ^ 180 -> 1000 * x <= big).
  { intros x Hx. apply big_le. replace (2 ^ 200) with (2 ^ 20 * 2 ^ 180) by (rewrite <- pow_add; reflexivity). lra. }
  rewrite W. replace ((64 * (A / S) + 1) / 2 ^ 53) with (u53 * (64 * (A / S) + 1)) by (unfold u53; lra).
  apply cdiv_gen; auto; [lra|apply B180; lra|lra|apply B180; lra].
Qed.
Print Assumptions C82_complex_div.
(** (3 + 4 i) / (1 + 2 i) = 11/5 - 2/5 i, by the branch for |im m| > |re m| *)
Example C82_nonvacuous : Cmul (11 / 5, - 2 / 5) (1, 2) = (3, 4) /\ cfin (b_of_int 3, b_of_int 4) /\ cfin (b_of_int 1, b_of_int 2) /\
  toC (b_of_int 3, b_of_int 4) = (3, 4) /\ toC (b_of_int 1, b_of_int 2) = (1, 2) /\ Rmax (Rabs 1) (Rabs 2) = 2.
Proof.
  split; [unfold Cmul; cbn [fst snd]; apply f_equal2; lra|]. split; [split; reflexivity|]. split; [split; reflexivity|].
  unfold toC. cbn [fst snd]. rewrite (proj1 (of_int_exact 3 ltac:(lia))), (proj1 (of_int_exact 4 ltac:(lia))), (proj1 (of_int_exact 1 ltac:(lia))), (proj1 (of_int_exact 2 ltac:(lia))).
  split; [reflexivity|]. split; [reflexivity|]. rewrite !Rabs_pos_eq by lra. apply Rmax_right. lra.
Qed.
