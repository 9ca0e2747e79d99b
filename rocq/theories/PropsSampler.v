(** Property theorems about src/internal/samplerz.go and GenPoly (C37 - C42). *)
From Coq Require Import Reals Lra.
From Flocq Require Import Core BinarySingleNaN.
From Verif Require Import GoBase Util BaseProofs Float Samplerz SamplerProofs Binary64 B64Proofs
  SpecFft ExactReal.
Local Open Scope Z_scope.

(** C37.  The 2^72 inputs are the lists of nine bytes.  The inputs giving a value
    above k form a list without repetitions of exactly RCDT[k] elements. *)
Theorem C37_range : forall l, 0 <= BaseSampler l <= 18.
Proof. exact BaseSampler_range. Qed.
Print Assumptions C37_range.

Lemma nine_bytes_count (P : list Z -> Prop) c : 0 <= c <= 256 ^ 9 ->
  (forall l, bytes l -> length l = 9%nat -> (P l <-> SetBytes l < c)) ->
  exists L, NoDup L /\ Z.of_nat (length L) = c /\
    forall l, In l L <-> (bytes l /\ length l = 9%nat /\ P l).
Proof.
  intros Hc HP.
  set (dec := fun u : Z => map (fun i => (u / 256 ^ i) mod 256) [8; 7; 6; 5; 4; 3; 2; 1; 0]).
  assert (Dl : forall u, length (dec u) = 9%nat) by reflexivity.
  assert (Db : forall u, bytes (dec u)).
  { intros u. apply Forall_forall. intros x Hx. unfold dec in Hx. apply in_map_iff in Hx.
    destruct Hx as (i & <- & _). unfold is_byte. pose proof (Z.mod_pos_bound (u / 256 ^ i) 256 ltac:(lia)). lia. }
  assert (Dv : forall u, 0 <= u < 256 ^ 9 -> SetBytes (dec u) = u).
  { intros u Hu. unfold dec, SetBytes. cbn [map fold_left].
    change (256 ^ 8) with 18446744073709551616. change (256 ^ 7) with 72057594037927936.
    change (256 ^ 6) with 281474976710656. change (256 ^ 5) with 1099511627776.
    change (256 ^ 4) with 4294967296. change (256 ^ 3) with 16777216. change (256 ^ 2) with 65536.
    change (256 ^ 1) with 256. change (256 ^ 0) with 1. change (256 ^ 9) with 4722366482869645213696 in Hu.
    Z.div_mod_to_equations. lia. }
  exists (map (fun i => dec (Z.of_nat i)) (seq 0 (Z.to_nat c))).
  split; [|split].
  - apply NoDup_nth with (d := []). rewrite map_length, seq_length. intros i j Hi Hj E.
    rewrite !nth_map_seq in E by lia.
    apply (f_equal SetBytes) in E. rewrite !Dv in E by lia. lia.
  - rewrite map_length, seq_length. lia.
  - intros l. rewrite in_map_iff. split.
    + intros (i & <- & Hi). apply in_seq in Hi. split; [apply Db|]. split; [reflexivity|].
      apply HP; [apply Db|reflexivity|]. rewrite Dv by lia. lia.
    + intros (Hb & Hl & Hp). apply HP in Hp; [|assumption|assumption].
      pose proof (SetBytes_range l Hb) as R. rewrite Hl in R. change (Z.of_nat 9) with 9 in R.
      exists (Z.to_nat (SetBytes l)). split.
      * apply SetBytes_inj; [apply Db|assumption|rewrite Hl; reflexivity|]. rewrite Dv by lia. lia.
      * apply in_seq. lia.
Qed.

Theorem C37_distribution : forall k, (k < 18)%nat ->
  exists L, NoDup L /\ Z.of_nat (length L) = nth k RCDT 0 /\
    forall l, In l L <-> (bytes l /\ length l = 9%nat /\ BaseSampler l > Z.of_nat k).
Proof.
  intros k Hk. apply nine_bytes_count.
  - change (256 ^ 9) with 4722366482869645213696.
    do 18 (destruct k as [|k]; [cbn; lia|]). lia.
  - intros l _ _. apply BaseSampler_gt. exact Hk.
Qed.
Print Assumptions C37_distribution.
Example C37_nonvacuous : BaseSampler [0; 0; 0; 0; 0; 0; 0; 0; 0] = 18 /\
  BaseSampler [0; 0; 0; 0; 0; 0; 0; 0; 1] = 17 /\
  BaseSampler [163; 247; 244; 46; 211; 172; 57; 24; 1] = 1 /\
  BaseSampler [163; 247; 244; 46; 211; 172; 57; 24; 2] = 0.
Proof. repeat split. Qed.

(** C38 is false of the code: the products z*y are reduced modulo 2^64, so the
    result is 0 or 1, whatever the floats do. *)
Theorem C38_single_bit : forall FO x ccs, approxexp FO x ccs = 0 \/ approxexp FO x ccs = 1.
Proof. exact approxexp_01. Qed.
Print Assumptions C38_single_bit.
(** the exact value: c is uint64(ccs * 2^63) mod 2^63 *)
Theorem C38_value_partial : forall FO x ccs, approxexp FO x ccs =
  if (horner_bit FO x =? 1) && (0 <? ccs63 FO ccs mod 2 ^ 63) && (ccs63 FO ccs mod 2 ^ 63 <=? 2 ^ 62) then 1 else 0.
Proof. exact approxexp_exact. Qed.
Print Assumptions C38_value_partial.

Lemma exp_opp_ge_half x : (x <= ln 2)%R -> (/ 2 <= exp (- x))%R.
Proof.
  intros H. rewrite exp_Ropp. apply Rinv_le; [apply exp_pos|].
  apply Rle_trans with (exp (ln 2)).
  - destruct (Rle_lt_or_eq_dec _ _ H) as [L| ->]; [left; apply exp_increasing, L|lra].
  - rewrite exp_ln by lra. lra.
Qed.

(** For every admissible argument with ccs >= 1/2 the error is at least 2^61 - 1. *)
Theorem C38_never_close : forall ci cu (x ccs : b64),
  (B2R x <= ln 2)%R -> (/ 2 <= B2R ccs)%R ->
  (Rabs (IZR (approxexp (binary64 ci cu) x ccs) - 2 ^ 63 * (B2R ccs * exp (- B2R x))) >= 2 ^ 61 - 1)%R.
Proof.
  intros ci cu x ccs Hx Hc. pose proof (exp_opp_ge_half _ Hx) as E.
  assert (A : (/ 4 <= B2R ccs * exp (- B2R x))%R).
  { replace (/ 4)%R with (/ 2 * / 2)%R by field. apply Rmult_le_compat; lra. }
  set (t := (B2R ccs * exp (- B2R x))%R) in *. clearbody t.
  assert (P : (2 ^ 63 * t >= 2 ^ 61)%R).
  { replace (2 ^ 61)%R with (2 ^ 63 * / 4)%R by field. apply Rle_ge, Rmult_le_compat_l; [|exact A].
    apply pow_le. lra. }
  assert (P1 : (2 ^ 61 >= 1)%R) by (rewrite <- (pow1 61); apply Rle_ge, pow_incr; lra).
  rewrite Rabs_left1; destruct (approxexp_01 (binary64 ci cu) x ccs) as [-> | ->]; cbn [IZR]; lra.
Qed.
Print Assumptions C38_never_close.
Theorem C38_approxexp_refuted : forall ci cu, exists x ccs : b64,
  is_finite x = true /\ is_finite ccs = true /\
  (0 <= B2R x <= ln 2)%R /\ (0 <= B2R ccs <= 1)%R /\
  (Rabs (IZR (approxexp (binary64 ci cu) x ccs) - 2 ^ 63 * (B2R ccs * exp (- B2R x))) >= 2 ^ 61 - 1)%R.
Proof.
  intros ci cu. exists (b_of_int 0), (b_of_int 1).
  destruct (of_int_exact 0 ltac:(lia)) as [E0 F0]. destruct (of_int_exact 1 ltac:(lia)) as [E1 F1].
  pose proof (ln_lt_2). pose proof (ln_increasing 1 2 ltac:(lra) ltac:(lra)) as H1. rewrite ln_1 in H1.
  repeat split; auto; try (rewrite ?E0, ?E1; lra).
  apply C38_never_close; rewrite ?E0, ?E1; lra.
Qed.
Print Assumptions C38_approxexp_refuted.

(** C39 is false of the code.  [accepted] counts the values of the random byte
    for which berexp returns true. *)
Theorem C39_acceptance : forall FO x ccs, 0 <= shift_count FO x ->
  accepted FO x ccs =
    if approxexp FO (berexp_rest FO x) ccs =? 0 then
      (if shift_count FO x =? 0 then 255
       else if shift_count FO x <? 8 then 2 ^ (8 - shift_count FO x)
       else if shift_count FO x <? 64 then 1 else 0)
    else 0.
Proof. exact accepted_spec. Qed.
Print Assumptions C39_acceptance.
(** For 1/2 < ccs < 1, the values Falcon uses, the probability depends only on
    s = floor(x / ln 2) and is 2^-s: ccs and the remainder of x are ignored. *)
Theorem C39_ccs_ignored_partial : forall ci cu (x ccs : b64),
  is_finite x = true -> (0 <= B2R x)%R -> is_finite ccs = true -> (/ 2 < B2R ccs < 1)%R ->
  let s := shift_count (binary64 ci cu) x in
  0 <= s <= 63 /\
  accepted (binary64 ci cu) x ccs = if s =? 0 then 255 else if s <? 8 then 2 ^ (8 - s) else 1.
Proof.
  intros ci cu x ccs Fx Hx Fc Hc s.
  assert (H : 0 <= s <= 63) by (apply ok_count63; right; right; auto).
  split; [exact H|]. rewrite accepted_spec by apply H. fold s.
  rewrite approxexp_ccs_big by assumption. cbn [Z.eqb].
  destruct (s =? 0); [reflexivity|]. destruct (s <? 8); [reflexivity|].
  destruct (Z.ltb_spec s 64); [reflexivity|lia].
Qed.
Print Assumptions C39_ccs_ignored_partial.
(** x = 0, ccs = 1/2: the probability should be 1/2 and is 255/256 *)
Theorem C39_berexp_refuted : forall ci cu, exists x ccs : b64,
  is_finite x = true /\ is_finite ccs = true /\ (0 <= B2R x)%R /\ (0 <= B2R ccs <= 1)%R /\
  (Rabs (IZR (accepted (binary64 ci cu) x ccs) / 256 - B2R ccs * exp (- B2R x)) > / 4)%R.
Proof.
  intros ci cu. exists (b_of_int 0), (b_const 5 1).
  destruct (of_int_exact 0 ltac:(lia)) as [E0 F0].
  assert (Eh : B2R (b_const 5 1) = (/ 2)%R).
  { rewrite <- SF2R_B2SF. change (B2SF (b_const 5 1)) with (SpecFloat.S754_finite false 4503599627370496 (-53)).
    cbn -[bpow]. unfold F2R. cbn [Fnum Fexp]. change 4503599627370496 with (Zpower radix2 52).
    rewrite IZR_Zpower by lia. rewrite <- bpow_plus. reflexivity. }
  assert (A : accepted (binary64 ci cu) (b_of_int 0) (b_const 5 1) = 255).
  { rewrite accepted_spec.
    - replace (shift_count (binary64 ci cu) (b_of_int 0)) with 0 by reflexivity.
      replace (approxexp (binary64 ci cu) (berexp_rest (binary64 ci cu) (b_of_int 0)) (b_const 5 1)) with 0 by reflexivity.
      reflexivity.
    - replace (shift_count (binary64 ci cu) (b_of_int 0)) with 0 by reflexivity. lia. }
  rewrite A, E0, Eh, Ropp_0, exp_0.
  repeat split; auto; try lra. rewrite Rabs_pos_eq; lra.
Qed.
Print Assumptions C39_berexp_refuted.

(** C40 for any floats that convert the integers -18..19 exactly, and for
    binary64 with the floor of the real value of mu. *)
Theorem C40_range_any : forall FO, small_exact FO -> forall rb fuel mu sigma sigmin k v k',
  let s := to_int FO (f_floor FO mu) in
  -128 <= s - 18 -> s + 19 <= 127 ->
  Samplerz FO rb fuel mu sigma sigmin k = Ok (v, k') -> s - 18 <= v <= s + 19.
Proof. intros FO SE rb fuel mu sigma sigmin k v k' s H1 H2. apply Samplerz_range; auto. Qed.
Print Assumptions C40_range_any.
Theorem C40_range : forall ci cu rb fuel (mu sigma sigmin : b64) k v k',
  is_finite mu = true ->
  -128 <= Zfloor (B2R mu) - 18 -> Zfloor (B2R mu) + 19 <= 127 ->
  Samplerz (binary64 ci cu) rb fuel mu sigma sigmin k = Ok (v, k') ->
  Zfloor (B2R mu) - 18 <= v <= Zfloor (B2R mu) + 19.
Proof.
  intros ci cu rb fuel mu sigma sigmin k v k' Fm H1 H2 H.
  assert (B : (Rabs (B2R mu) <= bpow radix2 62)%R).
  { pose proof (Zfloor_lb (B2R mu)) as A. pose proof (Zfloor_ub (B2R mu)) as C.
    assert (IZR (-110) <= IZR (Zfloor (B2R mu)) <= IZR 108)%R as [D1 D2] by (split; apply IZR_le; lia).
    change (bpow radix2 62) with (IZR 4611686018427387904). apply Rabs_le. lra. }
  destruct (floor_int ci cu mu Fm B) as [E _].
  pose proof (C40_range_any _ (b64_small_exact ci cu) rb fuel mu sigma sigmin k v k') as G.
  cbv zeta in G. change (f_floor (binary64 ci cu) mu) with (b_floor mu) in G. rewrite E in G. auto.
Qed.
Print Assumptions C40_range.
(** without the range hypothesis the value wraps to int8 *)
Theorem C40_wrapped : forall ci cu rb fuel (mu sigma sigmin : b64) k v k',
  Samplerz (binary64 ci cu) rb fuel mu sigma sigmin k = Ok (v, k') ->
  exists d, -18 <= d <= 19 /\ v = wrap8 (to_int (binary64 ci cu) (b_floor mu) + d).
Proof. intros ci cu rb fuel mu sigma sigmin k v k'. apply Samplerz_value, b64_small_exact. Qed.
Print Assumptions C40_wrapped.
(** both ends are reached *)
Example C40_nonvacuous :
  let FO := binary64 (fun _ => 0) (fun _ => 0) in
  Samplerz FO (fun _ => Some [0;0;0;0;0;0;0;0;0;1;0]) 1 (b_const 35 1) (maxSigma FO) (b_const 13 1) 0 = Ok (3 + 19, 1%nat) /\
  Samplerz FO (fun _ => Some [0;0;0;0;0;0;0;0;0;0;0]) 1 (b_const 35 1) (maxSigma FO) (b_const 13 1) 0 = Ok (3 - 18, 1%nat).
Proof. split; reflexivity. Qed.

(** C41.  [block l k i] is l[i*k .. (i+1)*k-1]. *)
Theorem C41_sums : forall ci cu rb fuel n c f c', 4 <= n ->
  GenPoly (binary64 ci cu) rb fuel n c = Ok (f, c') ->
  n <= 4096 /\ length f = Z.to_nat n /\
  exists l, samples (binary64 ci cu) rb fuel 4096 c = Ok (l, c') /\ length l = 4096%nat /\
    Forall (fun v => -18 <= v <= 19) l /\
    forall i, (i < Z.to_nat n)%nat ->
      nth i f 0 = sum_list (block l (Z.to_nat (4096 / n)) i) /\
      Z.abs (nth i f 0) <= 19 * (4096 / n).
Proof.
  intros ci cu rb fuel n c f c' Hn H.
  destruct (GenPoly_spec _ rb fuel n c f c' (b64_small_exact ci cu) eq_refl ltac:(lia) H)
    as (H1 & l & E & L & A & Ef).
  split; [exact H1|]. split; [rewrite Ef, map_length, seq_length; reflexivity|].
  exists l. repeat split; auto.
  all: assert (K : Z.of_nat (Z.to_nat (4096 / n)) = 4096 / n)
         by (rewrite Z2Nat.id; [reflexivity|apply Z.div_pos; lia]).
  all: assert (B : - (18 * (4096 / n)) <= sum_list (block l (Z.to_nat (4096 / n)) i) <= 19 * (4096 / n)).
  1,3: pose proof (sum_list_bound _ (-18) 19 (block_all _ _ (Z.to_nat (4096 / n)) i A)) as B;
       rewrite (block_length l _ i (Z.to_nat n)) in B;
         [lia|exact L|pose proof (Z.mul_div_le 4096 n ltac:(lia)); nia|assumption].
  all: assert (U : 0 <= 4096 / n <= 1024)
         by (split; [apply Z.div_pos; lia|apply Z.div_le_upper_bound; lia]).
  all: rewrite Ef, nth_map_seq by assumption; rewrite wrap16_id by (unfold is_int16; lia); lia.
Qed.
Print Assumptions C41_sums.
(** every n from 1: the sums are reduced to int16 (for n = 2 they can exceed it) *)
Theorem C41_wrapped_sums : forall ci cu rb fuel n c f c', 1 <= n ->
  GenPoly (binary64 ci cu) rb fuel n c = Ok (f, c') ->
  n <= 4096 /\ exists l, samples (binary64 ci cu) rb fuel 4096 c = Ok (l, c') /\
    length l = 4096%nat /\ Forall (fun v => -18 <= v <= 19) l /\
    f = map (fun i => wrap16 (sum_list (block l (Z.to_nat (4096 / n)) i))) (seq 0 (Z.to_nat n)).
Proof.
  intros ci cu rb fuel n c f c'. apply GenPoly_spec; [apply b64_small_exact|reflexivity].
Qed.
Print Assumptions C41_wrapped_sums.

(** C42: with working randomness Samplerz returns or loops, it never panics. *)
Theorem C42_no_panic : forall ci cu rb fuel (mu sigma sigmin : b64) k,
  (forall j, rb j <> None) ->
  is_finite mu = true -> (Rabs (B2R mu) <= 2 ^ 62)%R ->
  is_finite sigma = true -> (0 < B2R sigma <= B2R (maxSigma (binary64 ci cu)))%R ->
  (exists v k', Samplerz (binary64 ci cu) rb fuel mu sigma sigmin k = Ok (v, k')) \/
  Samplerz (binary64 ci cu) rb fuel mu sigma sigmin k = Diverge.
Proof.
  intros ci cu rb fuel mu sigma sigmin k Hrb Fm Hm Fs Hs. apply Samplerz_no_panic; auto.
  rewrite bpow_powerRZ. exact Hm.
Qed.
Print Assumptions C42_no_panic.
(** the constant 1.8205 is the bound meant *)
Theorem C42_bound : forall ci cu, B2R (maxSigma (binary64 ci cu)) = rnd (18205 / 10000).
Proof.
  intros ci cu. apply (const_correct 18205 4); [lia|].
  change (10 ^ 4) with 10000. change (2 ^ 52) with 4503599627370496. rewrite Rabs_pos_eq; lra.
Qed.
Print Assumptions C42_bound.
(** the parameters GenPoly uses are admissible *)
Example C42_nonvacuous : forall ci cu, is_finite (sigma_gen (binary64 ci cu)) = true /\
  (0 < B2R (sigma_gen (binary64 ci cu)) <= B2R (maxSigma (binary64 ci cu)))%R.
Proof.
  intros ci cu. split; [reflexivity|]. split; [apply pos_const; reflexivity|apply le_const; reflexivity].
Qed.
(** outside the range it does panic: sigma = 4, z0 = 1, mu = 0 *)
Example C42_outside : forall ci cu,
  Samplerz (binary64 ci cu) (fun _ => Some [100;0;0;0;0;0;0;0;0;0;0]) 1 (b_of_int 0) (b_of_int 4) (b_of_int 1) 0 = Panic.
Proof. reflexivity. Qed.
