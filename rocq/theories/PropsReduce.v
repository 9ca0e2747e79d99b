(** C77, C78: reduce and NtruSolve in binary64 arithmetic, when the Gram-Schmidt
    norm of (f, g), computed exactly, is at most 17000 (the bound of NtruGen is
    1.17^2 q < 16823). *)
From Coq Require Import Reals Lra Lia ZArith List.
From Verif Require Import GoBase Util BaseProofs PolyZ PolyEval Spec Float Fft FftShape SpecFft SpecBabai ExactReal FftProofs RootsProofs FftErr
  Ntt Ntrugen NtruProofs NtruProofs2 NtruProofs3 NtruProps Samplerz KeyGen KeyGenProofs Falcon Binary64 Babai GsExact GsBound GsReduce
  QuotErr QuotLoop Witness PropsKeyGen PropsGs.
Local Open Scope R_scope.

Lemma reduced_mult n f g F G F' G' : reduced n f g F G (F', G') ->
  exists z, length z = n /\ F' = psub n F (negacyc n f z) /\ G' = psub n G (negacyc n g z).
Proof. intros (z & Lz & E). injection E as -> ->. eauto. Qed.

Section Top.
Context (ci cu : b64 -> Z) (k : nat) (f g F G : list Z) (v : R).
Notation n := (2 ^ k)%nat.
Notation b64_quo := (reduce_quotient (binary64 ci cu)).
Context (Hk : (1 <= k <= 10)%nat) (Lf : length f = n) (Lg : length g = n) (LF : length F = n) (LG : length G = n)
  (E : ntru_equation n f g F G) (EV : exact_GsNorm f g = Ok v) (Hv : v <= 17000).

Let setup : exists h, length h = n /\ rmul n (gram2 n (map IZR f) (map IZR g) (map IZR f) (map IZR g)) h = rconst n 1 /\
  sqnorm n (map IZR f) + sqnorm n (map IZR g) <= v /\ gs2 exact_roots k (map IZR f) (map IZR g) 12289 <= v.
Proof.
  pose proof (ntru_real k f g F G Lf Lg LF LG E) as RN.
  assert (LRf : length (map IZR f) = n) by (now rewrite map_length). assert (LRg : length (map IZR g) = n) by (now rewrite map_length).
  destruct (gram_inv k ltac:(lia) 12289 _ _ (map IZR F) (map IZR G) LRf LRg ltac:(now rewrite map_length) ltac:(now rewrite map_length)
    ltac:(lra) RN) as (h & Lh & Inv).
  exists h. destruct (gs_value k ltac:(lia) _ _ h v LRf LRg Lh Inv EV). auto.
Qed.
Lemma st_of F0 G0 : length F0 = n -> length G0 = n -> ntru_equation n f g F0 G0 -> st k f g F0 G0.
Proof. intros L1 L2 E0. split; [exact L1|split; [exact L2|]]. apply (ntru_real k); auto. Qed.

(** the multiplier after subtracting z (f, g) *)
Lemma mult_shift c z : best_mult n (map IZR f) (map IZR g) (map IZR F) (map IZR G) c -> length z = n ->
  exists c1, GsExact.proj k (map IZR f) (map IZR g) (map IZR (psub n F (negacyc n f z))) (map IZR (psub n G (negacyc n g z))) c1 /\
    st k f g (psub n F (negacyc n f z)) (psub n G (negacyc n g z)) /\
    forall i, (i < n)%nat -> nth i c1 0 = nth i c 0 - IZR (nth i z 0%Z).
Proof.
  intros Bc Lz. destruct setup as (h & Lh & Inv & V1 & V2).
  assert (LRF : length (map IZR F) = n) by (now rewrite map_length). assert (LRG : length (map IZR G) = n) by (now rewrite map_length).
  pose proof (proj1 (best_proj exact_roots exact_good k Hk f g Lf Lg h Lh Inv _ _ c LRF LRG) Bc) as Pc.
  destruct (step exact_roots exact_good k Hk f g Lf Lg h Lh F G 53 c z (st_of F G LF LG E) Pc Lz) as (c2 & S2 & P2 & N2).
  assert (PS : forall N, pscale (2 ^ (53 - 53)) N = N).
  { intros N. unfold pscale. transitivity (map (fun x : Z => x) N); [|apply map_id]. apply map_ext. intros x. apply Z.mul_1_l. }
  rewrite !PS in *. exists c2. split; [exact P2|]. split; [exact S2|]. intros i Hi. rewrite N2 by exact Hi.
  change (IZR (2 ^ (53 - 53))) with 1. ring.
Qed.

Lemma reduce_close c fuel F' G' : best_mult n (map IZR f) (map IZR g) (map IZR F) (map IZR G) c ->
  reduce b64_quo fuel f g F G = Ok (F', G') ->
  (exists z, length z = n /\ (forall i, (i < n)%nat -> Rabs (nth i c 0 - IZR (nth i z 0%Z)) <= 5007 / 10000) /\
    F' = psub n F (negacyc n f z) /\ G' = psub n G (negacyc n g z)) /\
  Forall (fun x => (Z.abs x <= 2220)%Z) F' /\ Forall (fun x => (Z.abs x <= 2220)%Z) G'.
Proof.
  intros Bc R1. destruct setup as (h & Lh & Inv & V1 & V2).
  pose proof (reduce_ok _ fuel k f g F G (F', G') Lf Lg LF LG R1) as RD. apply reduced_mult in RD.
  destruct RD as (z & Lz & EF & EG). destruct (mult_shift c z Bc Lz) as (c1 & P1 & S1 & N1). rewrite <- EF, <- EG in P1, S1.
  destruct (exit_size ci cu k Hk f g Lf Lg h Lh Inv v V1 V2 Hv fuel F G F' G' R1 S1) as (C & B1 & B2).
  split; [|auto]. exists z. split; [exact Lz|]. split; [|auto]. intros i Hi. rewrite <- N1 by exact Hi. apply (C c1 P1 i Hi).
Qed.

Lemma reduce_far c : best_mult n (map IZR f) (map IZR g) (map IZR F) (map IZR G) c ->
  (forall i z, (i < n)%nat -> / 1000 <= Rabs (nth i c 0 - (IZR z + / 2))) ->
  exists F' G' z, length z = n /\ (forall i, (i < n)%nat -> Rabs (nth i c 0 - IZR (nth i z 0%Z)) < / 2) /\
    F' = psub n F (negacyc n f z) /\ G' = psub n G (negacyc n g z) /\
    exists fuel0, forall fuel, (fuel0 <= fuel)%nat ->
      reduce b64_quo fuel f g F G = Ok (F', G') /\ reduce exact_quo fuel f g F G = Ok (F', G').
Proof.
  intros Bc Fc. destruct setup as (h & Lh & Inv & V1 & V2).
  assert (LRF : length (map IZR F) = n) by (now rewrite map_length). assert (LRG : length (map IZR G) = n) by (now rewrite map_length).
  pose proof (proj1 (best_proj exact_roots exact_good k Hk f g Lf Lg h Lh Inv _ _ c LRF LRG) Bc) as Pc.
  assert (Hv' : INR n * v <= 1073741824).
  { pose proof (pow2_1024 k ltac:(lia)). assert (0 <= v) by (pose proof (sqnorm_pos n (map IZR f)); pose proof (sqnorm_pos n (map IZR g)); lra).
    assert (INR n * v <= 1024 * 17000) by (apply Rmult_le_compat; auto using pos_INR). lra. }
  destruct (reduce_exact k f g F G v c Hk Lf Lg LF LG E EV Hv' Bc) as [_ T].
  destruct T as (F1 & G1 & z & Lz & HZ & EF & EG & fuel1 & H1).
  { intros (i & z & Hi & HH). pose proof (Fc i z Hi) as X. rewrite HH in X. replace (IZR z + / 2 - (IZR z + / 2)) with 0 in X by ring.
    rewrite Rabs_R0 in X. lra. }
  destruct (loop_ends' ci cu k Hk f g Lf Lg h Lh Inv v V1 V2 Hv F G c (st_of F G LF LG E) Pc Fc) as (fuel2 & H2).
  exists F1, G1, z. split; [exact Lz|]. split; [exact HZ|]. split; [exact EF|]. split; [exact EG|].
  exists (Nat.max fuel1 fuel2). intros fuel Hf. split; [|apply H1; lia].
  destruct (H2 fuel ltac:(lia)) as ([F2 G2] & R2). change (reduce b64_quo fuel f g F G = Ok (F2, G2)) in R2. rewrite R2.
  destruct (reduce_close c fuel F2 G2 Bc R2) as ((z2 & Lz2 & HZ2 & EF2 & EG2) & _).
  assert (z2 = z); [|congruence].
  apply (nth_ext _ _ 0%Z 0%Z); [congruence|]. intros i Hi. rewrite Lz2 in Hi.
  pose proof (HZ i Hi) as A1. pose proof (HZ2 i Hi) as A2. apply Rabs_def2 in A1. apply abs_inv in A2.
  destruct (Z_lt_ge_dec (nth i z2 0%Z) (nth i z 0%Z)) as [L|L]; [|destruct (Z_lt_ge_dec (nth i z 0%Z) (nth i z2 0%Z)) as [L'|L']; [|lia]]; exfalso.
  - assert (L' : (nth i z2 0 + 1 <= nth i z 0)%Z) by lia. apply IZR_le in L'. rewrite plus_IZR in L'.
    pose proof (Fc i (nth i z2 0%Z) Hi) as X. rewrite Rabs_pos_eq in X by lra. lra.
  - assert (L2 : (nth i z 0 + 1 <= nth i z2 0)%Z) by lia. apply IZR_le in L2. rewrite plus_IZR in L2.
    pose proof (Fc i (nth i z2 0 - 1)%Z Hi) as X. rewrite minus_IZR in X. rewrite Rabs_left1 in X by lra. lra.
Qed.
End Top.

(** C77: whenever reduce returns, it has rounded the best multiplier [c], up to
    7/10000, and the result fits int16. *)
Theorem C77_reduce_rounds : forall ci cu k f g F G F' G' v c fuel, (1 <= k <= 10)%nat ->
  let n := (2 ^ k)%nat in
  length f = n -> length g = n -> length F = n -> length G = n -> ntru_equation n f g F G ->
  exact_GsNorm f g = Ok v -> v <= 17000 ->
  best_mult n (map IZR f) (map IZR g) (map IZR F) (map IZR G) c ->
  reduce (reduce_quotient (binary64 ci cu)) fuel f g F G = Ok (F', G') ->
  (exists z, length z = n /\ (forall i, (i < n)%nat -> Rabs (nth i c 0 - IZR (nth i z 0%Z)) <= 5007 / 10000) /\
    F' = psub n F (negacyc n f z) /\ G' = psub n G (negacyc n g z)) /\
  Forall (fun x => (Z.abs x <= 2220)%Z) F' /\ Forall (fun x => (Z.abs x <= 2220)%Z) G'.
Proof. cbv zeta. intros ci cu k f g F G F' G' v c fuel Hk Lf Lg LF LG E EV Hv. exact (reduce_close ci cu k f g F G v Hk Lf Lg LF LG E EV Hv c fuel F' G'). Qed.
Print Assumptions C77_reduce_rounds.
(** what NtruSolve returns *)
Theorem C77_solve_size : forall ci cu k f g F G nf ng v fuel, (1 <= k <= 10)%nat ->
  let n := (2 ^ k)%nat in
  length f = n -> length g = n -> is_norm k f nf -> is_norm k g ng -> (Z.gcd nf ng < 2 ^ 64 - 1)%Z ->
  exact_GsNorm f g = Ok v -> v <= 17000 ->
  NtruSolve (reduce_quotient (binary64 ci cu)) fuel f g = Ok (F, G) ->
  ntru_equation n f g F G /\ Forall (fun x => (Z.abs x <= 2220)%Z) F /\ Forall (fun x => (Z.abs x <= 2220)%Z) G.
Proof.
  cbv zeta. intros ci cu k f g F G nf ng v fuel Hk Lf Lg Nf Ng GC EV Hv R1.
  pose proof (solve_small _ _ _ _ _ _ _ _ _ Lf Lg Nf Ng GC R1) as E. split; [exact E|].
  destruct (solve_eq _ _ _ _ _ _ _ Lf Lg R1) as (_ & _ & _ & _ & _ & _ & _ & _ & LF & LG & _).
  destruct (solve_reduce _ fuel k f g F G ltac:(lia) Lf R1) as (F0 & G0 & R2).
  pose proof (ntru_real k f g F G Lf Lg LF LG E) as RN.
  assert (LRf : length (map IZR f) = (2 ^ k)%nat) by (now rewrite map_length). assert (LRg : length (map IZR g) = (2 ^ k)%nat) by (now rewrite map_length).
  destruct (gram_inv k ltac:(lia) 12289 _ _ (map IZR F) (map IZR G) LRf LRg ltac:(now rewrite map_length) ltac:(now rewrite map_length)
    ltac:(lra) RN) as (h & Lh & Inv).
  destruct (gs_value k ltac:(lia) _ _ h v LRf LRg Lh Inv EV) as [V1 V2].
  apply (exit_size ci cu k Hk f g Lf Lg h Lh Inv v V1 V2 Hv fuel F0 G0 F G R2).
  split; [exact LF|split; [exact LG|exact RN]].
Qed.
Print Assumptions C77_solve_size.
(** the keys of GeneratePrivateKey *)
Theorem C77_keys : forall ci cu rb sf rf fuel n sk nf ng v, (0 <= n)%Z ->
  let FO := binary64 ci cu in
  GeneratePrivateKey wrap64 FO (reduce_quotient FO) rb sf rf fuel n = Ok sk ->
  let k := Nat.log2 (Z.to_nat n) in
  is_norm k (sk_f sk) nf -> is_norm k (sk_g sk) ng -> (Z.gcd nf ng < 2 ^ 64 - 1)%Z ->
  exact_GsNorm (sk_f sk) (sk_g sk) = Ok v -> v <= 17000 ->
  ntru_equation (Z.to_nat n) (sk_f sk) (sk_g sk) (sk_F sk) (sk_G sk) /\
  Forall (fun x => (Z.abs x <= 2220)%Z) (sk_F sk) /\ Forall (fun x => (Z.abs x <= 2220)%Z) (sk_G sk).
Proof.
  intros ci cu rb sf rf fuel n sk nf ng v Hn FO E k0 Nf Ng GC EV Hv.
  destruct (Generate_ok wrap64 id64 FO _ rb sf rf fuel n sk Hn E) as (k & Hk & En & Esn & EG).
  assert (Em : Z.to_nat n = (2 ^ k)%nat) by lia.
  assert (Ek : k0 = k) by (unfold k0; rewrite Em; apply Nat.log2_pow2; lia).
  pose proof EG as EG0. rewrite En in EG0.
  destruct (NtruGen_ok wrap64 id64 FO _ rb sf rf k fuel Hk _ _ _ _ _ EG0) as (Lf & Lg & If & Ig & Inv & _ & BF & BG & ES & EF & EG').
  pose proof Nf as Nf0. pose proof Ng as Ng0. rewrite Ek in Nf, Ng.
  assert (I16 : forall l, Forall (fun x => (Z.abs x <= 2220)%Z) l -> int16s l).
  { intros l Hl. eapply Forall_impl; [|exact Hl]. intros x Hx. cbv beta in Hx. unfold is_int16. lia. }
  split.
  - apply (C36_fits_partial FO _ rb sf rf fuel n sk nf ng Hn E Nf0 Ng0 GC). intros BF' BG' ES'.
    destruct (C77_solve_size ci cu k _ _ BF' BG' nf ng v rf ltac:(lia) Lf Lg Nf Ng GC EV Hv ES') as (_ & B1 & B2). auto.
  - destruct (C77_solve_size ci cu k _ _ BF BG nf ng v rf ltac:(lia) Lf Lg Nf Ng GC EV Hv ES) as (_ & B1 & B2).
    assert (Id : forall l, int16s l -> map int16_of l = l).
    { intros l H. induction H as [|x l Hx H IH]; [reflexivity|]. cbn [map]. rewrite IH, int16_of_id by exact Hx. reflexivity. }
    rewrite EF, EG', !Id by auto. auto.
Qed.
Print Assumptions C77_keys.
(** f = 100 + 20 x, g = 30 + x *)
Definition red_f : list Z := [100; 20]%Z.
Definition red_g : list Z := [30; 1]%Z.
Definition red_F : list Z := [-995777670; 33192589]%Z.
Definition red_G : list Z := [-287562600; 57512520]%Z.
Definition red_c : list R := [- 107483280700 / 11301; 25247750500 / 11301].
Lemma red_equation : ntru_equation 2 red_f red_g red_F red_G.
Proof. reflexivity. Qed.
Lemma red_best : best_mult 2 (map IZR red_f) (map IZR red_g) (map IZR red_F) (map IZR red_G) red_c.
Proof.
  split; [reflexivity|]. intros d Ld. destruct (list2 d Ld) as (x & y & ->). unfold red_f, red_g, red_F, red_G, red_c. two.
  pose proof (Rle_0_sqr (x + 107483280700 / 11301)) as S1. pose proof (Rle_0_sqr (y - 25247750500 / 11301)) as S2. unfold Rsqr in *. lra.
Qed.
Lemma red_norm : exists v, exact_GsNorm red_f red_g = Ok v /\ v <= 17000.
Proof.
  destruct (C74_gs_norm 1 (map IZR red_f) (map IZR red_g) [/ 11301; 0] 12289 (le_n 1) eq_refl eq_refl eq_refl) as (M & E & _ & H).
  { unfold red_f, red_g. cbn [Nat.pow Nat.mul Nat.add]. two. repeat f_equal; field. }
  eexists. split; [exact E|].
  destruct (H (map IZR red_F) (map IZR red_G) eq_refl eq_refl) as [_ L].
  { apply (ntru_real 1); reflexivity. }
  specialize (L red_c eq_refl). clear H E. cbn [Nat.pow Nat.mul Nat.add] in L. unfold red_f, red_g, red_F, red_G, red_c in *.
  revert L. two. intros L. apply Rmax_lub; lra.
Qed.
Example C77_nonvacuous : forall ci cu, ntru_equation 2 red_f red_g red_F red_G /\ (exists v, exact_GsNorm red_f red_g = Ok v /\ v <= 17000) /\
  best_mult 2 (map IZR red_f) (map IZR red_g) (map IZR red_F) (map IZR red_G) red_c /\
  (exists F G, reduce (reduce_quotient (binary64 ci cu)) 10 red_f red_g red_F red_G = Ok (F, G)) /\
  is_norm 1 red_f 10400 /\ is_norm 1 red_g 901 /\ Z.gcd 10400 901 = 1%Z /\
  exists F G, NtruSolve (reduce_quotient (binary64 ci cu)) 10 red_f red_g = Ok (F, G).
Proof.
  intros ci cu. split; [exact red_equation|]. split; [exact red_norm|]. split; [exact red_best|].
  split; [eexists _, _; vm_compute; reflexivity|].
  split; [exact (norm_half 0 red_f [10400%Z] 10400 eq_refl eq_refl eq_refl (norm_Z 10400))|].
  split; [exact (norm_half 0 red_g [901%Z] 901 eq_refl eq_refl eq_refl (norm_Z 901))|]. split; [reflexivity|].
  eexists _, _; vm_compute; reflexivity.
Qed.

(** C78: reduce returns, with the result of exact arithmetic, when no coefficient
    of the best multiplier is within 1/1000 of a half. *)
Theorem C78_reduce_exact : forall ci cu k f g F G v c, (1 <= k <= 10)%nat ->
  let n := (2 ^ k)%nat in
  length f = n -> length g = n -> length F = n -> length G = n -> ntru_equation n f g F G ->
  exact_GsNorm f g = Ok v -> v <= 17000 ->
  best_mult n (map IZR f) (map IZR g) (map IZR F) (map IZR G) c ->
  (forall i z, (i < n)%nat -> / 1000 <= Rabs (nth i c 0 - (IZR z + / 2))) ->
  exists F' G' z, length z = n /\ (forall i, (i < n)%nat -> Rabs (nth i c 0 - IZR (nth i z 0%Z)) < / 2) /\
    F' = psub n F (negacyc n f z) /\ G' = psub n G (negacyc n g z) /\
    exists fuel0, forall fuel, (fuel0 <= fuel)%nat ->
      reduce (reduce_quotient (binary64 ci cu)) fuel f g F G = Ok (F', G') /\ reduce exact_quo fuel f g F G = Ok (F', G').
Proof. cbv zeta. intros ci cu k f g F G v c Hk Lf Lg LF LG E EV Hv. exact (reduce_far ci cu k f g F G v Hk Lf Lg LF LG E EV Hv c). Qed.
Print Assumptions C78_reduce_exact.
Example C78_nonvacuous : forall i z, (i < 2)%nat -> / 1000 <= Rabs (nth i red_c 0 - (IZR z + / 2)).
Proof.
  intros i z Hi. assert (H : exists m, nth i red_c 0 - (IZR z + / 2) = IZR m / 22602 /\ (100 <= Z.abs m)%Z).
  { destruct i as [|[|i]]; [| |lia]; cbn [nth red_c].
    - exists (-214966561400 - 22602 * z - 11301)%Z. split; [rewrite !minus_IZR, mult_IZR; field|]. clear Hi. lia.
    - exists (50495501000 - 22602 * z - 11301)%Z. split; [rewrite !minus_IZR, mult_IZR; field|]. clear Hi. lia. }
  destruct H as (m & -> & Hm). unfold Rdiv. rewrite Rabs_mult, (Rabs_pos_eq (/ 22602)) by lra. rewrite <- abs_IZR.
  apply IZR_le in Hm. lra.
Qed.
