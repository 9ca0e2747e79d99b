(** C96: the solution of the NTRU equation is unique up to multiples of (f, g),
    and the reduced one is unique: rounding errors in key generation do not change
    F and G, except where a coefficient of the multiplier is close to one half. *)
From Coq Require Import Reals Lra Lia ZArith List Morphisms.
From Verif Require Import GoBase Util BaseProofs PolyZ PolyEval Spec Float Fft FftShape SpecFft SpecBabai ExactReal FftProofs RootsProofs FftErr
  Ntt Ntrugen NtruProofs NtruProofs2 NtruProofs3 NtruProps Samplerz KeyGen KeyGenProofs Falcon Binary64 Babai GsExact GsBound GsReduce
  QuotErr QuotLoop Witness PropsKeyGen PropsGs PropsReduce Lattice.
Import ListNotations.
Local Open Scope Z_scope.

(** ** Multiples of (f, g) *)
Section Alg.
Context (n : nat) (Pn : (0 < n)%nat) (f g F G : list Z).
Context (Lf : length f = n) (Lg : length g = n) (LF : length F = n) (LG : length G = n).

Ltac ev x := apply (poly_eq n); [ln|ln|]; intros x _;
  repeat first [rewrite (eval_padd n) by ln | rewrite (eval_psub n) by ln | rewrite eval_pscale | rewrite (eval_pconst n) by exact Pn];
  repeat first [rewrite !(nega_eval n) by ln | progress repeat first [rewrite (eval_padd n) by ln | rewrite (eval_psub n) by ln | rewrite eval_pscale | rewrite (eval_pconst n) by exact Pn]].

Lemma eq_at F1 G1 : length F1 = n -> length G1 = n -> ntru_equation n f g F1 G1 ->
  forall x, cong (M n x) (eval f x * eval G1 x - eval g x * eval F1 x) q.
Proof.
  intros L1 L2 E x. pose proof (f_equal (fun p => eval p x) E) as B. cbv beta in B. rewrite (eval_psub n), (eval_pconst n) in B by (exact Pn || ln).
  unfold M. rewrite <- B. rewrite !(nega_eval n) by ln. reflexivity.
Qed.

Lemma shifted a : length a = n -> ntru_equation n f g F G ->
  ntru_equation n f g (psub n F (negacyc n f a)) (psub n G (negacyc n g a)).
Proof.
  intros La E. unfold ntru_equation. rewrite <- E. ev x. apply cong_eq. ring.
Qed.

Lemma solutions F1 G1 : invertible_mod_q n f -> ntru_equation n f g F G ->
  length F1 = n -> length G1 = n -> ntru_equation n f g F1 G1 ->
  exists a, length a = n /\ F1 = psub n F (negacyc n f a) /\ G1 = psub n G (negacyc n g a).
Proof.
  intros (w & Lw & Ew) E L1 L2 E1. pose proof (eq_at F G LF LG E) as N. pose proof (eq_at F1 G1 L1 L2 E1) as N1.
  destruct (pmod_eq n q (negacyc n f w) (pconst n 1) q_nz) as (r3 & L3 & E3); [ln|ln| |].
  { rewrite Ew. unfold pmod, pconst. rewrite map_map. apply map_ext. intros i. destruct (Nat.eqb i 0); reflexivity. }
  assert (W : forall x, cong (M n x) (eval f x * eval w x) (1 + q * eval r3 x)).
  { intros x. pose proof (nega_eval n f w x Lf Lw) as A. rewrite E3 in A. rewrite (eval_padd n), eval_pscale, (eval_pconst n) in A by (exact Pn || ln).
    unfold M. rewrite A. reflexivity. }
  (* q (F - F1) = f A and q (G - G1) = g A with A = F G1 - G F1 ... and A = q (w (F - F1) - r3 A) *)
  set (A := psub n (negacyc n G (psub n F F1)) (negacyc n F (psub n G G1))).
  set (a := psub n (negacyc n w (psub n F F1)) (negacyc n r3 A)).
  assert (LA : length A = n) by (unfold A; ln). assert (La : length a = n) by (unfold a; ln).
  assert (EA : A = pscale q a).
  { unfold a. unfold A at 1. ev x. fold (M n x).
    assert (VA : cong (M n x) (eval A x) (eval G x * (eval F x - eval F1 x) - eval F x * (eval G x - eval G1 x))).
    { unfold A, M. rewrite !(eval_psub n) by ln. rewrite !(nega_eval n) by ln. rewrite !(eval_psub n) by ln. reflexivity. }
    rewrite VA. specialize (N x). specialize (N1 x). specialize (W x). clear VA. generalize dependent (M n x). intros m N N1 W.
    set (f' := eval f x) in *. set (g' := eval g x) in *. set (F' := eval F x) in *. set (G' := eval G x) in *. set (F'' := eval F1 x) in *. set (G'' := eval G1 x) in *.
    set (w' := eval w x) in *. set (r' := eval r3 x) in *. clearbody f' g' F' G' F'' G'' w' r'. clear - N N1 W.
    (* f A = (f G) (F - F1) - F (f (G - G1)) with f (G - G1) = g (F - F1) *)
    assert (C : cong m (f' * (G' - G'')) (g' * (F' - F''))).
    { replace (f' * (G' - G'')) with ((f' * G' - g' * F') - (f' * G'' - g' * F'') + g' * (F' - F'')) by ring. rewrite N, N1. apply cong_eq. ring. }
    assert (C2 : cong m (f' * (G' * (F' - F'') - F' * (G' - G''))) (q * (F' - F''))).
    { replace (f' * (G' * (F' - F'') - F' * (G' - G''))) with ((f' * G') * (F' - F'') - F' * (f' * (G' - G''))) by ring. rewrite C.
      replace (f' * G' * (F' - F'') - F' * (g' * (F' - F''))) with ((f' * G' - g' * F') * (F' - F'')) by ring. rewrite N. reflexivity. }
    set (X := G' * (F' - F'') - F' * (G' - G'')) in *. clearbody X.
    replace X with ((1 + q * r') * X - q * r' * X) at 1 by ring. rewrite <- W.
    replace (f' * w' * X) with (w' * (f' * X)) by ring. rewrite C2. apply cong_eq. ring. }
  exists a. split; [exact La|].
  assert (VA : forall x, cong (M n x) (q * eval a x) (eval G x * (eval F x - eval F1 x) - eval F x * (eval G x - eval G1 x))).
  { intros x. rewrite <- eval_pscale, <- EA. unfold A, M. rewrite !(eval_psub n) by ln. rewrite !(nega_eval n) by ln. rewrite !(eval_psub n) by ln. reflexivity. }
  split; apply (pscale_inj n q _ _ q_nz); try ln; ev x; fold (M n x);
    specialize (N x); specialize (N1 x); specialize (VA x); generalize dependent (M n x); intros m N N1 VA;
    set (f' := eval f x) in *; set (g' := eval g x) in *; set (F' := eval F x) in *; set (G' := eval G x) in *; set (F'' := eval F1 x) in *; set (G'' := eval G1 x) in *;
    set (a' := eval a x) in *; clearbody f' g' F' G' F'' G'' a'; clear - N N1 VA;
    assert (C : cong m (f' * (G' - G'')) (g' * (F' - F'')))
     by (replace (f' * (G' - G'')) with ((f' * G' - g' * F') - (f' * G'' - g' * F'') + g' * (F' - F'')) by ring; rewrite N, N1; apply cong_eq; ring).
  - replace (q * (F' - f' * a')) with (q * F' - f' * (q * a')) by ring. rewrite VA.
    replace (q * F' - f' * (G' * (F' - F'') - F' * (G' - G''))) with (q * F' - f' * G' * (F' - F'') + F' * (f' * (G' - G''))) by ring. rewrite C.
    replace (q * F' - f' * G' * (F' - F'') + F' * (g' * (F' - F''))) with (q * F' - (f' * G' - g' * F') * (F' - F'')) by ring. rewrite N. apply cong_eq. ring.
  - replace (q * (G' - g' * a')) with (q * G' - g' * (q * a')) by ring. rewrite VA.
    replace (q * G' - g' * (G' * (F' - F'') - F' * (G' - G''))) with (q * G' - G' * (g' * (F' - F'')) + g' * F' * (G' - G'')) by ring. rewrite <- C.
    replace (q * G' - G' * (f' * (G' - G'')) + g' * F' * (G' - G'')) with (q * G' - (f' * G' - g' * F') * (G' - G'')) by ring. rewrite N. apply cong_eq. ring.
Qed.

Lemma multiplier_unique a b : length a = n -> length b = n -> ntru_equation n f g F G ->
  psub n F (negacyc n f a) = psub n F (negacyc n f b) -> psub n G (negacyc n g a) = psub n G (negacyc n g b) -> a = b.
Proof.
  intros La Lb E H1 H2. apply (pscale_inj n q _ _ q_nz); [ln|ln|]. ev x.
  pose proof (eq_at F G LF LG E x) as N. pose proof (f_equal (fun p => eval p x) H1) as A. pose proof (f_equal (fun p => eval p x) H2) as B. cbv beta in A, B.
  rewrite !(eval_psub n) in A, B by ln.
  assert (A' : cong (M n x) (eval f x * eval a x) (eval f x * eval b x)).
  { unfold M. rewrite <- !(nega_eval n) by ln. apply cong_eq. lia. }
  assert (B' : cong (M n x) (eval g x * eval a x) (eval g x * eval b x)).
  { unfold M. rewrite <- !(nega_eval n) by ln. apply cong_eq. lia. }
  fold (M n x). clear A B. generalize dependent (M n x). intros m N A B. rewrite <- N.
  replace ((eval f x * eval G x - eval g x * eval F x) * eval a x) with (eval G x * (eval f x * eval a x) - eval F x * (eval g x * eval a x)) by ring.
  rewrite A, B. apply cong_eq. ring.
Qed.
End Alg.

(** C96.  All solutions of f G - g F = q are (F, G) - a (f, g), with a unique a. *)
Theorem C96_solutions : forall n f g F G F1 G1, (0 < n)%nat ->
  length f = n -> length g = n -> length F = n -> length G = n -> length F1 = n -> length G1 = n ->
  invertible_mod_q n f -> ntru_equation n f g F G ->
  (ntru_equation n f g F1 G1 <->
   exists a, length a = n /\ F1 = psub n F (negacyc n f a) /\ G1 = psub n G (negacyc n g a)) /\
  forall a b, length a = n -> length b = n ->
    psub n F (negacyc n f a) = psub n F (negacyc n f b) -> psub n G (negacyc n g a) = psub n G (negacyc n g b) -> a = b.
Proof.
  intros n f g F G F1 G1 Pn Lf Lg LF LG L1 L2 Inv E. split; [split|].
  - intros E1. apply solutions; assumption.
  - intros (a & La & -> & ->). apply shifted; assumption.
  - intros a b La Lb. apply (multiplier_unique n Pn f g F G); assumption.
Qed.
Print Assumptions C96_solutions.
(** without the invertibility of f it is false: f = q, g = 0, G = 1, any F *)
Theorem C96_not_invertible_refuted : exists n f g F G F1 G1, (0 < n)%nat /\
  length f = n /\ length g = n /\ length F = n /\ length G = n /\ length F1 = n /\ length G1 = n /\
  ntru_equation n f g F G /\ ntru_equation n f g F1 G1 /\
  ~ exists a, length a = n /\ F1 = psub n F (negacyc n f a) /\ G1 = psub n G (negacyc n g a).
Proof.
  exists 2%nat, [q; 0], [0; 0], [0; 0], [1; 0], [1; 0], [1; 0]. repeat (split; [first [reflexivity|lia]|]).
  intros (a & La & H & _). destruct a as [|x [|y [|]]]; try discriminate La. cbv [psub negacyc negacyc_coef coef nth seq map sumn Nat.leb Nat.sub Nat.add q] in H.
  apply (f_equal (fun l => hd 0 l)) in H. cbv [hd] in H. lia.
Qed.

(** ** The reduced solution *)
Local Open Scope R_scope.
Section Red.
Context (k : nat) (f g : list Z) (v : R).
Notation n := (2 ^ k)%nat.
Context (Hk : (1 <= k <= 10)%nat) (Lf : length f = n) (Lg : length g = n) (EV : exact_GsNorm f g = Ok v) (Hv : v <= 17000)
  (Inv : invertible_mod_q n f).
Notation best F G c := (best_mult n (map IZR f) (map IZR g) (map IZR F) (map IZR G) c).

Lemma sol_setup F G : length F = n -> length G = n -> ntru_equation n f g F G ->
  exists h, length h = n /\ rmul n (gram2 n (map IZR f) (map IZR g) (map IZR f) (map IZR g)) h = rconst n 1 /\
  SpecBabai.sqnorm n (map IZR f) + SpecBabai.sqnorm n (map IZR g) <= v /\ gs2 exact_roots k (map IZR f) (map IZR g) 12289 <= v.
Proof.
  intros LF LG E. pose proof (ntru_real k f g F G Lf Lg LF LG E) as RN.
  assert (LRf : length (map IZR f) = n) by (now rewrite map_length). assert (LRg : length (map IZR g) = n) by (now rewrite map_length).
  destruct (gram_inv k ltac:(lia) 12289 _ _ (map IZR F) (map IZR G) LRf LRg ltac:(now rewrite map_length) ltac:(now rewrite map_length)
    ltac:(lra) RN) as (h & Lh & In).
  exists h. destruct (gs_value k ltac:(lia) _ _ h v LRf LRg Lh In EV). auto.
Qed.
Lemma best_exists F G : length F = n -> length G = n -> ntru_equation n f g F G -> exists c, best F G c.
Proof.
  intros LF LG E. destruct (sol_setup F G LF LG E) as (h & Lh & In & V1 & V2).
  assert (LRf : length (map IZR f) = n) by (now rewrite map_length). assert (LRg : length (map IZR g) = n) by (now rewrite map_length).
  assert (LRF : length (map IZR F) = n) by (now rewrite map_length). assert (LRG : length (map IZR G) = n) by (now rewrite map_length).
  destruct (proj_exists exact_roots exact_good k ltac:(lia) _ _ LRf LRg h Lh In _ _ LRF LRG) as (c & Pc).
  exists c. apply (best_proj exact_roots exact_good k Hk f g Lf Lg h Lh In _ _ c LRF LRG). exact Pc.
Qed.
(** two solutions differ by the difference of their multipliers *)
Lemma differ F G F1 G1 c c1 : length F = n -> length G = n -> length F1 = n -> length G1 = n ->
  ntru_equation n f g F G -> ntru_equation n f g F1 G1 -> best F G c -> best F1 G1 c1 ->
  exists a, length a = n /\ F1 = psub n F (negacyc n f a) /\ G1 = psub n G (negacyc n g a) /\
    forall i, (i < n)%nat -> IZR (nth i a 0%Z) = nth i c 0 - nth i c1 0.
Proof.
  intros LF LG L1 L2 E E1 Bc B1. assert (Pn : (0 < n)%nat) by (pose proof (pow2_ge1 k); lia).
  destruct (solutions n Pn f g F G Lf Lg LF LG F1 G1 Inv E L1 L2 E1) as (a & La & EF & EG).
  exists a. split; [exact La|]. split; [exact EF|]. split; [exact EG|]. intros i Hi.
  destruct (mult_shift k f g F G v Hk Lf Lg LF LG E EV c a Bc La) as (c2 & P2 & _ & N2). rewrite <- EF, <- EG in P2.
  destruct (sol_setup F G LF LG E) as (h & Lh & In & V1 & V2).
  assert (LRf : length (map IZR f) = n) by (now rewrite map_length). assert (LRg : length (map IZR g) = n) by (now rewrite map_length).
  assert (LRF : length (map IZR F1) = n) by (now rewrite map_length). assert (LRG : length (map IZR G1) = n) by (now rewrite map_length).
  pose proof (proj1 (best_proj exact_roots exact_good k Hk f g Lf Lg h Lh In _ _ c1 LRF LRG) B1) as P1.
  rewrite <- (proj_uniq exact_roots exact_good k Hk f g Lf Lg h Lh In _ _ c2 c1 LRF LRG P2 P1). rewrite N2 by exact Hi. ring.
Qed.
End Red.

Lemma abs_int z : Rabs (IZR z) < 2 -> (Z.abs z <= 1)%Z.
Proof. rewrite <- abs_IZR. intros H. apply lt_IZR in H. lia. Qed.
Lemma nth_all_zero n (a : list Z) : length a = n -> (forall i, (i < n)%nat -> nth i a 0%Z = 0%Z) -> a = repeat 0%Z n.
Proof.
  intros L H. apply nth_ext with (d := 0%Z) (d' := 0%Z); [now rewrite repeat_length|]. intros i Hi. rewrite nth_repeat. apply H. lia.
Qed.
Lemma nk_small k v : (k <= 10)%nat -> 0 <= v <= 17000 -> INR (2 ^ k) * v <= 1073741824.
Proof.
  intros Hk Hv. pose proof (pow2_1024 k Hk). assert (INR (2 ^ k) * v <= 1024 * 17000) by (apply Rmult_le_compat; try apply pos_INR; lra). lra.
Qed.

(** Two solutions with multipliers c and c1 (of the closest real multiples of
    (f, g)) differ by exactly c - c1 times (f, g), which is an integer polynomial. *)
Theorem C96_multipliers : forall k f g F G F1 G1 v c c1, (1 <= k <= 10)%nat ->
  let n := (2 ^ k)%nat in
  length f = n -> length g = n -> length F = n -> length G = n -> length F1 = n -> length G1 = n ->
  invertible_mod_q n f -> exact_GsNorm f g = Ok v ->
  ntru_equation n f g F G -> ntru_equation n f g F1 G1 ->
  best_mult n (map IZR f) (map IZR g) (map IZR F) (map IZR G) c ->
  best_mult n (map IZR f) (map IZR g) (map IZR F1) (map IZR G1) c1 ->
  exists a, length a = n /\ F1 = psub n F (negacyc n f a) /\ G1 = psub n G (negacyc n g a) /\
    forall i, (i < n)%nat -> IZR (nth i a 0%Z) = nth i c 0 - nth i c1 0.
Proof.
  cbv zeta. intros k f g F G F1 G1 v c c1 Hk Lf Lg LF LG L1 L2 Inv EV E E1 B B1.
  exact (differ k f g v Hk Lf Lg EV Inv F G F1 G1 c c1 LF LG L1 L2 E E1 B B1).
Qed.
Print Assumptions C96_multipliers.

(** what NtruSolve returns: a solution whose multiplier is small *)
Lemma solved_exact k f g F G nf ng v fuel : (1 <= k <= 10)%nat -> length f = (2 ^ k)%nat -> length g = (2 ^ k)%nat ->
  is_norm k f nf -> is_norm k g ng -> (Z.gcd nf ng < 2 ^ 64 - 1)%Z -> exact_GsNorm f g = Ok v -> v <= 17000 ->
  NtruSolve exact_quo fuel f g = Ok (F, G) ->
  length F = (2 ^ k)%nat /\ length G = (2 ^ k)%nat /\ ntru_equation (2 ^ k) f g F G /\
  exists c, best_mult (2 ^ k) (map IZR f) (map IZR g) (map IZR F) (map IZR G) c /\ forall i, (i < 2 ^ k)%nat -> Rabs (nth i c 0) < / 2.
Proof.
  intros Hk Lf Lg Nf Ng GC EV Hv R1.
  pose proof (solve_small _ _ _ _ _ _ _ _ _ Lf Lg Nf Ng GC R1) as E.
  destruct (solve_eq _ _ _ _ _ _ _ Lf Lg R1) as (_ & _ & _ & _ & _ & _ & _ & _ & LF & LG & _).
  destruct (solve_reduce _ fuel k f g F G ltac:(lia) Lf R1) as (F0 & G0 & R2).
  split; [exact LF|]. split; [exact LG|]. split; [exact E|].
  destruct (sol_setup k f g v Hk Lf Lg EV F G LF LG E) as (h & Lh & In & V1 & V2).
  destruct (best_exists k f g v Hk Lf Lg EV F G LF LG E) as (c & Bc). exists c. split; [exact Bc|].
  assert (LRF : length (map IZR F) = (2 ^ k)%nat) by (now rewrite map_length). assert (LRG : length (map IZR G) = (2 ^ k)%nat) by (now rewrite map_length).
  pose proof (proj1 (best_proj exact_roots exact_good k Hk f g Lf Lg h Lh In _ _ c LRF LRG) Bc) as Pc.
  assert (V0 : 0 <= v) by (pose proof (sqnorm_pos (2 ^ k) (map IZR f)); pose proof (sqnorm_pos (2 ^ k) (map IZR g)); lra).
  apply (exit_small exact_roots exact_good k Hk f g Lf Lg h Lh In v V1 V2 (nk_small k v ltac:(lia) (conj V0 Hv)) fuel F0 G0 F G c R2); [|exact Pc].
  split; [exact LF|split; [exact LG|]]. exact (ntru_real k f g F G Lf Lg LF LG E).
Qed.
Lemma solved_float ci cu k f g F G nf ng v fuel : (1 <= k <= 10)%nat -> length f = (2 ^ k)%nat -> length g = (2 ^ k)%nat ->
  is_norm k f nf -> is_norm k g ng -> (Z.gcd nf ng < 2 ^ 64 - 1)%Z -> exact_GsNorm f g = Ok v -> v <= 17000 ->
  NtruSolve (reduce_quotient (binary64 ci cu)) fuel f g = Ok (F, G) ->
  length F = (2 ^ k)%nat /\ length G = (2 ^ k)%nat /\ ntru_equation (2 ^ k) f g F G /\
  exists c, best_mult (2 ^ k) (map IZR f) (map IZR g) (map IZR F) (map IZR G) c /\ forall i, (i < 2 ^ k)%nat -> Rabs (nth i c 0) <= 5007 / 10000.
Proof.
  intros Hk Lf Lg Nf Ng GC EV Hv R1.
  pose proof (solve_small _ _ _ _ _ _ _ _ _ Lf Lg Nf Ng GC R1) as E.
  destruct (solve_eq _ _ _ _ _ _ _ Lf Lg R1) as (_ & _ & _ & _ & _ & _ & _ & _ & LF & LG & _).
  destruct (solve_reduce _ fuel k f g F G ltac:(lia) Lf R1) as (F0 & G0 & R2).
  split; [exact LF|]. split; [exact LG|]. split; [exact E|].
  destruct (sol_setup k f g v Hk Lf Lg EV F G LF LG E) as (h & Lh & In & V1 & V2).
  destruct (best_exists k f g v Hk Lf Lg EV F G LF LG E) as (c & Bc). exists c. split; [exact Bc|].
  assert (LRF : length (map IZR F) = (2 ^ k)%nat) by (now rewrite map_length). assert (LRG : length (map IZR G) = (2 ^ k)%nat) by (now rewrite map_length).
  pose proof (proj1 (best_proj exact_roots exact_good k Hk f g Lf Lg h Lh In _ _ c LRF LRG) Bc) as Pc.
  destruct (exit_size ci cu k Hk f g Lf Lg h Lh In v V1 V2 Hv fuel F0 G0 F G R2
    (conj LF (conj LG (ntru_real k f g F G Lf Lg LF LG E)))) as (C & _). exact (C c Pc).
Qed.

(** C96.  In exact arithmetic there is one reduced solution: any two runs of
    NtruSolve agree, whatever they started from. *)
Theorem C96_exact_unique : forall k f g F G F1 G1 v c c1, (1 <= k <= 10)%nat ->
  let n := (2 ^ k)%nat in
  length f = n -> length g = n -> length F = n -> length G = n -> length F1 = n -> length G1 = n ->
  invertible_mod_q n f -> exact_GsNorm f g = Ok v ->
  ntru_equation n f g F G -> ntru_equation n f g F1 G1 ->
  best_mult n (map IZR f) (map IZR g) (map IZR F) (map IZR G) c -> (forall i, (i < n)%nat -> Rabs (nth i c 0) < / 2) ->
  best_mult n (map IZR f) (map IZR g) (map IZR F1) (map IZR G1) c1 -> (forall i, (i < n)%nat -> Rabs (nth i c1 0) < / 2) ->
  F1 = F /\ G1 = G.
Proof.
  cbv zeta. intros k f g F G F1 G1 v c c1 Hk Lf Lg LF LG L1 L2 Inv EV E E1 B H B1 H1.
  destruct (C96_multipliers k f g F G F1 G1 v c c1 Hk Lf Lg LF LG L1 L2 Inv EV E E1 B B1) as (a & La & EF & EG & N).
  assert (Z0 : a = repeat 0%Z (2 ^ k)).
  { apply nth_all_zero; [exact La|]. intros i Hi. specialize (N i Hi). specialize (H i Hi). specialize (H1 i Hi).
    apply Rabs_def2 in H. apply Rabs_def2 in H1.
    assert (A : -1 < IZR (nth i a 0%Z) < 1) by lra. destruct A as [A1 A2]. apply lt_IZR in A1. apply lt_IZR in A2. lia. }
  subst a. rewrite psub_zero_mul in EF, EG by assumption. auto.
Qed.
Print Assumptions C96_exact_unique.

(** The code's arithmetic against exact arithmetic: NtruSolve in binary64 returns
    the F and G of exact arithmetic, up to one times (f, g) at the coefficients
    where the exact multiplier is within 7/10000 of a half. *)
Theorem C96_float_solve : forall ci cu k f g F G F1 G1 nf ng v fuel fuel1, (1 <= k <= 10)%nat ->
  let n := (2 ^ k)%nat in
  length f = n -> length g = n -> invertible_mod_q n f ->
  is_norm k f nf -> is_norm k g ng -> (Z.gcd nf ng < 2 ^ 64 - 1)%Z ->
  exact_GsNorm f g = Ok v -> v <= 17000 ->
  NtruSolve exact_quo fuel f g = Ok (F, G) ->
  NtruSolve (reduce_quotient (binary64 ci cu)) fuel1 f g = Ok (F1, G1) ->
  exists a c, length a = n /\ best_mult n (map IZR f) (map IZR g) (map IZR F) (map IZR G) c /\
    F1 = psub n F (negacyc n f a) /\ G1 = psub n G (negacyc n g a) /\
    (forall i, (i < n)%nat -> nth i a 0%Z = 0%Z \/ Z.abs (nth i a 0%Z) = 1%Z /\ 4993 / 10000 <= Rabs (nth i c 0) < / 2) /\
    ((forall i, (i < n)%nat -> Rabs (nth i c 0) < 4993 / 10000) -> F1 = F /\ G1 = G).
Proof.
  cbv zeta. intros ci cu k f g F G F1 G1 nf ng v fuel fuel1 Hk Lf Lg Inv Nf Ng GC EV Hv R0 R1.
  destruct (solved_exact k f g F G nf ng v fuel Hk Lf Lg Nf Ng GC EV Hv R0) as (LF & LG & E & c & Bc & Hc).
  destruct (solved_float ci cu k f g F1 G1 nf ng v fuel1 Hk Lf Lg Nf Ng GC EV Hv R1) as (L1 & L2 & E1 & c1 & B1 & H1).
  destruct (C96_multipliers k f g F G F1 G1 v c c1 Hk Lf Lg LF LG L1 L2 Inv EV E E1 Bc B1) as (a & La & EF & EG & N).
  assert (K : forall i, (i < 2 ^ k)%nat -> nth i a 0%Z = 0%Z \/ Z.abs (nth i a 0%Z) = 1%Z /\ 4993 / 10000 <= Rabs (nth i c 0) < / 2).
  { intros i Hi. specialize (N i Hi). specialize (Hc i Hi). specialize (H1 i Hi). destruct (Z.eq_dec (nth i a 0%Z) 0) as [Z0|NZ]; [now left|right].
    pose proof (Rabs_def2 _ _ Hc) as D. apply abs_inv in H1.
    assert (A : (Z.abs (nth i a 0%Z) <= 1)%Z) by (apply abs_int; apply Rabs_def1; lra). split; [lia|]. split; [|exact Hc].
    destruct (Z_lt_ge_dec (nth i a 0%Z) 0) as [S|S].
    - assert (T : (nth i a 0 <= -1)%Z) by lia. apply IZR_le in T. rewrite Rabs_left1 by lra. lra.
    - assert (T : (1 <= nth i a 0)%Z) by lia. apply IZR_le in T. rewrite Rabs_pos_eq by lra. lra. }
  exists a, c. split; [exact La|]. split; [exact Bc|]. split; [exact EF|]. split; [exact EG|]. split; [exact K|].
  intros HB. assert (Z0 : a = repeat 0%Z (2 ^ k)).
  { apply nth_all_zero; [exact La|]. intros i Hi. destruct (K i Hi) as [Z0|[_ B]]; [exact Z0|]. specialize (HB i Hi). lra. }
  subst a. rewrite psub_zero_mul in EF, EG by assumption. auto.
Qed.
Print Assumptions C96_float_solve.

(** f = 100 + 20 x, g = 30 + x: the runs of NtruSolve in both arithmetics *)
Lemma red_solve quo fuel : NtruSolve quo fuel red_f red_g = reduce quo fuel red_f red_g red_F red_G.
Proof. cbv -[reduce]. reflexivity. Qed.
Lemma reduce_more quo fuel fuel' f g F G r : reduce quo fuel f g F G = Ok r -> (fuel <= fuel')%nat -> reduce quo fuel' f g F G = Ok r.
Proof.
  unfold reduce. destruct (max_bitsize f g) as [s| | |]; cbn [bind]; try discriminate. intros R H.
  exact (reduce_fuel quo f g s fuel F G r fuel' R H).
Qed.
Example C96_nonvacuous : forall ci cu, exists fuel v,
  length red_f = 2%nat /\ length red_g = 2%nat /\ invertible_mod_q 2 red_f /\
  is_norm 1 red_f 10400 /\ is_norm 1 red_g 901 /\ (Z.gcd 10400 901 < 2 ^ 64 - 1)%Z /\
  exact_GsNorm red_f red_g = Ok v /\ v <= 17000 /\
  NtruSolve exact_quo fuel red_f red_g = Ok ([-50; 49]%Z, [106; -7]%Z) /\
  NtruSolve (reduce_quotient (binary64 ci cu)) fuel red_f red_g = Ok ([-50; 49]%Z, [106; -7]%Z).
Proof.
  intros ci cu. destruct red_norm as (v & EV & Hv). destruct (C77_nonvacuous ci cu) as (_ & _ & _ & _ & Nf & Ng & GC & _).
  destruct (C78_reduce_exact ci cu 1 red_f red_g red_F red_G v red_c ltac:(lia) eq_refl eq_refl eq_refl eq_refl red_equation EV Hv red_best
    C78_nonvacuous) as (F' & G' & z & _ & _ & _ & _ & fuel0 & H).
  assert (R : reduce (reduce_quotient (binary64 ci cu)) 10 red_f red_g red_F red_G = Ok ([-50; 49]%Z, [106; -7]%Z)) by (vm_compute; reflexivity).
  pose proof (reduce_more _ _ (Nat.max 10 fuel0) _ _ _ _ _ R (Nat.le_max_l 10 fuel0)) as R2. clear R.
  destruct (H (Nat.max 10 fuel0) (Nat.le_max_r 10 fuel0)) as [H1 H2]. clear H. generalize dependent (Nat.max 10 fuel0). intros fu R2 H1 H2.
  pose proof (eq_trans (eq_sym H1) R2) as Q. apply Ok_inj in Q. injection Q as -> ->. clear R2.
  exists fu, v. split; [reflexivity|]. split; [reflexivity|]. split; [exists [6499; 1158]%Z; split; reflexivity|].
  split; [exact Nf|]. split; [exact Ng|]. split; [rewrite GC; reflexivity|]. split; [exact EV|]. split; [exact Hv|].
  split; [exact (eq_trans (red_solve exact_quo fu) H2)|exact (eq_trans (red_solve _ fu) H1)].
Qed.
