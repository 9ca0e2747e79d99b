(** NtruSolve (ntrugen.go:246-274) on f = 1 + c x and g = 0. *)
From Coq Require Import Reals Lra Lia ZArith List.
From Verif Require Import GoBase Util BaseProofs PolyZ PolyEval Spec PolyRing Float Fft SpecFft ExactReal FftProofs RootsProofs FftErr
  Ntrugen NtruProofs NtruProofs2 NtruProofs3 NtruProps KeyGen Binary64 FloatErr Babai GsBound BadAlg BadGs WrongQuot.
From Verif Require Hang.
Import ListNotations.
Local Open Scope Z_scope.

(** 1 + c x scaled down *)
Definition lin2 (k : nat) (e c : Z) : list Z := e :: c :: repeat 0 (2 ^ S k - 2).
Lemma lin2_length k e c : length (lin2 k e c) = (2 ^ S k)%nat.
Proof. exact (lin_length (S k) c). Qed.

Lemma adjust_repeat s m : adjust s (repeat 0 m) = repeat 0 m.
Proof.
  unfold adjust. induction m as [|m IH]; [reflexivity|]. cbn [repeat map]. rewrite IH. f_equal. unfold big_Int64.
  rewrite Z.shiftr_0_l. reflexivity.
Qed.
Lemma adjust_lin k c s : max_bitsize (lin (S k) c) (repeat 0 (2 ^ S k)) = Ok s -> 100 <= Z.abs c ->
  exists e c', adjust s (lin (S k) c) = lin2 k e c' /\ 0 <= e <= 1 /\ 100 <= Z.abs c' <= 2 ^ 53.
Proof.
  intros E Hc. apply max_bitsize_spec in E. destruct E as (S53 & U & W).
  assert (B : forall x, In x (lin (S k) c) -> Z.abs x < 2 ^ s) by (intros x Hx; apply U; left; exact Hx).
  rewrite (adjust_ok s _ S53 B). set (d := 2 ^ (s - 53)). assert (D1 : 1 <= d) by (unfold d; pose proof (Z.pow_pos_nonneg 2 (s - 53)); lia).
  assert (ED : 2 ^ s = 2 ^ 53 * d) by (unfold d; rewrite <- Z.pow_add_r by lia; f_equal; lia).
  exists (1 / d), (c / d). split; [|split].
  - unfold lin, lin2. cbn [map]. f_equal. f_equal. generalize (2 ^ S k - 2)%nat. intros m. induction m as [|m IH]; [reflexivity|].
    cbn [repeat map]. rewrite IH, Z.div_0_l by lia. reflexivity.
  - split; [apply Z.div_pos; lia|]. apply Z.div_le_upper_bound; lia.
  - assert (Bc : Z.abs c < 2 ^ s) by (apply B; unfold lin; cbn; auto). rewrite ED in Bc.
    pose proof (Z.div_mod c d ltac:(lia)) as DM. pose proof (Z.mod_pos_bound c d ltac:(lia)) as MB. set (y := c / d) in *.
    split.
    + destruct W as [W|(x & Hx & W)].
      * unfold d in *. rewrite W in *. change (2 ^ (53 - 53)) with 1 in *. lia.
      * destruct (Z.eq_dec s 53) as [->|NE]; [unfold d in *; change (2 ^ (53 - 53)) with 1 in *; lia|].
        assert (P45 : 2 ^ 46 <= 2 ^ (s - 8)) by (apply Z.pow_le_mono_r; lia). change (2 ^ 46) with 70368744177664 in P45.
        assert (X : x = c).
        { destruct Hx as [Hx|Hx].
          - unfold lin in Hx. destruct Hx as [<-|[<-|Hx]]; [cbn in W; lia|reflexivity|]. apply repeat_spec in Hx. subst x. cbn in W. lia.
          - apply repeat_spec in Hx. subst x. cbn in W. lia. }
        subst x. assert (E2 : 2 ^ (s - 8) = 2 ^ 45 * d) by (unfold d; rewrite <- Z.pow_add_r by lia; f_equal; lia).
        rewrite E2 in W. change (2 ^ 45) with 35184372088832 in W. nia.
    + change (2 ^ 53) with 9007199254740992 in *. nia.
Qed.

Section Solve.
Context (ci cu : b64 -> Z).
Notation FO := (binary64 ci cu).

Lemma lin2_values k e c j : (S k <= 10)%nat -> 0 <= e <= 1 -> 100 <= Z.abs c -> (j < 2 ^ S k)%nat ->
  let v := ceval (map IZR (lin2 k e c)) (nth j (exact_roots (2 ^ S k)) C0) in
  Cle v (2 * IZR (Z.abs c)) /\ (IZR (Z.abs c) * IZR (Z.abs c) / 4 <= Csqnorm v)%R.
Proof.
  intros Hk He Hc Hj v. pose proof (gr_unit _ exact_good (S k) j ltac:(lia) Hj) as U.
  assert (E : v = Cadd (RtoC (IZR e)) (Cmul (nth j (exact_roots (2 ^ S k)) C0) (RtoC (IZR c)))).
  { unfold v, lin2. cbn [map]. rewrite !ceval_cons, ceval_zeros. ring. }
  rewrite E. set (w := nth j (exact_roots (2 ^ S k)) C0) in *. destruct w as [x y].
  unfold Cmul, Cconj, C1 in U. apply (f_equal fst) in U. cbn [fst snd] in U.
  unfold Cle, Csqnorm, Cadd, Cmul, RtoC. cbn [fst snd].
  assert (H0 : (0 <= IZR e <= 1)%R) by (split; apply IZR_le; lia).
  assert (HC : (100 <= IZR (Z.abs c))%R) by (apply IZR_le; lia).
  assert (HS : (IZR (Z.abs c) * IZR (Z.abs c) = IZR c * IZR c)%R) by (rewrite <- !mult_IZR; f_equal; lia).
  set (a := IZR (Z.abs c)) in *. set (b := IZR c) in *. set (d := IZR e) in *. clearbody a b d. clear E v.
  assert (HX : (x * x <= 1)%R) by nra.
  assert (HB : (b * x * (b * x) <= a * a)%R). { replace (b * x * (b * x))%R with (b * b * (x * x))%R by ring. rewrite <- HS. nra. }
  assert (HR : (- a <= b * x <= a)%R) by (split; nra).
  assert (EQ : ((d + (x * b - y * 0)) * (d + (x * b - y * 0)) + (0 + (x * 0 + y * b)) * (0 + (x * 0 + y * b)) = d * d + 2 * d * (b * x) + a * a)%R).
  { rewrite HS. replace (b * b)%R with (b * b * 1)%R by ring. rewrite <- U. ring. }
  rewrite EQ. split; [split; nra|nra].
Qed.
Lemma reduce_same k f G s B rf : (S k <= 10)%nat -> length f = (2 ^ S k)%nat -> length G = (2 ^ S k)%nat ->
  max_bitsize f (repeat 0 (2 ^ S k)) = Ok s -> Forall (fun z => Z.abs z <= B) (adjust s f) -> 1 <= B <= 2 ^ 53 ->
  (forall i, (i < 2 ^ S k)%nat -> let v := ceval (map IZR (adjust s f)) (nth i (exact_roots (2 ^ S k)) C0) in
    Cle v (2 * IZR B) /\ (IZR B * IZR B / 4 <= Csqnorm v)%R) ->
  reduce (reduce_quotient FO) (S rf) f (repeat 0 (2 ^ S k)) (repeat 0 (2 ^ S k)) G = Ok (repeat 0 (2 ^ S k), G).
Proof.
  intros Hk Lf LG Es HF HB HV. assert (NE : forall l : list Z, length l = (2 ^ S k)%nat -> l <> []).
  { intros l L X. subst l. pose proof (Nat.pow_nonzero 2 (S k) ltac:(lia)). cbn [length] in L. lia. }
  assert (LZ : length (repeat 0 (2 ^ S k)) = (2 ^ S k)%nat) by apply repeat_length.
  unfold reduce. rewrite Es. cbn [bind reduce_loop].
  destruct (max_bitsize_Ok _ _ (NE _ LZ) (NE _ LG)) as (S0 & ES). rewrite ES. cbn [bind].
  destruct (S0 <? s); [reflexivity|]. rewrite !adjust_repeat.
  assert (Q0 : reduce_quotient FO (adjust s f) (repeat 0 (2 ^ S k)) (repeat 0 (2 ^ S k)) (adjust S0 G) = Ok (repeat 0 (2 ^ S k))).
  { apply (quo_zero ci cu (S k) _ _ B); [lia|unfold adjust; rewrite map_length; exact Lf|unfold adjust; rewrite map_length; exact LG|exact HF| |exact HB|exact HV].
    apply max_bitsize_spec in ES. destruct ES as (S53 & U & _). rewrite adjust_ok; [|exact S53|intros x Hx; apply U; right; exact Hx].
    apply Forall_forall. intros x Hx. apply in_map_iff in Hx. destruct Hx as (y & <- & Hy).
    assert (Bc : Z.abs y < 2 ^ S0) by (apply U; right; exact Hy). set (d := 2 ^ (S0 - 53)).
    assert (D1 : 1 <= d) by (unfold d; pose proof (Z.pow_pos_nonneg 2 (S0 - 53)); lia).
    assert (ED : 2 ^ S0 = 2 ^ 53 * d) by (unfold d; rewrite <- Z.pow_add_r by lia; f_equal; lia). rewrite ED in Bc.
    pose proof (Z.div_mod y d ltac:(lia)) as DM. pose proof (Z.mod_pos_bound y d ltac:(lia)) as MB.
    change (2 ^ 53) with 9007199254740992 in *. nia. }
  rewrite Q0. cbn [bind]. replace (AllZeroes (repeat 0 (2 ^ S k))) with true; [reflexivity|].
  clear. induction (2 ^ S k)%nat as [|m IH]; [reflexivity|]. exact IH.
Qed.
Definition unreduced (k : nat) (f : list Z) (rf : nat) : Prop := forall G, length G = (2 ^ k)%nat ->
  reduce (reduce_quotient FO) (S rf) f (repeat 0 (2 ^ k)) (repeat 0 (2 ^ k)) G = Ok (repeat 0 (2 ^ k), G).
Lemma reduce_lin k c rf : (S k <= 10)%nat -> 100 <= Z.abs c -> unreduced (S k) (lin (S k) c) rf.
Proof.
  intros Hk Hc G LG. assert (NE : forall l : list Z, length l = (2 ^ S k)%nat -> l <> []).
  { intros l L X. subst l. pose proof (Nat.pow_nonzero 2 (S k) ltac:(lia)). cbn [length] in L. lia. }
  destruct (max_bitsize_Ok _ _ (NE _ (lin_length (S k) c)) (NE _ (repeat_length 0 _))) as (s & Es).
  destruct (adjust_lin k c s Es Hc) as (e & c' & EA & He & Hc').
  apply (reduce_same k _ _ s (Z.abs c')); [exact Hk|apply lin_length|exact LG|exact Es| |lia|].
  - rewrite EA. unfold lin2. constructor; [lia|]. constructor; [lia|]. apply Forall_forall. intros x Hx. apply repeat_spec in Hx. subst. cbn. lia.
  - rewrite EA. intros i Hi. apply lin2_values; lia.
Qed.
(** small polynomials are not scaled *)
Lemma reduce_small k f B rf : (S k <= 10)%nat -> length f = (2 ^ S k)%nat -> Forall (fun z => Z.abs z <= B) f -> 1 <= B <= 2 ^ 40 ->
  (forall i, (i < 2 ^ S k)%nat -> let v := ceval (map IZR f) (nth i (exact_roots (2 ^ S k)) C0) in
    Cle v (2 * IZR B) /\ (IZR B * IZR B / 4 <= Csqnorm v)%R) -> unreduced (S k) f rf.
Proof.
  intros Hk Lf HF HB HV G LG. assert (NE : forall l : list Z, length l = (2 ^ S k)%nat -> l <> []).
  { intros l L X. subst l. pose proof (Nat.pow_nonzero 2 (S k) ltac:(lia)). cbn [length] in L. lia. }
  destruct (max_bitsize_Ok _ _ (NE _ Lf) (NE _ (repeat_length 0 _))) as (s & Es).
  assert (S53 : s = 53).
  { apply max_bitsize_spec in Es. destruct Es as (S53 & _ & [W|(x & Hx & W)]); [exact W|]. destruct (Z.eq_dec s 53) as [E|N]; [exact E|exfalso].
    assert (X : Z.abs x <= 2 ^ 40).
    { destruct Hx as [Hx|Hx]; [rewrite Forall_forall in HF; specialize (HF x Hx); lia|apply repeat_spec in Hx; subst x; cbn; lia]. }
    assert (2 ^ 41 <= 2 ^ (s - 8)) by (apply Z.pow_le_mono_r; lia). change (2 ^ 41) with (2 * 2 ^ 40) in *. lia. }
  subst s. assert (EA : adjust 53 f = f).
  { rewrite adjust_ok; [|lia|].
    - rewrite <- (map_id f) at 2. apply map_ext. intros x. apply Z.div_1_r.
    - intros x Hx. rewrite Forall_forall in HF. specialize (HF x Hx). lia. }
  apply (reduce_same k _ _ 53 B); rewrite ?EA; auto. lia.
Qed.

Lemma nega_zero_l n b : length b = n -> negacyc n (repeat 0 n) b = repeat 0 n.
Proof.
  intros L. apply (poly_eq n); [apply negacyc_length|apply repeat_length|]. intros x _.
  pose proof (nega_eval n (repeat 0 n) b x (repeat_length _ _) L) as A. rewrite eval_zeros in *. exact A.
Qed.
Lemma plift_zeros m : plift (repeat 0 m) = repeat 0 (2 * m).
Proof.
  induction m as [|m IH]; [reflexivity|]. replace (2 * S m)%nat with (S (S (2 * m))) by lia. cbn [repeat]. rewrite plift_cons, IH. reflexivity.
Qed.
Definition lin_norm (k : nat) (c : Z) : Z := match k with O => 1 - c | _ => 1 + c ^ Z.of_nat (2 ^ k) end.
Lemma lin_norm_step k c : lin_norm k (- (c * c)) = lin_norm (S k) c.
Proof.
  destruct k as [|k]; [cbn [lin_norm]; change (Z.of_nat (2 ^ 1)) with 2; ring|]. unfold lin_norm. f_equal.
  rewrite Z.pow_opp_even by (exists (Z.of_nat (2 ^ k)); cbn [Nat.pow]; lia).
  rewrite <- Z.pow_2_r, <- Z.pow_mul_r by lia. f_equal. cbn [Nat.pow]. lia.
Qed.
(** one level of the recursion: F is 0 and nothing is reduced *)
Lemma solve_step rf k f r depth Gp : length f = (2 ^ S k)%nat -> length r = (2 ^ k)%nat -> plift r = negacyc (2 ^ S k) f (pconj f) ->
  unreduced (S k) f rf -> length Gp = (2 ^ k)%nat ->
  NtruSolve_depth (reduce_quotient FO) (S rf) depth r (repeat 0 (2 ^ k)) = Ok (repeat 0 (2 ^ k), Gp) ->
  exists G, length G = (2 ^ S k)%nat /\
    NtruSolve_depth (reduce_quotient FO) (S rf) (S depth) f (repeat 0 (2 ^ S k)) = Ok (repeat 0 (2 ^ S k), G).
Proof.
  intros Lf Lr0 Er0 HU LG EG. cbn [NtruSolve_depth]. rewrite Lf. destruct (Nat.eqb_spec (2 ^ S k) 1) as [X|X].
  { exfalso. pose proof (Nat.pow_nonzero 2 k ltac:(lia)). cbn [Nat.pow] in X. lia. }
  assert (LZ : length (repeat 0 (2 ^ S k)) = (2 ^ S k)%nat) by apply repeat_length.
  destruct (fieldNorm_ok k _ Lf) as (r1 & Er & Lr & Pr). rewrite <- Er0 in Pr. apply plift_inj in Pr; [|congruence]. subst r1.
  destruct (fieldNorm_ok k _ LZ) as (r1 & Er' & Lr' & Pr). rewrite nega_zero_l in Pr by (rewrite pconj_length; exact LZ).
  change (2 ^ S k)%nat with (2 * 2 ^ k)%nat in Pr. rewrite <- plift_zeros in Pr. apply plift_inj in Pr; [|rewrite Lr', repeat_length; reflexivity]. subst r1.
  rewrite Er, Er'. cbn [bind]. rewrite EG. cbn [bind].
  rewrite !galoisConjugate_ok. cbn [bind]. rewrite !lift_ok, plift_zeros. change (2 * 2 ^ k)%nat with (2 ^ S k)%nat.
  rewrite (karamul_ok (S k)) by (rewrite ?pconj_length, ?repeat_length; lia). cbn [bind].
  rewrite (karamul_ok (S k)) by (rewrite ?pconj_length, ?Lf, ?plift_length, ?LG; cbn [Nat.pow]; lia). cbn [bind].
  rewrite nega_zero_l by (rewrite pconj_length; exact LZ).
  eexists. split; [|apply HU, negacyc_length]. apply negacyc_length.
Qed.
Lemma solve_lin rf k : (k <= 10)%nat -> forall depth c, (k < depth)%nat -> 100 <= Z.abs c -> big_Int64 (lin_norm k c) = 1 ->
  exists G, length G = (2 ^ k)%nat /\
    NtruSolve_depth (reduce_quotient FO) (S rf) depth (lin k c) (repeat 0 (2 ^ k)) = Ok (repeat 0 (2 ^ k), G).
Proof.
  induction k as [|k IH]; intros Hk depth c Hd Hc N; (destruct depth as [|depth]; [lia|]).
  - exists [q * 1]. split; [reflexivity|]. cbn [NtruSolve_depth lin length Nat.eqb Nat.pow repeat idx nth_error bind].
    unfold xgcd. cbn [lin_norm] in N. set (d := 1 - c) in *. clearbody d.
    change (Z.to_nat (2 * Z.log2 (Z.abs 0) + 4)) with 4%nat. cbn [xgcd_loop]. change (0 =? 0) with true. cbv iota. cbn [bind].
    rewrite N. cbn [Z.eqb Pos.eqb negb]. reflexivity.
  - destruct (IH ltac:(lia) depth (- (c * c)) ltac:(lia) ltac:(nia) ltac:(rewrite lin_norm_step; exact N)) as (Gp & LG & EG).
    exact (solve_step rf k _ _ depth Gp (lin_length _ _) (lin_length _ _) (lin_half k c) (reduce_lin k c rf Hk Hc) LG EG).
Qed.
End Solve.

(** no F and G go with f = 1 + c x and g = 0 *)
Lemma lin_no_equation0 k c F G : 2 <= c -> 12288 < c ^ Z.of_nat (2 ^ S k) -> length F = (2 ^ S k)%nat -> length G = (2 ^ S k)%nat ->
  ~ ntru_equation (2 ^ S k) (lin (S k) c) (repeat 0 (2 ^ S k)) F G.
Proof.
  intros Hc HN LF LG E. apply (lin_no_equation k c (repeat 0 (2 ^ S k)) G Hc HN (repeat_length _ _) LG).
  unfold ntru_equation in *. rewrite <- E. f_equal. rewrite nega_zero_l by exact LF.
  apply (poly_eq (2 ^ S k)); [apply negacyc_length|apply repeat_length|]. intros x _.
  pose proof (nega_eval (2 ^ S k) (lin (S k) c) (repeat 0 (2 ^ S k)) x (lin_length _ _) (repeat_length _ _)) as A.
  rewrite eval_zeros in *. rewrite Z.mul_0_r in A. exact A.
Qed.
