(** C107: the private keys of one public key. *)
From Coq Require Import Lia ZArith List Setoid Morphisms Ring.
From Verif Require Import GoBase Util Spec PolyZ PolyEval BaseProofs NtruProofs2 NtruProofs3 Params Falcon Ntt NttProofs KeyProofs KeyGenProofs Witness NttProps PropsNtt PropsKeys Lattice PropsBasis.
Import ListNotations.
Local Open Scope Z_scope.

(** a private key with polynomials of length n, int16 values f and g, f
    invertible modulo q *)
Definition good_key (n : nat) (sk : PrivateKey) : Prop :=
  length (sk_f sk) = n /\ length (sk_g sk) = n /\ length (sk_F sk) = n /\ length (sk_G sk) = n /\
  int16s (sk_f sk) /\ int16s (sk_g sk) /\ invertible_mod_q n (sk_f sk).
(** (g', -f') and (G', -F') are the rows of the matrix (a b; c d) times the
    basis of sk *)
Definition basis_change (n : nat) (sk sk' : PrivateKey) (a b c d : list Z) : Prop :=
  let comb u v x y := padd n (negacyc n u x) (negacyc n v y) in
  sk_f sk' = comb a b (sk_f sk) (sk_F sk) /\ sk_g sk' = comb a b (sk_g sk) (sk_G sk) /\
  sk_F sk' = comb c d (sk_f sk) (sk_F sk) /\ sk_G sk' = comb c d (sk_g sk) (sk_G sk).

Section S.
Context (n : nat) (Pn : (0 < n)%nat).
Ltac ev x := apply (poly_eq n); [ln|ln|]; intros x _;
  repeat first [rewrite (eval_padd n) by ln | rewrite (eval_psub n) by ln | rewrite eval_pscale | rewrite (PolyEval.eval_pconst n) by exact Pn];
  repeat first [rewrite !(nega_eval n) by ln | progress repeat first [rewrite (eval_padd n) by ln | rewrite (eval_psub n) by ln | rewrite eval_pscale | rewrite (PolyEval.eval_pconst n) by exact Pn]].

Lemma neg_neg p a b f F : length p = n -> length a = n -> length b = n -> length f = n -> length F = n ->
  psub n (repeat 0 n) p = psub n (repeat 0 n) (padd n (negacyc n a f) (negacyc n b F)) -> p = padd n (negacyc n a f) (negacyc n b F).
Proof.
  intros Lp La Lb Lf LF E. rewrite zero_pconst in E. apply (poly_eq n); [ln|ln|]. intros x _.
  pose proof (f_equal (fun p => eval p x) E) as K. cbv beta in K. rewrite !(eval_psub n), !(PolyEval.eval_pconst n) in K by (exact Pn || ln).
  apply cong_eq. lia.
Qed.
Lemma pmod_sub f g : length f = n -> length g = n -> pmod q f = pmod q g <-> exists r, length r = n /\ f = padd n g (pscale q r).
Proof.
  intros Lf Lg. split; [apply pmod_eq; [discriminate|assumption..]|]. intros (r & Lr & E). exact (pmod_eq_inv n q f g r ltac:(discriminate) Lf Lg Lr E).
Qed.
Lemma row_lattice h f g : length h = n -> length f = n -> length g = n -> pmod q (negacyc n h f) = pmod q g -> ntru_lattice n h g (psub n (repeat 0 n) f).
Proof.
  intros Lh Lf Lg E. apply pmod_sub in E; [|ln|ln]. destruct E as (r & Lr & E). unfold ntru_lattice. rewrite zero_pconst.
  assert (Z0 : pconst n 0 = pmod q (pconst n 0)).
  { unfold pmod, pconst. rewrite map_map. apply map_ext. intros i. destruct (Nat.eqb i 0); reflexivity. }
  refine (eq_trans _ (eq_sym Z0)). apply (pmod_eq_inv n q _ _ (psub n (pconst n 0) r)); [discriminate|ln|ln|ln|]. ev x.
  assert (K : cong (x ^ Z.of_nat n + 1) (eval h x * eval f x) (eval g x + q * eval r x)).
  { rewrite <- (nega_eval n) by ln. rewrite E, (eval_padd n), eval_pscale by ln. reflexivity. }
  replace (eval g x + (0 - eval f x) * eval h x) with (eval g x - eval h x * eval f x) by ring. rewrite K. apply cong_eq. ring.
Qed.
Lemma ntru_at f g F G : length f = n -> length g = n -> length F = n -> length G = n -> ntru_equation n f g F G ->
  forall x, cong (x ^ Z.of_nat n + 1) (eval f x * eval G x - eval g x * eval F x) q.
Proof.
  intros Lf Lg LF LG E x. pose proof (f_equal (fun p => eval p x) E) as B. cbv beta in B. rewrite (eval_psub n), (PolyEval.eval_pconst n) in B by (exact Pn || ln).
  rewrite <- B. rewrite !(nega_eval n) by ln. reflexivity.
Qed.
Lemma comb_at u v y z p : length u = n -> length v = n -> length y = n -> length z = n -> p = padd n (negacyc n u y) (negacyc n v z) ->
  forall x, cong (x ^ Z.of_nat n + 1) (eval p x) (eval u x * eval y x + eval v x * eval z x).
Proof. intros Lu Lv Ly Lz -> x. rewrite (eval_padd n) by ln. rewrite !(nega_eval n) by ln. reflexivity. Qed.
(** the determinant is 1 exactly when the changed basis satisfies the equation *)
Lemma det_one f g F G f' g' F' G' a b c d :
  length f = n -> length g = n -> length F = n -> length G = n -> length f' = n -> length g' = n -> length F' = n -> length G' = n ->
  length a = n -> length b = n -> length c = n -> length d = n ->
  f' = padd n (negacyc n a f) (negacyc n b F) -> g' = padd n (negacyc n a g) (negacyc n b G) ->
  F' = padd n (negacyc n c f) (negacyc n d F) -> G' = padd n (negacyc n c g) (negacyc n d G) ->
  ntru_equation n f g F G ->
  (ntru_equation n f' g' F' G' <-> psub n (negacyc n a d) (negacyc n b c) = pconst n 1).
Proof.
  intros Lf Lg LF LG Lf' Lg' LF' LG' La Lb Lc Ld Ef Eg EF EG EQ.
  pose proof (ntru_at _ _ _ _ Lf Lg LF LG EQ) as N.
  pose proof (comb_at _ _ _ _ _ La Lb Lf LF Ef) as Kf. pose proof (comb_at _ _ _ _ _ La Lb Lg LG Eg) as Kg.
  pose proof (comb_at _ _ _ _ _ Lc Ld Lf LF EF) as KF. pose proof (comb_at _ _ _ _ _ Lc Ld Lg LG EG) as KG.
  clear Ef Eg EF EG.
  assert (D : forall x, cong (x ^ Z.of_nat n + 1) (eval f' x * eval G' x - eval g' x * eval F' x) (q * (eval a x * eval d x - eval b x * eval c x))).
  { intros x. rewrite (Kf x), (Kg x), (KF x), (KG x), <- (N x). apply cong_eq. ring. }
  split.
  - intros E. pose proof (ntru_at _ _ _ _ Lf' Lg' LF' LG' E) as N'. apply (pscale_inj n q); [discriminate|ln|ln|]. ev x.
    rewrite <- (D x), (N' x). apply cong_eq. ring.
  - intros E. unfold ntru_equation. ev x. rewrite (D x).
    pose proof (f_equal (fun p => eval p x) E) as B. cbv beta in B. rewrite (eval_psub n), (PolyEval.eval_pconst n) in B by (exact Pn || ln).
    rewrite <- !(nega_eval n) by ln. rewrite B. apply cong_eq. ring.
Qed.
End S.

Lemma degree_pos n : valid_degree n -> (0 < n)%nat.
Proof. intros (k & _ & ->). apply Nat.neq_0_lt_0, Nat.pow_nonzero. discriminate. Qed.

(** Two private keys have the same public polynomial exactly when f g' = f' g
    modulo q. *)
Theorem C107_fractions : forall n sk sk' pk pk', valid_degree n -> good_key n sk -> good_key n sk' ->
  GetPublicKey wrap64 sk = Ok pk -> GetPublicKey wrap64 sk' = Ok pk' ->
  (pk_h pk = pk_h pk' <-> pmod q (negacyc n (sk_f sk) (sk_g sk')) = pmod q (negacyc n (sk_f sk') (sk_g sk))).
Proof.
  intros n sk sk' pk pk' V (Lf & Lg & LF & LG & If & Ig & Inv) (Lf' & Lg' & LF' & LG' & If' & Ig' & Inv') E E'.
  pose proof (degree_pos n V) as Pn.
  destruct (C20_public_key sk n V Lf Lg If Ig Inv) as (h & E1 & Lh & Rh & Hh & _).
  destruct (C20_public_key sk' n V Lf' Lg' If' Ig' Inv') as (h' & E1' & Lh' & _ & Hh' & U').
  rewrite E in E1. rewrite E' in E1'. apply Ok_inj in E1. apply Ok_inj in E1'. subst pk pk'. cbn [pk_h].
  pose proof Hh as H1. apply (pmod_sub n) in H1; [|ln|ln]. destruct H1 as (r & Lr & Er).
  assert (K : forall x, cong (x ^ Z.of_nat n + 1) (eval h x * eval (sk_f sk) x) (eval (sk_g sk) x + q * eval r x)).
  { intros x. rewrite <- (nega_eval n) by ln. rewrite Er, (eval_padd n), eval_pscale by ln. reflexivity. }
  split.
  - intros <-. apply (pmod_sub n) in Hh'; [|ln|ln]. destruct Hh' as (r' & Lr' & Er').
    assert (K' : forall x, cong (x ^ Z.of_nat n + 1) (eval h x * eval (sk_f sk') x) (eval (sk_g sk') x + q * eval r' x)).
    { intros x. rewrite <- (nega_eval n) by ln. rewrite Er', (eval_padd n), eval_pscale by ln. reflexivity. }
    apply (pmod_sub n); [ln|ln|]. exists (psub n (negacyc n r (sk_f sk')) (negacyc n r' (sk_f sk))). split; [ln|].
    apply (poly_eq n); [ln|ln|]. intros x _. rewrite (eval_padd n), eval_pscale, (eval_psub n) by ln. rewrite !(nega_eval n) by ln.
    specialize (K x). specialize (K' x). generalize dependent (x ^ Z.of_nat n + 1). intros m K K'.
    replace (eval (sk_f sk) x * eval (sk_g sk') x) with (eval (sk_f sk) x * (eval (sk_g sk') x + q * eval r' x) - q * eval r' x * eval (sk_f sk) x) by ring.
    rewrite <- K'. replace (eval (sk_f sk) x * (eval h x * eval (sk_f sk') x)) with (eval h x * eval (sk_f sk) x * eval (sk_f sk') x) by ring.
    rewrite K. apply cong_eq. ring.
  - intros Hc. apply U'; [exact Lh|exact Rh|].
    (* h f' = h f' (f w) = g f' w = f g' w = g' *)
    destruct Inv as (w & Lw & Ew).
    destruct (pmod_eq n q (negacyc n (sk_f sk) w) (pconst n 1) ltac:(discriminate)) as (r3 & L3 & E3); [ln|ln| |].
    { rewrite Ew. unfold pmod, pconst. rewrite map_map. apply map_ext. intros i. destruct (Nat.eqb i 0); reflexivity. }
    apply (pmod_sub n) in Hc; [|ln|ln]. destruct Hc as (s & Ls & Es).
    apply (pmod_sub n); [ln|ln|].
    exists (psub n (padd n (negacyc n (negacyc n r (sk_f sk')) w) (negacyc n r3 (sk_g sk'))) (padd n (negacyc n s w) (negacyc n r3 (negacyc n h (sk_f sk'))))). split; [ln|].
    apply (poly_eq n); [ln|ln|]. intros x _. rewrite (eval_padd n), eval_pscale, (eval_psub n), !(eval_padd n) by ln. rewrite !(nega_eval n) by ln.
    assert (K3 : cong (x ^ Z.of_nat n + 1) (eval (sk_f sk) x * eval w x) (1 + q * eval r3 x)).
    { rewrite <- (nega_eval n) by ln. rewrite E3, (eval_padd n), eval_pscale, (PolyEval.eval_pconst n) by (exact Pn || ln). reflexivity. }
    assert (Ks : cong (x ^ Z.of_nat n + 1) (eval (sk_f sk) x * eval (sk_g sk') x) (eval (sk_f sk') x * eval (sk_g sk) x + q * eval s x)).
    { rewrite <- !(nega_eval n) by ln. rewrite Es, (eval_padd n), eval_pscale by ln. reflexivity. }
    specialize (K x). generalize dependent (x ^ Z.of_nat n + 1). intros m K K3 Ks.
    set (f := eval (sk_f sk) x) in *. set (g := eval (sk_g sk) x) in *. set (f' := eval (sk_f sk') x) in *. set (g' := eval (sk_g sk') x) in *.
    set (hh := eval h x) in *. set (rr := eval r x) in *. set (ww := eval w x) in *. set (r3' := eval r3 x) in *. set (ss := eval s x) in *.
    clearbody f g f' g' hh rr ww r3' ss. clear - K K3 Ks.
    assert (A : cong m ((f * ww) * (hh * f')) ((f * ww) * g' + q * (rr * f' * ww - ss * ww))).
    { replace (f * ww * (hh * f')) with (hh * f * (f' * ww)) by ring. rewrite K.
      replace (f * ww * g') with (f * g' * ww) by ring. rewrite Ks. apply cong_eq. ring. }
    rewrite K3 in A.
    replace (hh * f') with ((1 + q * r3') * (hh * f') - q * r3' * (hh * f')) at 1 by ring. rewrite A. apply cong_eq. ring.
Qed.
Print Assumptions C107_fractions.

(** With the NTRU equation: the same public polynomial exactly when the bases
    differ by a matrix of determinant 1 over Z[x]/(x^n+1). *)
Theorem C107_same_public : forall n sk sk' pk pk', valid_degree n -> good_key n sk -> good_key n sk' ->
  ntru_equation n (sk_f sk) (sk_g sk) (sk_F sk) (sk_G sk) -> ntru_equation n (sk_f sk') (sk_g sk') (sk_F sk') (sk_G sk') ->
  GetPublicKey wrap64 sk = Ok pk -> GetPublicKey wrap64 sk' = Ok pk' ->
  (pk_h pk = pk_h pk' <-> exists a b c d, length a = n /\ length b = n /\ length c = n /\ length d = n /\
     basis_change n sk sk' a b c d /\ psub n (negacyc n a d) (negacyc n b c) = pconst n 1).
Proof.
  intros n sk sk' pk pk' V K K' EQ EQ' E E'. pose proof K as (Lf & Lg & LF & LG & If & Ig & Inv). pose proof K' as (Lf' & Lg' & LF' & LG' & If' & Ig' & Inv').
  pose proof (degree_pos n V) as Pn. split.
  - intros Eh. 
    destruct (C20_public_key sk' n V Lf' Lg' If' Ig' Inv') as (h' & E1' & Lh' & _ & Hh' & _). rewrite E' in E1'. apply Ok_inj in E1'. subst pk'. cbn [pk_h] in Eh. subst h'.
    assert (LZ : length (psub n (repeat 0 n) (sk_f sk')) = n /\ length (psub n (repeat 0 n) (sk_F sk')) = n) by (split; ln). destruct LZ as [Z1 Z2].
    pose proof (row_lattice n Pn _ _ _ Lh' Lf' Lg' Hh') as R1.
    destruct (rel_F n Pn _ _ _ _ _ Lf' Lg' LF' LG' Lh' EQ' Hh' Inv') as (t & Lt & Et).
    assert (HF' : pmod q (negacyc n (pk_h pk) (sk_F sk')) = pmod q (sk_G sk')).
    { symmetry. apply (pmod_sub n); [ln|ln|]. exists t. auto. }
    pose proof (row_lattice n Pn _ _ _ Lh' LF' LG' HF') as R2.
    destruct (C87_lattice n sk pk V Lf Lg LF LG If Ig Inv EQ E _ _ Lg' Z1) as [S1 _]. apply S1 in R1. destruct R1 as (a & b & La & Lb & A1 & A2).
    destruct (C87_lattice n sk pk V Lf Lg LF LG If Ig Inv EQ E _ _ LG' Z2) as [S2 _]. apply S2 in R2. destruct R2 as (c & d & Lc & Ld & B1 & B2).
    apply (neg_neg n Pn) in A2; try assumption. apply (neg_neg n Pn) in B2; try assumption.
    exists a, b, c, d. repeat (split; [assumption|]). split; [repeat split; assumption|].
    apply (det_one n Pn (sk_f sk) (sk_g sk) (sk_F sk) (sk_G sk) (sk_f sk') (sk_g sk') (sk_F sk') (sk_G sk')); assumption.
  - intros (a & b & c & d & La & Lb & Lc & Ld & (Ef & Eg & _) & _). 
    destruct (C20_public_key sk n V Lf Lg If Ig Inv) as (h & E1 & Lh & Rh & Hh & _).
    destruct (C20_public_key sk' n V Lf' Lg' If' Ig' Inv') as (h' & E1' & Lh' & _ & _ & U').
    rewrite E in E1. rewrite E' in E1'. apply Ok_inj in E1. apply Ok_inj in E1'. subst pk pk'. cbn [pk_h].
    apply U'; [exact Lh|exact Rh|].
    destruct (rel_F n Pn _ _ _ _ _ Lf Lg LF LG Lh EQ Hh Inv) as (t & Lt & Et).
    destruct (rel_f n _ _ _ Lg Hh) as (r & Lr & Er).
    apply (pmod_sub n); [ln|ln|]. exists (psub n (negacyc n a r) (negacyc n b t)). split; [ln|].
    apply (poly_eq n); [ln|ln|]. intros x _.
    pose proof (comb_at n _ _ _ _ _ La Lb Lf LF Ef x) as C1. pose proof (comb_at n _ _ _ _ _ La Lb Lg LG Eg x) as C2.
    assert (D1 : cong (x ^ Z.of_nat n + 1) (eval (sk_g sk) x) (eval h x * eval (sk_f sk) x - q * eval r x)).
    { rewrite Er, (eval_psub n), eval_pscale, (nega_eval n) by ln. reflexivity. }
    assert (D2 : cong (x ^ Z.of_nat n + 1) (eval (sk_G sk) x) (eval h x * eval (sk_F sk) x + q * eval t x)).
    { rewrite Et, (eval_padd n), eval_pscale, (nega_eval n) by ln. reflexivity. }
    rewrite (eval_padd n), eval_pscale, (eval_psub n) by ln. rewrite !(nega_eval n) by ln. rewrite C1, C2, D1, D2. apply cong_eq. ring.
Qed.
Print Assumptions C107_same_public.

(** All the solutions for one pair (f, g): F and G up to a multiple of f and g. *)
Theorem C107_solutions : forall n f g F G F' G', valid_degree n -> length f = n -> length g = n -> length F = n -> length G = n ->
  length F' = n -> length G' = n -> int16s f -> int16s g -> invertible_mod_q n f -> ntru_equation n f g F G ->
  (ntru_equation n f g F' G' <-> exists c, length c = n /\ F' = padd n F (negacyc n c f) /\ G' = padd n G (negacyc n c g)).
Proof.
  intros n f g F G F' G' V Lf Lg LF LG LF' LG' If Ig Inv EQ. pose proof (degree_pos n V) as Pn. pose proof (ntru_at n Pn _ _ _ _ Lf Lg LF LG EQ) as N. split.
  - intros EQ'. pose proof (ntru_at n Pn _ _ _ _ Lf Lg LF' LG' EQ') as N'.
    (* (F', -G') in the lattice: (c, d) with d = 1 *)
    set (sk := {| sk_n := Z.of_nat n; sk_f := f; sk_g := g; sk_F := F; sk_G := G |}).
    destruct (C20_public_key sk n V Lf Lg If Ig Inv) as (h & E & Lh & _ & Hh & _).
    destruct (rel_F n Pn f g F' G' h Lf Lg LF' LG' Lh EQ' Hh Inv) as (t & Lt & Et).
    assert (HF' : pmod q (negacyc n h F') = pmod q G'). { symmetry. apply (pmod_sub n); [ln|ln|]. exists t. auto. }
    pose proof (row_lattice n Pn _ _ _ Lh LF' LG' HF') as R.
    assert (Z2 : length (psub n (repeat 0 n) F') = n) by ln.
    destruct (C87_lattice n sk _ V Lf Lg LF LG If Ig Inv EQ E _ _ LG' Z2) as [S _]. apply S in R. destruct R as (c & d & Lc & Ld & B1 & B2).
    cbn [sk_f sk_g sk_F sk_G sk] in B1, B2. apply (neg_neg n Pn) in B2; try assumption.
    pose proof (comb_at n _ _ _ _ _ Lc Ld Lf LF B2) as C1. pose proof (comb_at n _ _ _ _ _ Lc Ld Lg LG B1) as C2.
    assert (D1 : d = pconst n 1).
    { apply (pscale_inj n q); [discriminate|ln|ln|]. apply (poly_eq n); [ln|ln|]. intros x _. rewrite !eval_pscale, (PolyEval.eval_pconst n) by exact Pn.
      rewrite Z.mul_1_r. rewrite <- (N' x) at 2. rewrite (C1 x), (C2 x), <- (N x). apply cong_eq. ring. }
    subst d. exists c. split; [exact Lc|]. split; apply (poly_eq n); try ln; intros x _; rewrite (eval_padd n) by ln; rewrite (nega_eval n) by ln.
    + rewrite (C1 x), (PolyEval.eval_pconst n) by exact Pn. apply cong_eq. ring.
    + rewrite (C2 x), (PolyEval.eval_pconst n) by exact Pn. apply cong_eq. ring.
  - intros (c & Lc & -> & ->). unfold ntru_equation. apply (poly_eq n); [ln|ln|]. intros x _. rewrite (eval_psub n), (PolyEval.eval_pconst n) by (exact Pn || ln).
    rewrite !(nega_eval n) by ln. rewrite !(eval_padd n) by ln. rewrite !(nega_eval n) by ln. rewrite <- (N x). apply cong_eq. ring.
Qed.
Print Assumptions C107_solutions.

(** the key of C87, and the key with f x, g x and f (1 + x^3) - F x^3, g (1 + x^3) - G x^3 *)
Definition C107_sk' := {| sk_n := 4; sk_f := [-1; 1; 2; 0]; sk_g := [-1; 3; 0; 1];
  sk_F := [641; 774; 169; 2143]; sk_G := [-680; -130; -1500; -765] |}.
Example C107_nonvacuous : valid_degree 4 /\ good_key 4 C87_sk /\ good_key 4 C107_sk' /\
  ntru_equation 4 (sk_f C87_sk) (sk_g C87_sk) (sk_F C87_sk) (sk_G C87_sk) /\
  ntru_equation 4 (sk_f C107_sk') (sk_g C107_sk') (sk_F C107_sk') (sk_G C107_sk') /\
  basis_change 4 C87_sk C107_sk' [0; 1; 0; 0] [0; 0; 0; 0] [1; 0; 0; 1] [0; 0; 0; -1] /\
  exists pk, GetPublicKey wrap64 C87_sk = Ok pk /\ GetPublicKey wrap64 C107_sk' = Ok pk.
Proof.
  pose proof C87_nonvacuous as (V & If & Ig & _ & _ & Inv & EQ & _). split; [exact V|].
  split; [repeat split; assumption|].
  assert (I1 : int16s (sk_f C107_sk')) by (apply int16s_dec; reflexivity). assert (I2 : int16s (sk_g C107_sk')) by (apply int16s_dec; reflexivity).
  split.
  { repeat (split; [reflexivity|]). split; [exact I1|]. split; [exact I2|].
    destruct (invertible_mod_q_dec 4 (sk_f C107_sk') V eq_refl) as [H|H]; [exact H|exfalso].
    pose proof (DivZq64_err 4 [1; 2; 3; 4] (sk_f C107_sk') V eq_refl eq_refl ltac:(apply int16s_dec; reflexivity) I1 H) as E.
    vm_compute in E. discriminate. }
  split; [exact EQ|]. split; [vm_compute; reflexivity|]. split; [repeat split; vm_compute; reflexivity|].
  eexists. split; vm_compute; reflexivity.
Qed.
