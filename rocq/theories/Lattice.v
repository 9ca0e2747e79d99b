(** The lattice of the public key and the basis of the private key. *)
From Coq Require Import Setoid Morphisms Ring.
From Verif Require Import GoBase Util Spec PolyZ PolyEval BaseProofs NtruProofs2 NtruProofs3.
Import ListNotations.
Open Scope Z_scope.

Lemma padd_length n f g : length (padd n f g) = n.
Proof. unfold padd. now rewrite map_length, seq_length. Qed.
Lemma pconst_length' n c : length (pconst n c) = n.
Proof. unfold pconst. now rewrite map_length, seq_length. Qed.
Ltac ln := repeat first [rewrite padd_length | rewrite psub_length | rewrite pscale_length | rewrite negacyc_length | rewrite pconst_length']; assumption || reflexivity.

Lemma pscale_inj n c f g : c <> 0 -> length f = n -> length g = n -> pscale c f = pscale c g -> f = g.
Proof.
  intros Hc Lf Lg E. apply nth_ext with (d := 0) (d' := 0); [congruence|]. intros i _.
  assert (A : coef (pscale c f) i = coef (pscale c g) i) by now rewrite E. rewrite !coef_pscale in A. unfold coef in A. nia.
Qed.
(** equality modulo m is equality up to a multiple of m *)
Lemma pmod_eq n m f g : m <> 0 -> length f = n -> length g = n -> pmod m f = pmod m g ->
  exists r, length r = n /\ f = padd n g (pscale m r).
Proof.
  intros Hm Lf Lg E. exists (map (fun i => (coef f i - coef g i) / m) (seq 0 n)).
  split; [now rewrite map_length, seq_length|].
  apply nth_ext with (d := 0) (d' := 0); [rewrite padd_length; exact Lf|]. intros i Hi. rewrite Lf in Hi.
  unfold padd. rewrite nth_map_seq by exact Hi. rewrite coef_pscale. unfold coef at 2. rewrite nth_map_seq by exact Hi.
  assert (A : nth i (pmod m f) 0 = nth i (pmod m g) 0) by now rewrite E.
  assert (N : forall h, length h = n -> nth i (pmod m h) 0 = coef h i mod m).
  { intros h Lh. unfold pmod. rewrite (nth_indep _ 0 (0 mod m)) by (rewrite map_length; lia). apply (map_nth (fun c => c mod m)). }
  rewrite !N in A by assumption. fold (cong m (coef f i) (coef g i)) in A. apply cong_divide in A; [|exact Hm]. destruct A as [z A].
  change (coef f i = coef g i + m * ((coef f i - coef g i) / m)). rewrite A, Z.div_mul by exact Hm. lia.
Qed.
Lemma pmod_eq_inv n m f g r : m <> 0 -> length f = n -> length g = n -> length r = n -> f = padd n g (pscale m r) -> pmod m f = pmod m g.
Proof.
  intros Hm Lf Lg Lr ->. apply nth_ext with (d := 0) (d' := 0); [unfold pmod; rewrite !map_length, padd_length; congruence|].
  intros i Hi. unfold pmod in Hi. rewrite map_length, padd_length in Hi.
  assert (N : forall h, length h = n -> nth i (pmod m h) 0 = coef h i mod m).
  { intros h Lh. unfold pmod. rewrite (nth_indep _ 0 (0 mod m)) by (rewrite map_length; lia). apply (map_nth (fun c => c mod m)). }
  rewrite !N by ln. unfold padd, coef at 1. rewrite nth_map_seq by exact Hi. rewrite coef_pscale.
  replace (coef g i + m * coef r i) with (coef g i + coef r i * m) by ring. apply Z_mod_plus_full.
Qed.

Section Lat.
Context (n : nat) (Pn : (0 < n)%nat) (f g F G h : list Z).
Context (Lf : length f = n) (Lg : length g = n) (LF : length F = n) (LG : length G = n) (Lh : length h = n).
Context (EQ : ntru_equation n f g F G) (HF : pmod q (negacyc n h f) = pmod q g) (INV : invertible_mod_q n f).

(** evaluate at x modulo x^n+1 *)
Ltac ev x := apply (poly_eq n); [ln|ln|]; intros x _;
  repeat first [rewrite (eval_padd n) by ln | rewrite (eval_psub n) by ln | rewrite eval_pscale | rewrite (eval_pconst n) by exact Pn];
  repeat first [rewrite !(nega_eval n) by ln | progress repeat first [rewrite (eval_padd n) by ln | rewrite (eval_psub n) by ln | rewrite eval_pscale | rewrite (eval_pconst n) by exact Pn]].
Ltac evh H x := let K := fresh "K" in pose proof (f_equal (fun p => eval p x) H) as K; cbv beta in K;
  repeat first [rewrite (eval_padd n) in K by ln | rewrite (eval_psub n) in K by ln | rewrite eval_pscale in K | rewrite (eval_pconst n) in K by exact Pn].

Lemma q_nz : q <> 0. Proof. discriminate. Qed.
(** h f = g + q r *)
Lemma rel_f : exists r, length r = n /\ g = psub n (negacyc n h f) (pscale q r).
Proof.
  destruct (pmod_eq n q (negacyc n h f) g q_nz) as (r & Lr & E); [ln|ln|exact HF|]. exists r. split; [exact Lr|].
  rewrite E. ev x. apply cong_eq. ring.
Qed.
Definition M x := x ^ Z.of_nat n + 1.
Lemma rel_F : exists t, length t = n /\ G = padd n (negacyc n h F) (pscale q t).
Proof.
  destruct rel_f as (r & Lr & Eg). destruct INV as (w & Lw & Ew).
  destruct (pmod_eq n q (negacyc n f w) (pconst n 1) q_nz) as (r3 & L3 & E3); [ln|ln| |].
  { rewrite Ew. unfold pmod, pconst. rewrite map_map. apply map_ext. intros i. destruct (Nat.eqb i 0); reflexivity. }
  set (d := psub n G (negacyc n h F)).
  exists (psub n (negacyc n w (psub n (pconst n 1) (negacyc n r F))) (negacyc n r3 d)). split; [ln|].
  unfold d. ev x. 
  pose proof (nega_eval n f w x Lf Lw) as A. rewrite E3 in A. rewrite (eval_padd n), eval_pscale, (eval_pconst n) in A by (exact Pn || ln).
  pose proof (f_equal (fun p => eval p x) EQ) as B. cbv beta in B. rewrite (eval_psub n), (eval_pconst n) in B by (exact Pn || ln).
  assert (B' : cong (M x) (eval f x * eval G x - eval g x * eval F x) q).
  { unfold M. rewrite <- B. rewrite !(nega_eval n) by ln. reflexivity. }
  pose proof (f_equal (fun p => eval p x) Eg) as D. cbv beta in D. rewrite (eval_psub n), eval_pscale in D by ln.
  assert (D' : cong (M x) (eval g x) (eval h x * eval f x - q * eval r x)).
  { unfold M. rewrite D, (nega_eval n) by ln. reflexivity. }
  fold (M x) in A |- *. generalize dependent (M x). intros m A B' D'.
  set (g' := eval g x) in *. set (f' := eval f x) in *. set (G' := eval G x) in *. set (F' := eval F x) in *. set (h' := eval h x) in *.
  set (r' := eval r x) in *. set (r3' := eval r3 x) in *. set (w' := eval w x) in *. clearbody g' f' G' F' h' r' r3' w'. clear - A B' D'.
  rewrite D' in B'.
  (* G = hF + q(w(1 - rF) - r3(G - hF)) *)
  assert (C1 : cong m ((f' * w') * (G' - h' * F')) (w' * q * (1 - r' * F'))).
  { replace (f' * w' * (G' - h' * F')) with (w' * (f' * G' - (h' * f' - q * r') * F') - w' * (q * r' * F')) by ring.
    rewrite B'. apply cong_eq. ring. }
  rewrite <- A in C1.
  replace G' with (h' * F' + ((1 + q * r3') * (G' - h' * F') - q * r3' * (G' - h' * F'))) at 1 by ring.
  rewrite C1. apply cong_eq. ring.
Qed.

Definition in_lattice (u v : list Z) : Prop := pmod q (padd n u (negacyc n v h)) = repeat 0 n.
Definition spanned (u v a b : list Z) : Prop :=
  u = padd n (negacyc n a g) (negacyc n b G) /\ v = psub n (repeat 0 n) (padd n (negacyc n a f) (negacyc n b F)).

Lemma zero_pconst : repeat 0 n = pconst n 0.
Proof.
  apply nth_ext with (d := 0) (d' := 0); [rewrite repeat_length; symmetry; apply pconst_length'|]. intros i Hi. rewrite repeat_length in Hi.
  rewrite nth_repeat. unfold pconst. rewrite nth_map_seq by exact Hi. destruct (Nat.eqb i 0); reflexivity.
Qed.
Lemma lattice_span u v : length u = n -> length v = n ->
  (in_lattice u v <-> exists a b, length a = n /\ length b = n /\ spanned u v a b).
Proof.
  intros Lu Lv. destruct rel_f as (r & Lr & Eg). destruct rel_F as (t & Lt & EG).
  (* t f + r F = 1 *)
  assert (K : padd n (negacyc n t f) (negacyc n r F) = pconst n 1).
  { apply (pscale_inj n q _ _ q_nz); [ln|ln|]. ev x.
    pose proof (f_equal (fun p => eval p x) EQ) as B. cbv beta in B. rewrite (eval_psub n), (eval_pconst n) in B by (exact Pn || ln).
    assert (B' : cong (M x) (eval f x * eval G x - eval g x * eval F x) q).
    { unfold M. rewrite <- B. rewrite !(nega_eval n) by ln. reflexivity. }
    assert (D' : cong (M x) (eval g x) (eval h x * eval f x - q * eval r x)).
    { unfold M. rewrite Eg, (eval_psub n), eval_pscale, (nega_eval n) by ln. reflexivity. }
    assert (D2 : cong (M x) (eval G x) (eval h x * eval F x + q * eval t x)).
    { unfold M. rewrite EG, (eval_padd n), eval_pscale, (nega_eval n) by ln. reflexivity. }
    rewrite D', D2 in B'. fold (M x). rewrite Z.mul_1_r. refine (transitivity _ B'). apply cong_eq. ring. }
  assert (K' : forall x, cong (M x) (eval t x * eval f x + eval r x * eval F x) 1).
  { intros x. pose proof (f_equal (fun p => eval p x) K) as B. cbv beta in B. rewrite (eval_padd n), (eval_pconst n) in B by (exact Pn || ln).
    rewrite <- B. unfold M. rewrite !(nega_eval n) by ln. reflexivity. }
  assert (Dg : forall x, cong (M x) (eval g x) (eval h x * eval f x - q * eval r x)).
  { intros x. unfold M. rewrite Eg, (eval_psub n), eval_pscale, (nega_eval n) by ln. reflexivity. }
  assert (DG : forall x, cong (M x) (eval G x) (eval h x * eval F x + q * eval t x)).
  { intros x. unfold M. rewrite EG, (eval_padd n), eval_pscale, (nega_eval n) by ln. reflexivity. }
  unfold in_lattice, spanned. rewrite zero_pconst. split.
  - intros HL. destruct (pmod_eq n q (padd n u (negacyc n v h)) (pconst n 0) q_nz) as (s & Ls & Es); [ln|ln| |].
    { rewrite HL. unfold pmod, pconst. rewrite map_map. apply map_ext. intros i. destruct (Nat.eqb i 0); reflexivity. }
    assert (Du : forall x, cong (M x) (eval u x) (q * eval s x - eval v x * eval h x)).
    { intros x. pose proof (f_equal (fun p => eval p x) Es) as B. cbv beta in B.
      rewrite !(eval_padd n), eval_pscale, (eval_pconst n) in B by (exact Pn || ln).
      replace (eval u x) with (q * eval s x - eval (negacyc n v h) x) by lia. unfold M. rewrite (nega_eval n) by ln. reflexivity. }
    exists (psub n (pconst n 0) (padd n (negacyc n F s) (negacyc n v t))), (psub n (negacyc n f s) (negacyc n v r)).
    split; [ln|]. split; [ln|]. split.
    + ev x. fold (M x). rewrite (Du x), (Dg x), (DG x). pose proof (K' x) as A. generalize dependent (M x). intros m A.
      set (f' := eval f x) in *. set (F' := eval F x) in *. set (h' := eval h x) in *. set (v' := eval v x) in *. set (s' := eval s x) in *.
      set (r' := eval r x) in *. set (t' := eval t x) in *. clearbody f' F' h' v' s' r' t'. clear - A.
      match goal with |- cong m ?L ?R => replace R with (L * (t' * f' + r' * F')) by ring end. rewrite A. apply cong_eq. ring.
    + ev x. fold (M x). pose proof (K' x) as A. generalize dependent (M x). intros m A.
      set (f' := eval f x) in *. set (F' := eval F x) in *. set (v' := eval v x) in *. set (s' := eval s x) in *.
      set (r' := eval r x) in *. set (t' := eval t x) in *. clearbody f' F' v' s' r' t'. clear - A.
      match goal with |- cong m ?L ?R => replace R with (L * (t' * f' + r' * F')) by ring end. rewrite A. apply cong_eq. ring.
  - intros (a & b & La & Lb & -> & ->).
    assert (Z0 : pconst n 0 = pmod q (pconst n 0)).
    { unfold pmod, pconst. rewrite map_map. apply map_ext. intros i. destruct (Nat.eqb i 0); reflexivity. }
    refine (eq_trans _ (eq_sym Z0)). apply (pmod_eq_inv n q _ _ (psub n (negacyc n b t) (negacyc n a r)) q_nz); [ln|ln|ln|].
    ev x. fold (M x). rewrite (Dg x), (DG x). apply cong_eq. ring.
Qed.
Lemma span_unique u v a b a' b' : length a = n -> length b = n -> length a' = n -> length b' = n ->
  spanned u v a b -> spanned u v a' b' -> a = a' /\ b = b'.
Proof.
  unfold spanned. rewrite zero_pconst. intros La Lb La' Lb' [U V] [U' V'].
  assert (N : forall x, cong (M x) (eval f x * eval G x - eval g x * eval F x) q).
  { intros x. pose proof (f_equal (fun p => eval p x) EQ) as B. cbv beta in B. rewrite (eval_psub n), (eval_pconst n) in B by (exact Pn || ln).
    unfold M. rewrite <- B. rewrite !(nega_eval n) by ln. reflexivity. }
  rewrite U in U'. rewrite V in V'.
  assert (UU : forall x, cong (M x) (eval a x * eval g x + eval b x * eval G x) (eval a' x * eval g x + eval b' x * eval G x)).
  { intros x. pose proof (f_equal (fun p => eval p x) U') as B. cbv beta in B. rewrite !(eval_padd n) in B by ln.
    unfold M. rewrite <- !(nega_eval n) by ln. rewrite B. reflexivity. }
  assert (VV : forall x, cong (M x) (eval a x * eval f x + eval b x * eval F x) (eval a' x * eval f x + eval b' x * eval F x)).
  { intros x. pose proof (f_equal (fun p => eval p x) V') as B. cbv beta in B. rewrite !(eval_psub n), !(eval_padd n), !(eval_pconst n) in B by (exact Pn || ln).
    unfold M. rewrite <- !(nega_eval n) by ln.
    replace (eval (negacyc n a f) x + eval (negacyc n b F) x) with (eval (negacyc n a' f) x + eval (negacyc n b' F) x) by lia. reflexivity. }
  split; apply (pscale_inj n q _ _ q_nz); try assumption; apply (poly_eq n); try ln; intros x _; rewrite !eval_pscale; fold (M x);
    specialize (N x); specialize (UU x); specialize (VV x); rewrite <- N; generalize dependent (M x); intros m N UU VV;
    set (f' := eval f x) in *; set (F' := eval F x) in *; set (g' := eval g x) in *; set (G' := eval G x) in *;
    set (a1 := eval a x) in *; set (a2 := eval a' x) in *; set (b1 := eval b x) in *; set (b2 := eval b' x) in *; clearbody f' F' g' G' a1 a2 b1 b2; clear - UU VV.
  - replace ((f' * G' - g' * F') * a1) with (G' * (a1 * f' + b1 * F') - F' * (a1 * g' + b1 * G')) by ring. rewrite UU, VV. apply cong_eq. ring.
  - replace ((f' * G' - g' * F') * b1) with (f' * (a1 * g' + b1 * G') - g' * (a1 * f' + b1 * F')) by ring. rewrite UU, VV. apply cong_eq. ring.
Qed.
End Lat.
