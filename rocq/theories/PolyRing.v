(** Polynomials modulo x^n+1 over an arbitrary commutative ring (with a
    setoid equality): used at Z, at Z modulo q, and at the complex numbers. *)
From Coq Require Import List Arith Lia Setoid Morphisms Ring Ring_theory.
Import ListNotations.

#[local] Set Default Proof Using "All".
Section PolyRing.
Variable R : Type.
Variables (r0 r1 : R) (radd rmul rsub : R -> R -> R) (ropp : R -> R).
Variable req : R -> R -> Prop.
Variable Rsth : Equivalence req.
Variable Reqe : ring_eq_ext radd rmul ropp req.
Variable Rth : ring_theory r0 r1 radd rmul rsub ropp req.

Declare Scope pr_scope.
Local Open Scope pr_scope.
Notation "x + y" := (radd x y) : pr_scope.
Notation "x * y" := (rmul x y) : pr_scope.
Notation "x - y" := (rsub x y) : pr_scope.
Notation "- x" := (ropp x) : pr_scope.
Notation "x == y" := (req x y) (at level 70, no associativity) : pr_scope.

Local Instance pr_equiv : Equivalence req := Rsth.
Local Instance pr_add_proper : Proper (req ==> req ==> req) radd.
Proof. intros a b H c d H'. apply (Radd_ext Reqe); assumption. Qed.
Local Instance pr_mul_proper : Proper (req ==> req ==> req) rmul.
Proof. intros a b H c d H'. apply (Rmul_ext Reqe); assumption. Qed.
Local Instance pr_opp_proper : Proper (req ==> req) ropp.
Proof. intros a b H. apply (Ropp_ext Reqe); assumption. Qed.
Local Instance pr_sub_proper : Proper (req ==> req ==> req) rsub.
Proof.
  intros a b H c d H'. rewrite !(Rsub_def Rth). rewrite H, H'. reflexivity.
Qed.
Add Ring pr_ring : Rth (setoid Rsth Reqe).

Fixpoint gsum (n : nat) (f : nat -> R) : R :=
  match n with O => r0 | S m => gsum m f + f m end.
Fixpoint gpow (x : R) (n : nat) : R :=
  match n with O => r1 | S m => gpow x m * x end.
Definition gcoef (f : list R) (i : nat) : R := nth i f r0.
Definition geval (f : list R) (x : R) : R :=
  gsum (length f) (fun i => gcoef f i * gpow x i).
Definition gnega_coef (n : nat) (f g : list R) (k : nat) : R :=
  gsum n (fun i =>
    if Nat.leb i k then gcoef f i * gcoef g (k - i)
    else - (gcoef f i * gcoef g (n + k - i))).
Definition gnega (n : nat) (f g : list R) : list R :=
  map (gnega_coef n f g) (seq 0 n).

Lemma gsum_ext n f g :
  (forall i, (i < n)%nat -> f i == g i) -> gsum n f == gsum n g.
Proof.
  induction n as [|n IH]; intros H; cbn [gsum]; [reflexivity|].
  rewrite IH by (intros; apply H; lia). rewrite (H n) by lia. reflexivity.
Qed.

Lemma gsum_add n f g : gsum n (fun i => f i + g i) == gsum n f + gsum n g.
Proof.
  induction n as [|n IH]; cbn [gsum]; [ring|]. rewrite IH. ring.
Qed.

Lemma gsum_mul_l n c f : gsum n (fun i => c * f i) == c * gsum n f.
Proof.
  induction n as [|n IH]; cbn [gsum]; [ring|]. rewrite IH. ring.
Qed.

Lemma gsum_mul_r n c f : gsum n (fun i => f i * c) == gsum n f * c.
Proof.
  induction n as [|n IH]; cbn [gsum]; [ring|]. rewrite IH. ring.
Qed.

Lemma gsum_opp n f : gsum n (fun i => - f i) == - gsum n f.
Proof.
  induction n as [|n IH]; cbn [gsum]; [ring|]. rewrite IH. ring.
Qed.

Lemma gsum_sub n f g : gsum n (fun i => f i - g i) == gsum n f - gsum n g.
Proof.
  induction n as [|n IH]; cbn [gsum]; [ring|]. rewrite IH. ring.
Qed.

Lemma gsum_zero n : gsum n (fun _ => r0) == r0.
Proof. induction n as [|n IH]; cbn [gsum]; [reflexivity|]. rewrite IH. ring. Qed.

Lemma gsum_zero_ext n f : (forall i, (i < n)%nat -> f i == r0) -> gsum n f == r0.
Proof. intros H. rewrite (gsum_ext n f (fun _ => r0) H). apply gsum_zero. Qed.

Lemma gsum_split m n f : gsum (m + n) f == gsum m f + gsum n (fun i => f (m + i)%nat).
Proof.
  induction n as [|n IH]; cbn [gsum].
  - rewrite Nat.add_0_r. ring.
  - rewrite Nat.add_succ_r. cbn [gsum]. rewrite IH. ring.
Qed.

Lemma gsum_swap m n (f : nat -> nat -> R) :
  gsum m (fun i => gsum n (fun j => f i j)) ==
  gsum n (fun j => gsum m (fun i => f i j)).
Proof.
  induction m as [|m IH]; cbn [gsum].
  - rewrite gsum_zero. reflexivity.
  - rewrite IH, <- gsum_add. reflexivity.
Qed.

Lemma gsum_even_odd n f :
  gsum (2 * n) f == gsum n (fun i => f (2 * i)%nat) + gsum n (fun i => f (2 * i + 1)%nat).
Proof.
  induction n as [|n IH]; [simpl; ring|].
  replace (2 * S n)%nat with (S (S (2 * n))) by lia.
  cbn [gsum]. rewrite IH. replace (2 * n + 1)%nat with (S (2 * n)) by lia. ring.
Qed.

(** a sum with a single non-zero term *)
Lemma gsum_single n k f :
  (k < n)%nat -> (forall i, (i < n)%nat -> i <> k -> f i == r0) -> gsum n f == f k.
Proof.
  intros Hk H. replace n with (k + (1 + (n - k - 1)))%nat by lia.
  rewrite gsum_split, gsum_split.
  rewrite (gsum_zero_ext k) by (intros; apply H; lia).
  rewrite (gsum_zero_ext (n - k - 1)).
  2:{ intros i Hi. apply H; lia. }
  cbn [gsum]. rewrite Nat.add_0_r. ring.
Qed.

Global Instance gpow_proper : Proper (req ==> eq ==> req) gpow.
Proof.
  intros x y Hxy n m <-. induction n as [|n IH]; cbn [gpow]; [reflexivity|].
  rewrite IH, Hxy. reflexivity.
Qed.

Lemma gpow_add x m n : gpow x (m + n) == gpow x m * gpow x n.
Proof.
  induction n as [|n IH]; cbn [gpow].
  - rewrite Nat.add_0_r. ring.
  - rewrite Nat.add_succ_r. cbn [gpow]. rewrite IH. ring.
Qed.

Lemma gpow_mul x m n : gpow x (m * n) == gpow (gpow x m) n.
Proof.
  induction n as [|n IH]; cbn [gpow].
  - rewrite Nat.mul_0_r. reflexivity.
  - rewrite Nat.mul_succ_r, gpow_add, IH. reflexivity.
Qed.

Lemma gpow_2 x : gpow x 2 == x * x.
Proof. cbn [gpow]. ring. Qed.

Lemma geval_proper f x y : x == y -> geval f x == geval f y.
Proof.
  intros H. unfold geval. apply gsum_ext. intros i _. rewrite H. reflexivity.
Qed.

Lemma geval_length n f x :
  length f = n -> geval f x == gsum n (fun i => gcoef f i * gpow x i).
Proof. intros <-. reflexivity. Qed.

(** f(x) = fe(x^2) + x fo(x^2) *)
Lemma geval_even_odd n f fe fo x :
  length f = (2 * n)%nat -> length fe = n -> length fo = n ->
  (forall i, (i < n)%nat -> gcoef fe i == gcoef f (2 * i)) ->
  (forall i, (i < n)%nat -> gcoef fo i == gcoef f (2 * i + 1)) ->
  geval f x == geval fe (x * x) + x * geval fo (x * x).
Proof.
  intros Hf Hfe Hfo He Ho. unfold geval. rewrite Hf, Hfe, Hfo.
  rewrite gsum_even_odd, <- gsum_mul_l.
  apply (Radd_ext Reqe); apply gsum_ext; intros i Hi.
  - rewrite He by assumption. rewrite gpow_mul, gpow_2. reflexivity.
  - rewrite Ho by assumption. rewrite gpow_add, gpow_mul, gpow_2. cbn [gpow]. ring.
Qed.

(** coefficients of a mapped sequence *)
Lemma gcoef_map_seq (h : nat -> R) n i :
  (i < n)%nat -> gcoef (map h (seq 0 n)) i = h i.
Proof.
  intros H. unfold gcoef.
  rewrite (nth_indep _ r0 (h 0%nat)) by (rewrite map_length, seq_length; assumption).
  rewrite map_nth, seq_nth by assumption. reflexivity.
Qed.

Lemma gnega_length n f g : length (gnega n f g) = n.
Proof. unfold gnega. rewrite map_length, seq_length. reflexivity. Qed.

Lemma gnega_coef_nth n f g k : (k < n)%nat -> gcoef (gnega n f g) k = gnega_coef n f g k.
Proof. apply gcoef_map_seq. Qed.

(** one column of the double sum *)
Lemma nega_column n i (fi : R) (g : nat -> R) x :
  (i < n)%nat -> gpow x n == - r1 ->
  gsum n (fun k =>
    (if Nat.leb i k then fi * g (k - i)%nat else - (fi * g (n + k - i)%nat)) * gpow x k)
  == fi * gpow x i * gsum n (fun j => g j * gpow x j).
Proof.
  intros Hi Hx.
  assert (L : gsum n (fun k =>
     (if Nat.leb i k then fi * g (k - i)%nat else - (fi * g (n + k - i)%nat)) * gpow x k)
   == gsum i (fun k => - (fi * g (n + k - i)%nat) * gpow x k)
    + gsum (n - i) (fun j => fi * g j * (gpow x i * gpow x j))).
  { replace n with (i + (n - i))%nat at 1 by lia. rewrite gsum_split.
    apply (Radd_ext Reqe); apply gsum_ext; intros k Hk.
    - destruct (Nat.leb_spec i k); [lia|]. reflexivity.
    - destruct (Nat.leb_spec i (i + k)); [|lia].
      replace (i + k - i)%nat with k by lia. rewrite gpow_add. reflexivity. }
  rewrite L.
  assert (E : gsum n (fun j => g j * gpow x j) ==
    gsum (n - i) (fun j => g j * gpow x j) +
    gsum i (fun k => g (n - i + k)%nat * gpow x (n - i + k))).
  { replace n with ((n - i) + i)%nat at 1 by lia. rewrite gsum_split. reflexivity. }
  rewrite E.
  assert (E1 : gsum (n - i) (fun j => fi * g j * (gpow x i * gpow x j)) ==
     fi * gpow x i * gsum (n - i) (fun j => g j * gpow x j)).
  { rewrite <- gsum_mul_l. apply gsum_ext. intros; ring. }
  assert (E2 : gsum i (fun k => - (fi * g (n + k - i)%nat) * gpow x k) ==
     fi * gpow x i * gsum i (fun k => g (n - i + k)%nat * gpow x (n - i + k))).
  { rewrite <- gsum_mul_l. apply gsum_ext. intros k Hk.
    replace (n - i + k)%nat with (n + k - i)%nat by lia.
    assert (Hp : gpow x i * gpow x (n + k - i) == - gpow x k).
    { rewrite <- gpow_add. replace (i + (n + k - i))%nat with (n + k)%nat by lia.
      rewrite gpow_add, Hx. ring. }
    transitivity (fi * g (n + k - i)%nat * (gpow x i * gpow x (n + k - i))); [|ring].
    rewrite Hp. ring. }
  rewrite E1, E2. ring.
Qed.

(** evaluation at a root of x^n+1 is multiplicative *)
Lemma gnega_eval n f g x :
  length f = n -> length g = n -> gpow x n == - r1 ->
  geval (gnega n f g) x == geval f x * geval g x.
Proof.
  intros Hf Hg Hx.
  rewrite (geval_length n) by apply gnega_length.
  rewrite (geval_length n f), (geval_length n g) by assumption.
  rewrite (gsum_ext n _ (fun k => gsum n (fun i =>
     (if Nat.leb i k then gcoef f i * gcoef g (k - i)
      else - (gcoef f i * gcoef g (n + k - i))) * gpow x k))).
  2:{ intros k Hk. rewrite gnega_coef_nth by assumption. unfold gnega_coef.
      rewrite <- gsum_mul_r. reflexivity. }
  rewrite gsum_swap.
  rewrite (gsum_ext n _ (fun i => gcoef f i * gpow x i * gsum n (fun j => gcoef g j * gpow x j))).
  2:{ intros i Hi. apply (nega_column n i (gcoef f i) (gcoef g) x); assumption. }
  rewrite gsum_mul_r. reflexivity.
Qed.

End PolyRing.
