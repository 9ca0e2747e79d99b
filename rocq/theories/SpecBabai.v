(** Specification vocabulary for the nearest plane algorithm, over real
    polynomials modulo x^n+1 given by their coefficients.  Nothing here refers
    to the model or to the transform. *)
From Coq Require Import List Arith.
From Verif Require Import SpecFft.
Import ListNotations.
Local Open Scope R_scope.

(** f = even(x^2) + x odd(x^2), each half with m coefficients *)
Definition reven (m : nat) (f : list R) : list R := map (fun i => nth (2 * i) f 0) (seq 0 m).
Definition rodd (m : nat) (f : list R) : list R := map (fun i => nth (2 * i + 1) f 0) (seq 0 m).
Definition rsub (n : nat) (f g : list R) : list R := map (fun i => nth i f 0 - nth i g 0) (seq 0 n).
(** the squared Euclidean norm of the coefficients *)
Definition sqnorm (n : nat) (f : list R) : R := rsum n (fun i => nth i f 0 * nth i f 0).

(** The LDL tree of a Hermitian matrix [[g00, adj g10], [g10, g11]] over
    R[x]/(x^n+1), n = 2^k: the matrix is L D L* with L = [[1, 0], [l, 1]] and
    D = diag(g00, g11 - l adj(l) g00).  A self-adjoint diagonal entry d acts on
    R[x]/(x^n+1) as the matrix [[even d, odd d], [adj(odd d), even d]] over
    polynomials of half the size, whose tree is the subtree. *)
Inductive ltree := Leaf | Node (l : list R) (T0 T1 : ltree).
Definition schur (n : nat) (g00 g11 l : list R) : list R :=
  rsub n g11 (rmul n (rmul n l (radj n l)) g00).
Fixpoint ldl_tree (k : nat) (g00 g10 g11 : list R) (T : ltree) : Prop :=
  match k, T with
  | O, Leaf => True
  | S k', Node l T0 T1 =>
      let n := (2 ^ k)%nat in let m := (2 ^ k')%nat in
      let d := schur n g00 g11 l in
      length l = n /\ rmul n l g00 = g10 /\
      ldl_tree k' (reven m g00) (radj m (rodd m g00)) (reven m g00) T0 /\
      ldl_tree k' (reven m d) (radj m (rodd m d)) (reven m d) T1
  | _, _ => False
  end.
(** the sum of the 2^(k+1) numbers on the diagonal at the leaves *)
Fixpoint leaf_sum (k : nat) (g00 g11 : list R) (T : ltree) : R :=
  match k, T with
  | S k', Node l T0 T1 =>
      let n := (2 ^ k)%nat in let m := (2 ^ k')%nat in
      let d := schur n g00 g11 l in
      leaf_sum k' (reven m g00) (reven m g00) T0 + leaf_sum k' (reven m d) (reven m d) T1
  | _, _ => nth 0 g00 0 + nth 0 g11 0
  end.

(** The Gram matrix of a basis [[b00, b01], [b10, b11]]: B times its adjoint. *)
Definition gram2 (n : nat) (u0 u1 v0 v1 : list R) : list R :=
  radd n (rmul n u0 (radj n v0)) (rmul n u1 (radj n v1)).

(** The constant polynomial q, and the NTRU equation f G - g F = q over the reals. *)
Definition rconst (n : nat) (q : R) : list R := map (fun i => match i with O => q | _ => 0 end) (seq 0 n).
Definition rntru (n : nat) (q : R) (f g F G : list R) : Prop := rsub n (rmul n f G) (rmul n g F) = rconst n q.
(** the squared distance of (F, G) to c (f, g) *)
Definition gdist (n : nat) (f g F G c : list R) : R :=
  sqnorm n (rsub n F (rmul n c f)) + sqnorm n (rsub n G (rmul n c g)).
(** M is the squared distance of (F, G) to the real multiples of (f, g): the
    squared norm of its Gram-Schmidt orthogonalisation *)
Definition gs_dist (n : nat) (f g F G : list R) (M : R) : Prop :=
  (exists c, length c = n /\ gdist n f g F G c = M) /\ forall c, length c = n -> M <= gdist n f g F G c.
(** c (f, g) is a closest real multiple of (f, g) to (F, G) *)
Definition best_mult (n : nat) (f g F G c : list R) : Prop :=
  length c = n /\ forall d, length d = n -> gdist n f g F G c <= gdist n f g F G d.
(** a coefficient is halfway between two integers *)
Definition halfway (n : nat) (c : list R) : Prop := exists i z, (i < n)%nat /\ nth i c 0 = IZR z + / 2.
