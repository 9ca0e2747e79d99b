(** Specification vocabulary for the FFT: real polynomials modulo x^n+1 and the
    complex roots of x^n+1, over the standard library's real numbers.  Nothing
    here refers to the model. *)
From Coq Require Export Reals.
From Coq Require Import ZArith List.
Import ListNotations.
Local Open Scope R_scope.

(** Complex numbers. *)
Definition Cx : Type := (R * R)%type.
Definition Cadd (a b : Cx) : Cx := (fst a + fst b, snd a + snd b).
Definition Csub (a b : Cx) : Cx := (fst a - fst b, snd a - snd b).
Definition Cmul (a b : Cx) : Cx :=
  (fst a * fst b - snd a * snd b, fst a * snd b + snd a * fst b).
Definition Copp (a : Cx) : Cx := (- fst a, - snd a).
Definition Cconj (a : Cx) : Cx := (fst a, - snd a).
Definition C0 : Cx := (0, 0).
Definition C1 : Cx := (1, 0).
Definition Ci : Cx := (0, 1).
Definition RtoC (x : R) : Cx := (x, 0).
Definition Csqnorm (a : Cx) : R := fst a * fst a + snd a * snd a.
Definition Cdiv (a b : Cx) : Cx :=
  ((fst a * fst b + snd a * snd b) / Csqnorm b,
   (snd a * fst b - fst a * snd b) / Csqnorm b).

Fixpoint Csum (n : nat) (f : nat -> Cx) : Cx :=
  match n with O => C0 | S m => Cadd (Csum m f) (f m) end.
Fixpoint Cpow (x : Cx) (n : nat) : Cx :=
  match n with O => C1 | S m => Cmul (Cpow x m) x end.
Fixpoint rsum (n : nat) (f : nat -> R) : R :=
  match n with O => 0 | S m => rsum m f + f m end.

(** The value of a real polynomial at a complex point. *)
Definition ceval (f : list R) (z : Cx) : Cx :=
  Csum (length f) (fun i => Cmul (RtoC (nth i f 0)) (Cpow z i)).

(** Product, sum and adjoint f(1/x) in R[x]/(x^n+1). *)
Definition rmul_coef (n : nat) (f g : list R) (k : nat) : R :=
  rsum n (fun i =>
    if Nat.leb i k then nth i f 0 * nth (k - i) g 0
    else - (nth i f 0 * nth (n + k - i) g 0)).
Definition rmul (n : nat) (f g : list R) : list R := map (rmul_coef n f g) (seq 0 n).
Definition radd (n : nat) (f g : list R) : list R :=
  map (fun i => nth i f 0 + nth i g 0) (seq 0 n).
Definition radj (n : nat) (f : list R) : list R :=
  map (fun i => match i with O => nth 0 f 0 | _ => - nth (n - i) f 0 end) (seq 0 n).

(** The root exp(i*pi*k/n) of x^n+1, k odd. *)
Definition zeta (n : nat) (k : Z) : Cx :=
  (cos (IZR k * PI / INR n), sin (IZR k * PI / INR n)).

(** The order in which the tables list the roots for n = 2^(k+1): each root is
    followed by its opposite, and the pair at 2i, 2i+1 are the square roots of
    entry i of the table below. *)
Fixpoint root_order (k : nat) : list Z :=
  match k with
  | O => [1%Z; (-1)%Z]
  | S k' => flat_map (fun a => [a; (a - Z.sgn a * 2 ^ Z.of_nat (S (S k')))%Z]) (root_order k')
  end.
(** The roots of x^n+1 in that order; n = 2, 4, 8, ... *)
Definition exact_roots (n : nat) : list Cx :=
  map (zeta n) (root_order (Nat.log2 n - 1)).
