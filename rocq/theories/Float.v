(** Floating-point arithmetic as a parameter of the model.  A value of type
    [floats] is one way the float64 operations used by the repository may
    behave; a theorem quantified over [floats] holds for binary64, for exact
    real arithmetic and for any other rounding (fused operations included).
    The binary64 instance is in Binary64.v, the exact one in ExactReal.v. *)
From Verif Require Import GoBase.

Record floats : Type := {
  F : Type;
  f_of_int : Z -> F;        (* float64(i) *)
  f_const : Z -> Z -> F;    (* the literal m * 10^(-e) *)
  f_add : F -> F -> F;
  f_sub : F -> F -> F;
  f_mul : F -> F -> F;
  f_div : F -> F -> F;
  f_neg : F -> F;
  f_sqr : F -> F;           (* math.Pow(x, 2) *)
  f_sqrt : F -> F;          (* math.Sqrt *)
  f_floor : F -> F;         (* math.Floor *)
  f_round : F -> F;         (* math.Round *)
  f_ltb : F -> F -> bool;   (* < *)
  f_to_int : F -> Z;        (* int(x), before reduction to int64 *)
  f_to_u64 : F -> Z;        (* uint64(x), before reduction to uint64 *)
  c_div : F * F -> F * F -> F * F  (* complex128 division *)
}.

(** Go's complex128: real and imaginary part; + - * as the compiler expands
    them, cmplx.Conj. *)
Section Complex.
Context (FO : floats).
Definition cplx : Type := (F FO * F FO)%type.
Definition c_add (a b : cplx) : cplx := (f_add FO (fst a) (fst b), f_add FO (snd a) (snd b)).
Definition c_sub (a b : cplx) : cplx := (f_sub FO (fst a) (fst b), f_sub FO (snd a) (snd b)).
Definition c_mul (a b : cplx) : cplx :=
  (f_sub FO (f_mul FO (fst a) (fst b)) (f_mul FO (snd a) (snd b)),
   f_add FO (f_mul FO (fst a) (snd b)) (f_mul FO (snd a) (fst b))).
Definition c_neg (a : cplx) : cplx := (f_neg FO (fst a), f_neg FO (snd a)).
Definition c_conj (a : cplx) : cplx := (fst a, f_neg FO (snd a)).
(** complex(x, 0) *)
Definition c_real (x : F FO) : cplx := (x, f_of_int FO 0).
(** the complex literal i *)
Definition c_i : cplx := (f_of_int FO 0, f_of_int FO 1).
End Complex.
