(** The binary64 instance of the float operations (Go's float64 on a platform
    that does not fuse multiplications and additions), built on Flocq's IEEE 754
    operations.  What is not fixed by the language, the conversion of a float64
    that does not fit the integer type, is a parameter. *)
From Coq Require Import Reals.
From Flocq Require Import Core BinarySingleNaN.
From Verif Require Import GoBase Float.

Definition b64 : Type := binary_float 53 1024.
#[global] Instance prec53 : Prec_gt_0 53 := eq_refl.
#[global] Instance emax1024 : Prec_lt_emax 53 1024 := eq_refl.

Definition b_of_int (z : Z) : b64 := binary_normalize 53 1024 _ _ mode_NE z 0 false.

(** the correctly rounded quotient of two integers, for decimal literals *)
Definition b_quot (sx : bool) (mx my : positive) : b64 :=
  SF2B _ (proj1 (Bdiv_correct_aux 53 1024 _ _ mode_NE sx mx 0 false my 0)).
Definition b_const (m e : Z) : b64 :=
  match m, 10 ^ e with
  | Zpos p, Zpos d => b_quot false p d
  | Zneg p, Zpos d => b_quot true p d
  | _, _ => B754_zero false
  end.

Definition b_add : b64 -> b64 -> b64 := Bplus mode_NE.
Definition b_sub : b64 -> b64 -> b64 := Bminus mode_NE.
Definition b_mul : b64 -> b64 -> b64 := Bmult mode_NE.
Definition b_div : b64 -> b64 -> b64 := Bdiv mode_NE.

(** math.Pow(x, 2): the algorithm splits x by Frexp, squares the fraction and
    applies Ldexp. *)
Definition b_sqr (x : b64) : b64 :=
  let (m, e) := Bfrexp x in Bldexp mode_NE (b_mul m m) (2 * e).

Definition b_floor (x : b64) : b64 := Bnearbyint mode_DN x.
Definition b_round (x : b64) : b64 := Bnearbyint mode_NA x.

(** Conversion to an integer type with values [lo, hi). *)
Definition b_conv (oor : b64 -> Z) (lo hi : Z) (x : b64) : Z :=
  if is_finite x && (lo <=? Btrunc x) && (Btrunc x <? hi) then Btrunc x else oor x.

(** complex128 division, as the Go runtime does it (Smith's algorithm followed
    by a correction of NaN results). *)
Definition b_inf : b64 := B754_infinity false.
Definition b_isinf (x : b64) : bool := match x with B754_infinity _ => true | _ => false end.
Definition b_copysign (x y : b64) : b64 := if Bsign y then Bopp (Babs x) else Babs x.
Definition b_inf2one (x : b64) : b64 :=
  b_copysign (if b_isinf x then b_of_int 1 else B754_zero false) x.
Definition b_cdiv (n m : b64 * b64) : b64 * b64 :=
  let (a, b) := n in
  let (c, d) := m in
  let ef :=
    if Bleb (Babs d) (Babs c) then
      let ratio := b_div d c in
      let denom := b_add c (b_mul ratio d) in
      (b_div (b_add a (b_mul b ratio)) denom, b_div (b_sub b (b_mul a ratio)) denom)
    else
      let ratio := b_div c d in
      let denom := b_add d (b_mul ratio c) in
      (b_div (b_add (b_mul a ratio) b) denom, b_div (b_sub (b_mul b ratio) a) denom) in
  if is_nan (fst ef) || is_nan (snd ef) then
    if Beqb c (B754_zero false) && Beqb d (B754_zero false)
       && (negb (is_nan a) || negb (is_nan b)) then
      (b_mul (b_copysign b_inf c) a, b_mul (b_copysign b_inf c) b)
    else if (b_isinf a || b_isinf b) && is_finite c && is_finite d then
      let a := b_inf2one a in
      let b := b_inf2one b in
      (b_mul b_inf (b_add (b_mul a c) (b_mul b d)), b_mul b_inf (b_sub (b_mul b c) (b_mul a d)))
    else if (b_isinf c || b_isinf d) && is_finite a && is_finite b then
      let c := b_inf2one c in
      let d := b_inf2one d in
      (b_mul (B754_zero false) (b_add (b_mul a c) (b_mul b d)),
       b_mul (B754_zero false) (b_sub (b_mul b c) (b_mul a d)))
    else ef
  else ef.

(** [ci] and [cu]: the results of int(x) and uint64(x) out of range *)
Definition binary64 (ci cu : b64 -> Z) : floats := {|
  F := b64;
  f_of_int := b_of_int;
  f_const := b_const;
  f_add := b_add; f_sub := b_sub; f_mul := b_mul; f_div := b_div;
  f_neg := Bopp;
  f_sqr := b_sqr;
  f_sqrt := Bsqrt mode_NE;
  f_floor := b_floor;
  f_round := b_round;
  f_ltb := Bltb;
  f_to_int := b_conv ci (- 2 ^ 63) (2 ^ 63);
  f_to_u64 := b_conv cu 0 (2 ^ 64);
  c_div := b_cdiv
|}.
