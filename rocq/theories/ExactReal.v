(** The exact instance of the float operations: real arithmetic without
    rounding, over the standard library's reals. *)
From Coq Require Import Lra.
From Verif Require Import GoBase Float SpecFft.
Local Open Scope R_scope.

(** math.Floor, truncation towards zero, math.Round (halves away from zero) *)
Definition Rtrunc (x : R) : Z := if Rle_dec 0 x then Int_part x else (- Int_part (- x))%Z.
Definition Rround (x : R) : Z :=
  if Rle_dec 0 x then Int_part (x + / 2) else (- Int_part (- x + / 2))%Z.

Definition exactR : floats := {|
  F := R;
  f_of_int := IZR;
  f_const := fun m e => IZR m / IZR (10 ^ e);
  f_add := Rplus; f_sub := Rminus; f_mul := Rmult; f_div := Rdiv;
  f_neg := Ropp;
  f_sqr := fun x => x * x;
  f_sqrt := sqrt;
  f_floor := fun x => IZR (Int_part x);
  f_round := fun x => IZR (Rround x);
  f_ltb := fun x y => if Rlt_dec x y then true else false;
  f_to_int := Rtrunc;
  f_to_u64 := Rtrunc;
  c_div := Cdiv
|}.

(** The complex numbers form a commutative ring. *)
Lemma Cx_ring : ring_theory C0 C1 Cadd Cmul Csub Copp (@eq Cx).
Proof.
  constructor; intros; unfold C0, C1, Cadd, Cmul, Csub, Copp;
    repeat match goal with x : Cx |- _ => destruct x end; cbn [fst snd];
    try apply f_equal2; ring.
Qed.
Add Ring Cx_ring : Cx_ring.
Lemma Cx_reqe : ring_eq_ext Cadd Cmul Copp (@eq Cx).
Proof. constructor; repeat intro; congruence. Qed.

Lemma Int_part_IZR z : Int_part (IZR z) = z.
Proof.
  symmetry. unfold Int_part. rewrite <- (tech_up (IZR z) (z + 1)).
  - lia.
  - apply IZR_lt. lia.
  - rewrite plus_IZR. lra.
Qed.

Lemma Int_part_unique x z : IZR z <= x < IZR z + 1 -> Int_part x = z.
Proof.
  intros H. unfold Int_part. rewrite <- (tech_up x (z + 1)).
  - lia.
  - rewrite plus_IZR. lra.
  - rewrite plus_IZR. lra.
Qed.

Lemma Int_part_spec x : IZR (Int_part x) <= x < IZR (Int_part x) + 1.
Proof. destruct (base_Int_part x). lra. Qed.

Lemma Rtrunc_IZR z : Rtrunc (IZR z) = z.
Proof.
  unfold Rtrunc. destruct (Rle_dec 0 (IZR z)).
  - apply Int_part_IZR.
  - rewrite <- opp_IZR, Int_part_IZR. lia.
Qed.
