(** Model of src/util/util.go: the integer and slice helpers. *)
From Verif Require Import GoBase.

(** util.go:65-74.  Go's [%] truncates towards zero ([Z.rem]) and panics on a
    zero divisor.  The sums cannot overflow: |x % b| < |b|. *)
Definition Pmod (x b : Z) : res Z :=
  if b =? 0 then Panic else
  let x := Z.rem x b in
  if 0 <=? x then Ok x
  else if b <? 0 then Ok (x - b) else Ok (x + b).

(** util.go:77-85 (variadic ints; [a[0]] panics when called with no argument). *)
Definition Max (a : list Z) : res Z :=
  biggest <- idx a 0 ;;
  Ok (fold_left (fun biggest v => if v >? biggest then v else biggest) a biggest).

(** util.go:115-121 *)
Definition IntToInt16 (s : list Z) : list Z := map wrap16 s.

(** util.go:158-165 and 203-210: exact conversions of int16/int to big.Int. *)
Definition Int16ToBigInt (s : list Z) : list Z := s.
Definition IntToBigInt (s : list Z) : list Z := s.

(** util.go:167-169 *)
Definition SquareInt16 (x : Z) : Z := wrap16 (x * x).

(** util.go:179-185; panics when y is shorter than x. *)
Definition SubInt16 (x y : list Z) : res (list Z) :=
  mapM (fun i => a <- idx x i ;; b <- idx y i ;; Ok (wrap16 (a - b)))
       (seq 0 (length x)).

(** util.go:195-201 *)
Definition NegInt16 (x : list Z) : list Z := map (fun a => wrap16 (- a)) x.

(** big.Int.Int64: the two's-complement value of the low 64 bits. *)
Definition big_Int64 (x : Z) : Z := wrap64 x.

(** util.go:212-218 *)
Definition BigIntToInt16 (x : list Z) : list Z :=
  map (fun v => wrap16 (big_Int64 v)) x.

(** util.go:237-246 and 255-264: big.Int.Cmp always gives -1, 0 or 1, so the
    final panic is unreachable. *)
Definition CmpMinFromBigInt (x y : Z) : Z :=
  match x ?= y with Lt | Eq => x | Gt => y end.
Definition CmpMaxFromBigInt (x y : Z) : Z :=
  match x ?= y with Gt | Eq => x | Lt => y end.

(** util.go:249-252 *)
Definition CmpBigInt (x y : Z) : bool :=
  match x ?= y with Eq => true | _ => false end.

(** util.go:267-275 *)
Definition MaxFromBigInt (x : list Z) : res Z :=
  max <- idx x 0 ;;
  Ok (fold_left (fun max v => match v ?= max with Gt => v | _ => max end) x max).

(** util.go:278-286 *)
Definition MinFromBigInt (x : list Z) : res Z :=
  min <- idx x 0 ;;
  Ok (fold_left (fun min v => match v ?= min with Lt => v | _ => min end) x min).

(** util.go:289-296 *)
Fixpoint AllZeroes (numbers : list Z) : bool :=
  match numbers with
  | [] => true
  | n :: l => if negb (n =? 0) then false else AllZeroes l
  end.

(** util.go:312-319 *)
Fixpoint AnyZeroes (numbers : list Z) : bool :=
  match numbers with
  | [] => false
  | n :: l => if n =? 0 then true else AnyZeroes l
  end.

(** util.go:300-310.  [b[i]] cannot be out of range after the length test; the
    model still carries the index operation. *)
Definition BigIntSliceEqual (a b : list Z) : res bool :=
  if negb (Nat.eqb (length a) (length b)) then Ok false else
  let fix loop (i : nat) (a' : list Z) : res bool :=
    match a' with
    | [] => Ok true
    | v :: a'' =>
        w <- idx b i ;;
        match v ?= w with Eq => loop (S i) a'' | _ => Ok false end
    end in
  loop O a.

(** util.go:330-346 (int16) and 349-365 (float64): the same code at two types.
    floor(n/2) of an int is integer division. *)
Definition SplitPolys {A} (f : list A) : res (list A * list A) :=
  let fn := Nat.div (length f) 2 in
  f0 <- mapM (fun i => idx f (2 * i)) (seq 0 fn) ;;
  f1 <- mapM (fun i => idx f (2 * i + 1)) (seq 0 fn) ;;
  Ok (f0, f1).

(** util.go:368-381 (int16) and 384-397 (float64).  Iteration i writes exactly
    f[2i] and f[2i+1], so the result is the concatenation of the pairs. *)
Definition MergePolys {A} (f0 f1 : list A) : res (list A) :=
  ps <- mapM (fun i => a <- idx f0 i ;; b <- idx f1 i ;; Ok [a; b])
             (seq 0 (length f0)) ;;
  Ok (concat ps).
