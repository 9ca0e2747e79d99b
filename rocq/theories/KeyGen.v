(** Model of key generation: GsNorm and NtruGen of src/internal/ntrugen.go and
    the key-pair functions of src/falcon.go.  [quo] is the floating-point
    quotient used by [reduce] (Ntrugen.v); [rb] the operating system's
    randomness; the fuels bound the unbounded loops. *)
From Verif Require Import GoBase Util Ntt Params Falcon Float Samplerz Fft Ntrugen Ffsampling.

Section KeyGen.
Context (iw : Z -> Z) (FO : floats).
Notation F := (F FO).
Notation cplx := (cplx FO).
Notation roots := (roots_dict FO).

(** util.go:148-155 *)
Definition Int16ToFloat64 (f : list Z) : list F := map (f_of_int FO) f.

(** util.go:321-327: int(math.Round(n)) *)
Definition RoundAll (numbers : list F) : list Z :=
  map (fun v => wrap64 (f_to_int FO (f_round FO v))) numbers.

(** The transforms read their roots from the tables; the next two functions take
    the table as an argument, and are used below with the one of the code. *)
Section At.
Context (roots : nat -> list cplx).
(** The floating-point part of [reduce], ntrugen.go:155-167 and 182-205, from
    the four shifted integer vectors: conversion to float64 (lines 157, 163,
    184, 189), the transforms, the quotient and the rounding.  The code computes
    the transforms of f and g once, before the loop; here they are recomputed
    in every round, from the same values. *)
Definition reduce_quotient_at : quotient := fun fa ga Fa Ga =>
  faFft <- FFT FO roots (map (f_of_int FO) fa) ;;
  gaFft <- FFT FO roots (map (f_of_int FO) ga) ;;
  FaFft <- FFT FO roots (map (f_of_int FO) Fa) ;;
  GaFft <- FFT FO roots (map (f_of_int FO) Ga) ;;
  ff <- MulFFT FO faFft (AdjFFT FO faFft) ;;
  gg <- MulFFT FO gaFft (AdjFFT FO gaFft) ;;
  denFft <- AddFFT FO ff gg ;;
  Ff <- MulFFT FO FaFft (AdjFFT FO faFft) ;;
  Gg <- MulFFT FO GaFft (AdjFFT FO gaFft) ;;
  numFft <- AddFFT FO Ff Gg ;;
  kFft <- DivFFT FO numFft denFft ;;
  k <- IFFT FO roots kFft ;;
  Ok (RoundAll k).

(** util.go:400-408 *)
Definition Sqnorm (v : list (list F)) : F :=
  fold_left (fun res elt => fold_left (fun res coef => f_add FO res (f_sqr FO coef)) elt res)
    v (f_of_int FO 0).

(** util.go:105-113; v > biggest is biggest < v *)
Definition BiggestFloat64 (f : list F) : res F :=
  b <- idx f 0 ;;
  Ok (fold_left (fun biggest v => if f_ltb FO biggest v then v else biggest) f b).

(** ntrugen.go:276-283 *)
Definition GsNorm_at (f g : list F) (q : F) : res F :=
  let sqnormFg := Sqnorm [f; g] in
  af <- Adj FO roots f ;;
  ff <- Mul FO roots f af ;;
  ag <- Adj FO roots g ;;
  gg <- Mul FO roots g ag ;;
  ffgg <- Add FO ff gg ;;
  af <- Adj FO roots f ;;
  Ft <- Div FO roots af ffgg ;;
  ag <- Adj FO roots g ;;
  Gt <- Div FO roots ag ffgg ;;
  let sqnormFG := f_mul FO (f_sqr FO q) (Sqnorm [Ft; Gt]) in
  BiggestFloat64 [sqnormFg; sqnormFG].
End At.
Definition reduce_quotient : quotient := reduce_quotient_at (roots_dict FO).
Definition GsNorm : list F -> list F -> F -> res F := GsNorm_at (roots_dict FO).

(** The bound of ntrugen.go:314 *)
Definition gs_bound : F := f_mul FO (f_sqr FO (f_const FO 117 2)) (f_of_int FO Q).

Context (quo : quotient) (rb : rand).
(** fuel of one run of Samplerz, of the loop of reduce *)
Context (sf rf : nat).

(** ntrugen.go:309-331.  Any error of NtruSolve is ErrEquation. *)
Fixpoint NtruGen (fuel : nat) (n : Z) (c : nat) : res (list Z * list Z * list Z * list Z) :=
  match fuel with
  | O => Diverge
  | S fuel' =>
      fc <- GenPoly FO rb sf n c ;;
      let (f, c) := (fc : list Z * nat) in
      gc <- GenPoly FO rb sf n c ;;
      let (g, c) := (gc : list Z * nat) in
      gs <- GsNorm (Int16ToFloat64 f) (Int16ToFloat64 g) (f_of_int FO Q) ;;
      if f_ltb FO gs_bound gs then NtruGen fuel' n c else
      fntt <- NTT iw f ;;
      if AnyZeroes fntt then NtruGen fuel' n c else
      match NtruSolve quo rf (Int16ToBigInt f) (Int16ToBigInt g) with
      | Ok (BigF, BigG) => Ok (f, g, BigIntToInt16 BigF, BigIntToInt16 BigG)
      | Err _ => NtruGen fuel' n c
      | Panic => Panic
      | Diverge => Diverge
      end
  end.

(** falcon.go:147-157 *)
Definition GeneratePrivateKey (fuel : nat) (n : Z) : res PrivateKey :=
  if negb (isValidDegree n) then Err ErrInvalidDegree else
  p <- NtruGen fuel n 0 ;;
  let '(f, g, F, G) := p in
  Ok {| sk_n := n; sk_f := f; sk_g := g; sk_F := F; sk_G := G |}.

(** falcon.go:40-49 *)
Definition fft3D (polynomials : list (list (list F))) : res (list (list (list cplx))) :=
  mapM (fun row => mapM (FFT FO roots) row) polynomials.

(** falcon.go:54-65; [tf] bounds the recursion of FfldlFFT *)
Definition basisAndMatrix (tf : nat) (f g F G : list Z)
  : res (list (list (list cplx)) * FFTtree FO) :=
  let B0 := [[Int16ToFloat64 g; Neg FO (Int16ToFloat64 f)];
             [Int16ToFloat64 G; Neg FO (Int16ToFloat64 F)]] in
  G0 <- Gram FO roots B0 ;;
  B0FFT <- fft3D B0 ;;
  G0FFT <- fft3D G0 ;;
  T <- FfldlFFT FO roots tf (new_tree FO) G0FFT ;;
  Ok (B0FFT, T).

(** falcon.go:95-105.  The slices are updated in place: the result is the tree
    argument after the call.  With len(tree) == 3 the recursive calls see
    {tree[1], nil} and {tree[2], nil}, which have length 2, so the recursion is
    one level deep. *)
Definition normalize_leaf (leaf : list cplx) (sigma : F) : res (list cplx) :=
  z <- idx leaf 0 ;;
  _ <- idx leaf 1 ;;
  Ok ((f_div FO sigma (f_sqrt FO (fst z)), f_of_int FO 0) :: c_real FO (f_of_int FO 0) :: skipn 2 leaf).
Definition normalizeTree (tree : list (list cplx)) (sigma : F) : res (list (list cplx)) :=
  match tree with
  | [a; b; d] =>
      b' <- normalize_leaf b sigma ;;
      d' <- normalize_leaf d sigma ;;
      Ok [a; b'; d']
  | a :: rest => a' <- normalize_leaf a sigma ;; Ok (a' :: rest)
  | [] => Panic
  end.

(** ParamSets[n].sigma as a float64: the number m * 2^e stored in Params.v, with
    e <= 0 and m below 2^53, so the quotient is exact in binary64; 0 for a
    missing key *)
Definition sigma_of (n : Z) : F :=
  match ParamSets n with
  | Some p => f_div FO (f_of_int FO (fst (p_sigma p))) (f_of_int FO (2 ^ (- snd (p_sigma p))))
  | None => f_of_int FO 0
  end.

(** falcon.go:125-131: the local value [falcon] of NewKeyPair *)
Record FalconData := { fd_B0FFT : list (list (list cplx)); fd_TFFT : FFTtree FO; fd_h : res (list Z) }.

(** falcon.go:187-194 and 212-219, shared by both functions.  An error of DivZq
    is assigned to err and then discarded. *)
Definition falcon_data (tf : nat) (n : Z) (f g F G : list Z) : res FalconData :=
  BT <- basisAndMatrix tf f g F G ;;
  let (B, T) := (BT : list (list (list cplx)) * FFTtree FO) in
  ch <- normalizeTree (AllChild FO T) (sigma_of n) ;;
  l <- idx ch 0 ;;
  r <- idx ch 1 ;;
  let T := {| t_Value := t_Value FO T; t_Leftchild := l; t_Rightchild := r |} in
  match DivZq iw g f with
  | Panic => Panic
  | Diverge => Diverge
  | h => Ok {| fd_B0FFT := B; fd_TFFT := T; fd_h := h |}
  end.

(** falcon.go:178-196.  The results are pointers: None is nil. *)
Definition NewKeyPair (fuel tf : nat) (n : Z) : res (option PrivateKey * option PublicKey) :=
  sk <- GeneratePrivateKey fuel n ;;
  _ <- falcon_data tf n (sk_f sk) (sk_g sk) (sk_F sk) (sk_G sk) ;;
  Ok (Some sk, None).

(** falcon.go:198-221: the named results privKey and pubKey are never assigned *)
Definition NewKeyPairFromPrivateKey (tf : nat) (n : Z) (f g F G : list Z)
  : res (option PrivateKey * option PublicKey) :=
  if negb (isValidDegree n) then Err ErrInvalidDegree else
  ok <- isValidPolysLength n f g F G ;;
  if negb ok then Err ErrInvalidPolysLength else
  _ <- falcon_data tf n f g F G ;;
  Ok (None, None).
End KeyGen.
