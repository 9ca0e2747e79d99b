(** Model of src/internal/ntrugen.go: big-integer polynomial arithmetic and the
    NTRU equation solver (lines 21-274).  big.Int values are [Z]; a slice of
    *big.Int is a list of values.  Aliasing of the pointers is modelled
    separately in Heap.v.  Every slice passed here is built with [make] or a
    literal, so its capacity is its length. *)
From Verif Require Import GoBase Util.

(** A counted loop that updates a state. *)
Fixpoint foldM {A B} (f : A -> B -> res A) (l : list B) (a : A) : res A :=
  match l with
  | [] => Ok a
  | b :: l' => a' <- f a b ;; foldM f l' a'
  end.

(** [s[j].Add(s[j], v)] on a slice of big integers. *)
Definition add_at (l : list Z) (j : nat) (v : Z) : res (list Z) :=
  x <- idx l j ;; Ok (firstn j l ++ (x + v) :: skipn (S j) l).

(** ntrugen.go:23-62.  [fuel] bounds the recursion depth.  [n / 2 < n] for
    n >= 1, so [fuel = n] is enough; for n = 0 the Go code recurses forever. *)
Fixpoint Karatsuba_fuel (fuel : nat) (a b : list Z) (n : nat) : res (list Z) :=
  match fuel with
  | O => Diverge
  | S fuel' =>
      if Nat.eqb n 1 then
        x <- idx a 0 ;; y <- idx b 0 ;; Ok [x * y; 0]
      else
        let n2 := Nat.div n 2 in
        a0 <- slice a 0 n2 ;; a1 <- slice a n2 (length a) ;;
        b0 <- slice b 0 n2 ;; b1 <- slice b n2 (length b) ;;
        ax <- mapM (fun i => x <- idx a0 i ;; y <- idx a1 i ;; Ok (x + y)) (seq 0 n2) ;;
        bx <- mapM (fun i => x <- idx b0 i ;; y <- idx b1 i ;; Ok (x + y)) (seq 0 n2) ;;
        a0b0 <- Karatsuba_fuel fuel' a0 b0 n2 ;;
        a1b1 <- Karatsuba_fuel fuel' a1 b1 n2 ;;
        axbx <- Karatsuba_fuel fuel' ax bx n2 ;;
        axbx <- foldM (fun axbx i =>
                  x <- idx a0b0 i ;; y <- idx a1b1 i ;; add_at axbx i (- (x + y)))
                (seq 0 n) axbx ;;
        foldM (fun ab i =>
                 x <- idx a0b0 i ;; ab <- add_at ab i x ;;
                 y <- idx a1b1 i ;; ab <- add_at ab (i + n) y ;;
                 z <- idx axbx i ;; add_at ab (i + n2) z)
              (seq 0 n) (repeat 0 (2 * n))
  end.
Definition Karatsuba (a b : list Z) (n : nat) : res (list Z) :=
  Karatsuba_fuel n a b n.

(** ntrugen.go:65-75 *)
Definition karamul (a b : list Z) : res (list Z) :=
  let n := length a in
  ab <- Karatsuba a b n ;;
  mapM (fun i => x <- idx ab i ;; y <- idx ab (i + n) ;; Ok (x - y)) (seq 0 n).

(** ntrugen.go:79-88; big.Int.Exp(-1, i, nil) is the exact power. *)
Definition galoisConjugate (a : list Z) : res (list Z) :=
  mapM (fun i => x <- idx a i ;; Ok ((-1) ^ Z.of_nat i * x)) (seq 0 (length a)).

(** ntrugen.go:92-112.  [n2 - 1] in [aoSquared[n2-1]] is -1 for n2 = 0, but the
    call of karamul on the empty slice does not return in that case. *)
Definition fieldNorm (a : list Z) : res (list Z) :=
  let n2 := Nat.div (length a) 2 in
  ae <- mapM (fun i => idx a (2 * i)) (seq 0 n2) ;;
  ao <- mapM (fun i => idx a (2 * i + 1)) (seq 0 n2) ;;
  aeSquared <- karamul ae ae ;;
  aoSquared <- karamul ao ao ;;
  r <- foldM (fun r i => x <- idx aoSquared i ;; add_at r (i + 1) (- x))
             (seq 0 (n2 - 1)) aeSquared ;;
  x <- idx aoSquared (n2 - 1) ;; add_at r 0 x.

(** ntrugen.go:116-124 *)
Definition lift (a : list Z) : list Z := concat (map (fun x => [x; 0]) a).

(** ntrugen.go:129-137.  A w-bit value is shifted to zero after at most w
    rounds, so the fuel never runs out (bitsize_Ok in NtruProofs.v).  [int]
    cannot overflow: that needs a number of 2^63 bits. *)
Fixpoint bitsize_loop (fuel : nat) (val r : Z) : res Z :=
  if val >? 0 then
    match fuel with
    | O => Diverge
    | S fuel' => bitsize_loop fuel' (Z.shiftr val 8) (r + 8)
    end
  else Ok r.
Definition bitsize (a : Z) : res Z :=
  let val := Z.abs a in
  bitsize_loop (S (Z.to_nat (Z.log2 val))) val 0.

(** The five-way maximum of ntrugen.go:146-152 and 170-176. *)
Definition max_bitsize (a b : list Z) : res Z :=
  m1 <- MinFromBigInt a ;; s1 <- bitsize m1 ;;
  m2 <- MaxFromBigInt a ;; s2 <- bitsize m2 ;;
  m3 <- MinFromBigInt b ;; s3 <- bitsize m3 ;;
  m4 <- MaxFromBigInt b ;; s4 <- bitsize m4 ;;
  Max [53; s1; s2; s3; s4].

(** ntrugen.go:155-164 and 182-190: elt >> (size - 53), low 64 bits, before the
    conversion to float64.  big.Int.Rsh rounds towards minus infinity. *)
Definition adjust (s : Z) (l : list Z) : list Z :=
  map (fun elt => big_Int64 (Z.shiftr elt (s - 53))) l.

(** The floating-point part of reduce, lines 166-167 and 192-205: from the four
    adjusted integer vectors to the rounded quotient k.  It is a parameter:
    any function whatsoever, so every rounding behaviour is covered.  The
    binary64 instance is in KeyGen.v. *)
Definition quotient := list Z -> list Z -> list Z -> list Z -> res (list Z).

(** ntrugen.go:214-221 for one of F, G: [F[i] -= fk[i] << s] for i < n. *)
Definition sub_shifted (n : nat) (F fk : list Z) (s : Z) : res (list Z) :=
  foldM (fun F i => x <- idx fk i ;; add_at F i (- Z.shiftl x s)) (seq 0 n) F.

(** ntrugen.go:169-223, the loop *)
Fixpoint reduce_loop (quo : quotient) (fuel : nat) (f g : list Z) (size : Z)
    (F G : list Z) : res (list Z * list Z) :=
  match fuel with
  | O => Diverge
  | S fuel' =>
      SIZE <- max_bitsize F G ;;
      if SIZE <? size then Ok (F, G) else
      k <- quo (adjust size f) (adjust size g) (adjust SIZE F) (adjust SIZE G) ;;
      if AllZeroes k then Ok (F, G) else
      fk <- karamul f (IntToBigInt k) ;;
      gk <- karamul g (IntToBigInt k) ;;
      F <- sub_shifted (length f) F fk (SIZE - size) ;;
      G <- sub_shifted (length f) G gk (SIZE - size) ;;
      reduce_loop quo fuel' f g size F G
  end.
(** ntrugen.go:143-224 *)
Definition reduce (quo : quotient) (fuel : nat) (f g F G : list Z)
  : res (list Z * list Z) :=
  size <- max_bitsize f g ;;
  reduce_loop quo fuel f g size F G.

(** big.Int.Div and big.Int.Mod: Euclidean division, 0 <= m < |n|. *)
Definition big_Div (b n : Z) : Z := Z.sgn n * (b / Z.abs n).
Definition big_Mod (b n : Z) : Z := b mod Z.abs n.

(** ntrugen.go:228-242 *)
Fixpoint xgcd_loop (fuel : nat) (b n x0 x1 y0 y1 : Z) : res (Z * Z * Z) :=
  if n =? 0 then Ok (b, x0, y0) else
  match fuel with
  | O => Diverge
  | S fuel' =>
      let q := big_Div b n in
      xgcd_loop fuel' n (big_Mod b n) x1 (x0 - q * x1) y1 (y0 - q * y1)
  end.
(** two rounds at least halve n; the fuel never runs out (xgcd_ok) *)
Definition xgcd (b n : Z) : res (Z * Z * Z) :=
  xgcd_loop (Z.to_nat (2 * Z.log2 (Z.abs n) + 4)) b n 1 0 0 1.

(** ntrugen.go:246-274.  [depth] bounds the recursion (len(f) is enough:
    the length halves at each level). *)
Fixpoint NtruSolve_depth (quo : quotient) (fuel depth : nat) (f g : list Z)
  : res (list Z * list Z) :=
  match depth with
  | O => Diverge
  | S depth' =>
      if Nat.eqb (length f) 1 then
        f0 <- idx f 0 ;; g0 <- idx g 0 ;;
        duv <- xgcd f0 g0 ;;
        let '(d, u, v) := duv in
        if negb (big_Int64 d =? 1) then Err ErrEquation
        else Ok ([- Q * v], [Q * u])
      else
        fp <- fieldNorm f ;; gp <- fieldNorm g ;;
        FGp <- NtruSolve_depth quo fuel depth' fp gp ;;
        let '(Fp, Gp) := FGp in
        cg <- galoisConjugate g ;; F <- karamul (lift Fp) cg ;;
        cf <- galoisConjugate f ;; G <- karamul (lift Gp) cf ;;
        reduce quo fuel f g F G
  end.
Definition NtruSolve (quo : quotient) (fuel : nat) (f g : list Z)
  : res (list Z * list Z) :=
  NtruSolve_depth quo fuel (length f) f g.
