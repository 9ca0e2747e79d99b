(** Model of src/internal/transforms/fft/fft.go, for any behaviour [FO] of the
    float64 operations and any table of roots.  The repository's table is
    [roots_dict] below. *)
From Verif Require Import GoBase Util Float FftTables.

Section Fft.
Context (FO : floats).
Notation F := (F FO).
Notation cplx := (cplx FO).

(** A decimal complex literal. *)
Definition c_literal (p : (Z * Z) * (Z * Z)) : cplx :=
  (f_const FO (fst (fst p)) (snd (fst p)), f_const FO (fst (snd p)) (snd (snd p))).

(** fft_constants.go:2112-2123; a missing key gives the nil slice *)
Definition roots_dict (n : nat) : list cplx :=
  match n with
  | 2 => map c_literal phi4_roots
  | 4 => map c_literal phi8_roots
  | 8 => map c_literal phi16_roots
  | 16 => map c_literal phi32_roots
  | 32 => map c_literal phi64_roots
  | 64 => map c_literal phi128_roots
  | 128 => map c_literal phi256_roots
  | 256 => map c_literal phi512_roots
  | 512 => map c_literal phi1024_roots
  | 1024 => map c_literal phi2048_roots
  | _ => []
  end%nat.

Context (roots : nat -> list cplx).

(** the constant 0.5 as a complex128 *)
Definition c_half : cplx := c_real FO (f_const FO 5 1).

(** fft.go:31-55.  Iteration i writes f0FFT[i] and f1FFT[i]. *)
Definition SplitFFT (f_fft : list cplx) : res (list cplx * list cplx) :=
  let n := length f_fft in
  let w := roots n in
  ps <- mapM (fun i =>
          fa <- idx f_fft (2 * i) ;;
          fb <- idx f_fft (2 * i + 1) ;;
          wa <- idx w (2 * i) ;;
          Ok (c_mul FO (c_add FO fa fb) c_half,
              c_mul FO (c_mul FO (c_sub FO fa fb) c_half) (c_conj FO wa)))
        (seq 0 (Nat.div n 2)) ;;
  Ok (map fst ps, map snd ps).

(** fft.go:61-87.  Iteration i writes f_fft[2i] and f_fft[2i+1]. *)
Definition MergeFFT (f0_fft f1_fft : list cplx) : res (list cplx) :=
  let n := (2 * length f0_fft)%nat in
  let w := roots n in
  ps <- mapM (fun i =>
          cf0 <- idx f0_fft i ;;
          cf1 <- idx f1_fft i ;;
          wa <- idx w (2 * i) ;;
          let z := c_mul FO wa cf1 in
          Ok [c_add FO z cf0; c_sub FO cf0 z])
        (seq 0 (length f0_fft)) ;;
  Ok (concat ps).

(** fft.go:92-115 *)
Fixpoint FFT_fuel (fuel : nat) (f : list F) : res (list cplx) :=
  match fuel with
  | O => Diverge
  | S fuel' =>
      if Nat.ltb 2 (length f) then
        p <- SplitPolys f ;;
        f0_fft <- FFT_fuel fuel' (fst p) ;;
        f1_fft <- FFT_fuel fuel' (snd p) ;;
        MergeFFT f0_fft f1_fft
      else if Nat.eqb (length f) 2 then
        f0 <- idx f 0 ;;
        f1 <- idx f 1 ;;
        let cf0 := c_real FO f0 in
        let cf1 := c_real FO f1 in
        let a := c_mul FO (c_i FO) cf1 in
        Ok [c_add FO cf0 a; c_sub FO cf0 a]
      else Ok []
  end.
Definition FFT (f : list F) : res (list cplx) := FFT_fuel (S (length f)) f.

(** fft.go:120-138 *)
Fixpoint IFFT_fuel (fuel : nat) (f_fft : list cplx) : res (list F) :=
  match fuel with
  | O => Diverge
  | S fuel' =>
      if Nat.ltb 2 (length f_fft) then
        p <- SplitFFT f_fft ;;
        f0 <- IFFT_fuel fuel' (fst p) ;;
        f1 <- IFFT_fuel fuel' (snd p) ;;
        MergePolys f0 f1
      else if Nat.eqb (length f_fft) 2 then
        z <- idx f_fft 0 ;;
        Ok [fst z; snd z]
      else Ok []
  end.
Definition IFFT (f_fft : list cplx) : res (list F) := IFFT_fuel (S (length f_fft)) f_fft.

(** Pointwise loops over the first slice, indexing the second. *)
Definition zipM {A B C} (op : A -> B -> C) (f : list A) (g : list B) : res (list C) :=
  mapM (fun i => a <- idx f i ;; b <- idx g i ;; Ok (op a b)) (seq 0 (length f)).

(** fft.go:141-152 and 155-166 *)
Definition Add (f g : list F) : res (list F) :=
  if negb (Nat.eqb (length f) (length g)) then Panic else zipM (f_add FO) f g.
Definition AddFFT (f g : list cplx) : res (list cplx) :=
  if negb (Nat.eqb (length f) (length g)) then Panic else zipM (c_add FO) f g.
(** fft.go:174-181 and 169-171 *)
Definition AdjFFT (f : list cplx) : list cplx := map (c_conj FO) f.
Definition Adj (f : list F) : res (list F) :=
  ft <- FFT f ;; IFFT (AdjFFT ft).
(** fft.go:191-202 and 184-188 *)
Definition DivFFT (f g : list cplx) : res (list cplx) :=
  if negb (Nat.eqb (length f) (length g)) then Panic else zipM (c_div FO) f g.
Definition Div (f g : list F) : res (list F) :=
  ft <- FFT f ;; gt <- FFT g ;; d <- DivFFT ft gt ;; IFFT d.
(** fft.go:205-213 and 215-223 *)
Definition Neg (f : list F) : list F := map (f_neg FO) f.
Definition NegFFT (f : list cplx) : list cplx := map (c_neg FO) f.
(** fft.go:233-241 (no length check) and 226-230 *)
Definition MulFFT (f g : list cplx) : res (list cplx) := zipM (c_mul FO) f g.
Definition Mul (f g : list F) : res (list F) :=
  ft <- FFT f ;; gt <- FFT g ;; p <- MulFFT ft gt ;; IFFT p.
(** fft.go:244-247 and 250-253 *)
Definition Sub (f g : list F) : res (list F) := Add f (Neg g).
Definition SubFFT (f g : list cplx) : res (list cplx) := AddFFT f (NegFFT g).
(** fft.go:255-262: truncation, not rounding *)
Definition RoundFFTtoInt16 (f : list cplx) : list Z :=
  map (fun z => wrap16 (f_to_int FO (fst z))) f.
End Fft.
