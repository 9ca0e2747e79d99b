(** Model of src/internal/ffsampling.go.  Logging is not modelled. *)
From Verif Require Import GoBase Util Float Samplerz Fft Ntrugen.

Section Ffsampling.
Context (FO : floats).
Notation F := (F FO).
Notation cplx := (cplx FO).
Context (roots : nat -> list cplx).

(** ffsampling.go:19-23 *)
Record FFTtree := { t_Value : list cplx; t_Leftchild : list cplx; t_Rightchild : list cplx }.
(** new(FFTtree) *)
Definition new_tree : FFTtree := {| t_Value := []; t_Leftchild := []; t_Rightchild := [] |}.
(** ffsampling.go:25-27 *)
Definition AllChild (T : FFTtree) : list (list cplx) := [t_Leftchild T; t_Rightchild T].

(** m[i][j] *)
Definition idx2 {A} (m : list (list A)) (i j : nat) : res A := row <- idx m i ;; idx row j.

(** ffsampling.go:32-58 *)
Definition Gram (B : list (list (list F))) : res (list (list (list F))) :=
  let rows := length B in
  r0 <- idx B 0 ;;
  let ncols := length r0 in
  e0 <- idx r0 0 ;;
  let deg := length e0 in
  mapM (fun i => mapM (fun j =>
    foldM (fun g k =>
      bik <- idx2 B i k ;;
      bjk <- idx2 B j k ;;
      a <- Adj FO roots bjk ;;
      p <- Mul FO roots bik a ;;
      Add FO g p) (seq 0 ncols) (repeat (f_of_int FO 0) deg))
    (seq 0 rows)) (seq 0 rows).

(** ffsampling.go:85-108.  The constants 0 and 1 are complex128. *)
Definition LdlFFT (G : list (list (list cplx)))
  : res (list (list (list cplx)) * list (list (list cplx))) :=
  g00 <- idx2 G 0 0 ;;
  let deg := length g00 in
  row0 <- idx G 0 ;;
  if negb (Nat.eqb (length G) 2) || negb (Nat.eqb (length G) (length row0)) then Panic else
  let zero := repeat (c_real FO (f_of_int FO 0)) deg in
  let one := repeat (c_real FO (f_of_int FO 1)) deg in
  g10 <- idx2 G 1 0 ;;
  L10 <- DivFFT FO g10 g00 ;;
  g11 <- idx2 G 1 1 ;;
  m1 <- MulFFT FO L10 (AdjFFT FO L10) ;;
  m2 <- MulFFT FO m1 g00 ;;
  D11 <- SubFFT FO g11 m2 ;;
  Ok ([[one; zero]; [L10; one]], [[g00; zero]; [zero; D11]]).

(** ffsampling.go:138-161: the receiver is updated in place, by both recursive
    calls, so the later one overwrites what the earlier one stored.  [T] is the
    receiver before, the result the receiver after. *)
Fixpoint FfldlFFT (fuel : nat) (T : FFTtree) (G : list (list (list cplx))) : res FFTtree :=
  match fuel with
  | O => Diverge
  | S fuel' =>
      g00 <- idx2 G 0 0 ;;
      let n := length g00 in
      LD <- LdlFFT G ;;
      let (L, D) := (LD : list (list (list cplx)) * list (list (list cplx))) in
      l10 <- idx2 L 1 0 ;;
      let T := {| t_Value := l10; t_Leftchild := t_Leftchild T; t_Rightchild := t_Rightchild T |} in
      D00 <- idx2 D 0 0 ;;
      D11 <- idx2 D 1 1 ;;
      if Nat.eqb n 2 then
        Ok {| t_Value := t_Value T; t_Leftchild := D00; t_Rightchild := D11 |}
      else
        d0 <- SplitFFT FO roots D00 ;;
        d1 <- SplitFFT FO roots D11 ;;
        let G0 := [[fst d0; snd d0]; [AdjFFT FO (snd d0); fst d0]] in
        let G1 := [[fst d1; snd d1]; [AdjFFT FO (snd d1); fst d1]] in
        T <- FfldlFFT fuel' T G0 ;;
        FfldlFFT fuel' T G1
  end.

(** A []interface{} as FfnpFFT uses it: entries are []complex128 or
    []interface{} (anything else fails both type assertions). *)
Inductive iface :=
| IPoly (l : list cplx)
| ITree (l : list iface)
| IOther.
Definition as_poly (x : iface) : res (list cplx) := match x with IPoly l => Ok l | _ => Panic end.
Definition as_tree (x : iface) : res (list iface) := match x with ITree l => Ok l | _ => Panic end.

(** MergeFFT applied to a slice of slices *)
Definition MergeFFT_list (fl : list (list cplx)) : res (list cplx) :=
  a <- idx fl 0 ;; b <- idx fl 1 ;; MergeFFT FO roots a b.
Definition Split_list (f : list cplx) : res (list (list cplx)) :=
  p <- SplitFFT FO roots f ;; Ok [fst p; snd p].

(** ffsampling.go:211-228 *)
Fixpoint FfnpFFT (fuel : nat) (t : list (list cplx)) (T : list iface) : res (list (list cplx)) :=
  match fuel with
  | O => Diverge
  | S fuel' =>
      t0 <- idx t 0 ;;
      if Nat.ltb 1 (length t0) then
        i0 <- idx T 0 ;; l10 <- as_poly i0 ;;
        i1 <- idx T 1 ;; T0 <- as_tree i1 ;;
        i2 <- idx T 2 ;; T1 <- as_tree i2 ;;
        t1 <- idx t 1 ;;
        s1 <- Split_list t1 ;;
        t01 <- FfnpFFT fuel' s1 T1 ;;
        z1 <- MergeFFT_list t01 ;;
        d <- SubFFT FO t1 z1 ;;
        m <- MulFFT FO d l10 ;;
        t0b <- AddFFT FO t0 m ;;
        s0 <- Split_list t0b ;;
        t00 <- FfnpFFT fuel' s0 T0 ;;
        z0 <- MergeFFT_list t00 ;;
        Ok [z0; z1]
      else if Nat.eqb (length t0) 1 then
        a <- idx2 t 0 0 ;;
        b <- idx2 t 1 0 ;;
        Ok [[c_real FO (f_round FO (fst a))]; [c_real FO (f_round FO (fst b))]]
      else Ok []
  end.

(** ffsampling.go:250-273, with the sampler's random blocks threaded through:
    [c] is the index of the next block, [sf] the sampler's fuel *)
Fixpoint FfSamplingFFT (rb : rand) (sf : nat) (sigmin : F) (T : FFTtree)
    (fuel : nat) (t : list (list cplx)) (c : nat) : res (list (list cplx) * nat) :=
  match fuel with
  | O => Diverge
  | S fuel' =>
      t0 <- idx t 0 ;;
      if Nat.ltb 1 (length t0) then
        t1 <- idx t 1 ;;
        s1 <- Split_list t1 ;;
        r1 <- FfSamplingFFT rb sf sigmin T fuel' s1 c ;;
        z1 <- MergeFFT_list (fst r1) ;;
        d <- SubFFT FO t1 z1 ;;
        m <- MulFFT FO d (t_Value T) ;;
        t0b <- AddFFT FO t0 m ;;
        s0 <- Split_list t0b ;;
        r0 <- FfSamplingFFT rb sf sigmin T fuel' s0 (snd r1) ;;
        z0 <- MergeFFT_list (fst r0) ;;
        Ok ([z0; z1], snd r0)
      else if Nat.eqb (length t0) 1 then
        a <- idx2 t 0 0 ;;
        v <- idx (t_Value T) 0 ;;
        s0 <- Samplerz FO rb sf (fst a) (fst v) sigmin c ;;
        b <- idx2 t 1 0 ;;
        s1 <- Samplerz FO rb sf (fst b) (fst v) sigmin (snd s0) ;;
        Ok ([[c_real FO (f_of_int FO (fst s0))]; [c_real FO (f_of_int FO (fst s1))]], snd s1)
      else Ok ([[c_real FO (f_of_int FO 0)]; [c_real FO (f_of_int FO 0)]], c)
  end.
End Ffsampling.
Arguments IPoly {FO} l.
Arguments ITree {FO} l.
Arguments IOther {FO}.
