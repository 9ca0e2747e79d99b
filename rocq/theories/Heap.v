(** The functions of src/internal/ntrugen.go (lines 21-274) over an explicit heap:
    every *big.Int is a pointer, every slice of *big.Int refers to an array of
    pointers, and the in-place operations of math/big are writes.  Ntrugen.v
    models the same functions on lists of values; HeapFrame.v, HeapRefine.v, HeapKara.v
    and HeapSolve.v prove that the
    two agree and say what may be written. *)
From Verif Require Import GoBase Util Ntrugen.

(** [h_int]: the big integers, a pointer is an index; [h_arr]: the backing arrays
    of the slices, [None] is the nil pointer.  Nothing is ever freed. *)
Record heap := { h_int : list Z; h_arr : list (list (option nat)) }.
(** a slice header *)
Record sl := { s_arr : nat; s_off : nat; s_len : nat; s_cap : nat }.

Definition M (A : Type) := heap -> res (A * heap).
Definition ret {A} (a : A) : M A := fun h => Ok (a, h).
Definition mbind {A B} (m : M A) (k : A -> M B) : M B :=
  fun h => match m h with
           | Ok (a, h') => k a h'
           | Err e => Err e | Panic => Panic | Diverge => Diverge
           end.
Notation "x <~ m ;; k" := (mbind m (fun x => k)) (at level 61, m at next level, right associativity).
Definition fail {A} (r : res A) : M A := fun h => match r with Ok a => Ok (a, h) | Err e => Err e | Panic => Panic | Diverge => Diverge end.

Definition upd {A} (l : list A) (i : nat) (x : A) : list A := firstn i l ++ x :: skipn (S i) l.

(** reading through a pointer; a nil pointer panics *)
Definition hget (o : option nat) : M Z := fun h =>
  match o with None => Panic | Some p => z <- idx (h_int h) p ;; Ok (z, h) end.
(** writing through a pointer *)
Definition hset (o : option nat) (z : Z) : M unit := fun h =>
  match o with
  | None => Panic
  | Some p => if Nat.ltb p (length (h_int h))
              then Ok (tt, {| h_int := upd (h_int h) p z; h_arr := h_arr h |}) else Panic
  end.
(** new(big.Int) set to z, big.NewInt(z) *)
Definition hnew (z : Z) : M (option nat) := fun h =>
  Ok (Some (length (h_int h)), {| h_int := h_int h ++ [z]; h_arr := h_arr h |}).
(** make([]*big.Int, n): nil pointers *)
Definition hmake (n : nat) : M sl := fun h =>
  Ok ({| s_arr := length (h_arr h); s_off := 0; s_len := n; s_cap := n |},
      {| h_int := h_int h; h_arr := h_arr h ++ [repeat None n] |}).
(** s[i] *)
Definition sget (s : sl) (i : nat) : M (option nat) := fun h =>
  if Nat.ltb i (s_len s) then
    arr <- idx (h_arr h) (s_arr s) ;; o <- idx arr (s_off s + i) ;; Ok (o, h)
  else Panic.
(** s[i] = o *)
Definition sset (s : sl) (i : nat) (o : option nat) : M unit := fun h =>
  if Nat.ltb i (s_len s) then
    arr <- idx (h_arr h) (s_arr s) ;;
    if Nat.ltb (s_off s + i) (length arr)
    then Ok (tt, {| h_int := h_int h; h_arr := upd (h_arr h) (s_arr s) (upd arr (s_off s + i) o) |})
    else Panic
  else Panic.
(** s[lo:hi]: hi may go up to the capacity *)
Definition reslice (s : sl) (lo hi : nat) : M sl :=
  if Nat.leb lo hi && Nat.leb hi (s_cap s)
  then ret {| s_arr := s_arr s; s_off := s_off s + lo; s_len := hi - lo; s_cap := s_cap s - lo |}
  else fail Panic.
(** the value of *s[i] *)
Definition sval (s : sl) (i : nat) : M Z := o <~ sget s i ;; hget o.
(** for i := range l *)
Fixpoint for_ (l : list nat) (body : nat -> M unit) : M unit :=
  match l with [] => ret tt | i :: l' => _ <~ body i ;; for_ l' body end.

(** util.go:230-234 *)
Definition FillBigIntSlice (s : sl) : M unit :=
  for_ (seq 0 (s_len s)) (fun i => p <~ hnew 0 ;; sset s i p).
(** make followed by FillBigIntSlice *)
Definition make_filled (n : nat) : M sl := s <~ hmake n ;; _ <~ FillBigIntSlice s ;; ret s.
(** a literal []*big.Int{x, y, ...} of new integers *)
Fixpoint new_ints (l : list Z) : M (list (option nat)) :=
  match l with [] => ret [] | z :: l' => p <~ hnew z ;; ps <~ new_ints l' ;; ret (p :: ps) end.
Definition literal (l : list Z) : M sl :=
  ps <~ new_ints l ;; s <~ hmake (length l) ;;
  _ <~ for_ (seq 0 (length l)) (fun i => o <~ fail (idx ps i) ;; sset s i o) ;; ret s.

(** ntrugen.go:23-62 *)
Fixpoint HKaratsuba (fuel : nat) (a b : sl) (n : nat) : M sl :=
  match fuel with
  | O => fail Diverge
  | S fuel' =>
      if Nat.eqb n 1 then
        x <~ sval a 0 ;; y <~ sval b 0 ;; literal [x * y; 0]
      else
        let n2 := Nat.div n 2 in
        a0 <~ reslice a 0 n2 ;; a1 <~ reslice a n2 (s_len a) ;;
        b0 <~ reslice b 0 n2 ;; b1 <~ reslice b n2 (s_len b) ;;
        ax <~ hmake n2 ;; bx <~ hmake n2 ;;
        _ <~ FillBigIntSlice ax ;; _ <~ FillBigIntSlice bx ;;
        _ <~ for_ (seq 0 n2) (fun i =>
               t <~ sget ax i ;; x <~ sval a0 i ;; y <~ sval a1 i ;; _ <~ hset t (x + y) ;;
               t <~ sget bx i ;; x <~ sval b0 i ;; y <~ sval b1 i ;; hset t (x + y)) ;;
        a0b0 <~ HKaratsuba fuel' a0 b0 n2 ;;
        a1b1 <~ HKaratsuba fuel' a1 b1 n2 ;;
        axbx <~ HKaratsuba fuel' ax bx n2 ;;
        _ <~ for_ (seq 0 n) (fun i =>
               t <~ sget axbx i ;; z <~ sval axbx i ;;
               x <~ sval a0b0 i ;; y <~ sval a1b1 i ;; w <~ hnew (x + y) ;; v <~ hget w ;; hset t (z - v)) ;;
        ab <~ make_filled (2 * n) ;;
        _ <~ for_ (seq 0 n) (fun i =>
               t <~ sget ab i ;; z <~ sval ab i ;; x <~ sval a0b0 i ;; _ <~ hset t (z + x) ;;
               t <~ sget ab (i + n) ;; z <~ sval ab (i + n) ;; x <~ sval a1b1 i ;; _ <~ hset t (z + x) ;;
               t <~ sget ab (i + n2) ;; z <~ sval ab (i + n2) ;; x <~ sval axbx i ;; hset t (z + x)) ;;
        ret ab
  end.

(** ntrugen.go:65-75 *)
Definition Hkaramul (a b : sl) : M sl :=
  let n := s_len a in
  ab <~ HKaratsuba n a b n ;;
  abr <~ make_filled n ;;
  _ <~ for_ (seq 0 n) (fun i =>
         t <~ sget abr i ;; x <~ sval ab i ;; y <~ sval ab (i + n) ;; hset t (x - y)) ;;
  ret abr.

(** ntrugen.go:79-88 *)
Definition HgaloisConjugate (a : sl) : M sl :=
  r <~ make_filled (s_len a) ;;
  _ <~ for_ (seq 0 (s_len a)) (fun i =>
         v <~ sget r i ;; e <~ hnew ((-1) ^ Z.of_nat i) ;; z <~ hget e ;; x <~ sval a i ;; hset v (z * x)) ;;
  ret r.

(** ntrugen.go:92-112; [res := aeSquared[:]] is the same slice *)
Definition HfieldNorm (a : sl) : M sl :=
  let n2 := Nat.div (s_len a) 2 in
  ae <~ hmake n2 ;; ao <~ hmake n2 ;;
  _ <~ FillBigIntSlice ae ;; _ <~ FillBigIntSlice ao ;;
  _ <~ for_ (seq 0 n2) (fun i =>
         t <~ sget ae i ;; x <~ sval a (2 * i) ;; _ <~ hset t x ;;
         t <~ sget ao i ;; x <~ sval a (2 * i + 1) ;; hset t x) ;;
  aeSquared <~ Hkaramul ae ae ;;
  aoSquared <~ Hkaramul ao ao ;;
  r <~ reslice aeSquared 0 (s_len aeSquared) ;;
  _ <~ for_ (seq 0 (n2 - 1)) (fun i =>
         t <~ sget r (i + 1) ;; z <~ sval r (i + 1) ;; x <~ sval aoSquared i ;; hset t (z - x)) ;;
  t <~ sget r 0 ;; z <~ sval r 0 ;; x <~ sval aoSquared (n2 - 1) ;; _ <~ hset t (z + x) ;;
  ret r.

(** ntrugen.go:116-124: the pointers of a are copied *)
Definition Hlift (a : sl) : M sl :=
  al <~ make_filled (2 * s_len a) ;;
  _ <~ for_ (seq 0 (s_len a)) (fun i => o <~ sget a i ;; sset al (2 * i) o) ;;
  ret al.

(** ntrugen.go:129-137: val is a new integer, shifted in place *)
Fixpoint Hbitsize_loop (fuel : nat) (val : option nat) (r : Z) : M Z :=
  v <~ hget val ;;
  if v >? 0 then
    match fuel with
    | O => fail Diverge
    | S fuel' => _ <~ hset val (Z.shiftr v 8) ;; Hbitsize_loop fuel' val (r + 8)
    end
  else ret r.
Definition Hbitsize (a : option nat) : M Z :=
  x <~ hget a ;; val <~ hnew (Z.abs x) ;;
  Hbitsize_loop (S (Z.to_nat (Z.log2 (Z.abs x)))) val 0.

(** util.go:267-286: the pointer to the extreme element *)
Definition Hextreme (better : Z -> Z -> bool) (s : sl) : M (option nat) :=
  m <~ sget s 0 ;;
  (fix go (l : list nat) (m : option nat) : M (option nat) :=
     match l with
     | [] => ret m
     | i :: l' => v <~ sget s i ;; x <~ hget v ;; y <~ hget m ;; go l' (if better x y then v else m)
     end) (seq 0 (s_len s)) m.
Definition HMinFromBigInt := Hextreme (fun x y => x <? y).
Definition HMaxFromBigInt := Hextreme (fun x y => y <? x).

(** ntrugen.go:146-152 and 170-176 *)
Definition Hmax_bitsize (a b : sl) : M Z :=
  m1 <~ HMinFromBigInt a ;; s1 <~ Hbitsize m1 ;;
  m2 <~ HMaxFromBigInt a ;; s2 <~ Hbitsize m2 ;;
  m3 <~ HMinFromBigInt b ;; s3 <~ Hbitsize m3 ;;
  m4 <~ HMaxFromBigInt b ;; s4 <~ Hbitsize m4 ;;
  fail (Max [53; s1; s2; s3; s4]).

(** ntrugen.go:154-164 and 182-190: new(big.Int).Rsh(elt, size-53).Int64() of
    every element *)
Definition Hadjust (size : Z) (s : sl) : M (list Z) :=
  (fix go (l : list nat) : M (list Z) :=
     match l with
     | [] => ret []
     | i :: l' => x <~ sval s i ;; w <~ hnew (Z.shiftr x (size - 53)) ;; v <~ hget w ;;
                  r <~ go l' ;; ret (big_Int64 v :: r)
     end) (seq 0 (s_len s)).

(** util.go:203-210 *)
Definition HIntToBigInt (k : list Z) : M sl :=
  r <~ make_filled (length k) ;;
  _ <~ for_ (seq 0 (length k)) (fun i => t <~ sget r i ;; v <~ fail (idx k i) ;; hset t v) ;;
  ret r.

(** ntrugen.go:169-223.  fAdj and gAdj were computed before the loop. *)
Fixpoint Hreduce_loop (quo : quotient) (fuel : nat) (f g : sl) (size : Z) (fAdj gAdj : list Z)
    (F G : sl) : M (sl * sl) :=
  match fuel with
  | O => fail Diverge
  | S fuel' =>
      SIZE <~ Hmax_bitsize F G ;;
      if SIZE <? size then ret (F, G) else
      FAdj <~ Hadjust SIZE F ;; GAdj <~ Hadjust SIZE G ;;
      k <~ fail (quo fAdj gAdj FAdj GAdj) ;;
      if AllZeroes k then ret (F, G) else
      k1 <~ HIntToBigInt k ;; fk <~ Hkaramul f k1 ;;
      k2 <~ HIntToBigInt k ;; gk <~ Hkaramul g k2 ;;
      _ <~ for_ (seq 0 (s_len f)) (fun i =>
             t <~ sget F i ;; z <~ sval F i ;; x <~ sval fk i ;; w <~ hnew (Z.shiftl x (SIZE - size)) ;;
             v <~ hget w ;; _ <~ hset t (z - v) ;;
             t <~ sget G i ;; z <~ sval G i ;; x <~ sval gk i ;; w <~ hnew (Z.shiftl x (SIZE - size)) ;;
             v <~ hget w ;; hset t (z - v)) ;;
      Hreduce_loop quo fuel' f g size fAdj gAdj F G
  end.
(** ntrugen.go:143-224 *)
Definition Hreduce (quo : quotient) (fuel : nat) (f g F G : sl) : M (sl * sl) :=
  size <~ Hmax_bitsize f g ;;
  fAdj <~ Hadjust size f ;; gAdj <~ Hadjust size g ;;
  Hreduce_loop quo fuel f g size fAdj gAdj F G.

(** ntrugen.go:228-242: every result is a new integer *)
Fixpoint Hxgcd_loop (fuel : nat) (b n x0 x1 y0 y1 : option nat) : M (option nat * option nat * option nat) :=
  vn <~ hget n ;;
  if vn =? 0 then ret (b, x0, y0) else
  match fuel with
  | O => fail Diverge
  | S fuel' =>
      q <~ hnew 0 ;; vb <~ hget b ;; _ <~ hset q (big_Div vb vn) ;;
      m <~ hnew (big_Mod vb vn) ;;
      vq <~ hget q ;; vx0 <~ hget x0 ;; vx1 <~ hget x1 ;;
      t <~ hnew (vq * vx1) ;; vt <~ hget t ;; x <~ hnew (vx0 - vt) ;;
      vy0 <~ hget y0 ;; vy1 <~ hget y1 ;;
      t <~ hnew (vq * vy1) ;; vt <~ hget t ;; y <~ hnew (vy0 - vt) ;;
      Hxgcd_loop fuel' n m x1 x y1 y
  end.
Definition Hxgcd (b n : option nat) : M (option nat * option nat * option nat) :=
  x0 <~ hnew 1 ;; x1 <~ hnew 0 ;; y0 <~ hnew 0 ;; y1 <~ hnew 1 ;; vn <~ hget n ;;
  Hxgcd_loop (Z.to_nat (2 * Z.log2 (Z.abs vn) + 4)) b n x0 x1 y0 y1.

(** ntrugen.go:246-274.  The error is a value, so that the heap after a failure
    is visible: [None] is ErrEquation. *)
Fixpoint HNtruSolve_depth (quo : quotient) (fuel depth : nat) (f g : sl) : M (option (sl * sl)) :=
  match depth with
  | O => fail Diverge
  | S depth' =>
      if Nat.eqb (s_len f) 1 then
        x <~ sval f 0 ;; f0 <~ hnew x ;; y <~ sval g 0 ;; g0 <~ hnew y ;;
        duv <~ Hxgcd f0 g0 ;;
        let '(d, u, v) := duv in
        vd <~ hget d ;;
        if negb (big_Int64 vd =? 1) then ret None
        else
          vv <~ hget v ;; F <~ literal [- Q * vv] ;;
          vu <~ hget u ;; G <~ literal [Q * vu] ;; ret (Some (F, G))
      else
        fp <~ HfieldNorm f ;; gp <~ HfieldNorm g ;;
        FGp <~ HNtruSolve_depth quo fuel depth' fp gp ;;
        match FGp with
        | None => ret None
        | Some (Fp, Gp) =>
            lF <~ Hlift Fp ;; cg <~ HgaloisConjugate g ;; F <~ Hkaramul lF cg ;;
            lG <~ Hlift Gp ;; cf <~ HgaloisConjugate f ;; G <~ Hkaramul lG cf ;;
            FG <~ Hreduce quo fuel f g F G ;; ret (Some FG)
        end
  end.
Definition HNtruSolve (quo : quotient) (fuel : nat) (f g : sl) : M (option (sl * sl)) :=
  HNtruSolve_depth quo fuel (s_len f) f g.
