(** Model of src/internal/transforms/ntt/ntt.go. *)
From Verif Require Import GoBase Util NttTables.

Section NTT.

(** Go's [int] is 64 or 32 bits wide depending on the platform: [iw] is the
    wrap applied to the result of every [int] addition, subtraction and
    multiplication ([wrap64] or [wrap32]). *)
Variable iw : Z -> Z.

(** ntt.go:19 *)
Definition i2 : Z := 6145.
(** ntt.go:20: roots_dict_Zq[2][0]; evaluated at package initialisation. *)
Definition sqr1 : Z := nth 0 (roots_dict_Zq 2) 0.

(** ntt.go:36-62.  [int16(n)] is the map key; iteration i writes f0_NTT[i] and
    f1_NTT[i].  [inv_mod_q[w[a]]] is two indexings. *)
Definition SplitNTT (fNTT : list Z) : res (list Z * list Z) :=
  let n := length fNTT in
  let floorN := Nat.div n 2 in
  let w := roots_dict_Zq (wrap16 (Z.of_nat n)) in
  ps <- mapM (fun i =>
          let a := (2 * i)%nat in
          let b := (a + 1)%nat in
          fa <- idx fNTT a ;;
          fb <- idx fNTT b ;;
          let f0 := iw (fa + fb) in
          let f0 := iw (f0 * i2) in
          f0 <- Pmod f0 Q ;;
          let f1 := iw (fa - fb) in
          let f1 := iw (f1 * i2) in
          wa <- idx w a ;;
          iwa <- (if wa <? 0 then Panic else idx inv_mod_q (Z.to_nat wa)) ;;
          let f1 := iw (f1 * iwa) in
          f1 <- Pmod f1 Q ;;
          Ok (wrap16 f0, wrap16 f1)) (seq 0 floorN) ;;
  Ok (map fst ps, map snd ps).

(** ntt.go:67-91; the two-element slice argument is passed as two arguments
    (all callers build it as a two-element literal or take it from SplitNTT).
    Iteration i writes fNTT[2i] and fNTT[2i+1]. *)
Definition MergeNTT (f0NTT f1NTT : list Z) : res (list Z) :=
  let n := (2 * length f0NTT)%nat in
  let floorN := Nat.div n 2 in
  let w := roots_dict_Zq (wrap16 (Z.of_nat n)) in
  ps <- mapM (fun i =>
          let a := (2 * i)%nat in
          wa <- idx w a ;;
          x1 <- idx f1NTT i ;;
          x0 <- idx f0NTT i ;;
          let f0 := iw (wa * x1) in
          let f0 := iw (f0 + x0) in
          f0 <- Pmod f0 Q ;;
          let f1 := iw (wa * x1) in
          let f1 := iw (x0 - f1) in
          f1 <- Pmod f1 Q ;;
          Ok [wrap16 f0; wrap16 f1]) (seq 0 floorN) ;;
  Ok (concat ps).

(** ntt.go:96-121.  Every recursive call is on a slice of half the length, so
    [length f] is enough fuel. For len(f) < 2 the nil slice is returned. *)
Fixpoint NTT_fuel (fuel : nat) (f : list Z) : res (list Z) :=
  match fuel with
  | O => Diverge
  | S fuel =>
    let n := length f in
    if Nat.ltb 2 n then
      f01 <- SplitPolys f ;;
      f0_NTT <- NTT_fuel fuel (fst f01) ;;
      f1_NTT <- NTT_fuel fuel (snd f01) ;;
      MergeNTT f0_NTT f1_NTT
    else if Nat.eqb n 2 then
      f1 <- idx f 1 ;;
      f0 <- idx f 0 ;;
      let a := iw (sqr1 * f1) in
      x <- Pmod (iw (f0 + a)) Q ;;
      y <- Pmod (iw (f0 - a)) Q ;;
      Ok (IntToInt16 [x; y])
    else Ok []
  end.
Definition NTT (f : list Z) : res (list Z) := NTT_fuel (S (length f)) f.

(** ntt.go:126-153 *)
Fixpoint INTT_fuel (fuel : nat) (fNTT : list Z) : res (list Z) :=
  match fuel with
  | O => Diverge
  | S fuel =>
    let n := length fNTT in
    if Nat.ltb 2 n then
      s <- SplitNTT fNTT ;;
      f0 <- INTT_fuel fuel (fst s) ;;
      f1 <- INTT_fuel fuel (snd s) ;;
      MergePolys f0 f1
    else if Nat.eqb n 2 then
      f0 <- idx fNTT 0 ;;
      f1 <- idx fNTT 1 ;;
      x <- Pmod (iw (iw (f0 + f1) * i2)) Q ;;
      inv <- idx inv_mod_q 1479 ;;
      y <- Pmod (iw (iw (iw (f0 - f1) * inv) * i2)) Q ;;
      Ok (IntToInt16 [x; y])
    else Ok []
  end.
Definition INTT (fNTT : list Z) : res (list Z) :=
  INTT_fuel (S (length fNTT)) fNTT.

(** ntt.go:156-168.  [f[i] + g[i]] is an int16 addition, widened afterwards. *)
Definition addZq (f g : list Z) : res (list Z) :=
  if negb (Nat.eqb (length f) (length g)) then Panic else
  mapM (fun i =>
    a <- idx f i ;;
    b <- idx g i ;;
    z <- Pmod (wrap16 (a + b)) Q ;;
    Ok (wrap16 z)) (seq 0 (length f)).

(** ntt.go:171-180.  [-(f[i])] is an int16 negation. *)
Definition negZq (f : list Z) : res (list Z) :=
  mapM (fun i =>
    a <- idx f i ;;
    z <- Pmod (wrap16 (- a)) Q ;;
    Ok (wrap16 z)) (seq 0 (length f)).

(** ntt.go:183-186 *)
Definition SubZq (f g : list Z) : res (list Z) :=
  g <- negZq g ;; addZq f g.

(** ntt.go:217-229 *)
Definition mulNTT (fNTT g_NTT : list Z) : res (list Z) :=
  if negb (Nat.eqb (length fNTT) (length g_NTT)) then Panic else
  mapM (fun i =>
    a <- idx fNTT i ;;
    b <- idx g_NTT i ;;
    z <- Pmod (iw (a * b)) Q ;;
    Ok (wrap16 z)) (seq 0 (length fNTT)).

(** ntt.go:232-249: the zero scan runs before any division. *)
Definition divNTT (fNTT g_NTT : list Z) : res (list Z) :=
  if negb (Nat.eqb (length fNTT) (length g_NTT)) then Panic else
  if existsb (fun elt => elt =? 0) g_NTT then Err ErrDivByZero else
  mapM (fun i =>
    a <- idx fNTT i ;;
    b <- idx g_NTT i ;;
    inv <- (if b <? 0 then Panic else idx inv_mod_q (Z.to_nat b)) ;;
    z <- Pmod (iw (a * inv)) Q ;;
    Ok (wrap16 z)) (seq 0 (length fNTT)).

(** ntt.go:189-193 *)
Definition MulZq (f g : list Z) : res (list Z) :=
  ft <- NTT f ;;
  gt <- NTT g ;;
  m <- mulNTT ft gt ;;
  INTT m.

(** ntt.go:196-204 *)
Definition DivZq (f g : list Z) : res (list Z) :=
  ft <- NTT f ;;
  gt <- NTT g ;;
  d <- divNTT ft gt ;;
  INTT d.

(** ntt.go:207-214 *)
Definition addNTT := addZq.
Definition subNTT := SubZq.

End NTT.
