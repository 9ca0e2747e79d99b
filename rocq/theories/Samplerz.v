(** Model of src/internal/samplerz.go. *)
From Verif Require Import GoBase Util Float.

(** samplerz.go:26-45 *)
Definition RCDT : list Z :=
  [3024686241123004913666; 1564742784480091954050; 636254429462080897535;
   199560484645026482916; 47667343854657281903; 8595902006365044063;
   1163297957344668388; 117656387352093658; 8867391802663976; 496969357462633;
   20680885154299; 638331848991; 14602316184; 247426747; 3104126; 28824; 198; 1].

(** samplerz.go:52-66, there called C *)
Definition expC : list Z :=
  [19127174051; 233346759686; 2542029181962; 25415798087749; 228754078003076;
   1830034511206115; 12810238987800554; 76861433589428176; 384307168197152512;
   1537228672812056320; 4611686018427565056; 9223372036854728704; 9223372036854775808].

(** big.Int.SetBytes: unsigned big-endian *)
Definition SetBytes (b : list Z) : Z := fold_left (fun acc x => acc * 256 + x) b 0.

(** samplerz.go:79-90 *)
Definition BaseSampler (randomBytes : list Z) : Z :=
  let u := SetBytes randomBytes in
  fold_left (fun z0 elt => match u ?= elt with Lt => z0 + 1 | _ => z0 end) RCDT 0.

Section Float.
Context (FO : floats).
Notation F := (F FO).

(** samplerz.go:12 and 14: maxSigma and inv2sigma2 *)
Definition maxSigma : F := f_const FO 18205 4.
Definition inv2sigma2 : F := f_div FO (f_of_int FO 1) (f_mul FO (f_of_int FO 2) (f_sqr FO maxSigma)).
(** samplerz.go:21-22 *)
Definition LN2 : F := f_const FO 69314718056 11.
Definition ILN2 : F := f_const FO 144269504089 11.

(** uint64(x); out-of-range values are implementation-defined in Go *)
Definition to_u64 (x : F) : Z := wrap64u (f_to_u64 FO x).
(** int(x) on a 64-bit platform *)
Definition to_int (x : F) : Z := wrap64 (f_to_int FO x).

(** samplerz.go:104-114.  All uint64 operations wrap. *)
Definition approxexp (x ccs : F) : Z :=
  let z := to_u64 (f_mul FO x (f_of_int FO (2 ^ 63))) in
  let y := fold_left (fun y elt => wrap64u (elt - Z.shiftr (wrap64u (z * y)) 63)) (tl expC) (hd 0 expC) in
  let z := wrap64u (Z.shiftl (to_u64 (f_mul FO ccs (f_of_int FO (2 ^ 63)))) 1) in
  Z.shiftr (wrap64u (z * y)) 63.

(** util.go:88-93 *)
Definition Min (a b : F) : F := if f_ltb FO a b then a else b.

(** z >> uint64(i) for i an int: a negative i becomes a huge count *)
Definition shr_u64 (z i : Z) : Z :=
  if wrap64u i >=? 64 then 0 else Z.shiftr z (wrap64u i).

(** samplerz.go:136-142, the loop; the same bytes are read in every round *)
Fixpoint berexp_loop (z b : Z) (is : list Z) (w : Z) : Z :=
  match is with
  | [] => w
  | i :: is' =>
      let w := wrap64 (b - Z.land (wrap64 (shr_u64 z i)) 255) in
      if negb (w =? 0) then w else berexp_loop z b is' w
  end.

(** samplerz.go:130-144.  A shift by a negative count panics. *)
Definition berexp (x ccs : F) (randomBytes : list Z) : res bool :=
  let s := f_floor FO (f_mul FO x ILN2) in
  let r := f_sub FO x (f_mul FO s LN2) in
  let s := Min s (f_of_int FO 63) in
  let cnt := to_int s in
  if cnt <? 0 then Panic else
  let z := wrap64u (approxexp r ccs - 1) in
  let z := if cnt >=? 64 then 0 else Z.shiftr z cnt in
  let b := wrap64 (wrap64u (SetBytes randomBytes)) in
  let w := berexp_loop z b [56; 48; 40; 32; 24; 16; 8; 0; -8] 0 in
  Ok (w <? 0).

(** The operating system's randomness: the 11 bytes given to the k-th call of
    crypto/rand, or an error. *)
Definition rand := nat -> option (list Z).

(** samplerz.go:181-206: generateAndSplitRandBytes and its helpers; the error
    is turned into a panic. *)
Definition generateAndSplitRandBytes (rb : rand) (k : nat) : res (list Z * list Z * list Z) :=
  match rb k with
  | None => Panic
  | Some l => Ok (firstn 9 l, firstn 1 (skipn 9 l), skipn 10 l)
  end.

(** One round of the loop, samplerz.go:169-175: the candidate z and whether it
    is accepted. *)
Definition sampler_round (r dss ccs : F) (fb sb tb : list Z) : res (F * bool) :=
  let z0 := BaseSampler fb in
  let b := wrap64 (wrap64u (SetBytes sb)) in
  let b := Z.land b 1 in
  let z := f_of_int FO (b + (2 * b - 1) * z0) in
  let x := f_mul FO (f_sqr FO (f_sub FO z r)) dss in
  let x := f_sub FO x (f_mul FO (f_sqr FO (f_of_int FO z0)) inv2sigma2) in
  acc <- berexp x ccs tb ;; Ok (z, acc).

(** samplerz.go:167-178, the rejection loop, started at the k-th random block;
    returns the sample and the index of the next unused block *)
Fixpoint sampler_loop (rb : rand) (fuel : nat) (s : Z) (r dss ccs : F) (k : nat)
  : res (Z * nat) :=
  match fuel with
  | O => Diverge
  | S fuel' =>
      blocks <- generateAndSplitRandBytes rb k ;;
      let '(fb, sb, tb) := blocks in
      za <- sampler_round r dss ccs fb sb tb ;;
      if snd za then Ok (wrap8 (wrap64 (s + to_int (fst za))), S k)
      else sampler_loop rb fuel' s r dss ccs (S k)
  end.

(** samplerz.go:159-179 *)
Definition Samplerz (rb : rand) (fuel : nat) (mu sigma sigmin : F) (k : nat) : res (Z * nat) :=
  let s := to_int (f_floor FO mu) in
  let r := f_sub FO mu (f_of_int FO s) in
  let dss := f_div FO (f_of_int FO 1)
               (f_mul FO (f_mul FO (f_of_int FO 2) sigma) sigma) in
  let ccs := f_div FO sigmin sigma in
  sampler_loop rb fuel s r dss ccs k.

(** ntrugen.go:286 and 292 *)
Definition sigma_gen : F := f_const FO 143300980528773 14.
Definition sigmin_gen : F := f_sub FO sigma_gen (f_const FO 1 3).

(** ntrugen.go:290-293: m samples from the same distribution *)
Fixpoint samples (rb : rand) (fuel m : nat) (k : nat) : res (list Z * nat) :=
  match m with
  | O => Ok ([], k)
  | S m' =>
      vk <- Samplerz rb fuel (f_of_int FO 0) sigma_gen sigmin_gen k ;;
      lk <- samples rb fuel m' (snd vk) ;;
      Ok (fst vk :: fst lk, snd lk)
  end.

(** ntrugen.go:285-307.  [int(math.Floor(4096 / float64(n)))] is the integer
    quotient: for 1 <= n <= 4096 the exact quotient is an integer or at least
    1/n >= 2^-12 away from one, so rounding cannot cross it; for n = 0 the value
    is not used. *)
Definition GenPoly (rb : rand) (fuel : nat) (n : Z) (c : nat) : res (list Z * nat) :=
  if n >? 4096 then Panic else
  f0k <- samples rb fuel 4096 c ;;
  let '(f0, c') := f0k in
  let k := Z.to_nat (4096 / n) in
  f <- mapM (fun i =>
         ts <- mapM (fun j => idx f0 (i * k + j)) (seq 0 k) ;;
         Ok (wrap16 (fold_left (fun sum t => wrap64 (sum + t)) ts 0)))
       (seq 0 (Z.to_nat n)) ;;
  Ok (f, c').
End Float.
