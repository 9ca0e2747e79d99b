(** Model of src/falcon.go: keys, hashing to a point, verification.
    (NewKeyPair and NewKeyPairFromPrivateKey are in KeyGen.v.) *)
From Verif Require Import GoBase Util Ntt Encoding Params Xof.

(** falcon.go:35-38.  The sum of the lengths is an int, truncated to uint16;
    [4*n] is a uint16 product. [%] by zero panics (n = 0 or n = 16384*k). *)
Definition isValidPolysLength (n : Z) (f g F G : list Z) : res bool :=
  let sum := wrap16u (Z.of_nat (length f + length g + length F + length G)) in
  if wrap16u (4 * n) =? 0 then Panic else
  Ok (Z.rem sum (wrap16u (4 * n)) =? 0).

(** falcon.go:133-139 *)
Record PrivateKey := { sk_n : Z; sk_f : list Z; sk_g : list Z; sk_F : list Z; sk_G : list Z }.
(** falcon.go:107-110 *)
Record PublicKey := { pk_n : Z; pk_h : list Z }.

(** falcon.go:160-175 *)
Definition GetPrivateKey (n : Z) (f g F G : list Z) : res PrivateKey :=
  if negb (isValidDegree n) then Err ErrInvalidDegree else
  ok <- isValidPolysLength n f g F G ;;
  if negb ok then Err ErrInvalidPolysLength else
  Ok {| sk_n := n; sk_f := f; sk_g := g; sk_F := F; sk_G := G |}.

Section Falcon.
Variable iw : Z -> Z.

(** falcon.go:116-123.  The error of DivZq is discarded; h is then nil. *)
Definition GetPublicKey (sk : PrivateKey) : res PublicKey :=
  match DivZq iw (sk_g sk) (sk_f sk) with
  | Ok h => Ok {| pk_n := sk_n sk; pk_h := h |}
  | Err _ => Ok {| pk_n := sk_n sk; pk_h := [] |}
  | Panic => Panic
  | Diverge => Diverge
  end.

Variable X : XOF.

(** falcon.go:272-285: one unit of fuel per iteration (per Read). *)
Fixpoint hash_loop (fuel : nat) (n : nat) (shake : xst X) (hashed : list Z) : res (list Z) :=
  if Nat.ltb (length hashed) n then
    match fuel with
    | O => Diverge
    | S fuel =>
      let '(b0, b1, shake) := xread2 X shake in
      let elt := Z.lor (Z.shiftl b0 8) b1 in
      if elt <? 61445 then hash_loop fuel n shake (hashed ++ [wrap16 (Z.rem elt Q)])
      else hash_loop fuel n shake hashed
    end
  else Ok hashed.

(** falcon.go:261-287 *)
Definition hashToPoint (fuel : nat) (message salt : list Z) : res (list Z) :=
  let shake := xnew X in
  let shake := xwrite X shake salt in
  let shake := xwrite X shake message in
  hash_loop fuel 512 shake [].

(** falcon.go:240-253 and 226-255.  float64 is exact on these values, so the
    []float64 result is given by its integer values. *)
Fixpoint priv_hash_loop (fuel : nat) (n : nat) (shake : xst X) (hashed : list Z) : res (list Z) :=
  if Nat.ltb (length hashed) n then
    match fuel with
    | O => Diverge
    | S fuel =>
      let '(b0, b1, shake) := xread2 X shake in
      let k := 65536 / Q in
      let elt := Z.shiftl b0 8 + b1 in
      if elt <? k * Q then priv_hash_loop fuel n shake (hashed ++ [Z.rem elt Q])
      else priv_hash_loop fuel n shake hashed
    end
  else Ok hashed.
Definition priv_hashToPoint (fuel : nat) (sk : PrivateKey) (message salt : list Z) : res (list Z) :=
  let shake := xnew X in
  let shake := xwrite X shake salt in
  let shake := xwrite X shake message in
  priv_hash_loop fuel (Z.to_nat (sk_n sk)) shake [].

(** falcon.go:481: int16 arithmetic throughout. *)
Definition center (s : Z) : Z :=
  wrap16 (Z.rem (wrap16 (s + 6144)) Q - 6144).

(** falcon.go:484-490: one pass of uint32 accumulation. *)
Definition norm_acc (acc : Z) (v : list Z) : Z :=
  fold_left (fun acc v => wrap32u (acc + wrap32u (wrap32u v * wrap32u v))) v acc.

(** falcon.go:444-499.  [signature[1:41]] on a slice is bounded by the capacity,
    but [signature[41:]] on the next line needs len >= 41, so both panic exactly
    when len < 41. *)
Definition Verify (fuel : nat) (pubkey message signature : list Z) : res bool :=
  salt <- slice signature (Z.to_nat HeadLen) (Z.to_nat (HeadLen + SaltLen)) ;;
  encS <- slice signature (Z.to_nat (HeadLen + SaltLen)) (length signature) ;;
  let PubParam := GetParamSet 512 in
  match Decompress encS (wrap16u (p_sigbytelen PubParam - HeadLen - SaltLen)) 512 with
  | Err _ => Ok false
  | Panic => Panic
  | Diverge => Diverge
  | Ok ss1 =>
    let s1 := map wrap16 ss1 in
    hashed <- hashToPoint fuel message salt ;;
    m <- MulZq iw s1 pubkey ;;
    s0 <- SubZq hashed m ;;
    let s0 := map center s0 in
    let normSign := norm_acc (norm_acc 0 s0) s1 in
    if normSign >? p_sigbound PubParam then Ok false else Ok true
  end.

(** falcon.go:512-525, 530-536, 539-545: sum of the 32 bytes of word w. *)
Definition word_sum (wr : Z -> Z) (inputBytes : list Z) (w : nat) (temp : Z) : res Z :=
  fold_left (fun acc k => t <- acc ;; b <- idx inputBytes (w * 32 + k) ;; Ok (wr (t + b)))
            (seq 0 32) (Ok temp).

(** falcon.go:503-591 *)
Definition VerifyBytes (fuel : nat) (inputBytes : list Z) : res bool :=
  h <- mapM (fun j =>
         let i := (2 * j)%nat in
         temp <- word_sum wrap16 inputBytes i 0 ;;
         let temp := wrap16 (Z.shiftl temp 8) in
         word_sum wrap16 inputBytes (i + 1) temp) (seq 0 512) ;;
  message <- mapM (fun i => word_sum wrap8u inputBytes (i + 1024) 0) (seq 0 32) ;;
  signature <- mapM (fun i => word_sum wrap8u inputBytes (i + (1024 + 32)) 0) (seq 0 666) ;;
  r <- slice signature (Z.to_nat HeadLen) (Z.to_nat (HeadLen + SaltLen)) ;;
  s <- slice signature (Z.to_nat (HeadLen + SaltLen)) (length signature) ;;
  let PubParam := GetParamSet 512 in
  match Decompress s (wrap16u (p_sigbytelen PubParam - HeadLen - SaltLen)) 512 with
  | Err _ => Ok false
  | Panic => Panic
  | Diverge => Diverge
  | Ok s2_temp =>
    let s2 := map wrap16 s2_temp in
    c <- hashToPoint fuel message r ;;
    m <- MulZq iw s2 h ;;
    s1 <- SubZq c m ;;
    let s1 := map center s1 in
    let normSign := norm_acc (norm_acc 0 s1) s2 in
    if normSign >? p_sigbound PubParam then Ok false else Ok true
  end.

End Falcon.
