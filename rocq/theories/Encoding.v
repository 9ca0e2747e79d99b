(** Model of src/internal/encoding.go.  Go strings of '0'/'1' characters are
    lists of booleans ([true] is "1"). *)
From Verif Require Import GoBase.

(** strconv.FormatInt(x, 2) / the digits printed by %b, for x >= 0. *)
Definition format_bin (x : Z) : list bool :=
  if x =? 0 then [false] else
  map (fun i => Z.testbit x (Z.log2 x - Z.of_nat i)) (seq 0 (S (Z.to_nat (Z.log2 x)))).

(** fmt.Sprintf("%09b", x): at least nine digits, zero-padded on the left. *)
Definition sprintf_09b (x : Z) : list bool :=
  let d := format_bin x in repeat false (9 - length d) ++ d.

(** strconv.ParseInt(s, 2, 64) on at most eight digits (the error for the empty
    string is discarded by the callers and the value is then 0). *)
Definition parse_bin (s : list bool) : Z :=
  fold_left (fun acc b => 2 * acc + (if b : bool then 1 else 0)) s 0.

(** encoding.go:33-41, the string s built for one coefficient.  float64 is exact
    on int16 values, so math.Abs, math.Mod and the division are integer
    operations. *)
Definition encode_coef (coef : Z) : list bool :=
  let s := if 0 <=? coef then [false] else [true] in
  let s := s ++ skipn 2 (sprintf_09b (Z.abs coef mod 128)) in
  s ++ repeat false (Z.to_nat (Z.abs coef / 128)) ++ [true].

(** encoding.go:30-59.  [8*slen] is an int product (it wraps).  The second
    conversion loop (54-57) is folded into the first. *)
Definition Compress (v : list Z) (slen : Z) : res (list Z) :=
  let u := fold_left (fun u coef => u ++ encode_coef coef) v [] in
  let total := wrap64 (8 * slen) in
  if Z.of_nat (length u) >? total then Err ErrEncodingTooLong else
  let u := u ++ repeat false (Z.to_nat (total - Z.of_nat (length u))) in
  mapM (fun i => s <- slice u (8 * i) (8 * i + 8) ;; Ok (wrap8u (parse_bin s)))
       (seq 0 (Nat.div (length u) 8)).

(** encoding.go:73-75: drop trailing zeros; [u[len(u)-1:]] panics on "".  The
    loop looks at the end of the string, i.e. at the head of the reversal. *)
Fixpoint strip_rev (u : list bool) : res (list bool) :=
  match u with
  | [] => Panic
  | true :: _ => Ok u
  | false :: u' => strip_rev u'
  end.
Definition trim (u : list bool) : res (list bool) :=
  r <- strip_rev (rev u) ;; Ok (rev r).

(** encoding.go:86-89 and 98 on [u[8:]]: count zeros up to the first one,
    return the count and what follows it; running off the end panics. *)
Fixpoint scan_high (high : Z) (u : list bool) : res (Z * list bool) :=
  match u with
  | [] => Panic
  | true :: rest => Ok (high, rest)
  | false :: rest => scan_high (high + 1) rest
  end.

(** encoding.go:76-99.  Each iteration removes at least nine characters.
    (low + high<<7 cannot overflow: high is at most the number of bits.) *)
Fixpoint decode_loop (fuel : nat) (n : Z) (u : list bool) (v : list Z) : res (list Z) :=
  match fuel with
  | O => Diverge
  | S fuel =>
    match u with
    | [] => Ok v
    | c :: _ =>
      if Z.of_nat (length v) <? n then
        let sign := if c : bool then -1 else 1 in
        ls <- slice u 1 8 ;;
        let low := parse_bin ls in
        hr <- scan_high 0 (skipn 8 u) ;;
        let coef := sign * (low + fst hr * 128) in
        if (coef =? 0) && (sign =? -1) then Err ErrInvalidEncoding
        else decode_loop fuel n (snd hr) (v ++ [coef])
      else Ok v
    end
  end.

(** encoding.go:64-105.  [256^int64(elt)] is exclusive or. *)
Definition Decompress (x : list Z) (slen n : Z) : res (list Z) :=
  if Z.of_nat (length x) >? slen then Err ErrInvalidEncoding else
  let u := fold_left (fun u elt => u ++ skipn 1 (format_bin (Z.lxor 256 elt))) x [] in
  u <- trim u ;;
  v <- decode_loop (S (length u)) n u [] ;;
  if negb (Z.of_nat (length v) =? n) then Err ErrInvalidEncoding else Ok v.
