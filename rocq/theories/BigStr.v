(** Model of NewBigIntFromString of src/types/bignum.go.  Strings are lists of bytes. *)
From Verif Require Import GoBase.

(** math/big, Int.SetString with base 0, by its documentation: an optional sign, then an
    optional prefix 0b, 0o, 0x in either case, or 0 for octal, then digits; an underscore may
    stand between two digits or between the prefix and a digit.  The whole string must match. *)
Definition digit (base c : Z) : option Z :=
  let d := if (48 <=? c) && (c <=? 57) then c - 48
           else if (97 <=? c) && (c <=? 122) then c - 87
           else if (65 <=? c) && (c <=? 90) then c - 55 else 99 in
  if d <? base then Some d else None.
(** [sep]: an underscore may come next; [last]: the string may end here *)
Fixpoint digits (base acc : Z) (sep last : bool) (s : list Z) : option Z :=
  match s with
  | [] => if last then Some acc else None
  | c :: s =>
      if c =? 95 then if sep then digits base acc false false s else None
      else match digit base c with
           | Some d => digits base (base * acc + d) true true s
           | None => None
           end
  end.
Definition magnitude (s : list Z) : option Z :=
  match s with
  | [48] => Some 0
  | 48 :: c :: s' =>
      if (c =? 98) || (c =? 66) then digits 2 0 true false s'
      else if (c =? 111) || (c =? 79) then digits 8 0 true false s'
      else if (c =? 120) || (c =? 88) then digits 16 0 true false s'
      else digits 8 0 true true (c :: s')
  | _ => digits 10 0 false false s
  end.
Definition SetString0 (s : list Z) : option Z :=
  match s with
  | 45 :: s' => option_map Z.opp (magnitude s')
  | 43 :: s' => magnitude s'
  | _ => magnitude s
  end.

(** types/bignum.go:9-13.  The second result of SetString is dropped; when it fails the
    documentation leaves the value open, here [undef]. *)
Definition NewBigIntFromString (undef : list Z -> Z) (s : list Z) : Z :=
  match SetString0 s with Some v => v | None => undef s end.
