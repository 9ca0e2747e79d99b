(** Base vocabulary used by the model: results of Go calls, slices, machine
    integers.  Nothing here is specific to falconGo. *)
From Coq Require Export List ZArith Bool Lia.
From Coq Require Export ZifyBool.
Export ListNotations.
#[export] Set Warnings "-notation-overridden".
Open Scope Z_scope.

(** The sentinel errors of the repository:
    falcon.go:16-21, encoding.go:17-20, ntt.go:29-31, ntrugen.go:17-19. *)
Inductive goerr : Set :=
| ErrInvalidDegree
| ErrInvalidPolysLength
| ErrEncodingTooLong
| ErrInvalidEncoding
| ErrDivByZero
| ErrEquation.

(** Outcome of a Go call.
    [Ok a]     the call returns [a] (and a nil error, if it has an error result);
    [Err e]    the call returns the zero value and the error [e];
    [Panic]    the call panics (index/slice out of range, explicit panic, ...);
    [Diverge]  the fuel given to the model of an unbounded loop ran out. *)
Inductive res (A : Type) : Type :=
| Ok (a : A)
| Err (e : goerr)
| Panic
| Diverge.
Arguments Ok {A} a.
Arguments Err {A} e.
Arguments Panic {A}.
Arguments Diverge {A}.

Definition bind {A B} (x : res A) (f : A -> res B) : res B :=
  match x with
  | Ok a => f a
  | Err e => Err e
  | Panic => Panic
  | Diverge => Diverge
  end.
Notation "x <- m ;; k" := (bind m (fun x => k))
  (at level 61, m at next level, right associativity).

(** [s[i]] for a slice or array: panics when out of range. *)
Definition idx {A} (l : list A) (i : nat) : res A :=
  match nth_error l i with Some a => Ok a | None => Panic end.

(** [s[lo:hi]] for a string: panics unless lo <= hi <= len(s). *)
Definition slice {A} (l : list A) (lo hi : nat) : res (list A) :=
  if Nat.leb lo hi && Nat.leb hi (length l)
  then Ok (firstn (hi - lo) (skipn lo l)) else Panic.

(** A counted loop that computes one value per iteration, in order. *)
Fixpoint mapM {A B} (f : A -> res B) (l : list A) : res (list B) :=
  match l with
  | [] => Ok []
  | a :: l' => b <- f a ;; bs <- mapM f l' ;; Ok (b :: bs)
  end.

(** Two's-complement conversion to a signed / unsigned w-bit integer. *)
Definition wrap (w : Z) (z : Z) : Z :=
  (z + 2 ^ (w - 1)) mod 2 ^ w - 2 ^ (w - 1).
Definition wrapu (w : Z) (z : Z) : Z := z mod 2 ^ w.

Definition wrap8  : Z -> Z := wrap 8.
Definition wrap16 : Z -> Z := wrap 16.
Definition wrap32 : Z -> Z := wrap 32.
Definition wrap64 : Z -> Z := wrap 64.
Definition wrap8u  : Z -> Z := wrapu 8.
Definition wrap16u : Z -> Z := wrapu 16.
Definition wrap32u : Z -> Z := wrapu 32.
Definition wrap64u : Z -> Z := wrapu 64.

(** Range predicates for typed inputs. *)
Definition is_int16 (z : Z) : Prop := -32768 <= z <= 32767.
Definition is_byte  (z : Z) : Prop := 0 <= z <= 255.
Definition is_int64 (z : Z) : Prop := - 2 ^ 63 <= z < 2 ^ 63.
Definition int16s (l : list Z) : Prop := Forall is_int16 l.
Definition bytes  (l : list Z) : Prop := Forall is_byte l.

(** The modulus of the scheme; util.go:17. *)
Definition Q : Z := 12289.
