(** Model of the parts of src/util/util.go that no other package calls (or only its
    tests do) and of printTree of src/falcon.go.  (BiggestFloat64 is in KeyGen.v.) *)
From Coq Require Import Ascii String.
From Verif Require Import GoBase Util Float.

(** util.go:19-22.  binary.LittleEndian.Uint64 first evaluates b[7]. *)
Definition UintFromBytes (b : list Z) : res Z :=
  _ <- idx b 7 ;;
  Ok (fold_right (fun x acc => x + 256 * acc) 0 (firstn 8 b)).

(** util.go:30-37.  [draw max] is what crypto/rand.Int returns for this call, or None when the
    reader fails; rand.Int itself panics when max <= 0. *)
Definition RandElement (draw : Z -> option Z) (elements : list Z) : res Z :=
  let max := Z.of_nat (length elements) in
  if max <=? 0 then Panic else
  match draw max with
  | None => Panic
  | Some n => if n <? 0 then Panic else idx elements (Z.to_nat n)
  end.

(** util.go:40-44 *)
Definition RandomFft (FO : floats) (draw : Z -> option Z) : res (F FO) :=
  e <- RandElement draw [-3; -2; -1; 0; 1; 2; 3; 4] ;;
  Ok (f_of_int FO e).

(** util.go:48-51: the nil slice *)
Definition GenerateRandSalt : list Z := [].

(** encoding/hex.EncodeToString: two lower-case digits per byte *)
Definition hex_digit (d : Z) : Z := if d <? 10 then 48 + d else 87 + d.
Definition EncodeToString (b : list Z) : list Z :=
  flat_map (fun x => [hex_digit (x / 16); hex_digit (x mod 16)]) b.

(** util.go:54-62.  [rnd n] is what crypto/rand puts in a slice of n bytes; the error is
    discarded, and the slice then keeps what was read.  make panics on a negative length. *)
Definition RandomHexString (rnd : nat -> list Z) (len : Z) : res (list Z) :=
  if len =? 0 then Ok [] else
  if len <? 0 then Panic else
  Ok (EncodeToString (rnd (Z.to_nat len))).

Section Floats.
Context (FO : floats).

(** util.go:95-103 *)
Definition SmallestFloat64 (f : list (F FO)) : res (F FO) :=
  smallest <- idx f 0 ;;
  Ok (fold_left (fun smallest v => if f_ltb FO v smallest then v else smallest) f smallest).
(** util.go:123-129 *)
Definition ComplexRealToFloat64 (c : list (F FO * F FO)) : list (F FO) := map fst c.
(** util.go:131-137 *)
Definition Float64ToComplexReal (f : list (F FO)) : list (F FO * F FO) := map (fun x => (x, f_of_int FO 0)) f.
(** util.go:139-146 (int8) and 148-155 (int16) *)
Definition IntsToFloat64 (f : list Z) : list (F FO) := map (f_of_int FO) f.
(** util.go:171-177 *)
Definition SubFloat64 (x y : list (F FO)) : res (list (F FO)) :=
  mapM (fun i => a <- idx x i ;; b <- idx y i ;; Ok (f_sub FO a b)) (seq 0 (length x)).
(** util.go:187-193 *)
Definition NegFloat64 (x : list (F FO)) : list (F FO) := map (f_neg FO) x.
(** util.go:220-227.  [to_i16] is int16(x); for a value outside int16 the language leaves it open. *)
Definition Float64ToInt16 (to_i16 : F FO -> Z) (f : list (F FO)) : list Z := map to_i16 f.
End Floats.

(** ** printTree, falcon.go:70-90 *)
(** A value of type any: a []any, or a value of another dynamic type. *)
Inductive any : Type := ASlice (l : list any) | AVal (v : Z).

Definition str (s : string) : list Z := map (fun c => Z.of_nat (nat_of_ascii c)) (list_ascii_of_string s).
(** falcon.go:71-75 *)
Definition pt_leaf : list Z := str "|_____> ".
Definition pt_top : list Z := str "|_______".
Definition pt_son1 : list Z := str "|       ".
Definition pt_son2 : list Z := str "        ".
Definition pt_width : Z := Z.of_nat (length pt_top).
Definition newline : list Z := [10].

Section PrintTree.
(** fmt.Sprint *)
Variable sprint : any -> list Z.

(** prefix[:len(prefix)-width]: panics when the bound is negative *)
Definition cut (prefix : list Z) : res (list Z) :=
  let hi := Z.of_nat (length prefix) - pt_width in
  if hi <? 0 then Panic else Ok (firstn (Z.to_nat hi) prefix).

(** falcon.go:70-90, with [tree] wrapped in ASlice; on another value the type assertion
    tree[1].([]any) or tree[2].([]any) of the caller panics. *)
Fixpoint printAny (t : any) (prefix : list Z) : res (list Z) :=
  match t with
  | AVal _ => Panic
  | ASlice [t0; t1; t2] =>
      head <- (match prefix with
               | [] => Ok (prefix ++ sprint t0 ++ newline)
               | _ => p <- cut prefix ;; Ok (p ++ pt_top ++ sprint t0 ++ newline)
               end) ;;
      o1 <- printAny t1 (prefix ++ pt_son1) ;;
      o2 <- printAny t2 (prefix ++ pt_son2) ;;
      Ok (head ++ o1 ++ o2)
  | ASlice tree => p <- cut prefix ;; Ok (p ++ pt_leaf ++ sprint (ASlice tree) ++ newline)
  end.
Definition printTree (tree : list any) (prefix : list Z) : res (list Z) := printAny (ASlice tree) prefix.
End PrintTree.
