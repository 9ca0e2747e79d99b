(** Property theorems about the remaining helpers of src/util and about printTree (C62-C67). *)
From Coq Require Import Reals String.
From Flocq Require Import Core BinarySingleNaN.
From Verif Require Import GoBase Util Float Binary64 KeyGen UtilRest Spec BaseProofs UtilRestProofs Witness.
Open Scope string_scope.
Open Scope list_scope.
Open Scope Z_scope.

(** C62: false for slices that start with NaN.  Full statement: on a non-empty slice
    SmallestFloat64 (BiggestFloat64) returns an element that is not NaN, unless all are, and is
    <= (>=) every element that is not NaN.  [bval] is the value, infinities included. *)
Theorem C62_extrema_partial : forall ci cu x l, is_nan x = false ->
  (exists r, SmallestFloat64 (binary64 ci cu) (x :: l) = Ok r /\ In r (x :: l) /\ is_nan r = false /\
    forall y, In y (x :: l) -> is_nan y = false -> (bval r <= bval y)%R) /\
  (exists r, BiggestFloat64 (binary64 ci cu) (x :: l) = Ok r /\ In r (x :: l) /\ is_nan r = false /\
    forall y, In y (x :: l) -> is_nan y = false -> (bval y <= bval r)%R).
Proof. exact (fun ci cu x l H => conj (Smallest_spec ci cu x l H) (Biggest_spec ci cu x l H)). Qed.
Print Assumptions C62_extrema_partial.
(** a leading NaN is returned whatever follows *)
Theorem C62_leading_nan : forall ci cu x l, is_nan x = true ->
  SmallestFloat64 (binary64 ci cu) (x :: l) = Ok x /\ BiggestFloat64 (binary64 ci cu) (x :: l) = Ok x.
Proof. exact extrema_nan. Qed.
Print Assumptions C62_leading_nan.
Theorem C62_extrema_refuted : exists l x y r, In x l /\ In y l /\ is_nan x = false /\ is_nan y = false /\
  Bltb x y = true /\
  forall ci cu, SmallestFloat64 (binary64 ci cu) l = Ok r /\ BiggestFloat64 (binary64 ci cu) l = Ok r /\ is_nan r = true.
Proof.
  exists [B754_nan; b_of_int 1; b_of_int 2], (b_of_int 1), (b_of_int 2), B754_nan.
  split; [right; left; reflexivity|]. split; [right; right; left; reflexivity|].
  split; [reflexivity|]. split; [reflexivity|]. split; [reflexivity|].
  intros ci cu. destruct (extrema_nan ci cu B754_nan [b_of_int 1; b_of_int 2] eq_refl). auto.
Qed.
Print Assumptions C62_extrema_refuted.
Theorem C62_panics : forall ci cu l,
  (SmallestFloat64 (binary64 ci cu) l = Panic <-> l = []) /\ (BiggestFloat64 (binary64 ci cu) l = Panic <-> l = []).
Proof. exact extrema_panic64. Qed.
Print Assumptions C62_panics.
Example C62_nonvacuous : is_nan (b_of_int 3) = false /\
  SmallestFloat64 (binary64 (fun _ => 0) (fun _ => 0)) [b_of_int 3; B754_nan; b_of_int (-4); B754_infinity false] = Ok (b_of_int (-4)) /\
  BiggestFloat64 (binary64 (fun _ => 0) (fun _ => 0)) [b_of_int 3; B754_nan; b_of_int (-4); B754_infinity false] = Ok (B754_infinity false).
Proof. repeat split. Qed.

(** C63: false.  Full statement: SquareInt16, NegInt16 and SubInt16 compute the integer square,
    negation and difference.  Exactly when they do: *)
Theorem C63_int16_refuted : (exists x, is_int16 x /\ SquareInt16 x <> x * x) /\
  (exists l, int16s l /\ NegInt16 l <> map Z.opp l) /\
  (exists x y r, int16s x /\ int16s y /\ SubInt16 x y = Ok r /\ nth 0 r 0 <> nth 0 x 0 - nth 0 y 0).
Proof.
  split; [exists 182; split; [unfold is_int16; lia|discriminate]|].
  split; [exists [-32768]; split; [apply int16s_dec; reflexivity|discriminate]|].
  exists [32767], [-1], [-32768]. repeat split; try (apply int16s_dec; reflexivity). discriminate.
Qed.
Print Assumptions C63_int16_refuted.
Theorem C63_square_exact : forall x, SquareInt16 x = x * x <-> -181 <= x <= 181.
Proof. exact Square_exact. Qed.
Print Assumptions C63_square_exact.
Theorem C63_neg_exact : forall l, int16s l -> NegInt16 l = map Z.opp l <-> ~ In (-32768) l.
Proof. exact Neg_exact. Qed.
Print Assumptions C63_neg_exact.
Theorem C63_sub_exact : forall x y, (List.length x <= List.length y)%nat ->
  exists r, SubInt16 x y = Ok r /\ List.length r = List.length x /\
    forall i, (i < List.length x)%nat -> (nth i r 0 = nth i x 0 - nth i y 0 <-> is_int16 (nth i x 0 - nth i y 0)).
Proof. exact Sub_exact. Qed.
Print Assumptions C63_sub_exact.
Theorem C63_sub_panics : forall x y, SubInt16 x y = Panic <-> (List.length y < List.length x)%nat.
Proof. exact Sub_panic. Qed.
Print Assumptions C63_sub_panics.
Example C63_nonvacuous : SquareInt16 (-181) = 32761 /\ NegInt16 [5; -32767] = [-5; 32767] /\
  SubInt16 [5; 32767] [7; 1; 9] = Ok [-2; 32766].
Proof. repeat split. Qed.

(** C64: false.  Full statement: GenerateRandSalt returns 40 bytes and RandomHexString(n) a string
    of n hexadecimal digits.  The salt is nil, and the string has 2n digits. *)
Theorem C64_salt_refuted : List.length GenerateRandSalt <> 40%nat.
Proof. discriminate. Qed.
Print Assumptions C64_salt_refuted.
Theorem C64_hex_length : forall rnd n s, (forall k, List.length (rnd k) = k) -> 0 <= n ->
  RandomHexString rnd n = Ok s -> Z.of_nat (List.length s) = 2 * n.
Proof.
  intros rnd n s Hr Hn. unfold RandomHexString. destruct (Z.eqb_spec n 0) as [->|]; [intros [= <-]; reflexivity|].
  destruct (Z.ltb_spec n 0); [lia|]. intros [= <-]. rewrite EncodeToString_length, Hr. lia.
Qed.
Print Assumptions C64_hex_length.
Theorem C64_hex_panics : forall rnd n, RandomHexString rnd n = Panic <-> n < 0.
Proof.
  intros rnd n. unfold RandomHexString. destruct (Z.eqb_spec n 0); [split; [discriminate|lia]|].
  destruct (Z.ltb_spec n 0); split; intros; (reflexivity || discriminate || lia || assumption).
Qed.
Print Assumptions C64_hex_panics.
Example C64_nonvacuous : RandomHexString (fun k => repeat 175 k) 3 = Ok [97; 102; 97; 102; 97; 102] /\
  forall k, List.length (repeat 175 k) = k.
Proof. split; [reflexivity|]. intros k. apply repeat_length. Qed.

(** C65.  [draw m] is the result of crypto/rand.Int, which is in [0, m). *)
Theorem C65_rand_element : forall draw l, (forall m n, draw m = Some n -> 0 <= n < m) -> l <> [] ->
  draw (Z.of_nat (List.length l)) <> None ->
  exists n, draw (Z.of_nat (List.length l)) = Some n /\ RandElement draw l = Ok (nth (Z.to_nat n) l 0) /\
    0 <= n < Z.of_nat (List.length l).
Proof. exact RandElement_spec. Qed.
Print Assumptions C65_rand_element.
(** RandomFft is the draw shifted by 3, so uniform on [-3, 4] when the draw is uniform *)
Theorem C65_random_fft : forall FO draw n, draw 8 = Some n -> 0 <= n < 8 ->
  RandomFft FO draw = Ok (f_of_int FO (n - 3)).
Proof.
  intros FO draw n E H. unfold RandomFft, RandElement. cbv zeta.
  change (Z.of_nat (List.length [-3; -2; -1; 0; 1; 2; 3; 4])) with 8. change (8 <=? 0) with false. cbv iota. rewrite E.
  destruct (Z.ltb_spec n 0); [lia|].
  assert (C : n = 0 \/ n = 1 \/ n = 2 \/ n = 3 \/ n = 4 \/ n = 5 \/ n = 6 \/ n = 7) by lia.
  repeat (destruct C as [->|C]; [reflexivity|]). subst. reflexivity.
Qed.
Print Assumptions C65_random_fft.
Example C65_nonvacuous : RandElement (fun m => Some (m - 1)) [5; 6; 7] = Ok 7 /\ RandElement (fun _ => Some 0) [] = Panic.
Proof. split; reflexivity. Qed.

(** C66.  [nodes] lists the nodes in preorder with their paths, [line] is the line of one node. *)
Theorem C66_print_tree : forall sprint tree,
  printTree sprint tree [] =
    if Nat.eqb (List.length tree) 3 && wf_tree (ASlice tree)
    then Ok (flat_map (line sprint) (nodes (ASlice tree) [])) else Panic.
Proof. exact printTree_ok. Qed.
Print Assumptions C66_print_tree.
(** never panics: false, for a tree that is a single leaf *)
Theorem C66_no_panic_refuted : forall sprint, exists tree, wf_tree (ASlice tree) = true /\ printTree sprint tree [] = Panic.
Proof. intros sprint. exists [AVal 1; AVal 2]. split; reflexivity. Qed.
Print Assumptions C66_no_panic_refuted.
Example C66_nonvacuous :
  printTree (fun _ => [42]) [AVal 1; ASlice [AVal 2; ASlice []; ASlice []]; ASlice [AVal 3]] [] =
  Ok (str "*" ++ newline ++ str "|_______*" ++ newline ++ str "|       |_____> *" ++ newline ++
      str "|       |_____> *" ++ newline ++ str "|_____> *" ++ newline).
Proof. vm_compute. reflexivity. Qed.

(** C67 *)
Theorem C67_uint : forall b, (8 <= List.length b)%nat ->
  UintFromBytes b = Ok (sumn 8 (fun i => nth i b 0 * 256 ^ Z.of_nat i)).
Proof.
  intros b H. rewrite UintFromBytes_ok by assumption. f_equal.
  do 8 (destruct b as [|? b]; [cbn in H; lia|]). cbn [firstn fold_right sumn nth].
  change (256 ^ Z.of_nat 0) with 1. change (256 ^ Z.of_nat 1) with 256. change (256 ^ Z.of_nat 2) with (256 ^ 2).
  change (256 ^ Z.of_nat 3) with (256 ^ 3). change (256 ^ Z.of_nat 4) with (256 ^ 4).
  change (256 ^ Z.of_nat 5) with (256 ^ 5). change (256 ^ Z.of_nat 6) with (256 ^ 6). change (256 ^ Z.of_nat 7) with (256 ^ 7). lia.
Qed.
Print Assumptions C67_uint.
Theorem C67_uint_panics : forall b, UintFromBytes b = Panic <-> (List.length b < 8)%nat.
Proof. exact UintFromBytes_panic. Qed.
Print Assumptions C67_uint_panics.
(** int16(x) truncates when the result fits, whatever the platform does otherwise *)
Theorem C67_truncates : forall oor x, is_finite x = true -> is_int16 (Ztrunc (B2R x)) ->
  b_to_i16 oor x = Ztrunc (B2R x).
Proof. exact to_i16_trunc. Qed.
Print Assumptions C67_truncates.
Theorem C67_roundtrip : forall oor ci cu l, int16s l ->
  Float64ToInt16 (binary64 ci cu) (b_to_i16 oor) (IntsToFloat64 (binary64 ci cu) l) = l.
Proof. exact roundtrip16. Qed.
Print Assumptions C67_roundtrip.
Theorem C67_complex : forall FO f, ComplexRealToFloat64 FO (Float64ToComplexReal FO f) = f.
Proof. exact complex_roundtrip. Qed.
Print Assumptions C67_complex.
(** the parts of the results, element by element *)
Theorem C67_parts : forall FO f c k,
  nth_error (Float64ToComplexReal FO f) k = option_map (fun x => (x, f_of_int FO 0)) (nth_error f k) /\
  nth_error (ComplexRealToFloat64 FO c) k = option_map fst (nth_error c k).
Proof. intros FO f c k. split; apply nth_error_map. Qed.
Print Assumptions C67_parts.
Example C67_nonvacuous : UintFromBytes [1; 2; 0; 0; 0; 0; 0; 1; 77] = Ok (513 + 2 ^ 56) /\
  b_to_i16 (fun _ => 7) (b_of_int (-32768)) = -32768 /\ b_to_i16 (fun _ => 7) (b_of_int 32768) = 7.
Proof. split; [reflexivity|]. split; vm_compute; reflexivity. Qed.
