(** Property theorems about the helpers of src/util (C54, C55, C57). *)
From Verif Require Import GoBase Util Spec BaseProofs UtilProofs.

(** C54; [A] is int16 or float64 *)
Theorem C54_merge_split : forall (A : Type) (f : list A), Nat.even (length f) = true ->
  (p <- SplitPolys f ;; MergePolys (fst p) (snd p)) = Ok f.
Proof. exact (fun A f => Merge_Split f). Qed.
Print Assumptions C54_merge_split.
Theorem C54_split_merge : forall (A : Type) (f0 f1 : list A), length f0 = length f1 ->
  (f <- MergePolys f0 f1 ;; SplitPolys f) = Ok (f0, f1).
Proof. exact (fun A f0 f1 => Split_Merge f0 f1). Qed.
Print Assumptions C54_split_merge.
(** the remaining inputs: Split never fails, Merge fails exactly when f1 is shorter *)
Theorem C54_totality : forall (A : Type) (f f0 f1 : list A),
  (exists p, SplitPolys f = Ok p) /\ (MergePolys f0 f1 = Panic <-> (length f1 < length f0)%nat).
Proof. exact (fun A f f0 f1 => conj (Split_total f) (Merge_panic f0 f1)). Qed.
Print Assumptions C54_totality.
Example C54_nonvacuous : SplitPolys [1; 2; 3; 4] = Ok ([1; 3], [2; 4]) /\ MergePolys [1; 3] [2; 4] = Ok [1; 2; 3; 4].
Proof. split; reflexivity. Qed.

(** C55 *)
Theorem C55_pmod : forall x b, b <> 0 ->
  exists r, Pmod x b = Ok r /\ 0 <= r < Z.abs b /\ (exists k, x = k * b + r) /\
  forall r', 0 <= r' < Z.abs b -> (exists k, x = k * b + r') -> r' = r.
Proof. exact Pmod_spec. Qed.
Print Assumptions C55_pmod.
Theorem C55_pmod_zero : forall x, Pmod x 0 = Panic.
Proof. exact Pmod_zero. Qed.
Print Assumptions C55_pmod_zero.
Example C55_nonvacuous : Pmod (-7) 5 = Ok 3 /\ Pmod (-7) (-5) = Ok 3 /\ Pmod 7 (-5) = Ok 2.
Proof. repeat split. Qed.

(** C57 *)
Theorem C57_max : forall l m, Max l = Ok m <-> (In m l /\ forall x, In x l -> x <= m).
Proof. exact Max_iff. Qed.
Print Assumptions C57_max.
Theorem C57_max_big : forall l m, MaxFromBigInt l = Ok m <-> (In m l /\ forall x, In x l -> x <= m).
Proof. exact MaxBig_iff. Qed.
Print Assumptions C57_max_big.
Theorem C57_min_big : forall l m, MinFromBigInt l = Ok m <-> (In m l /\ forall x, In x l -> m <= x).
Proof. exact MinBig_iff. Qed.
Print Assumptions C57_min_big.
Theorem C57_panics : forall l,
  (Max l = Panic <-> l = []) /\ (MaxFromBigInt l = Panic <-> l = []) /\ (MinFromBigInt l = Panic <-> l = []).
Proof. exact extrema_panic. Qed.
Print Assumptions C57_panics.
Theorem C57_cmp : forall x y, CmpMinFromBigInt x y = Z.min x y /\ CmpMaxFromBigInt x y = Z.max x y /\
  (CmpBigInt x y = true <-> x = y).
Proof. exact cmp_spec. Qed.
Print Assumptions C57_cmp.
Theorem C57_zeroes : forall l, (AllZeroes l = true <-> Forall (fun x => x = 0) l) /\
  (AnyZeroes l = true <-> Exists (fun x => x = 0) l).
Proof. exact (fun l => conj (AllZeroes_spec l) (AnyZeroes_spec l)). Qed.
Print Assumptions C57_zeroes.
Theorem C57_equal : forall a b, exists r, BigIntSliceEqual a b = Ok r /\ (r = true <-> a = b).
Proof. exact BigIntSliceEqual_spec. Qed.
Print Assumptions C57_equal.
Example C57_nonvacuous : Max [3; 9; -4] = Ok 9 /\ MinFromBigInt [3; 9; -4] = Ok (-4) /\
  AllZeroes [0; 0] = true /\ AnyZeroes [1; 0] = true /\ BigIntSliceEqual [1; 2] [1; 3] = Ok false.
Proof. repeat split. Qed.
