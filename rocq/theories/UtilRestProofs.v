(** Lemmas about UtilRest.v. *)
From Coq Require Import Reals Lra.
From Flocq Require Import Core BinarySingleNaN.
From Verif Require Import GoBase Util Float Binary64 KeyGen UtilRest BaseProofs B64Proofs.
Open Scope Z_scope.

(** ** the order of binary64 values that are not NaN *)
Definition bval (x : b64) : R :=
  match x with
  | B754_infinity s => if s then (- bpow radix2 1024)%R else bpow radix2 1024
  | _ => B2R x
  end.

Lemma bval_finite (x : b64) : is_finite x = true -> bval x = B2R x /\ (Rabs (B2R x) < bpow radix2 1024)%R.
Proof.
  intros H. split; [destruct x; (reflexivity || discriminate)|]. apply abs_B2R_lt_emax.
Qed.

Lemma Bltb_val (x y : b64) : is_nan x = false -> is_nan y = false ->
  Bltb x y = true <-> (bval x < bval y)%R.
Proof.
  intros Hx Hy.
  assert (Hpos : (0 < bpow radix2 1024)%R) by apply bpow_gt_0.
  destruct (is_finite x) eqn:Fx, (is_finite y) eqn:Fy.
  - destruct (bval_finite x Fx) as [-> _]. destruct (bval_finite y Fy) as [-> _].
    rewrite Bltb_correct by assumption. destruct (Rlt_bool_spec (B2R x) (B2R y)); split; intros; try lra; discriminate.
  - destruct (bval_finite x Fx) as [-> Bx]. apply Rabs_lt_inv in Bx.
    destruct y as [|s| |]; try discriminate.
    assert (E : Bltb x (B754_infinity s) = negb s) by (destruct x as [[]|[]| |[]], s; try discriminate; reflexivity).
    rewrite E. unfold bval. destruct s; split; intros; try reflexivity; try discriminate; lra.
  - destruct (bval_finite y Fy) as [-> By]. apply Rabs_lt_inv in By.
    destruct x as [|s| |]; try discriminate.
    assert (E : Bltb (B754_infinity s) y = s) by (destruct y as [[]|[]| |[]], s; try discriminate; reflexivity).
    rewrite E. unfold bval. destruct s; split; intros; try reflexivity; try discriminate; lra.
  - destruct x as [|sx| |]; try discriminate. destruct y as [|sy| |]; try discriminate.
    assert (E : Bltb (B754_infinity sx : b64) (B754_infinity sy) = sx && negb sy) by (destruct sx, sy; reflexivity).
    rewrite E. unfold bval. destruct sx, sy; split; intros; try reflexivity; try discriminate; lra.
Qed.

Lemma Bltb_nan_l (x y : b64) : is_nan x = true -> Bltb x y = false.
Proof. destruct x; try discriminate. reflexivity. Qed.
Lemma Bltb_nan_r (x y : b64) : is_nan y = true -> Bltb x y = false.
Proof. destruct y; try discriminate. destruct x as [|[]| |]; reflexivity. Qed.

Section Extrema.
Variables ci cu : b64 -> Z.
Notation B := (binary64 ci cu).

(** [less] is the comparison that replaces the current value *)
Lemma fold_pick (less : b64 -> b64 -> bool) (le : b64 -> b64 -> Prop) (l : list b64) : forall m,
  (forall x, le x x) -> (forall x y z, is_nan x = false -> is_nan y = false -> is_nan z = false -> le x y -> le y z -> le x z) ->
  (forall x y, is_nan x = false -> is_nan y = false -> if less x y then le x y else le y x) ->
  (forall x y, is_nan x = true -> less x y = false) ->
  is_nan m = false ->
  let r := fold_left (fun m v => if less v m then v else m) l m in
  (r = m \/ In r l) /\ is_nan r = false /\ le r m /\ forall x, In x l -> is_nan x = false -> le r x.
Proof.
  induction l as [|a l IH]; intros m Hr Ht Hc Hn Hm; cbn [fold_left].
  - split; [left; reflexivity|]. split; [assumption|]. split; [apply Hr|]. intros x [].
  - assert (Hm' : is_nan (if less a m then a else m) = false).
    { destruct (less a m) eqn:E; [|assumption]. destruct (is_nan a) eqn:Ea; [|reflexivity].
      rewrite (Hn a m Ea) in E. discriminate. }
    destruct (IH _ Hr Ht Hc Hn Hm') as [I1 [I2 [I3 I4]]]. set (r := fold_left _ _ _) in *.
    destruct (is_nan a) eqn:Ea.
    + rewrite (Hn a m Ea) in *. split; [destruct I1; [left; assumption|right; right; assumption]|].
      split; [assumption|]. split; [assumption|]. intros x [->|Hx] Nx; [congruence|apply I4; assumption].
    + specialize (Hc a m Ea Hm). destruct (less a m).
      * split; [right; destruct I1; [left; congruence|right; assumption]|]. split; [assumption|].
        split; [apply (Ht r a m); assumption|]. intros x [->|Hx] Nx; [assumption|apply I4; assumption].
      * split; [destruct I1; [left; assumption|right; right; assumption]|]. split; [assumption|].
        split; [assumption|]. intros x [->|Hx] Nx; [apply (Ht r m x); assumption|apply I4; assumption].
Qed.

Lemma fold_nan (less : b64 -> b64 -> bool) l m :
  (forall x, less x m = false) -> fold_left (fun m v => if less v m then v else m) l m = m.
Proof. intros H. induction l as [|a l IH]; [reflexivity|]. cbn [fold_left]. rewrite H. exact IH. Qed.

Lemma Smallest_spec x l : is_nan x = false ->
  exists r, SmallestFloat64 B (x :: l) = Ok r /\ In r (x :: l) /\ is_nan r = false /\
    forall y, In y (x :: l) -> is_nan y = false -> (bval r <= bval y)%R.
Proof.
  intros Hx. refine (ex_intro _ (fold_left (fun m v : b64 => if Bltb v m then v else m) (x :: l) x) (conj eq_refl _)).
  pose proof (fold_pick (fun v m => Bltb v m) (fun a b => (bval a <= bval b)%R) (x :: l) x) as P. cbn zeta in P.
  destruct P as [P1 [P2 [_ P4]]].
  - intros; lra.
  - intros; lra.
  - intros a b Ha Hb. destruct (Bltb a b) eqn:E.
    + apply Bltb_val in E; try assumption. lra.
    + destruct (Rlt_dec (bval a) (bval b)) as [H|H]; [apply Bltb_val in H; try assumption; congruence|lra].
  - intros a b Ha. apply Bltb_nan_l, Ha.
  - assumption.
  - split; [destruct P1 as [->|]; [left; reflexivity|assumption]|]. split; assumption.
Qed.
Lemma Biggest_spec x l : is_nan x = false ->
  exists r, KeyGen.BiggestFloat64 B (x :: l) = Ok r /\ In r (x :: l) /\ is_nan r = false /\
    forall y, In y (x :: l) -> is_nan y = false -> (bval y <= bval r)%R.
Proof.
  intros Hx. refine (ex_intro _ (fold_left (fun m v : b64 => if Bltb m v then v else m) (x :: l) x) (conj eq_refl _)).
  pose proof (fold_pick (fun v m => Bltb m v) (fun a b => (bval b <= bval a)%R) (x :: l) x) as P. cbn zeta in P.
  destruct P as [P1 [P2 [_ P4]]].
  - intros; lra.
  - intros; lra.
  - intros a b Ha Hb. destruct (Bltb b a) eqn:E.
    + apply Bltb_val in E; try assumption. lra.
    + destruct (Rlt_dec (bval b) (bval a)) as [H|H]; [apply Bltb_val in H; try assumption; congruence|lra].
  - intros a b Ha. apply Bltb_nan_r, Ha.
  - assumption.
  - split; [destruct P1 as [->|]; [left; reflexivity|assumption]|]. split; assumption.
Qed.
Lemma extrema_nan x l : is_nan x = true ->
  SmallestFloat64 B (x :: l) = Ok x /\ KeyGen.BiggestFloat64 B (x :: l) = Ok x.
Proof.
  intros H. split.
  - unfold SmallestFloat64. cbn [idx nth_error bind]. f_equal.
    apply (fold_nan (fun v m => Bltb v m)). intros y. apply Bltb_nan_r, H.
  - unfold KeyGen.BiggestFloat64. cbn [idx nth_error bind]. f_equal.
    apply (fold_nan (fun v m => Bltb m v)). intros y. apply Bltb_nan_l, H.
Qed.
Lemma extrema_panic64 l : (SmallestFloat64 B l = Panic <-> l = []) /\ (KeyGen.BiggestFloat64 B l = Panic <-> l = []).
Proof. destruct l; split; split; intros; (reflexivity || discriminate). Qed.
End Extrema.

(** ** int16 arithmetic *)
Lemma wrap16_iff z : wrap16 z = z <-> is_int16 z.
Proof. split; [intros <-; apply wrap16_int16|apply wrap16_id]. Qed.

Lemma Square_exact x : SquareInt16 x = x * x <-> -181 <= x <= 181.
Proof. unfold SquareInt16. rewrite wrap16_iff. unfold is_int16. split; intros H; nia. Qed.

Lemma Neg_exact l : int16s l -> NegInt16 l = map Z.opp l <-> ~ In (-32768) l.
Proof.
  intros H. unfold NegInt16. split.
  - intros E Hi. assert (X : wrap16 (- (-32768)) = - (-32768)); [|discriminate X].
    revert E Hi. clear H. induction l as [|a l IH]; intros E []; cbn in E; injection E as E1 E2; [subst; assumption|auto].
  - intros Hi. apply map_ext_in. intros a Ha. apply wrap16_iff. unfold int16s in H. rewrite Forall_forall in H.
    specialize (H a Ha). unfold is_int16 in *. assert (a <> -32768) by congruence. lia.
Qed.

Lemma Sub_exact x y : (length x <= length y)%nat ->
  exists r, SubInt16 x y = Ok r /\ length r = length x /\
    forall i, (i < length x)%nat -> (nth i r 0 = nth i x 0 - nth i y 0 <-> is_int16 (nth i x 0 - nth i y 0)).
Proof.
  intros H. unfold SubInt16.
  rewrite (mapM_Ok _ (fun i => wrap16 (nth i x 0 - nth i y 0))).
  - eexists. split; [reflexivity|]. rewrite map_length, seq_length. split; [reflexivity|].
    intros i Hi. rewrite nth_map_seq by assumption. apply wrap16_iff.
  - intros i Hi. apply in_seq in Hi. rewrite !(idx_nth _ _ 0) by lia. reflexivity.
Qed.
Lemma Sub_panic x y : SubInt16 x y = Panic <-> (length y < length x)%nat.
Proof.
  split.
  - intros E. destruct (Nat.lt_ge_cases (length y) (length x)) as [H|H]; [assumption|].
    destruct (Sub_exact x y H) as [r [E' _]]. congruence.
  - intros H. unfold SubInt16.
    replace (length x) with (length y + S (length x - length y - 1))%nat by lia.
    rewrite seq_app. cbn [seq]. apply mapM_panic_at.
    + intros i Hi. apply in_seq in Hi. rewrite !(idx_nth _ _ 0) by lia. eexists. reflexivity.
    + rewrite Nat.add_0_l, (idx_nth x _ 0) by lia. cbn [bind]. unfold idx.
      rewrite (proj2 (nth_error_None y (length y))) by lia. reflexivity.
Qed.

(** ** bytes and randomness *)
Lemma UintFromBytes_ok b : (8 <= length b)%nat ->
  UintFromBytes b = Ok (fold_right (fun x acc => x + 256 * acc) 0 (firstn 8 b)).
Proof. intros H. unfold UintFromBytes. rewrite (idx_nth _ _ 0) by lia. reflexivity. Qed.
Lemma UintFromBytes_panic b : UintFromBytes b = Panic <-> (length b < 8)%nat.
Proof.
  split.
  - intros E. destruct (Nat.lt_ge_cases (length b) 8) as [H|H]; [assumption|].
    rewrite UintFromBytes_ok in E by assumption. discriminate.
  - intros H. unfold UintFromBytes, idx. rewrite (proj2 (nth_error_None b 7)) by lia. reflexivity.
Qed.

Lemma RandElement_spec draw l : (forall m n, draw m = Some n -> 0 <= n < m) -> l <> [] ->
  draw (Z.of_nat (length l)) <> None ->
  exists n, draw (Z.of_nat (length l)) = Some n /\ RandElement draw l = Ok (nth (Z.to_nat n) l 0) /\ 0 <= n < Z.of_nat (length l).
Proof.
  intros Hd Hl Hn. destruct (draw (Z.of_nat (length l))) as [n|] eqn:E; [|congruence].
  pose proof (Hd _ _ E) as Hr. exists n. split; [reflexivity|]. split; [|assumption].
  unfold RandElement. destruct (Z.leb_spec (Z.of_nat (length l)) 0); [lia|]. rewrite E.
  destruct (Z.ltb_spec n 0); [lia|]. apply idx_nth. lia.
Qed.

Lemma EncodeToString_length b : length (EncodeToString b) = (2 * length b)%nat.
Proof. unfold EncodeToString. induction b as [|x b IH]; [reflexivity|]. cbn [flat_map app length]. rewrite IH. lia. Qed.

(** ** printTree *)
Section Tree.
Variable sprint : any -> list Z.
Definition col (right : bool) : list Z := if right then pt_son2 else pt_son1.

(** Every node in preorder, with the path from the root (false: first child), whether it is an
    inner node, and the value shown. *)
Fixpoint nodes (t : any) (path : list bool) : list (list bool * bool * any) :=
  match t with
  | ASlice [t0; t1; t2] => (path, true, t0) :: nodes t1 (path ++ [false]) ++ nodes t2 (path ++ [true])
  | _ => [(path, false, t)]
  end.
Definition line (n : list bool * bool * any) : list Z :=
  let '(path, inner, v) := n in
  match path with
  | [] => []
  | _ => flat_map col (removelast path) ++ (if inner then pt_top else pt_leaf)
  end ++ sprint v ++ newline.

(** every slice of three has slices as its last two elements, and so on below *)
Fixpoint wf_tree (t : any) : bool :=
  match t with
  | AVal _ => false
  | ASlice [_; t1; t2] => wf_tree t1 && wf_tree t2
  | ASlice _ => true
  end.

Lemma col_length b : length (col b) = 8%nat.
Proof. destruct b; reflexivity. Qed.
Lemma cols_length p : length (flat_map col p) = (8 * length p)%nat.
Proof. induction p as [|b p IH]; [reflexivity|]. cbn [flat_map length]. rewrite app_length, col_length, IH. lia. Qed.

Lemma cut_cols p : p <> [] -> cut (flat_map col p) = Ok (flat_map col (removelast p)).
Proof.
  intros H. rewrite (app_removelast_last false H) at 1.
  rewrite flat_map_app. cbn [flat_map]. rewrite app_nil_r.
  unfold cut. rewrite app_length, col_length. change pt_width with 8.
  destruct (Z.ltb_spec (Z.of_nat (length (flat_map col (removelast p)) + 8) - 8) 0); [lia|].
  replace (Z.to_nat _) with (length (flat_map col (removelast p))) by lia.
  rewrite firstn_app, Nat.sub_diag, firstn_all. cbn [firstn]. rewrite app_nil_r. reflexivity.
Qed.
Lemma cols_nil p : p <> [] -> exists z l, flat_map col p = z :: l.
Proof. destruct p as [|b p]; [congruence|]. intros _. destruct b; eexists; eexists; reflexivity. Qed.

Lemma flat_snoc p b : flat_map col (p ++ [b]) = flat_map col p ++ col b.
Proof. rewrite flat_map_app. cbn [flat_map]. rewrite app_nil_r. reflexivity. Qed.
Lemma snoc_nil (p : list bool) b : p ++ [b] <> [].
Proof. destruct p; discriminate. Qed.

Lemma printAny_ok : forall t p, p <> [] ->
  printAny sprint t (flat_map col p) = if wf_tree t then Ok (flat_map line (nodes t p)) else Panic.
Proof.
  fix IH 1. intros t p Hp.
  assert (L : forall l, (p0 <- cut (flat_map col p) ;; Ok (p0 ++ pt_leaf ++ sprint (ASlice l) ++ newline)) =
              Ok (flat_map line [(p, false, ASlice l)])).
  { intros l. rewrite cut_cols by assumption. cbn [bind flat_map line]. destruct p; [congruence|].
    rewrite app_nil_r, <- app_assoc. reflexivity. }
  destruct t as [[|t0 [|t1 [|t2 [|t3 l]]]]|v]; try exact (L _); [|reflexivity].
  cbn [printAny wf_tree nodes].
  rewrite <- (flat_snoc p false : _ = _ ++ pt_son1), <- (flat_snoc p true : _ = _ ++ pt_son2).
  rewrite (IH t1 (p ++ [false])) by apply snoc_nil. rewrite (IH t2 (p ++ [true])) by apply snoc_nil.
  destruct (cols_nil p Hp) as [z [r Ez]].
  assert (H : match flat_map col p with
              | [] => Ok (flat_map col p ++ sprint t0 ++ newline)
              | _ => p0 <- cut (flat_map col p) ;; Ok (p0 ++ pt_top ++ sprint t0 ++ newline)
              end = Ok (line (p, true, t0))).
  { rewrite Ez. rewrite <- Ez. rewrite cut_cols by assumption. cbn [bind line]. destruct p; [congruence|].
    rewrite <- app_assoc. reflexivity. }
  rewrite H. cbn [bind]. destruct (wf_tree t1); [|reflexivity]. cbn [bind andb].
  destruct (wf_tree t2); [|reflexivity]. cbn [bind flat_map]. rewrite flat_map_app. reflexivity.
Qed.

Lemma printTree_ok tree :
  printTree sprint tree [] =
    if Nat.eqb (length tree) 3 && wf_tree (ASlice tree) then Ok (flat_map line (nodes (ASlice tree) [])) else Panic.
Proof.
  unfold printTree. destruct tree as [|t0 [|t1 [|t2 [|t3 l]]]]; try reflexivity.
  cbn [printAny wf_tree nodes length Nat.eqb andb app].
  pose proof (printAny_ok t1 [false] ltac:(discriminate)) as E1. pose proof (printAny_ok t2 [true] ltac:(discriminate)) as E2.
  change (flat_map col [false]) with pt_son1 in E1. change (flat_map col [true]) with pt_son2 in E2.
  rewrite E1, E2. cbn [bind].
  destruct (wf_tree t1); [|reflexivity]. destruct (wf_tree t2); [|reflexivity].
  cbn [bind andb flat_map line app]. rewrite flat_map_app. reflexivity.
Qed.
End Tree.

(** ** conversions *)
Section Conv.
Variable oor : b64 -> Z.
(** int16(x) in binary64: truncation when the result fits *)
Definition b_to_i16 : b64 -> Z := b_conv oor (-32768) 32768.

Lemma to_i16_trunc (x : b64) : is_finite x = true -> is_int16 (Ztrunc (B2R x)) -> b_to_i16 x = Ztrunc (B2R x).
Proof.
  intros Fx H. unfold b_to_i16, b_conv. rewrite Fx.
  pose proof (Btrunc_correct 53 1024 _ x) as T. rewrite round_FIX_IZR in T. apply eq_IZR in T.
  rewrite T. unfold is_int16 in H.
  destruct (Z.leb_spec (-32768) (Ztrunc (B2R x))); [|lia]. destruct (Z.ltb_spec (Ztrunc (B2R x)) 32768); [reflexivity|lia].
Qed.

Lemma roundtrip16 ci cu l : int16s l -> Float64ToInt16 (binary64 ci cu) b_to_i16 (IntsToFloat64 (binary64 ci cu) l) = l.
Proof.
  intros H. unfold Float64ToInt16, IntsToFloat64. rewrite map_map. rewrite <- (map_id l) at 2.
  apply map_ext_in. intros z Hz. unfold int16s in H. rewrite Forall_forall in H. specialize (H z Hz). unfold is_int16 in H.
  destruct (of_int_exact z ltac:(lia)) as [E Fe].
  cbn [f_of_int binary64]. rewrite to_i16_trunc; [rewrite E; apply Ztrunc_IZR|assumption|].
  rewrite E, Ztrunc_IZR. unfold is_int16. lia.
Qed.
End Conv.

Lemma complex_roundtrip FO f : ComplexRealToFloat64 FO (Float64ToComplexReal FO f) = f.
Proof. unfold ComplexRealToFloat64, Float64ToComplexReal. rewrite map_map. apply map_id. Qed.
