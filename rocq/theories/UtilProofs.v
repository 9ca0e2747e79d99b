(** util.go helpers. *)
From Verif Require Import GoBase Util BaseProofs.

Lemma Pmod_spec x b : b <> 0 ->
  exists r, Pmod x b = Ok r /\ 0 <= r < Z.abs b /\ (exists k, x = k * b + r) /\
  forall r', 0 <= r' < Z.abs b -> (exists k, x = k * b + r') -> r' = r.
Proof.
  intros Hb. unfold Pmod. destruct (Z.eqb_spec b 0); [contradiction|].
  pose proof (Z.rem_bound_abs x b Hb) as B. pose proof (Z.quot_rem' x b) as E.
  set (m := Z.rem x b) in *. set (d := Z.quot x b) in *. clearbody m d.
  assert (U : forall r r', 0 <= r < Z.abs b -> (exists k, x = k * b + r) ->
     0 <= r' < Z.abs b -> (exists k, x = k * b + r') -> r' = r).
  { intros r r' R [k Ek] R' [k' Ek'].
    assert (Ed : (k - k') * b = r' - r) by lia.
    assert (k - k' = 0).
    { destruct (Z.eq_dec (k - k') 0) as [|N]; [assumption|exfalso].
      assert (Z.abs b <= Z.abs ((k - k') * b)) by (rewrite Z.abs_mul; nia). lia. }
    nia. }
  destruct (Z.leb_spec 0 m).
  - exists m. split; [reflexivity|]. split; [lia|]. split; [exists d; lia|].
    intros r' R' K'. apply (U m r'); try assumption; [lia|exists d; lia].
  - destruct (Z.ltb_spec b 0).
    + exists (m - b). split; [reflexivity|]. split; [lia|].
      assert (K : exists k, x = k * b + (m - b)) by (exists (d + 1); lia).
      split; [exact K|]. intros r' R' K'. apply (U (m - b) r'); try assumption; lia.
    + exists (m + b). split; [reflexivity|]. split; [lia|].
      assert (K : exists k, x = k * b + (m + b)) by (exists (d - 1); lia).
      split; [exact K|]. intros r' R' K'. apply (U (m + b) r'); try assumption; lia.
Qed.

Lemma Pmod_zero x : Pmod x 0 = Panic.
Proof. reflexivity. Qed.

Lemma fold_max_ge l : forall b, b <= fold_left (fun b v => if v >? b then v else b) l b /\
  (forall x, In x l -> x <= fold_left (fun b v => if v >? b then v else b) l b) /\
  (fold_left (fun b v => if v >? b then v else b) l b = b \/ In (fold_left (fun b v => if v >? b then v else b) l b) l).
Proof.
  induction l as [|a l IH]; intros b; cbn [fold_left].
  - split; [lia|]. split; [intros x []|left; reflexivity].
  - destruct (IH (if a >? b then a else b)) as [A [B C]].
    destruct (Z.gtb_spec a b).
    + split; [lia|]. split.
      * intros x [<-|Hx]; [lia|apply B; assumption].
      * right. destruct C as [->|C]; [left; reflexivity|right; assumption].
    + split; [lia|]. split.
      * intros x [<-|Hx]; [lia|apply B; assumption].
      * destruct C as [->|C]; [left; reflexivity|right; right; assumption].
Qed.

Definition is_max (l : list Z) (m : Z) : Prop := In m l /\ forall x, In x l -> x <= m.
Definition is_min (l : list Z) (m : Z) : Prop := In m l /\ forall x, In x l -> m <= x.

Lemma Max_spec a l : exists m, Max (a :: l) = Ok m /\ is_max (a :: l) m.
Proof.
  eexists. split; [reflexivity|]. destruct (fold_max_ge (a :: l) a) as [A [B C]].
  split; [|exact B]. destruct C as [->|C]; [left; reflexivity|exact C].
Qed.

Lemma cmp_gt_ext (f g : Z -> Z -> Z) l b : (forall x y, f x y = g x y) -> fold_left f l b = fold_left g l b.
Proof. intros H. revert b. induction l as [|a l IH]; intros b; cbn [fold_left]; [reflexivity|]. rewrite H. apply IH. Qed.

Lemma MaxFromBigInt_eq x : MaxFromBigInt x = Max x.
Proof.
  unfold MaxFromBigInt, Max. destruct x as [|a x]; [reflexivity|]. cbn [idx nth_error bind]. f_equal.
  apply cmp_gt_ext. intros u v. unfold Z.gtb. destruct (v ?= u); reflexivity.
Qed.

Lemma fold_min_le l : forall b, fold_left (fun b v => match v ?= b with Lt => v | _ => b end) l b <= b /\
  (forall x, In x l -> fold_left (fun b v => match v ?= b with Lt => v | _ => b end) l b <= x) /\
  (fold_left (fun b v => match v ?= b with Lt => v | _ => b end) l b = b \/ In (fold_left (fun b v => match v ?= b with Lt => v | _ => b end) l b) l).
Proof.
  induction l as [|a l IH]; intros b; cbn [fold_left].
  - split; [lia|]. split; [intros x []|left; reflexivity].
  - destruct (IH (match a ?= b with Lt => a | _ => b end)) as [A [B C]].
    destruct (Z.compare_spec a b).
    + split; [lia|]. split.
      * intros x [<-|Hx]; [lia|apply B; assumption].
      * destruct C as [->|C]; [left; reflexivity|right; right; assumption].
    + split; [lia|]. split.
      * intros x [<-|Hx]; [lia|apply B; assumption].
      * right. destruct C as [->|C]; [left; reflexivity|right; assumption].
    + split; [lia|]. split.
      * intros x [<-|Hx]; [lia|apply B; assumption].
      * destruct C as [->|C]; [left; reflexivity|right; right; assumption].
Qed.

Lemma MinFromBigInt_spec a l : exists m, MinFromBigInt (a :: l) = Ok m /\ is_min (a :: l) m.
Proof.
  eexists. split; [reflexivity|]. destruct (fold_min_le (a :: l) a) as [A [B C]].
  split; [|exact B]. destruct C as [->|C]; [left; reflexivity|exact C].
Qed.

Lemma CmpMin_spec x y : CmpMinFromBigInt x y = Z.min x y.
Proof. unfold CmpMinFromBigInt, Z.min. destruct (Z.compare_spec x y); lia. Qed.
Lemma CmpMax_spec x y : CmpMaxFromBigInt x y = Z.max x y.
Proof. unfold CmpMaxFromBigInt, Z.max. destruct (Z.compare_spec x y); lia. Qed.

Lemma AllZeroes_spec l : AllZeroes l = true <-> Forall (fun x => x = 0) l.
Proof.
  induction l as [|a l IH]; cbn [AllZeroes]; [split; [constructor|reflexivity]|].
  destruct (Z.eqb_spec a 0); cbn [negb].
  - rewrite IH. split; [constructor; assumption|]. intros H. inversion H. assumption.
  - split; [discriminate|]. intros H. inversion H. contradiction.
Qed.

Lemma AnyZeroes_spec l : AnyZeroes l = true <-> Exists (fun x => x = 0) l.
Proof.
  induction l as [|a l IH]; cbn [AnyZeroes]; [split; [discriminate|intros H; inversion H]|].
  destruct (Z.eqb_spec a 0).
  - split; [constructor; assumption|reflexivity].
  - rewrite IH. split; [apply Exists_cons_tl|]. intros H. inversion H; [contradiction|assumption].
Qed.

Lemma BigIntSliceEqual_spec a b : exists r, BigIntSliceEqual a b = Ok r /\ (r = true <-> a = b).
Proof.
  unfold BigIntSliceEqual. destruct (Nat.eqb_spec (length a) (length b)) as [L|L]; cbn [negb].
  2:{ exists false. split; [reflexivity|]. split; [discriminate|]. intros ->. contradiction. }
  assert (G : forall (a' pre : list Z), (length pre + length a' = length b)%nat ->
    exists r, (fix loop (i : nat) (a' : list Z) : res bool :=
      match a' with
      | [] => Ok true
      | v :: a'' => w <- idx b i ;; match v ?= w with Eq => loop (S i) a'' | _ => Ok false end
      end) (length pre) a' = Ok r /\ (r = true <-> a' = skipn (length pre) b)).
  { induction a' as [|v a' IH]; intros pre Hl.
    - exists true. split; [reflexivity|]. rewrite skipn_all2 by (cbn [length] in Hl; lia). tauto.
    - cbn [length] in Hl. rewrite (idx_nth b (length pre) 0) by lia. cbn [bind].
      assert (Es : skipn (length pre) b = nth (length pre) b 0 :: skipn (S (length pre)) b).
      { clear - Hl. revert b Hl. induction pre as [|p pre IHp]; intros b Hl.
        - destruct b; [cbn in Hl; lia|reflexivity].
        - destruct b as [|x b]; [cbn in Hl; lia|]. cbn [length skipn nth]. apply IHp. cbn [length] in Hl. lia. }
      rewrite Es. destruct (Z.compare_spec v (nth (length pre) b 0)) as [E|E|E].
      + destruct (IH (pre ++ [v])) as [r [E1 E2]]; [rewrite app_length; cbn [length]; lia|].
        rewrite app_length in E1, E2. cbn [length] in E1, E2. rewrite Nat.add_1_r in E1, E2.
        exists r. split; [exact E1|]. rewrite E2. split; [intros ->; congruence|congruence].
      + exists false. split; [reflexivity|]. split; [discriminate|]. intros H. injection H as H _. lia.
      + exists false. split; [reflexivity|]. split; [discriminate|]. intros H. injection H as H _. lia. }
  destruct (G a [] L) as [r [E1 E2]]. exists r. split; [exact E1|]. exact E2.
Qed.

(** ** split and merge *)
Lemma Merge_Split {A} (f : list A) : Nat.even (length f) = true ->
  (p <- SplitPolys f ;; MergePolys (fst p) (snd p)) = Ok f.
Proof.
  intros He. apply Nat.even_spec in He. destruct He as [m Hm].
  destruct f as [|d f']; [reflexivity|]. set (f := d :: f') in *.
  rewrite (SplitPolys_ok d). cbn [bind fst snd].
  assert (Hd : Nat.div (length f) 2 = m) by (rewrite Hm, Nat.mul_comm, Nat.div_mul; lia).
  rewrite (MergePolys_ok d) by (rewrite evens_length, odds_length; lia).
  rewrite evens_length, Hd. f_equal. apply interleave_evens_odds. assumption.
Qed.

Lemma Split_Merge {A} (f0 f1 : list A) : length f0 = length f1 ->
  (f <- MergePolys f0 f1 ;; SplitPolys f) = Ok (f0, f1).
Proof.
  intros L. destruct f0 as [|d f0'].
  { destruct f1; [reflexivity|discriminate]. }
  set (f0 := d :: f0') in *.
  rewrite (MergePolys_ok d) by lia. cbn [bind]. rewrite (SplitPolys_ok d).
  assert (Hd : Nat.div (length (interleave (fun i => nth i f0 d) (fun i => nth i f1 d) (length f0))) 2 = length f0).
  { rewrite interleave_length, Nat.mul_comm, Nat.div_mul; lia. }
  f_equal. f_equal.
  - apply nth_ext with (d := d) (d' := d); [rewrite evens_length; assumption|].
    intros i Hi. rewrite evens_length, Hd in Hi. rewrite evens_nth by (rewrite Hd; assumption).
    rewrite interleave_even by assumption. reflexivity.
  - apply nth_ext with (d := d) (d' := d); [rewrite odds_length; lia|].
    intros i Hi. rewrite odds_length, Hd in Hi. rewrite odds_nth by (rewrite Hd; assumption).
    rewrite interleave_odd by assumption. reflexivity.
Qed.

(** the merge reads past the end of a shorter second half *)
Lemma Merge_panic {A} (f0 f1 : list A) : MergePolys f0 f1 = Panic <-> (length f1 < length f0)%nat.
Proof.
  split.
  - intros H. destruct (Nat.lt_ge_cases (length f1) (length f0)) as [|L]; [assumption|exfalso].
    destruct f0 as [|d f0']; [discriminate|]. rewrite (MergePolys_ok d) in H by assumption. discriminate.
  - intros L. unfold MergePolys. destruct f0 as [|d f0']; [cbn in L; lia|]. set (f0 := d :: f0') in *.
    replace (seq 0 (length f0)) with (seq 0 (length f1) ++ length f1 :: seq (S (length f1)) (length f0 - S (length f1))).
    + rewrite mapM_panic_at; [reflexivity| |].
      * intros i Hi. apply in_seq in Hi. rewrite (idx_nth f0 i d) by lia. rewrite (idx_nth f1 i d) by lia. cbn [bind]. eexists. reflexivity.
      * rewrite (idx_nth f0 _ d) by lia. cbn [bind]. rewrite idx_out by lia. reflexivity.
    + change (length f1 :: seq (S (length f1)) (length f0 - S (length f1))) with (seq (0 + length f1) (S (length f0 - S (length f1)))).
      rewrite <- seq_app. f_equal. lia.
Qed.

Lemma Split_total {A} (f : list A) : exists p, SplitPolys f = Ok p.
Proof. destruct f as [|d f]; [eexists; reflexivity|]. eexists. apply (SplitPolys_ok d). Qed.

Lemma is_max_unique l m m' : is_max l m -> is_max l m' -> m = m'.
Proof. intros [A B] [C D]. apply Z.le_antisymm; [apply D|apply B]; assumption. Qed.
Lemma is_min_unique l m m' : is_min l m -> is_min l m' -> m = m'.
Proof. intros [A B] [C D]. apply Z.le_antisymm; [apply B|apply D]; assumption. Qed.
Lemma Max_iff l m : Max l = Ok m <-> (In m l /\ forall x, In x l -> x <= m).
Proof.
  destruct l as [|a l]; [split; [discriminate|intros [[] _]]|].
  destruct (Max_spec a l) as [m' [E S]]. rewrite E. split.
  - intros H. injection H as <-. exact S.
  - intros H. f_equal. exact (is_max_unique _ _ _ S H).
Qed.
Lemma MaxBig_iff l m : MaxFromBigInt l = Ok m <-> (In m l /\ forall x, In x l -> x <= m).
Proof. rewrite MaxFromBigInt_eq. apply Max_iff. Qed.
Lemma MinBig_iff l m : MinFromBigInt l = Ok m <-> (In m l /\ forall x, In x l -> m <= x).
Proof.
  destruct l as [|a l]; [split; [discriminate|intros [[] _]]|].
  destruct (MinFromBigInt_spec a l) as [m' [E S]]. rewrite E. split.
  - intros H. injection H as <-. exact S.
  - intros H. f_equal. exact (is_min_unique _ _ _ S H).
Qed.
Lemma extrema_panic l :
  (Max l = Panic <-> l = []) /\ (MaxFromBigInt l = Panic <-> l = []) /\ (MinFromBigInt l = Panic <-> l = []).
Proof.
  rewrite MaxFromBigInt_eq. destruct l as [|a l]; [repeat split; reflexivity|].
  destruct (Max_spec a l) as [m [E _]]. destruct (MinFromBigInt_spec a l) as [m' [E' _]]. rewrite E, E'.
  repeat split; discriminate.
Qed.
Lemma cmp_spec x y : CmpMinFromBigInt x y = Z.min x y /\ CmpMaxFromBigInt x y = Z.max x y /\
  (CmpBigInt x y = true <-> x = y).
Proof.
  split; [apply CmpMin_spec|]. split; [apply CmpMax_spec|]. unfold CmpBigInt.
  destruct (Z.compare_spec x y); split; intros; try discriminate; try lia; try reflexivity.
Qed.
