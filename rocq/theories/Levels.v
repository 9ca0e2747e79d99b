(** Lower bounds for the number of vectors whose levels add up to s, and Chebyshev's inequality
    for the rest, when the residues are divided into levels. *)
From Verif Require Import GoBase Spec Counting.

(** ** Polynomials as coefficient lists *)
Fixpoint ladd (p r : list Z) : list Z :=
  match p, r with
  | [], _ => r
  | _, [] => p
  | a :: p, b :: r => a + b :: ladd p r
  end.
Fixpoint lmul (p r : list Z) : list Z :=
  match p with [] => [] | a :: p => ladd (map (Z.mul a) r) (0 :: lmul p r) end.
Definition lhalf (k : Z) (l : list Z) : list Z := map (fun x => Z.shiftr x k) l.
Definition ltrim (a b : nat) (l : list Z) : list Z := firstn b (skipn a l).

Lemma nth_ladd p : forall r j, nth j (ladd p r) 0 = nth j p 0 + nth j r 0.
Proof.
  induction p as [|a p IH]; intros r j; [cbn [ladd]; destruct j; reflexivity|].
  destruct r as [|b r]; [cbn [ladd]; destruct j; cbn [nth]; lia|].
  destruct j; [reflexivity|]. cbn [ladd nth]. apply IH.
Qed.
Lemma nth_scale a r j : nth j (map (Z.mul a) r) 0 = a * nth j r 0.
Proof. rewrite <- (map_nth (Z.mul a)). f_equal. ring. Qed.
Definition at_diff (r : list Z) (k i : nat) : Z := if Nat.ltb k i then 0 else nth (k - i) r 0.
Lemma zsum_seq_shift n a (f : nat -> Z) : zsum (seq (S a) n) f = zsum (seq a n) (fun i => f (S i)).
Proof.
  revert a. induction n as [|n IH]; intros a; [reflexivity|].
  cbn [seq zsum fold_right]. fold (zsum (seq (S (S a)) n) f). rewrite IH. reflexivity.
Qed.
Lemma nth_lmul p : forall r k, nth k (lmul p r) 0 = zsum (seq 0 (length p)) (fun i => nth i p 0 * at_diff r k i).
Proof.
  induction p as [|a p IH]; intros r k; [destruct k; reflexivity|].
  cbn [lmul length seq zsum fold_right]. rewrite nth_ladd, nth_scale.
  fold (zsum (seq 1 (length p)) (fun i => nth i (a :: p) 0 * at_diff r k i)).
  rewrite zsum_seq_shift. cbn [nth]. unfold at_diff at 1. cbn [Nat.ltb Nat.leb]. rewrite Nat.sub_0_r. f_equal.
  destruct k as [|k].
  - cbn [nth]. rewrite <- (zsum_zero (seq 0 (length p))). apply zsum_ext. intros i _. unfold at_diff. cbn. lia.
  - cbn [nth]. rewrite IH. apply zsum_ext. intros i _. reflexivity.
Qed.
Lemma nonneg_ladd p : forall r, Forall (Z.le 0) p -> Forall (Z.le 0) r -> Forall (Z.le 0) (ladd p r).
Proof.
  induction p as [|a p IH]; intros r Hp Hr; [exact Hr|].
  destruct r as [|b r]; [exact Hp|]. inversion Hp; subst. inversion Hr; subst.
  cbn [ladd]. constructor; [lia|]. apply IH; assumption.
Qed.
Lemma nonneg_lmul p : forall r, Forall (Z.le 0) p -> Forall (Z.le 0) r -> Forall (Z.le 0) (lmul p r).
Proof.
  induction p as [|a p IH]; intros r Hp Hr; [constructor|]. inversion Hp; subst.
  cbn [lmul]. apply nonneg_ladd.
  - clear - H1 Hr. induction Hr; cbn [map]; constructor; [nia|assumption].
  - constructor; [lia|]. apply IH; assumption.
Qed.
Lemma nonneg_nth l j : Forall (Z.le 0) l -> 0 <= nth j l 0.
Proof.
  intros H. destruct (Nat.lt_ge_cases j (length l)).
  - rewrite Forall_forall in H. apply H. now apply nth_In.
  - rewrite nth_overflow by assumption. lia.
Qed.
Lemma nth_skip {A} (d : A) l : forall a j, nth j (skipn a l) d = nth (a + j) l d.
Proof.
  induction l as [|x l IH]; intros a j.
  - rewrite skipn_nil. rewrite !nth_overflow by (cbn; lia). reflexivity.
  - destruct a as [|a]; [reflexivity|]. cbn [skipn Nat.add nth]. apply IH.
Qed.
Lemma nth_first {A} (d : A) l : forall b j, nth j (firstn b l) d = if Nat.ltb j b then nth j l d else d.
Proof.
  induction l as [|x l IH]; intros b j.
  - rewrite firstn_nil. destruct (Nat.ltb j b), j; reflexivity.
  - destruct b as [|b]; [destruct j; reflexivity|]. cbn [firstn]. destruct j as [|j]; [reflexivity|].
    cbn [nth]. rewrite IH. reflexivity.
Qed.

(** the coefficient of degree t of l*l *)
Fixpoint dot (a b : list Z) (acc : Z) : Z :=
  match a, b with x :: a, y :: b => dot a b (acc + x * y) | _, _ => acc end.
Definition lcoef (l : list Z) (t : nat) : Z := dot l (rev (firstn (S t) (l ++ repeat 0 (S t)))) 0.
Lemma dot_sum a : forall b acc, dot a b acc = acc + zsum (seq 0 (length a)) (fun i => nth i a 0 * nth i b 0).
Proof.
  induction a as [|x a IH]; intros b acc; [cbn; lia|].
  cbn [length seq zsum fold_right].
  fold (zsum (seq 1 (length a)) (fun i => nth i (x :: a) 0 * nth i b 0)).
  rewrite zsum_seq_shift. destruct b as [|y b]; cbn [dot nth].
  - rewrite (zsum_ext _ _ (fun _ => 0)) by (intros; lia). rewrite zsum_zero. lia.
  - rewrite IH. lia.
Qed.
Lemma lcoef_mul l t : lcoef l t = nth t (lmul l l) 0.
Proof.
  unfold lcoef. rewrite dot_sum, nth_lmul, Z.add_0_l. apply zsum_ext. intros i _. f_equal.
  set (m := firstn (S t) (l ++ repeat 0 (S t))).
  assert (Lm : length m = S t).
  { unfold m. rewrite firstn_length, app_length, repeat_length. lia. }
  unfold at_diff. destruct (Nat.ltb_spec t i).
  - apply nth_overflow. rewrite rev_length. lia.
  - rewrite rev_nth by lia. rewrite Lm. replace (S t - S i)%nat with (t - i)%nat by lia.
    unfold m. rewrite nth_first. destruct (Nat.ltb_spec (t - i) (S t)); [|lia].
    destruct (Nat.lt_ge_cases (t - i) (length l)).
    + apply app_nth1. assumption.
    + rewrite app_nth2 by assumption. rewrite (nth_overflow l) by assumption. apply nth_repeat.
Qed.

(** ** Levels *)
Section Levels.
Variable lev : Z -> nat.
Variable e : Z -> Z.
Variable nb : nat.
Variable V : Z.
Hypothesis lev_ok : forall c, In c residues -> (lev c < nb)%nat.
Hypothesis mean0 : forall b, (b < nb)%nat -> zsum residues (fun c => b2z (Nat.eqb (lev c) b) * e c) = 0.
Hypothesis var_ok : forall b, (b < nb)%nat ->
  zsum residues (fun c => b2z (Nat.eqb (lev c) b) * (e c * e c)) <= V * zsum residues (fun c => b2z (Nat.eqb (lev c) b)).

Definition lsum (v : list Z) : nat := fold_right (fun x acc => lev x + acc)%nat 0%nat v.
Definition esum (v : list Z) : Z := fold_right (fun x acc => e x + acc) 0 v.

Lemma pick (g : nat -> Z) b l : NoDup l -> In b l -> zsum l (fun i => b2z (Nat.eqb b i) * g i) = g b.
Proof.
  induction 1 as [|x l Hx N IH]; intros Hb0; [destruct Hb0|]. destruct Hb0 as [->|Hb]; cbn [zsum fold_right].
  - rewrite Nat.eqb_refl. cbn [b2z]. fold (zsum l (fun i => b2z (Nat.eqb b i) * g i)).
    rewrite (zsum_ext l _ (fun _ => 0)); [rewrite zsum_zero; lia|].
    intros i Hi. destruct (Nat.eqb_spec b i); [subst; contradiction|]. reflexivity.
  - fold (zsum l (fun i => b2z (Nat.eqb b i) * g i)). rewrite (IH Hb).
    destruct (Nat.eqb_spec b x); [subst; contradiction|]. cbn [b2z]. lia.
Qed.
Lemma pick_le (g : nat -> Z) b l : NoDup l -> (forall i, 0 <= g i) ->
  zsum l (fun i => b2z (Nat.eqb b i) * g i) <= g b.
Proof.
  intros N G. destruct (in_dec Nat.eq_dec b l) as [I|I].
  - rewrite pick by assumption. lia.
  - rewrite (zsum_ext l _ (fun _ => 0)); [rewrite zsum_zero; apply G|].
    intros i Hi. destruct (Nat.eqb_spec b i); [subst; contradiction|]. reflexivity.
Qed.
(** sums grouped by level *)
Lemma group (f : Z -> Z) (g : nat -> Z) :
  zsum residues (fun c => f c * g (lev c)) =
  zsum (seq 0 nb) (fun b => g b * zsum residues (fun c => b2z (Nat.eqb (lev c) b) * f c)).
Proof.
  rewrite (zsum_ext residues _ (fun c => zsum (seq 0 nb) (fun b => f c * (b2z (Nat.eqb (lev c) b) * g b)))).
  - rewrite zsum_swap. apply zsum_ext. intros b _. rewrite <- zsum_scale. apply zsum_ext. intros c _. ring.
  - intros c Hc. rewrite zsum_scale. f_equal. symmetry. apply pick; [apply seq_NoDup|].
    apply in_seq. specialize (lev_ok c Hc). lia.
Qed.
Lemma cross g : zsum residues (fun c => e c * g (lev c)) = 0.
Proof.
  rewrite group. rewrite (zsum_ext _ _ (fun _ => 0)); [apply zsum_zero|].
  intros b Hb. apply in_seq in Hb. rewrite mean0 by lia. ring.
Qed.
Lemma second g : (forall i, 0 <= g i) ->
  zsum residues (fun c => e c * e c * g (lev c)) <= V * zsum residues (fun c => g (lev c)).
Proof.
  intros G.
  replace (zsum residues (fun c => g (lev c))) with (zsum residues (fun c => 1 * g (lev c)))
    by (apply zsum_ext; intros; ring).
  rewrite (group (fun c => e c * e c)), (group (fun _ => 1)), <- zsum_scale.
  apply zsum_le. intros b Hb. apply in_seq in Hb.
  pose proof (var_ok b ltac:(lia)) as K. specialize (G b).
  rewrite (zsum_ext residues (fun c => b2z (Nat.eqb (lev c) b) * 1) (fun c => b2z (Nat.eqb (lev c) b)))
    by (intros; ring).
  nia.
Qed.

Lemma moment n : forall phi : nat -> Z, (forall i, 0 <= phi i) ->
  total n (fun v => phi (lsum v) * (esum v * esum v)) <= Z.of_nat n * V * total n (fun v => phi (lsum v)).
Proof.
  induction n as [|n IH]; intros phi Hp.
  - rewrite !total_O. cbn. lia.
  - rewrite !total_S.
    set (G0 := fun b => total n (fun v => phi (b + lsum v)%nat)).
    set (G1 := fun b => total n (fun v => phi (b + lsum v)%nat * esum v)).
    set (G2 := fun b => total n (fun v => phi (b + lsum v)%nat * (esum v * esum v))).
    rewrite (zsum_ext residues _ (fun x => (e x * e x * G0 (lev x) + 2 * (e x * G1 (lev x))) + G2 (lev x))).
    2:{ intros x _. unfold G0, G1, G2. rewrite <- !total_scale, <- !total_add.
        apply total_ext. intros v _. cbn [lsum esum fold_right]. fold (lsum v) (esum v). ring. }
    rewrite !zsum_add, zsum_scale, cross.
    assert (N0 : forall b, 0 <= G0 b) by (intros b; apply total_nonneg; intros; apply Hp).
    pose proof (second G0 N0) as K2.
    assert (K3 : zsum residues (fun x => G2 (lev x)) <= Z.of_nat n * V * zsum residues (fun x => G0 (lev x))).
    { rewrite <- zsum_scale. apply zsum_le. intros x _. unfold G2, G0.
      apply (IH (fun i => phi (lev x + i)%nat)). intros; apply Hp. }
    change (zsum residues (fun x => total n (fun v => phi (lsum (x :: v))))) with (zsum residues (fun x => G0 (lev x))).
    lia.
Qed.

(** the number of vectors of length n and level sum s *)
Definition pmf (n s : nat) : Z := total n (fun v => b2z (Nat.eqb (lsum v) s)).
Lemma pmf_nonneg n s : 0 <= pmf n s.
Proof. apply total_nonneg. intros. apply b2z_range. Qed.

(** at most the fraction n V / d^2 of them has a sum of e beyond d *)
Lemma chebyshev n s d : 0 < d ->
  d * d * total n (fun v => b2z (Nat.eqb (lsum v) s && negb (Z.abs (esum v) <? d))) <= Z.of_nat n * V * pmf n s.
Proof.
  intros Hd. eapply Z.le_trans; [|apply (moment n (fun i => b2z (Nat.eqb i s)))].
  - rewrite <- total_scale. apply total_le. intros v _.
    destruct (Nat.eqb (lsum v) s); cbn [andb b2z]; [|lia].
    destruct (Z.ltb_spec (Z.abs (esum v)) d); cbn [negb b2z]; nia.
  - intros. apply b2z_range.
Qed.
Lemma near_count n s d : 0 < d ->
  (d * d - Z.of_nat n * V) * pmf n s <= d * d * total n (fun v => b2z (Nat.eqb (lsum v) s && (Z.abs (esum v) <? d))).
Proof.
  intros Hd. pose proof (chebyshev n s d Hd) as K.
  assert (E : pmf n s = total n (fun v => b2z (Nat.eqb (lsum v) s && (Z.abs (esum v) <? d))) +
    total n (fun v => b2z (Nat.eqb (lsum v) s && negb (Z.abs (esum v) <? d)))).
  { rewrite <- total_add. apply total_ext. intros v _.
    destruct (Nat.eqb (lsum v) s), (Z.abs (esum v) <? d); reflexivity. }
  nia.
Qed.

(** ** Convolution *)
Lemma lsum_app u v : lsum (u ++ v) = (lsum u + lsum v)%nat.
Proof. induction u as [|x u IH]; cbn; [reflexivity|]. unfold lsum in *. rewrite IH. lia. Qed.
Lemma pmf_app n m s I : NoDup I ->
  zsum I (fun i => pmf n i * (if Nat.ltb s i then 0 else pmf m (s - i))) <= pmf (n + m) s.
Proof.
  intros N. unfold pmf at 3. rewrite total_app.
  set (h := fun i => if Nat.ltb s i then 0 else pmf m (s - i)).
  assert (Hh : forall i, 0 <= h i) by (intros i; unfold h; destruct (Nat.ltb s i); [lia|apply pmf_nonneg]).
  rewrite (total_ext n _ (fun u => h (lsum u))).
  - unfold pmf at 1. rewrite (zsum_ext I _ (fun i => total n (fun u => b2z (Nat.eqb (lsum u) i) * h i))).
    + unfold total at 1. rewrite (zsum_swap I (points n)). unfold total. apply zsum_le. intros u _.
      apply pick_le; assumption.
    + intros i _. rewrite Z.mul_comm. fold (h i). rewrite <- total_scale. apply total_ext. intros; ring.
  - intros u _. unfold h. destruct (Nat.ltb_spec s (lsum u)).
    + rewrite (total_ext m _ (fun _ => 0 * 1)); [rewrite total_scale; ring|].
      intros v _. rewrite lsum_app. destruct (Nat.eqb_spec (lsum u + lsum v) s); [lia|]. reflexivity.
    + apply total_ext. intros v _. rewrite lsum_app. f_equal.
      destruct (Nat.eqb_spec (lsum u + lsum v) s), (Nat.eqb_spec (lsum v) (s - lsum u)); try reflexivity; lia.
Qed.

(** ** Certified lower bounds: l_j A zd^(lo+j) <= pmf n (lo+j) zn^(lo+j) B *)
Variables zn zd : Z.
Hypothesis zn_pos : 0 < zn.
Hypothesis zd_pos : 0 < zd.
Definition lower (n : nat) (A B : Z) (lo : nat) (l : list Z) : Prop :=
  0 < A /\ 0 < B /\ Forall (Z.le 0) l /\
  forall j, nth j l 0 * (A * zd ^ Z.of_nat (lo + j)) <= pmf n (lo + j) * (B * zn ^ Z.of_nat (lo + j)).

Lemma lower_mul n m A B A' B' lo lo' l r : lower n A B lo l -> lower m A' B' lo' r ->
  lower (n + m) (A * A') (B * B') (lo + lo') (lmul l r).
Proof.
  intros (HA & HB & Hl & H) (HA' & HB' & Hr & H'). split; [nia|]. split; [nia|].
  split; [apply nonneg_lmul; assumption|]. intros k. rewrite nth_lmul.
  set (s := (lo + lo' + k)%nat).
  assert (PZ : forall z i, 0 < z -> 0 < z ^ Z.of_nat i) by (intros; apply Z.pow_pos_nonneg; lia).
  eapply Z.le_trans; [|apply Z.mul_le_mono_nonneg_r;
    [|apply (pmf_app n m s (map (Nat.add lo) (seq 0 (length l))))]].
  - rewrite zsum_map, <- !zsum_scale_r. apply zsum_le. intros i _. unfold at_diff.
    destruct (Nat.ltb_spec k i) as [L|L].
    + rewrite Z.mul_0_r, Z.mul_0_l. specialize (PZ zn s zn_pos). destruct (Nat.ltb s (lo + i)).
      * lia.
      * pose proof (pmf_nonneg n (lo + i)). pose proof (pmf_nonneg m (s - (lo + i))).
        apply Z.mul_nonneg_nonneg; [apply Z.mul_nonneg_nonneg; assumption|nia].
    + destruct (Nat.ltb_spec s (lo + i)) as [L'|L']; [unfold s in L'; lia|].
      replace (s - (lo + i))%nat with (lo' + (k - i))%nat by (unfold s; lia).
      specialize (H i). specialize (H' (k - i)%nat).
      replace (Z.of_nat s) with (Z.of_nat (lo + i) + Z.of_nat (lo' + (k - i))) by (unfold s; lia).
      rewrite !Z.pow_add_r by lia.
      pose proof (nonneg_nth l i Hl). pose proof (nonneg_nth r (k - i) Hr).
      pose proof (PZ zd (lo + i)%nat zd_pos). pose proof (PZ zd (lo' + (k - i))%nat zd_pos).
      set (a := nth i l 0 * (A * zd ^ Z.of_nat (lo + i))) in *.
      set (b := nth (k - i) r 0 * (A' * zd ^ Z.of_nat (lo' + (k - i)))) in *.
      assert (Ha : 0 <= a) by (unfold a; apply Z.mul_nonneg_nonneg; [assumption|nia]).
      assert (Hb : 0 <= b) by (unfold b; apply Z.mul_nonneg_nonneg; [assumption|nia]).
      pose proof (Z.mul_le_mono_nonneg _ _ _ _ Ha H Hb H') as M.
      eapply Z.le_trans; [|eapply Z.le_trans; [exact M|]]; apply Z.eq_le_incl; unfold a, b; ring.
  - specialize (PZ zn s zn_pos). nia.
  - apply FinFun.Injective_map_NoDup; [intros x y; lia|apply seq_NoDup].
Qed.

Lemma lower_half n A B lo l k : 0 <= k -> lower n A B lo l -> lower n (A * 2 ^ k) B lo (lhalf k l).
Proof.
  intros Hk (HA & HB & Hl & H). assert (P2 : 0 < 2 ^ k) by (apply Z.pow_pos_nonneg; lia).
  split; [nia|]. split; [exact HB|]. split.
  - apply Forall_forall. intros x Hx. apply in_map_iff in Hx. destruct Hx as (y & <- & Hy).
    rewrite Z.shiftr_nonneg. rewrite Forall_forall in Hl. apply Hl, Hy.
  - intros j. eapply Z.le_trans; [|apply H]. unfold lhalf.
    replace (nth j (map (fun x => Z.shiftr x k) l) 0) with (Z.shiftr (nth j l 0) k)
      by (rewrite <- (map_nth (fun x => Z.shiftr x k)), Z.shiftr_0_l; reflexivity).
    rewrite Z.shiftr_div_pow2 by assumption.
    pose proof (Z.mul_div_le (nth j l 0) (2 ^ k) P2).
    assert (0 < zd ^ Z.of_nat (lo + j)) by (apply Z.pow_pos_nonneg; lia).
    replace (nth j l 0 / 2 ^ k * (A * 2 ^ k * zd ^ Z.of_nat (lo + j)))
      with (2 ^ k * (nth j l 0 / 2 ^ k) * (A * zd ^ Z.of_nat (lo + j))) by ring.
    apply Z.mul_le_mono_nonneg_r; [nia|assumption].
Qed.
Lemma lower_trim n A B lo l a b : lower n A B lo l -> lower n A B (lo + a) (ltrim a b l).
Proof.
  intros (HA & HB & Hl & H). split; [exact HA|]. split; [exact HB|]. unfold ltrim. split.
  - apply Forall_forall. intros x Hx. rewrite Forall_forall in Hl. apply Hl.
    rewrite <- (firstn_skipn a l), in_app_iff. right.
    rewrite <- (firstn_skipn b (skipn a l)), in_app_iff. left. exact Hx.
  - intros j. rewrite nth_first, nth_skip. rewrite <- Nat.add_assoc. destruct (Nat.ltb j b); [apply H|].
    rewrite Z.mul_0_l. apply Z.mul_nonneg_nonneg; [apply pmf_nonneg|].
    assert (0 < zn ^ Z.of_nat (lo + (a + j))) by (apply Z.pow_pos_nonneg; lia). nia.
Qed.

(** repeated squaring, with scaling by 2^-k and truncation *)
Definition square_step (p : Z * nat * nat) (st : nat * list Z) : nat * list Z :=
  let '(k, a, b) := p in ((fst st + fst st + a)%nat, ltrim a b (lhalf k (lmul (snd st) (snd st)))).
Definition squares (ps : list (Z * nat * nat)) (st : nat * list Z) : nat * list Z :=
  fold_left (fun st p => square_step p st) ps st.
(** the exponent of 2 collected on the way *)
Definition exp2 (ps : list (Z * nat * nat)) (t : Z) : Z :=
  fold_left (fun t p => 2 * t + fst (fst p)) ps t.

Lemma exp2_nonneg ps : Forall (fun p => 0 <= fst (fst p)) ps -> forall t, 0 <= t -> 0 <= exp2 ps t.
Proof.
  induction 1 as [|p ps Hp F IH]; intros t Ht; [exact Ht|]. cbn [exp2 fold_left]. apply IH. lia.
Qed.
Lemma lower_squares ps : Forall (fun p => 0 <= fst (fst p)) ps -> forall n t B st, 0 <= t ->
  lower n (2 ^ t) B (fst st) (snd st) ->
  lower (n * 2 ^ length ps) (2 ^ exp2 ps t) (B ^ 2 ^ Z.of_nat (length ps)) (fst (squares ps st)) (snd (squares ps st)).
Proof.
  induction 1 as [|p ps Hp F IH]; intros n t B st Ht H.
  - cbn [length squares fold_left exp2]. change (2 ^ Z.of_nat 0) with 1. rewrite Z.pow_1_r.
    change (2 ^ 0)%nat with 1%nat. rewrite Nat.mul_1_r. exact H.
  - cbn [squares fold_left exp2 length].
    fold (squares ps (square_step p st)) (exp2 ps (2 * t + fst (fst p))).
    replace (n * 2 ^ S (length ps))%nat with ((n + n) * 2 ^ length ps)%nat by (cbn [Nat.pow]; lia).
    replace (B ^ 2 ^ Z.of_nat (S (length ps))) with ((B * B) ^ 2 ^ Z.of_nat (length ps)).
    2:{ rewrite Nat2Z.inj_succ, Z.pow_succ_r by lia. rewrite Z.pow_mul_r by (try apply Z.pow_nonneg; lia).
        f_equal. rewrite Z.pow_2_r. reflexivity. }
    apply IH; [lia|]. destruct p as [[k a] b]. cbn [fst] in *. unfold square_step. cbn [fst snd].
    apply lower_trim. replace (2 ^ (2 * t + k)) with (2 ^ t * 2 ^ t * 2 ^ k)
      by (rewrite <- !Z.pow_add_r by lia; f_equal; lia).
    apply lower_half; [assumption|]. apply lower_mul; assumption.
Qed.
End Levels.
