(** Lemmas about the model of ntrugen.go: Karatsuba, karamul. *)
From Coq Require Import Ring.
From Verif Require Import GoBase Util Spec PolyRing PolyZ PolyEval BaseProofs Ntrugen.

Lemma foldM_seq_inv {A} (f : A -> nat -> res A) (P : nat -> A -> Prop) n a :
  P O a ->
  (forall i a, (i < n)%nat -> P i a -> exists a', f a i = Ok a' /\ P (S i) a') ->
  exists a', foldM f (seq 0 n) a = Ok a' /\ P n a'.
Proof.
  intros H0 HS.
  assert (G : forall m s a, (s + m = n)%nat -> P s a ->
            exists a', foldM f (seq s m) a = Ok a' /\ P n a').
  { induction m as [|m IH]; intros s b E Hb; cbn [seq foldM].
    - exists b. split; [reflexivity|]. replace n with s by lia. exact Hb.
    - destruct (HS s b ltac:(lia) Hb) as (b' & E' & Hb'). rewrite E'. cbn [bind].
      apply IH; [lia|exact Hb']. }
  apply (G n O a); [lia|exact H0].
Qed.

Lemma coef_out l i : (length l <= i)%nat -> coef l i = 0.
Proof. intros H. unfold coef. apply nth_overflow. exact H. Qed.

Lemma add_at_ok l j v : (j < length l)%nat ->
  exists l', add_at l j v = Ok l' /\ length l' = length l /\
    forall i, coef l' i = coef l i + (if Nat.eqb i j then v else 0).
Proof.
  intros H. unfold add_at. rewrite (idx_nth l j 0 H). cbn [bind].
  eexists. split; [reflexivity|].
  assert (Lf : length (firstn j l) = j) by (apply firstn_length_le; lia).
  split.
  - rewrite app_length, Lf. cbn [length]. rewrite skipn_length. lia.
  - intros i. unfold coef. destruct (Nat.eqb_spec i j) as [->|N].
    + rewrite app_nth2 by lia. rewrite Lf, Nat.sub_diag. reflexivity.
    + rewrite Z.add_0_r. destruct (Nat.lt_ge_cases i j).
      * rewrite app_nth1 by lia. rewrite <- (firstn_skipn j l) at 2.
        rewrite app_nth1 by lia. reflexivity.
      * rewrite app_nth2 by lia. rewrite Lf.
        replace (i - j)%nat with (S (i - j - 1))%nat by lia. cbn [nth].
        rewrite <- (firstn_skipn (S j) l) at 2.
        assert (L2 : length (firstn (S j) l) = S j) by (apply firstn_length_le; lia).
        rewrite app_nth2 by lia. rewrite L2. f_equal. lia.
Qed.

Lemma add_at_panic l j v : (length l <= j)%nat -> add_at l j v = Panic.
Proof. intros H. unfold add_at. rewrite idx_out by exact H. reflexivity. Qed.

Lemma idx_coef l i : (i < length l)%nat -> idx l i = Ok (coef l i).
Proof. apply idx_nth. Qed.

Lemma list_eq_coef (l l' : list Z) : length l = length l' ->
  (forall i, (i < length l)%nat -> coef l i = coef l' i) -> l = l'.
Proof. intros L H. apply (nth_ext l l' 0 0 L). exact H. Qed.

(** ** Products as double sums *)
Definition dsum (n : nat) (a b : nat -> Z) (k : nat) : Z :=
  sumn n (fun i => sumn n (fun j => if Nat.eqb (i + j) k then a i * b j else 0)).

Lemma dsum_ext n a a' b b' k :
  (forall i, (i < n)%nat -> a i = a' i) -> (forall i, (i < n)%nat -> b i = b' i) ->
  dsum n a b k = dsum n a' b' k.
Proof.
  intros Ha Hb. apply sumn_ext. intros i Hi. apply sumn_ext. intros j Hj.
  rewrite Ha, Hb by assumption. reflexivity.
Qed.

Lemma dsum_out n a b k : (2 * n <= k)%nat -> dsum n a b k = 0.
Proof.
  intros H. apply sumn_zero_ext. intros i Hi. apply sumn_zero_ext. intros j Hj.
  destruct (Nat.eqb_spec (i + j) k); [lia|reflexivity].
Qed.

Lemma dsum_add n a a' b b' k :
  dsum n (fun i => a i + a' i) (fun i => b i + b' i) k =
  dsum n a b k + dsum n a b' k + dsum n a' b k + dsum n a' b' k.
Proof.
  unfold dsum. rewrite <- !sumn_add. apply sumn_ext. intros i _.
  rewrite <- !sumn_add. apply sumn_ext. intros j _.
  destruct (Nat.eqb (i + j) k); ring.
Qed.

(** a shifted rectangular block *)
Lemma block_shift m s t a b k :
  sumn m (fun i => sumn m (fun j =>
    if Nat.eqb (s + i + (t + j)) k then a (s + i)%nat * b (t + j)%nat else 0)) =
  if Nat.leb (s + t) k
  then dsum m (fun i => a (s + i)%nat) (fun j => b (t + j)%nat) (k - (s + t)) else 0.
Proof.
  destruct (Nat.leb_spec (s + t) k) as [H|H].
  - apply sumn_ext. intros i _. apply sumn_ext. intros j _.
    destruct (Nat.eqb_spec (s + i + (t + j)) k), (Nat.eqb_spec (i + j) (k - (s + t))); try lia; reflexivity.
  - apply sumn_zero_ext. intros i _. apply sumn_zero_ext. intros j _.
    destruct (Nat.eqb_spec (s + i + (t + j)) k); [lia|reflexivity].
Qed.

Lemma dsum_double m a b k :
  let a1 := fun i => a (m + i)%nat in
  let b1 := fun i => b (m + i)%nat in
  dsum (m + m) a b k =
  dsum m a b k
  + (if Nat.leb m k then dsum m a b1 (k - m) + dsum m a1 b (k - m) else 0)
  + (if Nat.leb (m + m) k then dsum m a1 b1 (k - (m + m)) else 0).
Proof.
  cbv zeta. unfold dsum at 1. rewrite sumn_split.
  rewrite (sumn_ext m _ (fun i =>
     sumn m (fun j => if Nat.eqb (0 + i + (0 + j)) k then a (0 + i)%nat * b (0 + j)%nat else 0)
   + sumn m (fun j => if Nat.eqb (0 + i + (m + j)) k then a (0 + i)%nat * b (m + j)%nat else 0)))
    by (intros i _; apply sumn_split).
  rewrite (sumn_ext m (fun i => sumn (m + m) _) (fun i =>
     sumn m (fun j => if Nat.eqb (m + i + (0 + j)) k then a (m + i)%nat * b (0 + j)%nat else 0)
   + sumn m (fun j => if Nat.eqb (m + i + (m + j)) k then a (m + i)%nat * b (m + j)%nat else 0)))
    by (intros i _; apply sumn_split).
  rewrite !sumn_add, !block_shift. cbn [Nat.add].
  rewrite Nat.add_0_r, Nat.sub_0_r.
  replace (Nat.leb 0 k) with true by reflexivity.
  destruct (Nat.leb_spec m k).
  - unfold dsum; ring.
  - unfold dsum. ring.
Qed.

(** the inner sum collapses *)
Lemma dsum_row n a b k :
  dsum n a b k =
  sumn n (fun i => if Nat.leb i k && Nat.ltb (k - i) n then a i * b (k - i)%nat else 0).
Proof.
  apply sumn_ext. intros i Hi.
  destruct (Nat.leb_spec i k) as [H|H]; cbn [andb].
  - destruct (Nat.ltb_spec (k - i) n) as [H'|H'].
    + rewrite (sumn_single n (k - i) _ H').
      * replace (i + (k - i))%nat with k by lia. rewrite Nat.eqb_refl. reflexivity.
      * intros j _ Nj. destruct (Nat.eqb_spec (i + j) k); [lia|reflexivity].
    + apply sumn_zero_ext. intros j Hj. destruct (Nat.eqb_spec (i + j) k); [lia|reflexivity].
  - apply sumn_zero_ext. intros j Hj. destruct (Nat.eqb_spec (i + j) k); [lia|reflexivity].
Qed.

Lemma sumn_extend n N f : (n <= N)%nat -> (forall i, (n <= i < N)%nat -> f i = 0) ->
  sumn n f = sumn N f.
Proof.
  intros H Hz. replace N with (n + (N - n))%nat by lia. rewrite sumn_split.
  rewrite (sumn_zero_ext (N - n)); [ring|]. intros i Hi. apply Hz. lia.
Qed.

Lemma dsum_conv n a b k : length a = n -> length b = n ->
  dsum n (coef a) (coef b) k = conv_coef a b k.
Proof.
  intros La Lb. rewrite dsum_row. unfold conv_coef.
  set (h := fun i => if Nat.leb i k then coef a i * coef b (k - i) else 0).
  rewrite (sumn_ext n _ h).
  - rewrite (sumn_ext (S k) _ h).
    + rewrite (sumn_extend n (n + S k) h), (sumn_extend (S k) (n + S k) h); [reflexivity|lia| |lia|].
      * intros i Hi. unfold h. destruct (Nat.leb_spec i k); [lia|reflexivity].
      * intros i Hi. unfold h. rewrite (coef_out a i) by lia. destruct (Nat.leb i k); ring.
    + intros i Hi. unfold h. destruct (Nat.leb_spec i k); [reflexivity|lia].
  - intros i Hi. unfold h. destruct (Nat.leb_spec i k); cbn [andb]; [|reflexivity].
    destruct (Nat.ltb_spec (k - i) n); [reflexivity|].
    rewrite (coef_out b) by lia. ring.
Qed.

Lemma dsum_nega n a b k : (k < n)%nat ->
  dsum n (coef a) (coef b) k - dsum n (coef a) (coef b) (k + n) = negacyc_coef n a b k.
Proof.
  intros Hk. rewrite !dsum_row. unfold negacyc_coef. rewrite <- sumn_sub.
  apply sumn_ext. intros i Hi.
  destruct (Nat.leb_spec i k), (Nat.leb_spec i (k + n)); try lia; cbn [andb].
  - destruct (Nat.ltb_spec (k - i) n), (Nat.ltb_spec (k + n - i) n); lia.
  - destruct (Nat.ltb_spec (k + n - i) n); try lia.
    replace (k + n - i)%nat with (n + k - i)%nat by lia. ring.
Qed.

(** ** Karatsuba *)
Lemma slice_prefix {A} (l : list A) n : (n <= length l)%nat -> slice l 0 n = Ok (firstn n l).
Proof.
  intros H. unfold slice. cbn [Nat.leb andb].
  destruct (Nat.leb_spec n (length l)); [|lia]. cbn [skipn]. rewrite Nat.sub_0_r. reflexivity.
Qed.
Lemma slice_suffix {A} (l : list A) n : (n <= length l)%nat -> slice l n (length l) = Ok (skipn n l).
Proof.
  intros H. unfold slice.
  destruct (Nat.leb_spec n (length l)); [|lia]. rewrite Nat.leb_refl. cbn [andb].
  f_equal. rewrite <- skipn_length. apply firstn_all.
Qed.
Lemma coef_firstn l n i : (i < n)%nat -> coef (firstn n l) i = coef l i.
Proof.
  intros H. unfold coef. revert n i H.
  induction l as [|x l IH]; intros n i H; [rewrite firstn_nil; reflexivity|].
  destruct n; [lia|]. destruct i; [reflexivity|]. cbn [firstn nth]. apply IH. lia.
Qed.
Lemma coef_skipn l n i : coef (skipn n l) i = coef l (n + i).
Proof.
  unfold coef. revert l. induction n as [|n IH]; intros l; [reflexivity|].
  destruct l; [cbn; destruct i; reflexivity|]. cbn [skipn Nat.add nth]. apply IH.
Qed.

Lemma pow2_pos k : (0 < 2 ^ k)%nat.
Proof. induction k; cbn; lia. Qed.
Lemma pow2_half k : Nat.div (2 ^ S k) 2 = (2 ^ k)%nat.
Proof. cbn [Nat.pow]. rewrite Nat.mul_comm. apply Nat.div_mul. discriminate. Qed.

Ltac ifs := repeat match goal with
  | |- context [Nat.ltb ?a ?b] => destruct (Nat.ltb_spec a b)
  | |- context [Nat.leb ?a ?b] => destruct (Nat.leb_spec a b)
  | |- context [Nat.eqb ?a ?b] => destruct (Nat.eqb_spec a b)
  end; try lia; cbn [andb].

Lemma Karatsuba_fuel_ok k : forall fuel a b,
  (k < fuel)%nat -> (2 ^ k <= length a)%nat -> (2 ^ k <= length b)%nat ->
  exists r, Karatsuba_fuel fuel a b (2 ^ k) = Ok r /\ length r = (2 * 2 ^ k)%nat /\
    forall i, coef r i = dsum (2 ^ k) (coef a) (coef b) i.
Proof.
  induction k as [|k IH]; intros [|fuel] a b Hf La Lb; try lia.
  - cbn [Nat.pow] in *. cbn [Karatsuba_fuel Nat.eqb].
    rewrite (idx_coef a), (idx_coef b) by lia. cbn [bind]. eexists. split; [reflexivity|].
    split; [reflexivity|]. intros i. unfold dsum. cbn [sumn Nat.add].
    destruct i as [|[|i]]; unfold coef at 1; cbn; try ring. destruct i; ring.
  - cbn [Karatsuba_fuel].
    assert (P := pow2_pos k).
    assert (N1 : Nat.eqb (2 ^ S k) 1 = false).
    { apply Nat.eqb_neq. cbn [Nat.pow]. lia. }
    rewrite N1, pow2_half. set (m := (2 ^ k)%nat) in *.
    assert (En : (2 ^ S k = m + m)%nat) by (cbn [Nat.pow]; unfold m; lia).
    rewrite En in *. clear N1.
    rewrite !slice_prefix, !slice_suffix by lia. cbn [bind].
    assert (F1 : length (firstn m a) = m) by (apply firstn_length_le; lia).
    assert (F2 : length (firstn m b) = m) by (apply firstn_length_le; lia).
    assert (S1 : (m <= length (skipn m a))%nat) by (rewrite skipn_length; lia).
    assert (S2 : (m <= length (skipn m b))%nat) by (rewrite skipn_length; lia).
    rewrite (mapM_Ok _ (fun i => coef a i + coef a (m + i))).
    2:{ intros i Hi. apply in_seq in Hi. rewrite !idx_coef by lia. cbn [bind].
        rewrite coef_firstn, coef_skipn by lia. reflexivity. }
    cbn [bind].
    rewrite (mapM_Ok _ (fun i => coef b i + coef b (m + i))).
    2:{ intros i Hi. apply in_seq in Hi. rewrite !idx_coef by lia. cbn [bind].
        rewrite coef_firstn, coef_skipn by lia. reflexivity. }
    cbn [bind].
    destruct (IH fuel (firstn m a) (firstn m b)) as (r0 & E0 & L0 & C0); [lia..|].
    destruct (IH fuel (skipn m a) (skipn m b)) as (r1 & E1 & L1 & C1); [lia..|].
    destruct (IH fuel (map (fun i => coef a i + coef a (m + i)) (seq 0 m))
                      (map (fun i => coef b i + coef b (m + i)) (seq 0 m)))
      as (rx & Ex & Lx & Cx); [lia|rewrite map_length, seq_length; lia..|].
    rewrite E0, E1, Ex. cbn [bind].
    (* the correction of axbx *)
    match goal with |- exists _, bind (foldM ?f _ _) _ = _ /\ _ =>
      destruct (foldM_seq_inv f (fun i l => length l = (m + m)%nat /\
         forall j, coef l j = coef rx j - (if Nat.ltb j i then coef r0 j + coef r1 j else 0))
         (m + m) rx) as (ry & Ey & Ly & Cy) end.
    { split; [lia|]. intros j. destruct (Nat.ltb_spec j 0); [lia|ring]. }
    { intros i l Hi (Ll & Cl). rewrite !idx_coef by lia. cbn [bind].
      destruct (add_at_ok l i (- (coef r0 i + coef r1 i))) as (l' & E' & L' & C'); [lia|].
      exists l'. split; [exact E'|]. split; [lia|]. intros j. rewrite C', Cl.
      ifs; subst; lia. }
    rewrite Ey. cbn [bind].
    match goal with |- exists _, foldM ?f _ _ = _ /\ _ =>
      destruct (foldM_seq_inv f (fun i l => length l = (2 * (m + m))%nat /\
         forall j, coef l j = (if Nat.ltb j i then coef r0 j else 0)
            + (if Nat.leb (m + m) j && Nat.ltb (j - (m + m)) i then coef r1 (j - (m + m)) else 0)
            + (if Nat.leb m j && Nat.ltb (j - m) i then coef ry (j - m) else 0))
         (m + m) (repeat 0 (2 * (m + m)))) as (r & Er & Lr & Cr) end.
    { split; [apply repeat_length|]. intros j. unfold coef at 1. rewrite nth_repeat. ifs; ring. }
    { intros i l Hi (Ll & Cl). rewrite (idx_coef r0) by lia. cbn [bind].
      destruct (add_at_ok l i (coef r0 i)) as (l1 & E1' & L1' & C1'); [lia|].
      rewrite E1'. cbn [bind]. rewrite (idx_coef r1) by lia. cbn [bind].
      destruct (add_at_ok l1 (i + (m + m)) (coef r1 i)) as (l2 & E2' & L2' & C2'); [lia|].
      rewrite E2'. cbn [bind]. rewrite (idx_coef ry) by lia. cbn [bind].
      destruct (add_at_ok l2 (i + m) (coef ry i)) as (l3 & E3' & L3' & C3'); [lia|].
      exists l3. split; [exact E3'|]. split; [lia|]. intros j.
      rewrite C3', C2', C1', Cl. clear - Hi P. 
      assert (A1 : (if Nat.ltb j (S i) then coef r0 j else 0) =
                   (if Nat.ltb j i then coef r0 j else 0) + (if Nat.eqb j i then coef r0 i else 0))
        by (ifs; subst; ring).
      assert (A2 : forall s r, (if Nat.leb s j && Nat.ltb (j - s) (S i) then coef r (j - s) else 0) =
                   (if Nat.leb s j && Nat.ltb (j - s) i then coef r (j - s) else 0)
                   + (if Nat.eqb j (i + s) then coef r i else 0)).
      { intros s r. ifs; subst; try ring; (replace (i + s - s)%nat with i by lia; ring) ||
          (replace i with (j - s)%nat by lia; ring). }
      rewrite A1, !A2. ring. }
    exists r. split; [exact Er|]. split; [exact Lr|]. intros i. rewrite Cr.
    rewrite dsum_double. cbv zeta.
    rewrite (C0 i).
    assert (D0 : forall i, coef r0 i = dsum m (coef a) (coef b) i).
    { intros j. rewrite C0. apply dsum_ext; intros; apply coef_firstn; assumption. }
    assert (D1 : forall i, coef r1 i = dsum m (fun i => coef a (m + i)) (fun i => coef b (m + i)) i).
    { intros j. rewrite C1. apply dsum_ext; intros; apply coef_skipn; assumption. }
    assert (Dx : forall i, coef rx i = dsum m (fun i => coef a i + coef a (m + i)) (fun i => coef b i + coef b (m + i)) i).
    { intros j. rewrite Cx. apply dsum_ext; intros; apply coef_map_seq; assumption. }
    rewrite <- C0, D0.
    assert (Dy : forall i, coef ry i = dsum m (coef a) (fun i => coef b (m + i)) i
                                     + dsum m (fun i => coef a (m + i)) (coef b) i).
    { intros j. rewrite Cy, Dx, dsum_add, D0, D1.
      destruct (Nat.ltb_spec j (m + m)); [ring|].
      rewrite !dsum_out by lia. ring. }
    rewrite D1, Dy.
    ifs; try (rewrite !(dsum_out m) by lia); try ring.
    all: try (rewrite (dsum_out m (coef a) (coef b) i) by lia); try ring.
    all: try (rewrite (dsum_out m _ _ (i - m)) by lia); 
         try (rewrite (dsum_out m _ _ (i - m)) by lia); try ring.
Qed.

Theorem Karatsuba_ok k a b :
  (2 ^ k <= length a)%nat -> (2 ^ k <= length b)%nat ->
  exists r, Karatsuba a b (2 ^ k) = Ok r /\ length r = (2 * 2 ^ k)%nat /\
    forall i, coef r i = dsum (2 ^ k) (coef a) (coef b) i.
Proof. apply Karatsuba_fuel_ok. apply Nat.pow_gt_lin_r. lia. Qed.

Theorem Karatsuba_conv k a b : length a = (2 ^ k)%nat -> length b = (2 ^ k)%nat ->
  Karatsuba a b (2 ^ k) = Ok (map (conv_coef a b) (seq 0 (2 * 2 ^ k))).
Proof.
  intros La Lb. destruct (Karatsuba_ok k a b) as (r & E & L & C); [lia..|].
  rewrite E. f_equal. apply list_eq_coef; [rewrite map_length, seq_length; exact L|].
  intros i Hi. rewrite C, dsum_conv by assumption.
  rewrite coef_map_seq by lia. reflexivity.
Qed.

(** karamul uses the first len(a) coefficients of b *)
Theorem karamul_ok k a b : length a = (2 ^ k)%nat -> (2 ^ k <= length b)%nat ->
  karamul a b = Ok (negacyc (2 ^ k) a b).
Proof.
  intros La Lb. unfold karamul. rewrite La.
  destruct (Karatsuba_ok k a b) as (r & E & L & C); [lia..|].
  rewrite E. cbn [bind]. unfold negacyc. apply mapM_Ok. intros i Hi. apply in_seq in Hi.
  rewrite !idx_coef by lia. cbn [bind]. rewrite !C. f_equal. apply dsum_nega. lia.
Qed.

(** for any other length Karatsuba does not return *)
Lemma pow2_or n : (exists k, n = (2 ^ k)%nat) \/ (forall k, n <> (2 ^ k)%nat).
Proof.
  destruct (Nat.eq_dec n 0) as [->|Hn].
  - right. intros k E. pose proof (pow2_pos k). lia.
  - destruct (Nat.eq_dec n (2 ^ Nat.log2 n)) as [E|E]; [left; eauto|].
    right. intros k Ek. apply E. rewrite Ek, Nat.log2_pow2 by lia. reflexivity.
Qed.
