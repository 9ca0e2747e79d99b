(** Correctness of the NTT: evaluation, inverse, product and quotient. *)
From Verif Require Import GoBase Util NttTables Ntt Spec PolyZ BaseProofs.

Notation "a == b" := (cong Q a b) (at level 70).
#[export] Instance congQ_equiv : RelationClasses.Equivalence (cong Q) := cong_equiv Q.
#[export] Instance congQ_add : Morphisms.Proper (Morphisms.respectful (cong Q) (Morphisms.respectful (cong Q) (cong Q))) Z.add.
Proof. intros a b H c d H'. apply cong_add; assumption. Qed.
#[export] Instance congQ_mul : Morphisms.Proper (Morphisms.respectful (cong Q) (Morphisms.respectful (cong Q) (cong Q))) Z.mul.
Proof. intros a b H c d H'. apply cong_mul; assumption. Qed.
#[export] Instance congQ_sub : Morphisms.Proper (Morphisms.respectful (cong Q) (Morphisms.respectful (cong Q) (cong Q))) Z.sub.
Proof. intros a b H c d H'. apply cong_sub; assumption. Qed.
#[export] Instance congQ_opp : Morphisms.Proper (Morphisms.respectful (cong Q) (cong Q)) Z.opp.
Proof. intros a b H. apply cong_opp; assumption. Qed.

Ltac cring := first [ring | apply cong_eq; ring].

(** ** Table facts (complete checks over the finite tables) *)
Definition W (k : nat) : list Z := roots_dict_Zq (2 ^ Z.of_nat k).

Ltac cases_k k H :=
  destruct k as [|[|[|[|[|[|[|[|[|[|[|k]]]]]]]]]]]; try (exfalso; lia).

Lemma W_key k : (1 <= k <= 10)%nat -> roots_dict_Zq (wrap16 (Z.of_nat (2 ^ k))) = W k.
Proof. intros H. cases_k k H; reflexivity. Qed.

Lemma W_length k : (1 <= k <= 10)%nat -> length (W k) = (2 ^ k)%nat.
Proof. intros H. cases_k k H; vm_compute; reflexivity. Qed.

Definition range_check (l : list Z) : bool := forallb (fun w => (0 <? w) && (w <? Q)) l.
Lemma W_range k : (1 <= k <= 10)%nat -> Forall (fun w => 0 < w < Q) (W k).
Proof.
  intros H. apply Forall_forall. intros w Hw.
  assert (E : range_check (W k) = true) by (cases_k k H; vm_compute; reflexivity).
  unfold range_check in E. rewrite forallb_forall in E. specialize (E w Hw). lia.
Qed.

Fixpoint sq_check (w w' : list Z) : bool :=
  match w, w' with
  | a :: b :: w, c :: w' => (a * a mod Q =? c mod Q) && (b mod Q =? (- a) mod Q) && sq_check w w'
  | [], [] => true
  | _, _ => false
  end.
Lemma sq_check_ok w' : forall w i, sq_check w w' = true -> (i < length w')%nat ->
  nth (2 * i) w 0 * nth (2 * i) w 0 == nth i w' 0 /\
  nth (2 * i + 1) w 0 == - nth (2 * i) w 0.
Proof.
  induction w' as [|c w' IH]; intros w i H Hi; cbn [length] in Hi; [lia|].
  destruct w as [|a [|b w]]; cbn [sq_check] in H; try discriminate.
  apply andb_true_iff in H. destruct H as [H H3].
  apply andb_true_iff in H. destruct H as [H1 H2].
  apply Z.eqb_eq in H1, H2.
  destruct i as [|i].
  - split; assumption.
  - replace (2 * S i)%nat with (S (S (2 * i))) by lia.
    replace (S (S (2 * i)) + 1)%nat with (S (S (2 * i + 1))) by lia.
    cbn [nth]. apply IH; [assumption|lia].
Qed.

Lemma W_sq k : (2 <= k <= 10)%nat -> sq_check (W k) (W (k - 1)) = true.
Proof. intros H. cases_k k H; vm_compute; reflexivity. Qed.

Lemma W_even k i : (2 <= k <= 10)%nat -> (i < 2 ^ (k - 1))%nat ->
  nth (2 * i) (W k) 0 * nth (2 * i) (W k) 0 == nth i (W (k - 1)) 0.
Proof.
  intros H Hi. apply (sq_check_ok (W (k - 1)) (W k) i (W_sq k H)).
  rewrite W_length by lia. assumption.
Qed.

Lemma W_odd k i : (2 <= k <= 10)%nat -> (i < 2 ^ (k - 1))%nat ->
  nth (2 * i + 1) (W k) 0 == - nth (2 * i) (W k) 0.
Proof.
  intros H Hi. apply (sq_check_ok (W (k - 1)) (W k) i (W_sq k H)).
  rewrite W_length by lia. assumption.
Qed.

Lemma W_1 : W 1 = [1479; 10810].
Proof. reflexivity. Qed.

(** inverse table *)
Fixpoint inv_check (a : Z) (l : list Z) : bool :=
  match l with
  | [] => true
  | v :: l => (a * v mod Q =? 1) && (0 <=? v) && (v <? Q) && inv_check (a + 1) l
  end.
Lemma inv_check_ok l : forall a i, inv_check a l = true -> (i < length l)%nat ->
  ((a + Z.of_nat i) * nth i l 0) mod Q = 1 /\ 0 <= nth i l 0 < Q.
Proof.
  induction l as [|v l IH]; intros a i H Hi; cbn [length] in Hi; [lia|].
  cbn [inv_check] in H.
  apply andb_true_iff in H. destruct H as [H H3].
  destruct i as [|i].
  - cbn [nth]. replace (a + Z.of_nat 0) with a by lia. lia.
  - cbn [nth]. replace (a + Z.of_nat (S i)) with ((a + 1) + Z.of_nat i) by lia.
    apply IH; [assumption|lia].
Qed.

Lemma inv_table : inv_check 1 (tl inv_mod_q) = true.
Proof. vm_compute. reflexivity. Qed.
Lemma inv_length : Z.of_nat (length inv_mod_q) = 12289.
Proof. vm_compute. reflexivity. Qed.

Definition invq (a : Z) : Z := nth (Z.to_nat a) inv_mod_q 0.

Lemma invq_ok a : 0 < a < Q -> (a * invq a) mod Q = 1 /\ 0 <= invq a < Q.
Proof.
  intros H. unfold invq.
  assert (Hl : length inv_mod_q = S (length (tl inv_mod_q))) by reflexivity.
  pose proof (inv_check_ok (tl inv_mod_q) 1 (Z.to_nat a - 1) inv_table) as E.
  pose proof inv_length as Hl2. unfold Q in *.
  specialize (E ltac:(lia)).
  replace (1 + Z.of_nat (Z.to_nat a - 1)) with a in E by lia.
  assert (En : nth (Z.to_nat a) inv_mod_q 0 = nth (Z.to_nat a - 1) (tl inv_mod_q) 0).
  { replace (Z.to_nat a) with (S (Z.to_nat a - 1)) at 1 by lia. reflexivity. }
  rewrite En. exact E.
Qed.

Lemma invq_idx a : 0 <= a < Q ->
  (if a <? 0 then Panic else idx inv_mod_q (Z.to_nat a)) = Ok (invq a).
Proof.
  intros H. destruct (Z.ltb_spec a 0); [lia|].
  apply idx_nth. pose proof inv_length. unfold Q in H. lia.
Qed.

Lemma invq_cong a : 0 < a < Q -> a * invq a == 1.
Proof. intros H. unfold cong. rewrite (proj1 (invq_ok a H)). reflexivity. Qed.

Lemma i2_ok : 2 * i2 == 1.
Proof. reflexivity. Qed.
Lemma sqr1_val : sqr1 = 1479.
Proof. reflexivity. Qed.

(** ** Bounds *)
Lemma mul_bound a b A B : Z.abs a <= A -> Z.abs b <= B -> Z.abs (a * b) <= A * B.
Proof. intros. rewrite Z.abs_mul. apply Z.mul_le_mono_nonneg; lia. Qed.

Lemma is_int64_abs z : Z.abs z < 2 ^ 62 -> is_int64 z.
Proof. unfold is_int64. intros. change (2 ^ 63) with (2 * 2 ^ 62). lia. Qed.

Lemma int16_abs z : is_int16 z -> Z.abs z <= 32768.
Proof. unfold is_int16. lia. Qed.

Lemma pow2_half k : (1 <= k)%nat -> (2 ^ k = 2 * 2 ^ (k - 1))%nat.
Proof. intros H. replace k with (S (k - 1)) at 1 by lia. reflexivity. Qed.

Lemma pow2_pos k : (0 < 2 ^ k)%nat.
Proof. apply Nat.neq_0_lt_0, Nat.pow_nonzero. lia. Qed.

Lemma div2_pow k : (1 <= k)%nat -> Nat.div (2 ^ k) 2 = (2 ^ (k - 1))%nat.
Proof. intros H. rewrite pow2_half, Nat.mul_comm, Nat.div_mul by lia. reflexivity. Qed.

Lemma modQ_small z : 0 <= z < Q -> z mod Q = z.
Proof. apply Z.mod_small. Qed.

Definition inq (l : list Z) : Prop := Forall (fun c => 0 <= c < Q) l.
Lemma inq_int16 l : inq l -> int16s l.
Proof. apply Forall_impl. unfold is_int16, Q. lia. Qed.
Lemma inq_map f (l : list nat) : inq (map (fun i => f i mod Q) l).
Proof. apply Forall_forall. intros x Hx. apply in_map_iff in Hx. destruct Hx as [i [<- _]]. apply modQ_range. Qed.
Lemma inq_mapZ f (l : list Z) : inq (map (fun i => f i mod Q) l).
Proof. apply Forall_forall. intros x Hx. apply in_map_iff in Hx. destruct Hx as [i [<- _]]. apply modQ_range. Qed.
Lemma inq_interleave f g n : inq (interleave (fun i => f i mod Q) (fun i => g i mod Q) n).
Proof.
  induction n as [|n IH]; [constructor|]. rewrite interleave_S. apply Forall_app. split; [assumption|].
  repeat constructor; apply modQ_range.
Qed.
Lemma inq_pmod l : inq (pmod Q l).
Proof. apply inq_mapZ. Qed.

Section NTTProofs.
Variable iw : Z -> Z.
Hypothesis iw_id : forall z, is_int64 z -> iw z = z.

Notation MergeNTT := (MergeNTT iw).
Notation SplitNTT := (SplitNTT iw).
Notation NTT := (NTT iw).
Notation NTT_fuel := (NTT_fuel iw).
Notation INTT := (INTT iw).
Notation INTT_fuel := (INTT_fuel iw).

Lemma iw_abs z : Z.abs z < 2 ^ 62 -> iw z = z.
Proof. intros H. apply iw_id, is_int64_abs, H. Qed.

Definition mergeP (k : nat) (a b : list Z) : list Z :=
  interleave (fun i => (nth (2 * i) (W k) 0 * nth i b 0 + nth i a 0) mod Q)
             (fun i => (nth i a 0 - nth (2 * i) (W k) 0 * nth i b 0) mod Q) (2 ^ (k - 1)).

Lemma Wn_range k i : (1 <= k <= 10)%nat -> (i < 2 ^ k)%nat -> 0 < nth i (W k) 0 < Q.
Proof.
  intros H Hi. apply (Forall_nth_d (fun w => 0 < w < Q)); [apply W_range; assumption|].
  rewrite W_length by assumption. assumption.
Qed.

Lemma MergeNTT_ok k a b : (1 <= k <= 10)%nat ->
  length a = (2 ^ (k - 1))%nat -> length b = (2 ^ (k - 1))%nat -> int16s a -> int16s b ->
  MergeNTT a b = Ok (mergeP k a b).
Proof.
  intros Hk Ha Hb Ia Ib. unfold Ntt.MergeNTT. rewrite Ha, <- pow2_half, div2_pow by lia.
  rewrite W_key by assumption.
  rewrite (mapM_Ok _ (fun i => [(nth (2 * i) (W k) 0 * nth i b 0 + nth i a 0) mod Q;
                                (nth i a 0 - nth (2 * i) (W k) 0 * nth i b 0) mod Q])).
  { reflexivity. }
  intros i Hi. apply in_seq in Hi.
  pose proof (pow2_half k ltac:(lia)) as Hp.
  rewrite (idx_nth _ _ 0) by (rewrite W_length by assumption; lia). cbn [bind].
  rewrite !(idx_nth _ _ 0) by lia. cbn [bind].
  pose proof (Wn_range k (2 * i) Hk ltac:(lia)) as Hw.
  pose proof (int16_abs _ (Forall_nth_d is_int16 a i 0 Ia ltac:(lia))) as Ba.
  pose proof (int16_abs _ (Forall_nth_d is_int16 b i 0 Ib ltac:(lia))) as Bb.
  set (w := nth (2 * i) (W k) 0) in *. set (x := nth i a 0) in *. set (y := nth i b 0) in *.
  unfold Q in Hw. pose proof (mul_bound w y 12289 32768 ltac:(lia) Bb) as Bm.
  rewrite (iw_abs (w * y)) by lia. rewrite (iw_abs (w * y + x)) by lia.
  rewrite Pmod_Q. cbn [bind]. rewrite (iw_abs (x - w * y)) by lia.
  rewrite Pmod_Q. cbn [bind]. rewrite !wrap16_modQ. reflexivity.
Qed.

Lemma mergeP_length k a b : (1 <= k)%nat -> length (mergeP k a b) = (2 ^ k)%nat.
Proof. intros H. unfold mergeP. rewrite interleave_length, <- pow2_half by lia. reflexivity. Qed.
Lemma mergeP_inq k a b : inq (mergeP k a b).
Proof. apply (inq_interleave (fun i => _) (fun i => _)). Qed.

Definition splitP0 (k : nat) (f : list Z) : list Z :=
  map (fun i => ((nth (2 * i) f 0 + nth (2 * i + 1) f 0) * i2) mod Q) (seq 0 (2 ^ (k - 1))).
Definition splitP1 (k : nat) (f : list Z) : list Z :=
  map (fun i => ((nth (2 * i) f 0 - nth (2 * i + 1) f 0) * i2 * invq (nth (2 * i) (W k) 0)) mod Q)
      (seq 0 (2 ^ (k - 1))).

Lemma SplitNTT_ok k f : (1 <= k <= 10)%nat -> length f = (2 ^ k)%nat -> int16s f ->
  SplitNTT f = Ok (splitP0 k f, splitP1 k f).
Proof.
  intros Hk Hf If. unfold Ntt.SplitNTT. rewrite Hf, div2_pow by lia.
  rewrite W_key by assumption.
  rewrite (mapM_Ok _ (fun i =>
     (((nth (2 * i) f 0 + nth (2 * i + 1) f 0) * i2) mod Q,
      ((nth (2 * i) f 0 - nth (2 * i + 1) f 0) * i2 * invq (nth (2 * i) (W k) 0)) mod Q))).
  { cbn [bind]. rewrite !map_map. reflexivity. }
  intros i Hi. apply in_seq in Hi.
  pose proof (pow2_half k ltac:(lia)) as Hp.
  rewrite !(idx_nth f _ 0) by lia. cbn [bind].
  pose proof (int16_abs _ (Forall_nth_d is_int16 f (2 * i) 0 If ltac:(lia))) as Ba.
  pose proof (int16_abs _ (Forall_nth_d is_int16 f (2 * i + 1) 0 If ltac:(lia))) as Bb.
  rewrite (idx_nth _ _ 0) by (rewrite W_length by assumption; lia). cbn [bind].
  pose proof (Wn_range k (2 * i) Hk ltac:(lia)) as Hw.
  rewrite invq_idx by lia.
  pose proof (proj2 (invq_ok _ Hw)) as Hv.
  set (w := nth (2 * i) (W k) 0) in *.
  set (x := nth (2 * i) f 0) in *. set (y := nth (2 * i + 1) f 0) in *.
  unfold i2, Q in *.
  rewrite (iw_abs (x + y)) by lia. rewrite (iw_abs (x - y)) by lia.
  rewrite (iw_abs ((x + y) * 6145)) by lia. rewrite (iw_abs ((x - y) * 6145)) by lia.
  change 12289 with Q. rewrite Pmod_Q. cbn [bind].
  pose proof (mul_bound ((x - y) * 6145) (invq w) (65536 * 6145) 12289 ltac:(lia) ltac:(lia)) as Bm.
  rewrite iw_abs by lia. rewrite Pmod_Q. cbn [bind].
  rewrite !wrap16_modQ. reflexivity.
Qed.

Lemma splitP0_length k f : length (splitP0 k f) = (2 ^ (k - 1))%nat.
Proof. unfold splitP0. rewrite map_length, seq_length. reflexivity. Qed.
Lemma splitP1_length k f : length (splitP1 k f) = (2 ^ (k - 1))%nat.
Proof. unfold splitP1. rewrite map_length, seq_length. reflexivity. Qed.
Lemma splitP0_inq k f : inq (splitP0 k f).
Proof. apply (inq_map (fun i => _)). Qed.
Lemma splitP1_inq k f : inq (splitP1 k f).
Proof. apply (inq_map (fun i => _)). Qed.

Lemma pmod_nth f i : nth i (pmod Q f) 0 = nth i f 0 mod Q.
Proof. unfold pmod. exact (map_nth (fun c => c mod Q) f 0 i). Qed.
Lemma pmod_length f : length (pmod Q f) = length f.
Proof. apply map_length. Qed.
Lemma pmod_small f : inq f -> pmod Q f = f.
Proof.
  intros H. induction H as [|c f Hc _ IH]; cbn [pmod map]; [reflexivity|].
  rewrite modQ_small by assumption. f_equal. exact IH.
Qed.

Lemma cong_modeq a b : a == b -> a mod Q = b mod Q.
Proof. intros H; exact H. Qed.

Lemma i2_double x : x * 2 * i2 == x.
Proof. rewrite <- (Z.mul_1_r x) at 2. rewrite <- Z.mul_assoc. rewrite i2_ok. reflexivity. Qed.

(** merging what was split *)
Lemma mergeP_splitP k f : (1 <= k <= 10)%nat -> length f = (2 ^ k)%nat ->
  mergeP k (splitP0 k f) (splitP1 k f) = pmod Q f.
Proof.
  intros Hk Hf. pose proof (pow2_half k ltac:(lia)) as Hp.
  apply (list_eq_pairs _ _ (2 ^ (k - 1)) 0).
  - rewrite mergeP_length by lia. lia.
  - rewrite pmod_length. lia.
  - intros i Hi. unfold mergeP.
    rewrite interleave_even, interleave_odd, !pmod_nth by assumption.
    unfold splitP0, splitP1. rewrite !nth_map_seq by assumption.
    pose proof (Wn_range k (2 * i) Hk ltac:(lia)) as Hw.
    pose proof (invq_cong _ Hw) as Hv.
    set (w := nth (2 * i) (W k) 0) in *.
    set (x := nth (2 * i) f 0) in *. set (y := nth (2 * i + 1) f 0) in *.
    set (v := invq w) in *.
    assert (E : w * (((x - y) * i2 * v) mod Q) == (x - y) * i2).
    { rewrite cong_mod. transitivity ((w * v) * ((x - y) * i2)); [cring|].
      rewrite Hv. cring. }
    split; apply cong_modeq.
    + rewrite E, cong_mod. transitivity (x * 2 * i2); [cring|]. apply i2_double.
    + rewrite E, cong_mod. transitivity (y * 2 * i2); [cring|]. apply i2_double.
Qed.

(** splitting what was merged *)
Lemma splitP_mergeP k a b : (1 <= k <= 10)%nat ->
  length a = (2 ^ (k - 1))%nat -> length b = (2 ^ (k - 1))%nat ->
  splitP0 k (mergeP k a b) = pmod Q a /\ splitP1 k (mergeP k a b) = pmod Q b.
Proof.
  intros Hk Ha Hb. pose proof (pow2_half k ltac:(lia)) as Hp.
  split; apply nth_ext with (d := 0) (d' := 0);
    rewrite ?splitP0_length, ?splitP1_length, ?pmod_length; try congruence;
    intros i Hi; rewrite pmod_nth; unfold splitP0, splitP1;
    rewrite nth_map_seq by assumption; unfold mergeP;
    rewrite interleave_even, interleave_odd by assumption;
    pose proof (Wn_range k (2 * i) Hk ltac:(lia)) as Hw;
    pose proof (invq_cong _ Hw) as Hv;
    set (w := nth (2 * i) (W k) 0) in *;
    set (x := nth i a 0) in *; set (y := nth i b 0) in *;
    set (v := invq w) in *; apply cong_modeq; rewrite !cong_mod.
  - transitivity (x * 2 * i2); [cring|]. apply i2_double.
  - transitivity ((w * v) * y * 2 * i2); [cring|].
    rewrite Hv, i2_double. cring.
Qed.

(** ** NTT evaluates *)
Definition evalsP (k : nat) (f : list Z) : list Z := map (fun w => eval f w mod Q) (W k).

Lemma evalsP_length k f : (1 <= k <= 10)%nat -> length (evalsP k f) = (2 ^ k)%nat.
Proof. intros. unfold evalsP. rewrite map_length. apply W_length; assumption. Qed.
Lemma evalsP_inq k f : inq (evalsP k f).
Proof. apply (inq_mapZ (fun w => _)). Qed.
Lemma evalsP_nth k f i : (1 <= k <= 10)%nat -> (i < 2 ^ k)%nat ->
  nth i (evalsP k f) 0 = eval f (nth i (W k) 0) mod Q.
Proof.
  intros Hk Hi. unfold evalsP.
  rewrite (nth_indep _ 0 (eval f 0 mod Q)) by (rewrite map_length, W_length by assumption; assumption).
  exact (map_nth (fun w => eval f w mod Q) (W k) 0 i).
Qed.

Lemma eval_evens_odds k f x : (1 <= k)%nat -> length f = (2 ^ k)%nat ->
  eval f x == eval (evens 0 f) (x * x) + x * eval (odds 0 f) (x * x).
Proof.
  intros Hk Hf. pose proof (div2_pow k Hk) as Hd. rewrite <- Hf in Hd.
  apply (ceval_even_odd Q (2 ^ (k - 1))).
  - rewrite Hf. apply pow2_half. lia.
  - rewrite evens_length. assumption.
  - rewrite odds_length. assumption.
  - intros i Hi. unfold coef. rewrite evens_nth by lia. reflexivity.
  - intros i Hi. unfold coef. rewrite odds_nth by lia. reflexivity.
Qed.

Lemma mergeP_evals k f : (2 <= k <= 10)%nat -> length f = (2 ^ k)%nat ->
  mergeP k (evalsP (k - 1) (evens 0 f)) (evalsP (k - 1) (odds 0 f)) = evalsP k f.
Proof.
  intros Hk Hf. pose proof (pow2_half k ltac:(lia)) as Hp.
  apply (list_eq_pairs _ _ (2 ^ (k - 1)) 0).
  - rewrite mergeP_length by lia. lia.
  - rewrite evalsP_length by lia. lia.
  - intros i Hi. unfold mergeP.
    rewrite interleave_even, interleave_odd by assumption.
    rewrite !evalsP_nth by lia.
    pose proof (W_even k i Hk Hi) as He. pose proof (W_odd k i Hk Hi) as Ho.
    set (w := nth (2 * i) (W k) 0) in *. set (w1 := nth (2 * i + 1) (W k) 0) in *.
    set (w' := nth i (W (k - 1)) 0) in *.
    split; apply cong_modeq; rewrite !cong_mod.
    + rewrite (eval_evens_odds k f w) by (assumption || lia).
      rewrite (ceval_x Q _ (w * w) w' He), (ceval_x Q (odds 0 f) (w * w) w' He). cring.
    + rewrite (eval_evens_odds k f w1) by (assumption || lia).
      assert (He1 : w1 * w1 == w') by (rewrite Ho, <- He; cring).
      rewrite (ceval_x Q _ (w1 * w1) w' He1), (ceval_x Q (odds 0 f) (w1 * w1) w' He1).
      rewrite Ho. cring.
Qed.

Lemma list2 (f : list Z) : length f = 2%nat -> exists a b, f = [a; b].
Proof. destruct f as [|a [|b [|c f]]]; try discriminate. intros _. exists a, b. reflexivity. Qed.

Lemma NTT_fuel_ok k : forall fuel f, (1 <= k <= 10)%nat -> length f = (2 ^ k)%nat ->
  int16s f -> (k <= fuel)%nat -> NTT_fuel fuel f = Ok (evalsP k f).
Proof.
  induction k as [|k IH]; intros fuel f Hk Hf If Hfu; [lia|].
  destruct fuel as [|fuel]; [lia|]. cbn [Ntt.NTT_fuel].
  destruct k as [|k].
  - change (2 ^ 1)%nat with 2%nat in Hf.
    destruct (list2 f Hf) as [a [b ->]].
    cbn [length Nat.ltb Nat.leb Nat.eqb idx nth_error bind].
    pose proof (int16_abs _ (Forall_nth_d is_int16 _ 0 0 If ltac:(cbn; lia))) as Ba.
    pose proof (int16_abs _ (Forall_nth_d is_int16 _ 1 0 If ltac:(cbn; lia))) as Bb.
    cbn [nth] in Ba, Bb. rewrite sqr1_val.
    rewrite (iw_abs (1479 * b)) by lia. rewrite iw_abs by lia. rewrite Pmod_Q. cbn [bind].
    rewrite iw_abs by lia. rewrite Pmod_Q. cbn [bind].
    unfold evalsP, IntToInt16. rewrite W_1. cbn [map]. rewrite !wrap16_modQ.
    unfold eval. cbn [length sumn coef nth]. f_equal. f_equal; [|f_equal].
    + f_equal. change (Z.of_nat 0) with 0. change (Z.of_nat 1) with 1. rewrite Z.pow_0_r, Z.pow_1_r. cring.
    + change (Z.of_nat 0) with 0. change (Z.of_nat 1) with 1. rewrite Z.pow_0_r, Z.pow_1_r.
      apply cong_modeq. apply cong_divide; [discriminate|]. exists (- b). unfold Q. cring.
  - set (k1 := S k) in *.
    assert (Hlt : Nat.ltb 2 (length f) = true).
    { apply Nat.ltb_lt. rewrite Hf. unfold k1. pose proof (pow2_pos k).
      change (2 ^ S (S k))%nat with (2 ^ k + (2 ^ k + 0) + (2 ^ k + (2 ^ k + 0) + 0))%nat. lia. }
    rewrite Hlt. rewrite (SplitPolys_ok 0). cbn [bind fst snd].
    assert (Hd : Nat.div (length f) 2 = (2 ^ k1)%nat) by (rewrite Hf, div2_pow by lia; f_equal; lia).
    rewrite (IH fuel (evens 0 f)); try lia.
    2:{ rewrite evens_length. assumption. }
    2:{ apply Forall_evens. assumption. }
    rewrite (IH fuel (odds 0 f)); try lia.
    2:{ rewrite odds_length. assumption. }
    2:{ apply Forall_odds. assumption. }
    cbn [bind]. replace k1 with (S k1 - 1)%nat by lia.
    rewrite (MergeNTT_ok (S k1)); try lia.
    + f_equal. apply (mergeP_evals (S k1) f); [lia|]. assumption.
    + apply evalsP_length; lia.
    + apply evalsP_length; lia.
    + apply inq_int16, evalsP_inq.
    + apply inq_int16, evalsP_inq.
Qed.

Lemma pow2_gt k : (k < 2 ^ k)%nat.
Proof. apply Nat.pow_gt_lin_r. lia. Qed.

Theorem NTT_ok k f : (1 <= k <= 10)%nat -> length f = (2 ^ k)%nat -> int16s f ->
  NTT f = Ok (evalsP k f).
Proof.
  intros Hk Hf If. unfold Ntt.NTT. apply NTT_fuel_ok; try assumption.
  rewrite Hf. pose proof (pow2_gt k). lia.
Qed.

(** ** The inverse *)
(** the polynomial interpolating F, as computed by INTT *)
Fixpoint inttP (k : nat) (F : list Z) : list Z :=
  match k with
  | O => []
  | S O => [((nth 0 F 0 + nth 1 F 0) * i2) mod Q;
            ((nth 0 F 0 - nth 1 F 0) * invq 1479 * i2) mod Q]
  | S k' => interleave (fun i => nth i (inttP k' (splitP0 k F)) 0)
                       (fun i => nth i (inttP k' (splitP1 k F)) 0) (2 ^ k')
  end.

Lemma inttP_length k F : (1 <= k)%nat -> length (inttP k F) = (2 ^ k)%nat.
Proof.
  intros Hk. destruct k as [|[|k]]; [lia|reflexivity|].
  cbn [inttP]. rewrite interleave_length. reflexivity.
Qed.

Lemma inq_nth l i : inq l -> 0 <= nth i l 0 < Q.
Proof.
  intros H. destruct (Nat.lt_ge_cases i (length l)) as [Hi|Hi].
  - apply (Forall_nth_d (fun c => 0 <= c < Q)); assumption.
  - rewrite nth_overflow by assumption. unfold Q. lia.
Qed.

Lemma inttP_inq k : forall F, inq (inttP k F).
Proof.
  induction k as [|k IH]; intros F; [constructor|].
  destruct k as [|k].
  - repeat constructor; apply modQ_range.
  - cbn [inttP]. set (n := (2 ^ S k)%nat). clearbody n.
    induction n as [|n IHn]; [constructor|]. rewrite interleave_S. apply Forall_app. split; [assumption|].
    repeat constructor; apply (inq_nth _ n); apply IH.
Qed.

Lemma INTT_fuel_ok k : forall fuel F, (1 <= k <= 10)%nat -> length F = (2 ^ k)%nat ->
  int16s F -> (k <= fuel)%nat -> INTT_fuel fuel F = Ok (inttP k F).
Proof.
  induction k as [|k IH]; intros fuel f Hk Hf If Hfu; [lia|].
  destruct fuel as [|fuel]; [lia|]. cbn [Ntt.INTT_fuel].
  destruct k as [|k].
  - change (2 ^ 1)%nat with 2%nat in Hf.
    destruct (list2 f Hf) as [a [b ->]].
    assert (Hi : idx inv_mod_q 1479 = Ok (invq 1479)) by (apply (invq_idx 1479); unfold Q; lia).
    rewrite Hi. clear Hi.
    cbn [length Nat.ltb Nat.leb Nat.eqb idx nth_error bind].
    pose proof (int16_abs _ (Forall_nth_d is_int16 _ 0 0 If ltac:(cbn; lia))) as Ba.
    pose proof (int16_abs _ (Forall_nth_d is_int16 _ 1 0 If ltac:(cbn; lia))) as Bb.
    cbn [nth] in Ba, Bb. unfold i2.
    rewrite (iw_abs (a + b)) by lia. rewrite (iw_abs ((a + b) * 6145)) by lia.
    rewrite Pmod_Q. cbn [bind].
    pose proof (proj2 (invq_ok 1479 ltac:(unfold Q; lia))) as Hv. unfold Q in Hv.
    rewrite (iw_abs (a - b)) by lia.
    pose proof (mul_bound (a - b) (invq 1479) 65536 12289 ltac:(lia) ltac:(lia)) as Bm.
    rewrite (iw_abs ((a - b) * invq 1479)) by lia. rewrite iw_abs by lia.
    rewrite Pmod_Q. cbn [bind]. unfold IntToInt16. cbn [map]. rewrite !wrap16_modQ. reflexivity.
  - set (k1 := S k) in *.
    assert (Hlt : Nat.ltb 2 (length f) = true).
    { apply Nat.ltb_lt. rewrite Hf. unfold k1. pose proof (pow2_pos k).
      change (2 ^ S (S k))%nat with (2 ^ k + (2 ^ k + 0) + (2 ^ k + (2 ^ k + 0) + 0))%nat. lia. }
    rewrite Hlt. rewrite (SplitNTT_ok (S k1)) by (assumption || lia). cbn [bind fst snd].
    rewrite (IH fuel (splitP0 (S k1) f)); try lia.
    2:{ rewrite splitP0_length. f_equal; lia. }
    2:{ apply inq_int16, splitP0_inq. }
    rewrite (IH fuel (splitP1 (S k1) f)); try lia.
    2:{ rewrite splitP1_length. f_equal; lia. }
    2:{ apply inq_int16, splitP1_inq. }
    cbn [bind]. rewrite (MergePolys_ok 0) by (rewrite !inttP_length; lia).
    rewrite inttP_length by lia. reflexivity.
Qed.

Theorem INTT_ok k F : (1 <= k <= 10)%nat -> length F = (2 ^ k)%nat -> int16s F ->
  INTT F = Ok (inttP k F).
Proof.
  intros Hk Hf If. unfold Ntt.INTT. apply INTT_fuel_ok; try assumption.
  rewrite Hf. pose proof (pow2_gt k). lia.
Qed.

Lemma inv1479 : 1479 * invq 1479 == 1.
Proof. apply invq_cong. unfold Q. lia. Qed.

Lemma evens_interleave (a b : list Z) n : length a = n -> length b = n ->
  evens 0 (interleave (fun i => nth i a 0) (fun i => nth i b 0) n) = a /\
  odds 0 (interleave (fun i => nth i a 0) (fun i => nth i b 0) n) = b.
Proof.
  intros Ha Hb.
  assert (Hd : Nat.div (length (interleave (fun i => nth i a 0) (fun i => nth i b 0) n)) 2 = n)
    by (rewrite interleave_length, Nat.mul_comm, Nat.div_mul; lia).
  split; apply nth_ext with (d := 0) (d' := 0);
    rewrite ?evens_length, ?odds_length, Hd; try congruence; intros i Hi.
  - rewrite evens_nth, interleave_even by lia. reflexivity.
  - rewrite odds_nth, interleave_odd by lia. reflexivity.
Qed.

(** INTT after evaluation *)
Lemma inttP_evals k : forall f, (1 <= k <= 10)%nat -> length f = (2 ^ k)%nat ->
  inttP k (evalsP k f) = pmod Q f.
Proof.
  induction k as [|k IH]; intros f Hk Hf; [lia|].
  destruct k as [|k].
  - change (2 ^ 1)%nat with 2%nat in Hf. destruct (list2 f Hf) as [a [b ->]].
    cbn [inttP]. rewrite !evalsP_nth by (cbn; lia). rewrite W_1. cbn [nth].
    unfold eval. cbn [length sumn coef nth].
    change (Z.of_nat 0) with 0. change (Z.of_nat 1) with 1. rewrite !Z.pow_0_r, !Z.pow_1_r.
    cbn [pmod map].
    assert (E : 10810 == - 1479) by reflexivity.
    f_equal; [|f_equal]; apply cong_modeq; rewrite !cong_mod, E.
    + transitivity (a * 2 * i2); [cring|apply i2_double].
    + transitivity ((1479 * invq 1479) * b * 2 * i2); [cring|].
      rewrite inv1479, i2_double. cring.
  - set (k1 := S k) in *. change (inttP (S k1) (evalsP (S k1) f)) with
      (interleave (fun i => nth i (inttP k1 (splitP0 (S k1) (evalsP (S k1) f))) 0)
                  (fun i => nth i (inttP k1 (splitP1 (S k1) (evalsP (S k1) f))) 0) (2 ^ k1)).
    assert (Hd : Nat.div (length f) 2 = (2 ^ k1)%nat) by (rewrite Hf, div2_pow by lia; f_equal; lia).
    rewrite <- (mergeP_evals (S k1) f) by (assumption || lia).
    replace (S k1 - 1)%nat with k1 by lia.
    destruct (splitP_mergeP (S k1) (evalsP k1 (evens 0 f)) (evalsP k1 (odds 0 f)))
      as [E0 E1].
    { lia. } { rewrite evalsP_length by lia. f_equal; lia. } { rewrite evalsP_length by lia. f_equal; lia. }
    rewrite E0, E1. rewrite !pmod_small by apply evalsP_inq.
    rewrite !IH; try lia; rewrite ?evens_length, ?odds_length; try assumption.
    apply (list_eq_pairs _ _ (2 ^ k1) 0).
    + rewrite interleave_length. reflexivity.
    + rewrite pmod_length. assumption.
    + intros i Hi. rewrite interleave_even, interleave_odd by assumption.
      rewrite !pmod_nth, evens_nth, odds_nth by lia. split; reflexivity.
Qed.

(** evaluation after INTT *)
Lemma evals_inttP k : forall F, (1 <= k <= 10)%nat -> length F = (2 ^ k)%nat ->
  evalsP k (inttP k F) = pmod Q F.
Proof.
  induction k as [|k IH]; intros f Hk Hf; [lia|].
  destruct k as [|k].
  - change (2 ^ 1)%nat with 2%nat in Hf. destruct (list2 f Hf) as [a [b ->]].
    unfold evalsP. rewrite W_1. cbn [map inttP nth].
    unfold eval. cbn [length sumn coef nth].
    change (Z.of_nat 0) with 0. change (Z.of_nat 1) with 1. rewrite !Z.pow_0_r, !Z.pow_1_r.
    cbn [pmod map].
    assert (E : 10810 == - 1479) by reflexivity.
    f_equal; [|f_equal]; apply cong_modeq; rewrite ?E, !cong_mod.
    + transitivity ((a + b) * i2 + (1479 * invq 1479) * (a - b) * i2); [cring|].
      rewrite inv1479. transitivity (a * 2 * i2); [cring|apply i2_double].
    + transitivity ((a + b) * i2 - (1479 * invq 1479) * (a - b) * i2); [cring|].
      rewrite inv1479. transitivity (b * 2 * i2); [cring|apply i2_double].
  - set (k1 := S k) in *.
    rewrite <- (mergeP_evals (S k1)) by (lia || apply inttP_length; lia).
    replace (S k1 - 1)%nat with k1 by lia.
    change (inttP (S k1) f) with
      (interleave (fun i => nth i (inttP k1 (splitP0 (S k1) f)) 0)
                  (fun i => nth i (inttP k1 (splitP1 (S k1) f)) 0) (2 ^ k1)).
    destruct (evens_interleave (inttP k1 (splitP0 (S k1) f)) (inttP k1 (splitP1 (S k1) f)) (2 ^ k1)) as [E0 E1];
      try (apply inttP_length; lia).
    rewrite E0, E1.
    rewrite !IH; try lia; rewrite ?splitP0_length, ?splitP1_length; try (f_equal; lia).
    rewrite !pmod_small by (apply splitP0_inq || apply splitP1_inq).
    apply mergeP_splitP; [lia|assumption].
Qed.

Theorem INTT_NTT k f : (1 <= k <= 10)%nat -> length f = (2 ^ k)%nat -> int16s f ->
  exists F, NTT f = Ok F /\ INTT F = Ok (pmod Q f).
Proof.
  intros Hk Hf If. exists (evalsP k f). split; [apply NTT_ok; assumption|].
  rewrite (INTT_ok k); try assumption.
  - f_equal. apply inttP_evals; assumption.
  - apply evalsP_length; assumption.
  - apply inq_int16, evalsP_inq.
Qed.

Theorem NTT_INTT k F : (1 <= k <= 10)%nat -> length F = (2 ^ k)%nat -> int16s F ->
  exists f, INTT F = Ok f /\ NTT f = Ok (pmod Q F).
Proof.
  intros Hk Hf If. exists (inttP k F). split; [apply INTT_ok; assumption|].
  rewrite (NTT_ok k); try assumption.
  - f_equal. apply evals_inttP; assumption.
  - apply inttP_length; lia.
  - apply inq_int16, inttP_inq.
Qed.

(** two polynomials with the same evaluations are congruent *)
Lemma evals_inj k f g : (1 <= k <= 10)%nat -> length f = (2 ^ k)%nat -> length g = (2 ^ k)%nat ->
  evalsP k f = evalsP k g -> pmod Q f = pmod Q g.
Proof.
  intros Hk Hf Hg E. rewrite <- (inttP_evals k f), <- (inttP_evals k g) by assumption.
  rewrite E. reflexivity.
Qed.

Lemma evalsP_pmod k f : evalsP k (pmod Q f) = evalsP k f.
Proof.
  unfold evalsP. apply map_ext. intros w. apply cong_modeq.
  apply ceval_f; [apply pmod_length|]. intros i _. unfold coef. rewrite pmod_nth. apply cong_mod.
Qed.

(** the table entries are roots of x^n+1 *)
Lemma W_root k : (1 <= k <= 10)%nat -> forall i, (i < 2 ^ k)%nat ->
  (nth i (W k) 0) ^ Z.of_nat (2 ^ k) == -1.
Proof.
  induction k as [|k IH]; intros Hk i Hi; [lia|].
  destruct k as [|k].
  - change (2 ^ 1)%nat with 2%nat in *. rewrite W_1.
    destruct i as [|[|i]]; [reflexivity|reflexivity|lia].
  - set (k1 := S k) in *.
    pose proof (pow2_half (S k1) ltac:(lia)) as Hp. replace (S k1 - 1)%nat with k1 in Hp by lia.
    rewrite Hp, Nat2Z.inj_mul, Z.pow_mul_r by lia. change (Z.of_nat 2) with 2.
    rewrite Z.pow_2_r.
    assert (E : nth i (W (S k1)) 0 * nth i (W (S k1)) 0 == nth (i / 2) (W k1) 0).
    { pose proof (Nat.div_mod i 2 ltac:(lia)) as Hdm.
      assert (Hj : (i / 2 < 2 ^ k1)%nat) by (apply Nat.div_lt_upper_bound; lia).
      pose proof (W_even (S k1) (i / 2) ltac:(lia)) as He.
      pose proof (W_odd (S k1) (i / 2) ltac:(lia)) as Ho.
      replace (S k1 - 1)%nat with k1 in He, Ho by lia.
      specialize (He Hj). specialize (Ho Hj).
      pose proof (Nat.mod_upper_bound i 2 ltac:(lia)).
      assert (Hc : i = (2 * (i / 2))%nat \/ i = (2 * (i / 2) + 1)%nat) by lia.
      set (j := (i / 2)%nat) in *. clearbody j. clear Hdm H.
      destruct Hc as [->| ->]; [exact He|]. rewrite Ho, <- He. cring. }
    rewrite <- zpow_pow. rewrite (cpow Q _ _ (2 ^ k1) E). rewrite zpow_pow.
    apply IH; [lia|]. apply Nat.div_lt_upper_bound; lia.
Qed.

Lemma evalsP_negacyc k f g i : (1 <= k <= 10)%nat -> length f = (2 ^ k)%nat -> length g = (2 ^ k)%nat ->
  (i < 2 ^ k)%nat ->
  nth i (evalsP k (negacyc (2 ^ k) f g)) 0 == nth i (evalsP k f) 0 * nth i (evalsP k g) 0.
Proof.
  intros Hk Hf Hg Hi. rewrite !evalsP_nth by assumption. rewrite !cong_mod.
  apply cnega_eval; try assumption. apply W_root; assumption.
Qed.

(** ** mulNTT, MulZq *)
Lemma mulNTT_ok n a b : length a = n -> length b = n -> int16s a -> int16s b ->
  mulNTT iw a b = Ok (map (fun i => (nth i a 0 * nth i b 0) mod Q) (seq 0 n)).
Proof.
  intros Ha Hb Ia Ib. unfold mulNTT. rewrite Ha, Hb, Nat.eqb_refl. cbn [negb].
  apply mapM_Ok. intros i Hi. apply in_seq in Hi.
  rewrite !(idx_nth _ _ 0) by lia. cbn [bind].
  pose proof (int16_abs _ (Forall_nth_d is_int16 a i 0 Ia ltac:(lia))) as Ba.
  pose proof (int16_abs _ (Forall_nth_d is_int16 b i 0 Ib ltac:(lia))) as Bb.
  pose proof (mul_bound _ _ _ _ Ba Bb) as Bm.
  rewrite iw_abs by lia. rewrite Pmod_Q. cbn [bind]. rewrite wrap16_modQ. reflexivity.
Qed.

Theorem MulZq_ok k f g : (1 <= k <= 10)%nat -> length f = (2 ^ k)%nat -> length g = (2 ^ k)%nat ->
  int16s f -> int16s g ->
  MulZq iw f g = Ok (pmod Q (negacyc (2 ^ k) f g)).
Proof.
  intros Hk Hf Hg If Ig. unfold MulZq.
  rewrite (NTT_ok k f), (NTT_ok k g) by assumption. cbn [bind].
  rewrite (mulNTT_ok (2 ^ k)); try (apply evalsP_length; assumption);
    try (apply inq_int16, evalsP_inq).
  cbn [bind].
  assert (E : map (fun i => (nth i (evalsP k f) 0 * nth i (evalsP k g) 0) mod Q) (seq 0 (2 ^ k)) =
              evalsP k (negacyc (2 ^ k) f g)).
  { apply nth_ext with (d := 0) (d' := 0).
    - rewrite map_length, seq_length, evalsP_length by assumption. reflexivity.
    - intros i Hi. rewrite map_length, seq_length in Hi. rewrite nth_map_seq by assumption.
      rewrite <- (modQ_small (nth i (evalsP k (negacyc (2 ^ k) f g)) 0)) by (apply inq_nth, evalsP_inq).
      apply cong_modeq. symmetry. apply evalsP_negacyc; assumption. }
  rewrite E. rewrite (INTT_ok k) by (assumption || (apply evalsP_length; assumption) || apply inq_int16, evalsP_inq).
  f_equal. apply inttP_evals; [assumption|]. apply negacyc_length.
Qed.

(** ** divNTT, DivZq *)
Lemma divNTT_ok n a b : length a = n -> length b = n -> inq a -> Forall (fun c => 0 < c < Q) b ->
  divNTT iw a b = Ok (map (fun i => (nth i a 0 * invq (nth i b 0)) mod Q) (seq 0 n)).
Proof.
  intros Ha Hb Ia Ib. unfold divNTT. rewrite Ha, Hb, Nat.eqb_refl. cbn [negb].
  assert (Hz : existsb (fun elt => elt =? 0) b = false).
  { apply not_true_is_false. intros H. apply existsb_exists in H. destruct H as [x [Hx H0]].
    rewrite Forall_forall in Ib. specialize (Ib x Hx). lia. }
  rewrite Hz.
  apply mapM_Ok. intros i Hi. apply in_seq in Hi.
  rewrite !(idx_nth _ _ 0) by lia. cbn [bind].
  pose proof (inq_nth a i Ia) as Ba.
  pose proof (Forall_nth_d (fun c => 0 < c < Q) b i 0 Ib ltac:(lia)) as Bb. cbv beta in Bb.
  rewrite invq_idx by lia. cbn [bind].
  pose proof (proj2 (invq_ok _ Bb)) as Bv. unfold Q in Ba, Bv.
  pose proof (mul_bound (nth i a 0) (invq (nth i b 0)) 12289 12289 ltac:(lia) ltac:(lia)) as Bm.
  rewrite iw_abs by lia. rewrite Pmod_Q. cbn [bind]. rewrite wrap16_modQ. reflexivity.
Qed.

Lemma divNTT_zero a b : length a = length b -> In 0 b -> divNTT iw a b = Err ErrDivByZero.
Proof.
  intros Hl H0. unfold divNTT. rewrite Hl, Nat.eqb_refl. cbn [negb].
  replace (existsb (fun elt => elt =? 0) b) with true; [reflexivity|].
  symmetry. apply existsb_exists. exists 0. split; [assumption|reflexivity].
Qed.

Lemma Qprime_unit a b : a mod Q <> 0 -> a * b == 0 -> b == 0.
Proof.
  intros Ha H.
  assert (Hr : 0 < a mod Q < Q) by (pose proof (modQ_range a); unfold Q in *; lia).
  pose proof (invq_cong _ Hr) as Hv. set (v := invq (a mod Q)) in *. clearbody v.
  transitivity ((a mod Q * v) * b); [rewrite Hv; cring|].
  rewrite cong_mod. transitivity ((a * b) * v); [cring|]. rewrite H. cring.
Qed.

(** the evaluations of g have no zero iff g is invertible *)
Definition evals_nz (k : nat) (g : list Z) : Prop := ~ In 0 (evalsP k g).

Lemma evals_nz_range k g : evals_nz k g -> Forall (fun c => 0 < c < Q) (evalsP k g).
Proof.
  intros H. apply Forall_forall. intros c Hc.
  pose proof (evalsP_inq k g) as Hq. unfold inq in Hq. rewrite Forall_forall in Hq. specialize (Hq c Hc).
  assert (c <> 0) by (intros ->; contradiction). lia.
Qed.

Definition quotP (k : nat) (f g : list Z) : list Z :=
  inttP k (map (fun i => (nth i (evalsP k f) 0 * invq (nth i (evalsP k g) 0)) mod Q) (seq 0 (2 ^ k))).

Lemma DivZq_ok_nz k f g : (1 <= k <= 10)%nat -> length f = (2 ^ k)%nat -> length g = (2 ^ k)%nat ->
  int16s f -> int16s g -> evals_nz k g ->
  DivZq iw f g = Ok (quotP k f g).
Proof.
  intros Hk Hf Hg If Ig Hnz. unfold DivZq.
  rewrite (NTT_ok k f), (NTT_ok k g) by assumption. cbn [bind].
  rewrite (divNTT_ok (2 ^ k)); try (apply evalsP_length; assumption); try apply evalsP_inq.
  2:{ apply evals_nz_range; assumption. }
  cbn [bind]. rewrite (INTT_ok k).
  - reflexivity.
  - assumption.
  - rewrite map_length, seq_length. reflexivity.
  - apply inq_int16, (inq_map (fun i => _)).
Qed.

Lemma DivZq_err_z k f g : (1 <= k <= 10)%nat -> length f = (2 ^ k)%nat -> length g = (2 ^ k)%nat ->
  int16s f -> int16s g -> ~ evals_nz k g ->
  DivZq iw f g = Err ErrDivByZero.
Proof.
  intros Hk Hf Hg If Ig Hnz. unfold DivZq.
  rewrite (NTT_ok k f), (NTT_ok k g) by assumption. cbn [bind].
  rewrite divNTT_zero; [reflexivity| |].
  - rewrite !evalsP_length by assumption. reflexivity.
  - unfold evals_nz in Hnz. destruct (in_dec Z.eq_dec 0 (evalsP k g)); [assumption|contradiction].
Qed.

Lemma quotP_length k f g : (1 <= k)%nat -> length (quotP k f g) = (2 ^ k)%nat.
Proof. apply inttP_length. Qed.
Lemma quotP_inq k f g : inq (quotP k f g).
Proof. apply inttP_inq. Qed.

Lemma quotP_spec k f g : (1 <= k <= 10)%nat -> length f = (2 ^ k)%nat -> length g = (2 ^ k)%nat ->
  evals_nz k g -> pmod Q (negacyc (2 ^ k) (quotP k f g) g) = pmod Q f.
Proof.
  intros Hk Hf Hg Hnz. apply (evals_inj k); try assumption; [apply negacyc_length|].
  apply nth_ext with (d := 0) (d' := 0).
  - rewrite !evalsP_length by assumption. reflexivity.
  - intros i Hi. rewrite evalsP_length in Hi by assumption.
    rewrite <- (modQ_small (nth i (evalsP k (negacyc _ _ _)) 0)) by (apply inq_nth, evalsP_inq).
    rewrite <- (modQ_small (nth i (evalsP k f) 0)) by (apply inq_nth, evalsP_inq).
    apply cong_modeq. rewrite evalsP_negacyc; try assumption; [|apply quotP_length; lia].
    unfold quotP. rewrite evals_inttP; try assumption.
    2:{ rewrite map_length, seq_length. reflexivity. }
    rewrite pmod_nth, nth_map_seq by assumption. rewrite !cong_mod.
    pose proof (Forall_nth_d _ _ i 0 (evals_nz_range k g Hnz)) as Hr. cbv beta in Hr.
    rewrite evalsP_length in Hr by assumption. specialize (Hr Hi).
    transitivity (nth i (evalsP k f) 0 * (nth i (evalsP k g) 0 * invq (nth i (evalsP k g) 0))); [cring|].
    rewrite (invq_cong _ Hr). cring.
Qed.

Lemma quot_unique k f g h : (1 <= k <= 10)%nat -> length f = (2 ^ k)%nat -> length g = (2 ^ k)%nat ->
  evals_nz k g -> length h = (2 ^ k)%nat -> inq h ->
  pmod Q (negacyc (2 ^ k) h g) = pmod Q f -> h = quotP k f g.
Proof.
  intros Hk Hf Hg Hnz Hh Ih E.
  rewrite <- (pmod_small h Ih), <- (pmod_small (quotP k f g) (quotP_inq k f g)).
  apply (evals_inj k); try assumption; [apply quotP_length; lia|].
  apply nth_ext with (d := 0) (d' := 0).
  { rewrite !evalsP_length by assumption. reflexivity. }
  intros i Hi. rewrite evalsP_length in Hi by assumption.
  pose proof (quotP_spec k f g Hk Hf Hg Hnz) as E'. rewrite <- E in E'.
  assert (Ev : evalsP k (negacyc (2 ^ k) h g) = evalsP k (negacyc (2 ^ k) (quotP k f g) g)).
  { rewrite <- evalsP_pmod, <- E', evalsP_pmod. reflexivity. }
  pose proof (evalsP_negacyc k h g i Hk Hh Hg Hi) as E1.
  pose proof (evalsP_negacyc k (quotP k f g) g i Hk (quotP_length k f g ltac:(lia)) Hg Hi) as E2.
  rewrite Ev, E2 in E1.
  pose proof (Forall_nth_d _ _ i 0 (evals_nz_range k g Hnz)) as Hr. cbv beta in Hr.
  rewrite evalsP_length in Hr by assumption. specialize (Hr Hi).
  rewrite <- (modQ_small (nth i (evalsP k h) 0)) by (apply inq_nth, evalsP_inq).
  rewrite <- (modQ_small (nth i (evalsP k (quotP k f g)) 0)) by (apply inq_nth, evalsP_inq).
  apply cong_modeq.
  set (x := nth i (evalsP k h) 0) in *. set (y := nth i (evalsP k (quotP k f g)) 0) in *.
  set (z := nth i (evalsP k g) 0) in *.
  assert (Hd : x - y == 0).
  { apply (Qprime_unit z); [rewrite modQ_small by lia; lia|].
    transitivity (x * z - y * z); [cring|]. rewrite <- E1. cring. }
  transitivity (x - y + y); [cring|]. rewrite Hd. cring.
Qed.

Lemma pconst_length n c : length (pconst n c) = n.
Proof. unfold pconst. rewrite map_length, seq_length. reflexivity. Qed.

Lemma sumn_zero n f : (forall i, (i < n)%nat -> f i = 0) -> sumn n f = 0.
Proof. induction n as [|n IH]; intros H; cbn [sumn]; [reflexivity|]. rewrite IH, H by (intros; try apply H; lia). reflexivity. Qed.

Lemma eval_pconst n c x : (0 < n)%nat -> eval (pconst n c) x = c.
Proof.
  intros Hn. unfold eval. rewrite pconst_length. destruct n as [|n]; [lia|].
  assert (E : forall m, (m <= n)%nat -> sumn (S m) (fun i => coef (pconst (S n) c) i * x ^ Z.of_nat i) = c).
  { induction m as [|m IH]; intros Hm.
    - cbn [sumn]. unfold pconst. rewrite coef_map_seq by lia. cbn [Nat.eqb]. change (Z.of_nat 0) with 0. rewrite Z.pow_0_r. cring.
    - remember (S m) as m1 eqn:Em. cbn [sumn]. rewrite IH by lia. unfold pconst. rewrite coef_map_seq by lia.
      subst m1. cbn [Nat.eqb]. cring. }
  apply E. lia.
Qed.

Lemma evalsP_pconst k c i : (1 <= k <= 10)%nat -> (i < 2 ^ k)%nat ->
  nth i (evalsP k (pconst (2 ^ k) c)) 0 = c mod Q.
Proof.
  intros Hk Hi. rewrite evalsP_nth by assumption. rewrite eval_pconst by lia. reflexivity.
Qed.

Lemma evals_nz_invertible k g : (1 <= k <= 10)%nat -> length g = (2 ^ k)%nat ->
  evals_nz k g <-> invertible_mod_q (2 ^ k) g.
Proof.
  intros Hk Hg. split.
  - intros Hnz. exists (quotP k (pconst (2 ^ k) 1) g). split; [apply quotP_length; lia|].
    change q with Q.
    pose proof (quotP_spec k (pconst (2 ^ k) 1) g Hk (pconst_length _ _) Hg Hnz) as E.
    set (u := quotP k (pconst (2 ^ k) 1) g) in *.
    assert (Hu : length u = (2 ^ k)%nat) by (apply quotP_length; lia).
    assert (Ec : pmod Q (negacyc (2 ^ k) g u) = pmod Q (negacyc (2 ^ k) u g)).
    { apply (evals_inj k); try assumption; try apply negacyc_length.
      apply nth_ext with (d := 0) (d' := 0).
      { rewrite !evalsP_length by assumption. reflexivity. }
      intros i Hi. rewrite evalsP_length in Hi by assumption.
      rewrite <- (modQ_small (nth i (evalsP k (negacyc _ g u)) 0)) by (apply inq_nth, evalsP_inq).
      rewrite <- (modQ_small (nth i (evalsP k (negacyc _ u g)) 0)) by (apply inq_nth, evalsP_inq).
      apply cong_modeq. rewrite !evalsP_negacyc by assumption. cring. }
    rewrite Ec, E. unfold pmod, pconst. rewrite map_map. apply map_ext. intros j.
    destruct (Nat.eqb j 0); reflexivity.
  - intros [u [Hu E]] Hin. change q with Q in E.
    apply (In_nth _ _ 0) in Hin. destruct Hin as [i [Hi E0]]. rewrite evalsP_length in Hi by assumption.
    pose proof (evalsP_negacyc k g u i Hk Hg Hu Hi) as E1. rewrite E0 in E1.
    rewrite <- evalsP_pmod, E, evalsP_pconst in E1 by assumption.
    discriminate E1.
Qed.

End NTTProofs.
