(** The NTT on slices whose length is not a power of two. *)
From Verif Require Import GoBase Util NttTables Ntt Spec PolyZ BaseProofs NttProofs.

Section Len.
Variable iw : Z -> Z.
Hypothesis iw_id : forall z, is_int64 z -> iw z = z.

Lemma evens_firstn (f : list Z) m : (2 * m <= length f)%nat ->
  firstn m (evens 0 f) = evens 0 (firstn (2 * m) f).
Proof.
  intros H. assert (Hd : Nat.div (length (firstn (2 * m) f)) 2 = m).
  { rewrite firstn_length_le by lia. rewrite Nat.mul_comm, Nat.div_mul; lia. }
  assert (Hm : (m <= length f / 2)%nat) by (apply Nat.div_le_lower_bound; lia).
  apply nth_ext with (d := 0) (d' := 0).
  - rewrite firstn_length_le, evens_length, Hd by (rewrite evens_length; lia). reflexivity.
  - intros i Hi. rewrite firstn_length_le in Hi by (rewrite evens_length; lia).
    assert (E : nth i (firstn m (evens 0 f)) 0 = nth i (evens 0 f) 0).
    { rewrite <- (firstn_skipn m (evens 0 f)) at 2. rewrite app_nth1; [reflexivity|].
      rewrite firstn_length_le by (rewrite evens_length; lia). assumption. }
    rewrite E, !evens_nth by lia.
    rewrite <- (firstn_skipn (2 * m) f) at 1. rewrite app_nth1; [reflexivity|].
    rewrite firstn_length_le by lia. lia.
Qed.

Lemma odds_firstn (f : list Z) m : (2 * m <= length f)%nat ->
  firstn m (odds 0 f) = odds 0 (firstn (2 * m) f).
Proof.
  intros H. assert (Hd : Nat.div (length (firstn (2 * m) f)) 2 = m).
  { rewrite firstn_length_le by lia. rewrite Nat.mul_comm, Nat.div_mul; lia. }
  assert (Hm : (m <= length f / 2)%nat) by (apply Nat.div_le_lower_bound; lia).
  apply nth_ext with (d := 0) (d' := 0).
  - rewrite firstn_length_le, odds_length, Hd by (rewrite odds_length; lia). reflexivity.
  - intros i Hi. rewrite firstn_length_le in Hi by (rewrite odds_length; lia).
    assert (E : nth i (firstn m (odds 0 f)) 0 = nth i (odds 0 f) 0).
    { rewrite <- (firstn_skipn m (odds 0 f)) at 2. rewrite app_nth1; [reflexivity|].
      rewrite firstn_length_le by (rewrite odds_length; lia). assumption. }
    rewrite E, !odds_nth by lia.
    rewrite <- (firstn_skipn (2 * m) f) at 1. rewrite app_nth1; [reflexivity|].
    rewrite firstn_length_le by lia. lia.
Qed.

Lemma NTT_fuel_first k : forall fuel f, (1 <= k <= 10)%nat ->
  (2 ^ k <= length f < 2 ^ k + 2 ^ (k - 1))%nat -> int16s f -> (k <= fuel)%nat ->
  NTT_fuel iw fuel f = Ok (evalsP k (firstn (2 ^ k) f)).
Proof.
  induction k as [|k IH]; intros fuel f Hk Hf If Hfu; [lia|].
  destruct k as [|k].
  - cbn in Hf. assert (E : firstn (2 ^ 1) f = f) by (apply firstn_all2; cbn; lia).
    rewrite E. apply NTT_fuel_ok; try assumption. cbn. lia.
  - destruct fuel as [|fuel]; [lia|]. cbn [NTT_fuel].
    set (k1 := S k) in *. replace (S k1 - 1)%nat with k1 in Hf by lia.
    pose proof (pow2_half (S k1) ltac:(lia)) as Hp. replace (S k1 - 1)%nat with k1 in Hp by lia.
    pose proof (pow2_half k1 ltac:(lia)) as Hp1. pose proof (pow2_pos (k1 - 1)).
    destruct (Nat.ltb_spec 2 (length f)); [|lia].
    rewrite (SplitPolys_ok 0). cbn [bind fst snd].
    assert (Hd : (2 ^ k1 <= Nat.div (length f) 2 < 2 ^ k1 + 2 ^ (k1 - 1))%nat).
    { split; [apply Nat.div_le_lower_bound; lia|apply Nat.div_lt_upper_bound; lia]. }
    rewrite (IH fuel (evens 0 f)); try lia.
    2:{ rewrite evens_length. assumption. }
    2:{ apply Forall_evens. assumption. }
    rewrite (IH fuel (odds 0 f)); try lia.
    2:{ rewrite odds_length. assumption. }
    2:{ apply Forall_odds. assumption. }
    cbn [bind]. rewrite evens_firstn, odds_firstn by lia. rewrite <- Hp.
    rewrite (MergeNTT_ok iw iw_id (S k1)).
    + f_equal. replace k1 with (S k1 - 1)%nat by lia. apply (mergeP_evals iw iw_id (S k1)); [lia|].
      replace (S k1 - 1)%nat with k1 by lia. apply firstn_length_le. lia.
    + lia.
    + rewrite evalsP_length by lia. f_equal; lia.
    + rewrite evalsP_length by lia. f_equal; lia.
    + apply inq_int16, evalsP_inq.
    + apply inq_int16, evalsP_inq.
Qed.

Lemma MergeNTT_nil : MergeNTT iw [] [] = Ok [].
Proof. reflexivity. Qed.

Lemma NTT_fuel_nil j : forall fuel f,
  (3 * 2 ^ j <= length f < 4 * 2 ^ j)%nat -> (S j < fuel)%nat ->
  NTT_fuel iw fuel f = Ok [].
Proof.
  induction j as [|j IH]; intros fuel f Hf Hfu; (destruct fuel as [|fuel]; [lia|]); cbn [NTT_fuel].
  - cbn in Hf. destruct (Nat.ltb_spec 2 (length f)); [|lia].
    rewrite (SplitPolys_ok 0). cbn [bind fst snd].
    assert (H1 : forall l, length l = 1%nat -> NTT_fuel iw fuel l = Ok []).
    { intros l Hl. destruct fuel as [|fuel']; [lia|]. cbn [NTT_fuel]. rewrite Hl. reflexivity. }
    assert (Hd : Nat.div (length f) 2 = 1%nat) by (replace (length f) with 3%nat by lia; reflexivity).
    rewrite !H1 by (rewrite ?evens_length, ?odds_length; assumption). reflexivity.
  - assert (Hp : (2 ^ S j = 2 * 2 ^ j)%nat) by reflexivity. pose proof (pow2_pos j).
    destruct (Nat.ltb_spec 2 (length f)); [|lia].
    rewrite (SplitPolys_ok 0). cbn [bind fst snd].
    assert (Hd : (3 * 2 ^ j <= Nat.div (length f) 2 < 4 * 2 ^ j)%nat).
    { split; [apply Nat.div_le_lower_bound; lia|apply Nat.div_lt_upper_bound; lia]. }
    rewrite !IH by (rewrite ?evens_length, ?odds_length; (assumption || lia)). reflexivity.
Qed.

Lemma roots_missing n : (2048 <= n)%nat -> (exists k, n = 2 ^ k)%nat -> roots_dict_Zq (wrap16 (Z.of_nat n)) = [].
Proof.
  intros Hn [k ->].
  destruct (Nat.le_gt_cases 16 k) as [H|H].
  - assert (E : wrap16 (Z.of_nat (2 ^ k)) = 0).
    { unfold wrap16, wrap. rewrite Nat2Z.inj_pow. change (Z.of_nat 2) with 2.
      replace (Z.of_nat k) with (16 + (Z.of_nat k - 16)) by lia. rewrite Z.pow_add_r by lia.
      change (2 ^ (16 - 1)) with 32768. rewrite Z.add_comm, Z.mul_comm, Z_mod_plus_full. reflexivity. }
    rewrite E. reflexivity.
  - assert (Hk : (11 <= k)%nat).
    { destruct (Nat.le_gt_cases 11 k); [assumption|exfalso].
      assert (2 ^ k <= 2 ^ 10)%nat by (apply Nat.pow_le_mono_r; lia). change (2 ^ 10)%nat with 1024%nat in *. lia. }
    do 11 (destruct k as [|k]; [lia|]).
    do 5 (destruct k as [|k]; [vm_compute; reflexivity|]). lia.
Qed.

Lemma NTT_fuel_panic k : forall fuel f, (11 <= k)%nat ->
  (2 ^ k <= length f < 2 ^ k + 2 ^ (k - 1))%nat -> int16s f -> (k <= fuel)%nat ->
  NTT_fuel iw fuel f = Panic.
Proof.
  intros fuel f Hk. revert fuel f. induction k as [|k IH]; intros fuel f Hf If Hfu; [lia|].
  destruct fuel as [|fuel]; [lia|]. cbn [NTT_fuel].
  replace (S k - 1)%nat with k in Hf by lia.
  pose proof (pow2_half (S k) ltac:(lia)) as Hp. replace (S k - 1)%nat with k in Hp by lia.
  pose proof (pow2_half k ltac:(lia)) as Hp1. pose proof (pow2_pos (k - 1)).
  destruct (Nat.ltb_spec 2 (length f)); [|lia].
  rewrite (SplitPolys_ok 0). cbn [bind fst snd].
  assert (Hd : (2 ^ k <= Nat.div (length f) 2 < 2 ^ k + 2 ^ (k - 1))%nat).
  { split; [apply Nat.div_le_lower_bound; lia|apply Nat.div_lt_upper_bound; lia]. }
  destruct (Nat.eq_dec k 10) as [E|E].
  - rewrite (NTT_fuel_first k); try lia.
    2:{ rewrite evens_length. assumption. }
    2:{ apply Forall_evens. assumption. }
    rewrite (NTT_fuel_first k); try lia.
    2:{ rewrite odds_length. assumption. }
    2:{ apply Forall_odds. assumption. }
    cbn [bind]. unfold MergeNTT. rewrite evalsP_length by lia.
    rewrite roots_missing.
    + assert (Hs : exists m, Nat.div (2 * 2 ^ k) 2 = S m).
      { exists (2 ^ k - 1)%nat. rewrite Nat.mul_comm, Nat.div_mul by lia. pose proof (pow2_pos k). lia. }
      destruct Hs as [m ->]. reflexivity.
    + subst k. apply Nat.leb_le. reflexivity.
    + exists (S k). rewrite Hp. reflexivity.
  - rewrite IH; try lia; [reflexivity| |].
    + rewrite evens_length. assumption.
    + apply Forall_evens. assumption.
Qed.

(** every length is of one of these kinds *)
Lemma length_kinds L : (L <= 1)%nat \/
  (exists k, 1 <= k /\ 2 ^ k <= L < 2 ^ k + 2 ^ (k - 1))%nat \/
  (exists j, 3 * 2 ^ j <= L < 4 * 2 ^ j)%nat.
Proof.
  destruct (Nat.le_gt_cases L 1) as [H|H]; [left; assumption|right].
  pose proof (Nat.log2_spec L ltac:(lia)) as [H1 H2].
  set (k := Nat.log2 L) in *.
  assert (Hk : (1 <= k)%nat) by (apply Nat.log2_le_pow2; cbn; lia).
  pose proof (pow2_half k Hk) as Hp. assert (Hs : (2 ^ S k = 2 * 2 ^ k)%nat) by reflexivity.
  destruct (Nat.lt_ge_cases L (2 ^ k + 2 ^ (k - 1))).
  - left. exists k. lia.
  - right. exists (k - 1)%nat. lia.
Qed.

Lemma pow2_le_lin k L : (2 ^ k <= L -> k <= L)%nat.
Proof. pose proof (pow2_gt k). lia. Qed.

Theorem NTT_kinds f : int16s f ->
  (exists k, (1 <= k <= 10)%nat /\ (2 ^ k <= length f < 2 ^ k + 2 ^ (k - 1))%nat /\
     NTT iw f = Ok (evalsP k (firstn (2 ^ k) f))) \/
  NTT iw f = Ok [] /\ (length f <= 1 \/ exists j, 3 * 2 ^ j <= length f < 4 * 2 ^ j)%nat \/
  NTT iw f = Panic /\ (2048 <= length f)%nat.
Proof.
  intros If. unfold NTT.
  destruct (length_kinds (length f)) as [H|[[k [Hk H]]|[j H]]].
  - right. left. split; [|left; assumption]. cbn [NTT_fuel].
    destruct (Nat.ltb_spec 2 (length f)); [lia|]. destruct (Nat.eqb_spec (length f) 2); [lia|reflexivity].
  - assert (Hf : (k <= S (length f))%nat) by (pose proof (pow2_le_lin k (length f)); lia).
    destruct (Nat.le_gt_cases k 10).
    + left. exists k. split; [lia|]. split; [assumption|]. apply NTT_fuel_first; (assumption || lia).
    + right. right. split; [apply (NTT_fuel_panic k); (assumption || lia)|].
      assert (2 ^ 11 <= 2 ^ k)%nat by (apply Nat.pow_le_mono_r; lia). change (2 ^ 11)%nat with 2048%nat in *. lia.
  - right. left. split; [|right; exists j; assumption]. apply (NTT_fuel_nil j); [assumption|].
    pose proof (pow2_gt j). lia.
Qed.

(** MulZq with a second operand of arbitrary length *)
Theorem MulZq_any k f g : (1 <= k <= 10)%nat -> length f = (2 ^ k)%nat -> int16s f -> int16s g ->
  ((2 ^ k <= length g < 2 ^ k + 2 ^ (k - 1))%nat ->
     MulZq iw f g = Ok (pmod Q (negacyc (2 ^ k) f (firstn (2 ^ k) g)))) /\
  (~ (2 ^ k <= length g < 2 ^ k + 2 ^ (k - 1))%nat -> MulZq iw f g = Panic).
Proof.
  intros Hk Hf If Ig. split.
  - intros Hg. rewrite <- (MulZq_ok iw iw_id k f (firstn (2 ^ k) g)); try assumption.
    + unfold MulZq. rewrite (NTT_ok iw iw_id k f) by assumption. cbn [bind].
      rewrite (NTT_ok iw iw_id k (firstn (2 ^ k) g)); [|assumption|apply firstn_length_le; lia|].
      2:{ apply Forall_forall. intros x Hx. unfold int16s in Ig. rewrite Forall_forall in Ig. apply Ig.
          rewrite <- (firstn_skipn (2 ^ k) g). apply in_or_app. left. assumption. }
      unfold NTT at 1. rewrite (NTT_fuel_first k); try assumption; [reflexivity|].
      pose proof (pow2_le_lin k (length g)). lia.
    + apply firstn_length_le. lia.
    + apply Forall_forall. intros x Hx. unfold int16s in Ig. rewrite Forall_forall in Ig. apply Ig.
      rewrite <- (firstn_skipn (2 ^ k) g). apply in_or_app. left. assumption.
  - intros Hg. unfold MulZq. rewrite (NTT_ok iw iw_id k f) by assumption. cbn [bind].
    destruct (NTT_kinds g Ig) as [[k' [Hk' [Hl E]]]|[[E _]|[E _]]]; rewrite E; cbn [bind].
    + unfold mulNTT. rewrite !evalsP_length by assumption.
      destruct (Nat.eqb_spec (2 ^ k) (2 ^ k')) as [Eq|]; [|reflexivity].
      apply Nat.pow_inj_r in Eq; [|lia]. subst k'. contradiction.
    + unfold mulNTT. rewrite evalsP_length by assumption. cbn [length].
      pose proof (pow2_pos k). destruct (Nat.eqb_spec (2 ^ k) 0); [lia|reflexivity].
    + reflexivity.
Qed.

End Len.
