(** The ntt package with 32-bit and with 64-bit Go ints (for C51). *)
From Verif Require Import GoBase Util NttTables Ntt Encoding Params Xof Falcon Spec PolyZ BaseProofs NttProofs.


Lemma roots_range_b key : forallb (fun w => (0 <? w) && (w <? Q)) (roots_dict_Zq key) = true.
Proof.
  unfold roots_dict_Zq.
  repeat (match goal with |- context [if ?b then _ else _] => destruct b end; [vm_compute; reflexivity|]).
  reflexivity.
Qed.
Lemma roots_in key w : In w (roots_dict_Zq key) -> 0 < w < Q.
Proof. intros H. pose proof (proj1 (forallb_forall _ _) (roots_range_b key) w H) as E. lia. Qed.

Lemma idx_in {A} (l : list A) i a : idx l i = Ok a -> In a l.
Proof. unfold idx. destruct (nth_error l i) eqn:E; [|discriminate]. intros [= <-]. apply nth_error_In with i, E. Qed.

Lemma inv_range_b : forallb (fun w => (0 <=? w) && (w <? Q)) inv_mod_q = true.
Proof. vm_compute. reflexivity. Qed.
Lemma inv_in w : In w inv_mod_q -> 0 <= w < Q.
Proof. intros H. pose proof (proj1 (forallb_forall _ _) inv_range_b w H) as E. lia. Qed.

Lemma int16s_in l x : int16s l -> In x l -> Z.abs x <= 32768.
Proof. intros H Hx. apply int16_abs. unfold int16s in H. rewrite Forall_forall in H. apply H, Hx. Qed.

Lemma mapM_Forall {A B} (f : A -> res B) (P : B -> Prop) l r :
  (forall a b, f a = Ok b -> P b) -> mapM f l = Ok r -> Forall P r.
Proof.
  intros H E. apply mapM_Ok_inv in E. induction E; constructor; [eapply H; eassumption|assumption].
Qed.

Lemma MergeNTT_int16 iw a b r : MergeNTT iw a b = Ok r -> int16s r.
Proof.
  unfold MergeNTT. destruct (mapM _ _) as [ps| | |] eqn:E; try discriminate. intros [= <-].
  apply Forall_concat. refine (mapM_Forall _ _ _ _ _ E). intros i p.
  destruct (idx _ _) as [w| | |]; try discriminate. cbn [bind].
  destruct (idx _ _) as [y| | |]; try discriminate. cbn [bind].
  destruct (idx _ _) as [x| | |]; try discriminate. cbn [bind].
  rewrite !Pmod_Q. cbn [bind]. intros [= <-].
  repeat constructor; apply wrap16_int16.
Qed.

Lemma IntToInt16_int16 l : int16s (IntToInt16 l).
Proof. apply Forall_forall. intros x Hx. apply in_map_iff in Hx. destruct Hx as [y [<- _]]. apply wrap16_int16. Qed.

Lemma NTT_fuel_int16 iw fuel f r : NTT_fuel iw fuel f = Ok r -> int16s r.
Proof.
  destruct fuel as [|fuel]; [discriminate|]. cbn [NTT_fuel].
  destruct (Nat.ltb 2 (length f)).
  - rewrite (SplitPolys_ok 0). cbn [bind fst snd].
    destruct (NTT_fuel iw fuel (evens 0 f)); try discriminate. cbn [bind].
    destruct (NTT_fuel iw fuel (odds 0 f)); try discriminate. cbn [bind]. apply MergeNTT_int16.
  - destruct (Nat.eqb (length f) 2); [|intros [= <-]; constructor].
    destruct (idx f 1); try discriminate. cbn [bind]. destruct (idx f 0); try discriminate. cbn [bind].
    rewrite !Pmod_Q. cbn [bind]. intros [= <-]. repeat constructor; apply wrap16_int16.
Qed.

Section Agree.
Variables iw1 iw2 : Z -> Z.
Hypothesis small1 : forall z, - 2 ^ 31 <= z < 2 ^ 31 -> iw1 z = z.
Hypothesis small2 : forall z, - 2 ^ 31 <= z < 2 ^ 31 -> iw2 z = z.

Lemma MergeNTT_agree a b : int16s a -> int16s b -> MergeNTT iw1 a b = MergeNTT iw2 a b.
Proof.
  intros Ia Ib. unfold MergeNTT. f_equal. apply mapM_ext. intros i _.
  destruct (idx (roots_dict_Zq _) (2 * i)) as [w| | |] eqn:Ew; try reflexivity. cbn [bind].
  destruct (idx b i) as [y| | |] eqn:Ey; try reflexivity. cbn [bind].
  destruct (idx a i) as [x| | |] eqn:Ex; try reflexivity. cbn [bind].
  apply idx_in, roots_in in Ew. apply idx_in, int16s_in in Ey; [|assumption].
  apply idx_in, int16s_in in Ex; [|assumption]. unfold Q in Ew.
  pose proof (mul_bound w y 12289 32768 ltac:(lia) Ey).
  rewrite !small1, !small2 by (rewrite ?small1, ?small2; lia). reflexivity.
Qed.

Lemma NTT_fuel_agree fuel : forall f, int16s f -> NTT_fuel iw1 fuel f = NTT_fuel iw2 fuel f.
Proof.
  induction fuel as [|fuel IH]; intros f If; [reflexivity|]. cbn [NTT_fuel].
  destruct (Nat.ltb 2 (length f)).
  - rewrite (SplitPolys_ok 0). cbn [bind fst snd].
    rewrite (IH (evens 0 f)) by (apply Forall_evens; assumption).
    rewrite (IH (odds 0 f)) by (apply Forall_odds; assumption).
    destruct (NTT_fuel iw2 fuel (evens 0 f)) eqn:E0; try reflexivity. cbn [bind].
    destruct (NTT_fuel iw2 fuel (odds 0 f)) eqn:E1; try reflexivity. cbn [bind].
    apply MergeNTT_agree; eapply NTT_fuel_int16; eassumption.
  - destruct (Nat.eqb (length f) 2); [|reflexivity].
    destruct (idx f 1) as [y| | |] eqn:Ey; try reflexivity. cbn [bind].
    destruct (idx f 0) as [x| | |] eqn:Ex; try reflexivity. cbn [bind].
    apply idx_in, int16s_in in Ey; [|assumption]. apply idx_in, int16s_in in Ex; [|assumption].
    rewrite sqr1_val. rewrite !small1, !small2 by (rewrite ?small1, ?small2; lia). reflexivity.
Qed.

Lemma NTT_agree f : int16s f -> NTT iw1 f = NTT iw2 f.
Proof. apply NTT_fuel_agree. Qed.

Lemma mulNTT_agree a b : int16s a -> int16s b -> mulNTT iw1 a b = mulNTT iw2 a b.
Proof.
  intros Ia Ib. unfold mulNTT. destruct (negb _); [reflexivity|]. apply mapM_ext. intros i _.
  destruct (idx a i) as [x| | |] eqn:Ex; try reflexivity. cbn [bind].
  destruct (idx b i) as [y| | |] eqn:Ey; try reflexivity. cbn [bind].
  apply idx_in, int16s_in in Ey; [|assumption]. apply idx_in, int16s_in in Ex; [|assumption].
  pose proof (mul_bound x y _ _ Ex Ey). rewrite small1, small2 by lia. reflexivity.
Qed.

Lemma divNTT_agree a b : int16s a -> int16s b -> divNTT iw1 a b = divNTT iw2 a b.
Proof.
  intros Ia Ib. unfold divNTT. destruct (negb _); [reflexivity|]. destruct (existsb _ _); [reflexivity|].
  apply mapM_ext. intros i _.
  destruct (idx a i) as [x| | |] eqn:Ex; try reflexivity. cbn [bind].
  destruct (idx b i) as [y| | |] eqn:Ey; try reflexivity. cbn [bind].
  destruct (y <? 0); [reflexivity|].
  destruct (idx inv_mod_q _) as [v| | |] eqn:Ev; try reflexivity. cbn [bind].
  apply idx_in, inv_in in Ev. apply idx_in, int16s_in in Ex; [|assumption]. unfold Q in Ev.
  pose proof (mul_bound x v 32768 12289 Ex ltac:(lia)). rewrite small1, small2 by lia. reflexivity.
Qed.

Lemma map_wrap16_int16 l : int16s (map wrap16 l).
Proof. exact (IntToInt16_int16 l). Qed.

Lemma Verify_agree X fuel h msg sig : int16s h ->
  (forall s m, Decompress (skipn 41 sig) 625 512 = Ok s ->
     (ft <- NTT iw2 (map wrap16 s) ;; gt <- NTT iw2 h ;; mulNTT iw2 ft gt) = Ok m ->
     INTT iw1 m = INTT iw2 m) ->
  Verify iw1 X fuel h msg sig = Verify iw2 X fuel h msg sig.
Proof.
  intros Ih H. unfold Verify.
  destruct (slice sig (Z.to_nat HeadLen) (Z.to_nat (HeadLen + SaltLen))) as [salt| | |]; try reflexivity. cbn [bind].
  destruct (slice sig (Z.to_nat (HeadLen + SaltLen)) (length sig)) as [enc| | |] eqn:Es; try reflexivity. cbn [bind].
  assert (Ee : enc = skipn 41 sig).
  { change (Z.to_nat (HeadLen + SaltLen)) with 41%nat in Es. unfold slice in Es.
    destruct (_ && _); [|discriminate]. pose proof (skipn_length 41 sig) as Hl.
    rewrite firstn_all2 in Es by lia. congruence. }
  subst enc. change (wrap16u (p_sigbytelen (GetParamSet 512) - HeadLen - SaltLen)) with 625.
  destruct (Decompress (skipn 41 sig) 625 512) as [s| | |] eqn:Ed; try reflexivity.
  assert (E : MulZq iw1 (map wrap16 s) h = MulZq iw2 (map wrap16 s) h).
  { specialize (H s). unfold MulZq.
    rewrite (NTT_agree (map wrap16 s)) by apply map_wrap16_int16. rewrite (NTT_agree h) by assumption.
    destruct (NTT iw2 (map wrap16 s)) as [ft| | |] eqn:Ef; try reflexivity. cbn [bind] in *.
    destruct (NTT iw2 h) as [gt| | |] eqn:Eg; try reflexivity. cbn [bind] in *.
    rewrite mulNTT_agree by (eapply NTT_fuel_int16; eassumption).
    destruct (mulNTT iw2 ft gt) as [m| | |] eqn:Em; try reflexivity. cbn [bind].
    apply H; reflexivity. }
  rewrite E. reflexivity.
Qed.
End Agree.

(** a product that overflows 32 bits is also wrong modulo q *)
Lemma wrap32_modQ z : Z.abs z <= 65535 * 6145 * 12289 ->
  wrap32 z mod Q = z mod Q <-> - 2 ^ 31 <= z < 2 ^ 31.
Proof.
  intros Hz. split; [|intros H; rewrite wrap32_id by assumption; reflexivity].
  intros H. unfold wrap32, wrap in H. change (32 - 1) with 31 in H.
  pose proof (Z.div_mod (z + 2 ^ 31) (2 ^ 32) ltac:(lia)) as Hd.
  pose proof (Z.mod_pos_bound (z + 2 ^ 31) (2 ^ 32) ltac:(lia)) as Hb.
  set (k := (z + 2 ^ 31) / 2 ^ 32) in *. set (r := (z + 2 ^ 31) mod 2 ^ 32) in *.
  assert (Hk : (Q | k * 2 ^ 32)).
  { assert (E : k * 2 ^ 32 = z - (r - 2 ^ 31)) by lia. rewrite E.
    apply Z.mod_divide; [discriminate|]. rewrite Zminus_mod, H, Z.sub_diag. reflexivity. }
  rewrite Z.mul_comm in Hk. apply Znumtheory.Gauss in Hk.
  - destruct Hk as [j Hj]. unfold Q in Hj. assert (k = 0) by lia. lia.
  - apply Znumtheory.Zgcd_1_rel_prime. reflexivity.
Qed.

Definition fits32 (z : Z) : Prop := - 2 ^ 31 <= z < 2 ^ 31.

(** the product whose overflow makes SplitNTT wrong, ntt.go:53-57 *)
Definition split_product (k : nat) (f : list Z) (i : nat) : Z :=
  (nth (2 * i) f 0 - nth (2 * i + 1) f 0) * i2 * invq (nth (2 * i) (W k) 0).

Lemma map_eq_nth {A} (f g : nat -> A) n : map f (seq 0 n) = map g (seq 0 n) <-> forall i, (i < n)%nat -> f i = g i.
Proof.
  split.
  - intros H i Hi. assert (In i (seq 0 n)) as Hin by (apply in_seq; lia).
    revert H Hin. generalize (seq 0 n). intros l. induction l as [|a l IH]; intros H [].
    + subst. injection H. auto.
    + injection H as _ H. apply IH; assumption.
  - intros H. apply map_ext_in. intros i Hi. apply in_seq in Hi. apply H. lia.
Qed.

Lemma SplitNTT32 k f : (1 <= k <= 10)%nat -> length f = (2 ^ k)%nat -> int16s f ->
  SplitNTT wrap32 f = Ok (splitP0 k f, map (fun i => wrap32 (split_product k f i) mod Q) (seq 0 (2 ^ (k - 1)))).
Proof.
  intros Hk Hf If. unfold SplitNTT. rewrite Hf, div2_pow by lia.
  rewrite W_key by assumption.
  rewrite (mapM_Ok _ (fun i =>
     (((nth (2 * i) f 0 + nth (2 * i + 1) f 0) * i2) mod Q, wrap32 (split_product k f i) mod Q))).
  { cbn [bind]. rewrite !map_map. reflexivity. }
  intros i Hi. apply in_seq in Hi.
  pose proof (pow2_half k ltac:(lia)) as Hp.
  rewrite !(idx_nth f _ 0) by lia. cbn [bind].
  pose proof (int16_abs _ (Forall_nth_d is_int16 f (2 * i) 0 If ltac:(lia))) as Ba.
  pose proof (int16_abs _ (Forall_nth_d is_int16 f (2 * i + 1) 0 If ltac:(lia))) as Bb.
  rewrite (idx_nth _ _ 0) by (rewrite W_length by assumption; lia). cbn [bind].
  assert (Hw : 0 < nth (2 * i) (W k) 0 < Q).
  { apply (Forall_nth_d (fun w => 0 < w < Q)); [apply W_range; assumption|]. rewrite W_length by assumption. lia. }
  rewrite invq_idx by lia. unfold split_product.
  set (w := nth (2 * i) (W k) 0) in *.
  set (x := nth (2 * i) f 0) in *. set (y := nth (2 * i + 1) f 0) in *.
  unfold i2, Q in *.
  rewrite (wrap32_id (x + y)) by lia. rewrite (wrap32_id (x - y)) by lia.
  rewrite (wrap32_id ((x + y) * 6145)) by lia. rewrite (wrap32_id ((x - y) * 6145)) by lia.
  change 12289 with Q. rewrite Pmod_Q. cbn [bind]. rewrite Pmod_Q. cbn [bind].
  rewrite !wrap16_modQ. reflexivity.
Qed.

Lemma SplitNTT_word k f : (1 <= k <= 10)%nat -> length f = (2 ^ k)%nat -> int16s f ->
  (SplitNTT wrap32 f = SplitNTT wrap64 f <->
   forall i, (i < 2 ^ (k - 1))%nat -> fits32 (split_product k f i)).
Proof.
  intros Hk Hf If. rewrite (SplitNTT32 k), (SplitNTT_ok wrap64 wrap64_id k) by assumption.
  assert (B : forall i, (i < 2 ^ (k - 1))%nat -> Z.abs (split_product k f i) <= 65535 * 6145 * 12289).
  { intros i Hi. pose proof (pow2_half k ltac:(lia)) as Hp.
    pose proof (Forall_nth_d is_int16 f (2 * i) 0 If ltac:(lia)) as Ba.
    pose proof (Forall_nth_d is_int16 f (2 * i + 1) 0 If ltac:(lia)) as Bb. unfold is_int16 in Ba, Bb.
    assert (Hw : 0 < nth (2 * i) (W k) 0 < Q).
    { apply (Forall_nth_d (fun w => 0 < w < Q)); [apply W_range; assumption|]. rewrite W_length by assumption. lia. }
    pose proof (proj2 (invq_ok _ Hw)) as Hv. unfold Q in Hv. unfold split_product, i2.
    apply mul_bound; lia. }
  split.
  - intros [= E] i Hi. unfold splitP1 in E. rewrite map_eq_nth in E. specialize (E i Hi).
    apply wrap32_modQ; [apply B, Hi|exact E].
  - intros H. f_equal. f_equal. apply map_eq_nth. intros i Hi.
    apply (proj2 (wrap32_modQ _ (B i Hi))), H, Hi.
Qed.

Lemma INTT2_word x y : is_int16 x -> is_int16 y ->
  (INTT wrap32 [x; y] = INTT wrap64 [x; y] <-> fits32 ((x - y) * invq 1479 * i2)).
Proof.
  intros Ix Iy. unfold is_int16 in *.
  assert (Ev : invq 1479 = 10810) by (vm_compute; reflexivity). rewrite Ev.
  pose proof (mul_bound (x - y) 10810 65535 12288 ltac:(lia) ltac:(lia)) as Bm.
  assert (G : forall iw, (forall z, - 2 ^ 31 <= z < 2 ^ 31 -> iw z = z) ->
     INTT iw [x; y] = Ok [((x + y) * i2) mod Q; iw ((x - y) * 10810 * i2) mod Q]).
  { intros iw S1. unfold INTT. cbn [length INTT_fuel Nat.ltb Nat.leb Nat.eqb idx nth_error bind].
    unfold i2. rewrite (S1 (x + y)) by lia. rewrite (S1 (x - y)) by lia. rewrite (S1 ((x + y) * 6145)) by lia.
    rewrite Pmod_Q. cbn [bind].
    replace (idx inv_mod_q 1479) with (@Ok Z 10810) by (vm_compute; reflexivity). cbn [bind].
    rewrite (S1 ((x - y) * 10810)) by lia. rewrite Pmod_Q. cbn [bind].
    unfold IntToInt16. cbn [map]. rewrite !wrap16_modQ. reflexivity. }
  rewrite (G wrap32 wrap32_id), (G wrap64) by (intros z Hz; apply wrap64_id; unfold is_int64; lia).
  assert (B : Z.abs ((x - y) * 10810 * i2) <= 65535 * 6145 * 12289).
  { pose proof (mul_bound _ i2 _ 6145 Bm ltac:(unfold i2; lia)). lia. }
  rewrite (wrap64_id ((x - y) * 10810 * i2)) by (unfold is_int64; lia).
  split.
  - intros [= E]. apply wrap32_modQ; assumption.
  - intros H. rewrite (proj2 (wrap32_modQ _ B)) by exact H. reflexivity.
Qed.
