(** Lemmas about keys, hashing and verification. *)
From Verif Require Import GoBase Util Ntt Encoding Params Xof Falcon Spec SpecHash PolyZ BaseProofs NttProofs EncodingProofs.

(** ** SubZq *)
Lemma negZq_ok g : Forall (fun c => -32767 <= c <= 32767) g ->
  negZq g = Ok (map (fun c => (- c) mod Q) g).
Proof.
  intros H. unfold negZq.
  rewrite (mapM_Ok _ (fun i => (- nth i g 0) mod Q)).
  - f_equal. rewrite <- (map_map (fun i => nth i g 0) (fun c => (- c) mod Q)), map_seq_nth. reflexivity.
  - intros i Hi. apply in_seq in Hi. rewrite (idx_nth _ _ 0) by lia. cbn [bind].
    pose proof (Forall_nth_d _ g i 0 H ltac:(lia)) as Hr. cbv beta in Hr.
    rewrite wrap16_id by (unfold is_int16; lia). rewrite Pmod_Q. cbn [bind]. rewrite wrap16_modQ. reflexivity.
Qed.

Lemma addZq_ok n f g : length f = n -> length g = n ->
  (forall i, (i < n)%nat -> is_int16 (nth i f 0 + nth i g 0)) ->
  addZq f g = Ok (map (fun i => (nth i f 0 + nth i g 0) mod Q) (seq 0 n)).
Proof.
  intros Hf Hg H. unfold addZq. rewrite Hf, Hg, Nat.eqb_refl. cbn [negb].
  apply mapM_Ok. intros i Hi. apply in_seq in Hi. rewrite !(idx_nth _ _ 0) by lia. cbn [bind].
  rewrite wrap16_id by (apply H; lia). rewrite Pmod_Q. cbn [bind]. rewrite wrap16_modQ. reflexivity.
Qed.

Lemma SubZq_ok n f g : length f = n -> length g = n ->
  Forall (fun c => -32768 <= c <= 20479) f -> Forall (fun c => -32767 <= c <= 32767) g ->
  SubZq f g = Ok (pmod Q (psub n f g)).
Proof.
  intros Hf Hg Rf Rg. unfold SubZq. rewrite negZq_ok by assumption. cbn [bind].
  assert (Hn : forall i, nth i (map (fun c => (- c) mod Q) g) 0 = (- nth i g 0) mod Q).
  { intros i. exact (map_nth (fun c => (- c) mod Q) g 0 i). }
  rewrite (addZq_ok n).
  - f_equal. unfold pmod, psub. rewrite map_map. apply map_ext. intros i. rewrite Hn.
    apply cong_modeq. unfold coef. rewrite cong_mod. cring.
  - assumption.
  - rewrite map_length. assumption.
  - intros i Hi. rewrite Hn. pose proof (modQ_range (- nth i g 0)).
    pose proof (Forall_nth_d _ f i 0 Rf ltac:(lia)) as Hr. cbv beta in Hr. unfold is_int16. lia.
Qed.

Lemma negZq_length g g' : negZq g = Ok g' -> length g' = length g.
Proof. intros H. apply mapM_length in H. rewrite seq_length in H. assumption. Qed.

Lemma negZq_total g : exists g', negZq g = Ok g'.
Proof.
  exists (map (fun i => wrap16 (wrap16 (- nth i g 0) mod Q)) (seq 0 (length g))).
  apply mapM_Ok. intros i Hi. apply in_seq in Hi. rewrite (idx_nth _ _ 0) by lia. cbn [bind].
  rewrite Pmod_Q. reflexivity.
Qed.

Lemma SubZq_panic f g : SubZq f g = Panic <-> length f <> length g.
Proof.
  unfold SubZq. destruct (negZq_total g) as [g' E]. rewrite E. cbn [bind].
  pose proof (negZq_length _ _ E) as L. unfold addZq. rewrite L.
  destruct (Nat.eqb_spec (length f) (length g)) as [H|H]; cbn [negb].
  - split; [|contradiction].
    rewrite (mapM_Ok _ (fun i => wrap16 (wrap16 (nth i f 0 + nth i g' 0) mod Q))); [discriminate|].
    intros i Hi. apply in_seq in Hi. rewrite !(idx_nth _ _ 0) by lia. cbn [bind]. rewrite Pmod_Q. reflexivity.
  - split; [intros _; assumption|reflexivity].
Qed.

(** ** Hashing *)
Section Hash.
Variable X : XOF.

Lemma lor_bytes a b : is_byte a -> is_byte b -> Z.lor (Z.shiftl a 8) b = 256 * a + b.
Proof.
  unfold is_byte. intros Ha Hb.
  rewrite <- Z.lxor_lor.
  2:{ apply Z.bits_inj'. intros n Hn. rewrite Z.land_spec, Z.bits_0, Z.shiftl_spec by lia.
      destruct (Z.lt_ge_cases n 8).
      - rewrite Z.testbit_neg_r by lia. reflexivity.
      - rewrite (Z.bits_above_log2 b) by (lia || (destruct (Z.eq_dec b 0); [subst; cbn; lia|apply Z.log2_lt_pow2; [lia|]; pose proof (Z.pow_le_mono_r 2 8 n); lia])).
        apply andb_false_r. }
  rewrite <- Z.add_nocarry_lxor.
  - rewrite Z.shiftl_mul_pow2 by lia. change (2 ^ 8) with 256. lia.
  - apply Z.bits_inj'. intros n Hn. rewrite Z.land_spec, Z.bits_0, Z.shiftl_spec by lia.
      destruct (Z.lt_ge_cases n 8).
      + rewrite Z.testbit_neg_r by lia. reflexivity.
      + rewrite (Z.bits_above_log2 b) by (lia || (destruct (Z.eq_dec b 0); [subst; cbn; lia|apply Z.log2_lt_pow2; [lia|]; pose proof (Z.pow_le_mono_r 2 8 n); lia])).
        apply andb_false_r.
Qed.

Lemma word_range s : 0 <= word_of X (xread2 X s) < 65536.
Proof. pose proof (xread2_bytes X s). unfold word_of, is_byte in *. lia. Qed.

Lemma rem_q_mod w : 0 <= w -> Z.rem w Q = w mod q.
Proof. intros H. apply Z.rem_mod_nonneg; [assumption|reflexivity]. Qed.

Lemma accepted_app a b : accepted (a ++ b) = accepted a ++ accepted b.
Proof. unfold accepted. rewrite filter_app, map_app. reflexivity. Qed.

Lemma hash_loop_step fuel n s acc : (length acc < n)%nat ->
  hash_loop X (S fuel) n s acc =
  hash_loop X fuel n (snd (xread2 X s)) (acc ++ accepted [word_of X (xread2 X s)]).
Proof.
  intros H. cbn [hash_loop]. destruct (Nat.ltb_spec (length acc) n); [|lia].
  pose proof (xread2_bytes X s) as [B0 B1]. pose proof (word_range s) as Hw.
  destruct (xread2 X s) as [[b0 b1] s'] eqn:E. cbn [fst snd] in *.
  rewrite lor_bytes by assumption.
  unfold accepted, word_of in *. cbn [fst snd filter] in *. change (5 * q) with 61445.
  destruct (256 * b0 + b1 <? 61445); cbn [map].
  - rewrite rem_q_mod by lia. change q with Q. rewrite wrap16_modQ. reflexivity.
  - rewrite app_nil_r. reflexivity.
Qed.

Lemma priv_hash_loop_eq fuel : forall n s acc,
  priv_hash_loop X fuel n s acc = hash_loop X fuel n s acc.
Proof.
  induction fuel as [|fuel IH]; intros n s acc; cbn [priv_hash_loop hash_loop].
  - reflexivity.
  - destruct (Nat.ltb (length acc) n); [|reflexivity].
    pose proof (xread2_bytes X s) as [B0 B1]. pose proof (word_range s) as Hw.
    destruct (xread2 X s) as [[b0 b1] s'] eqn:E. cbn [fst snd] in *.
    rewrite lor_bytes by assumption. rewrite Z.shiftl_mul_pow2 by lia. change (2 ^ 8) with 256.
    rewrite (Z.mul_comm b0). change (65536 / Q * Q) with 61445.
    destruct (256 * b0 + b1 <? 61445); rewrite IH; [|reflexivity].
    rewrite rem_q_mod by (unfold is_byte in *; lia). change q with Q. rewrite wrap16_modQ. reflexivity.
Qed.

Lemma hash_loop_done fuel n s acc : (n <= length acc)%nat -> hash_loop X fuel n s acc = Ok acc.
Proof.
  intros H. destruct fuel; cbn [hash_loop]; destruct (Nat.ltb_spec (length acc) n); try lia; reflexivity.
Qed.

Lemma accepted_one_le w : (length (accepted [w]) <= 1)%nat.
Proof. unfold accepted. cbn [filter]. destruct (w <? 5 * q); cbn; lia. Qed.

(** exactly the first n accepted words *)
Lemma hash_loop_iff fuel : forall n s acc c, (length acc <= n)%nat ->
  hash_loop X fuel n s acc = Ok c <->
  exists k, (k <= fuel)%nat /\ c = acc ++ accepted (xwords X k s) /\ length c = n /\
    forall k', (k' < k)%nat -> (length acc + length (accepted (xwords X k' s)) < n)%nat.
Proof.
  induction fuel as [|fuel IH]; intros n s acc c Hacc.
  - destruct (Nat.eq_dec (length acc) n) as [E|E].
    + rewrite hash_loop_done by lia. split.
      * intros H. injection H as <-. exists 0%nat. cbn. rewrite app_nil_r. repeat split; try lia.
      * intros [k [Hk [-> _]]]. replace k with 0%nat by lia. cbn. rewrite app_nil_r. reflexivity.
    + cbn [hash_loop]. destruct (Nat.ltb_spec (length acc) n); [|lia]. split; [discriminate|].
      intros [k [Hk [-> [L _]]]]. replace k with 0%nat in L by lia. cbn in L. rewrite app_nil_r in L. contradiction.
  - destruct (Nat.eq_dec (length acc) n) as [E|E].
    + rewrite hash_loop_done by lia. split.
      * intros H. injection H as <-. exists 0%nat. cbn. rewrite app_nil_r. repeat split; try lia.
      * intros [k [Hk [-> [L Hmin]]]]. destruct k as [|k].
        { cbn. rewrite app_nil_r. reflexivity. }
        specialize (Hmin 0%nat ltac:(lia)). lia.
    + rewrite hash_loop_step by lia.
      pose proof (accepted_one_le (word_of X (xread2 X s))) as H1.
      rewrite IH by (rewrite app_length; lia). split.
      * intros [k [Hk [-> [L Hmin]]]]. exists (S k). cbn [xwords].
        change (word_of X (xread2 X s) :: xwords X k (snd (xread2 X s))) with ([word_of X (xread2 X s)] ++ xwords X k (snd (xread2 X s))).
        rewrite accepted_app. rewrite app_assoc. repeat split; try lia.
        intros [|k'] Hk'; [cbn; lia|].
        specialize (Hmin k' ltac:(lia)). cbn [xwords].
        change (word_of X (xread2 X s) :: xwords X k' (snd (xread2 X s))) with ([word_of X (xread2 X s)] ++ xwords X k' (snd (xread2 X s))).
        rewrite accepted_app, app_length. rewrite app_length in Hmin. lia.
      * intros [k [Hk [-> [L Hmin]]]]. destruct k as [|k].
        { cbn in L. rewrite app_nil_r in L. contradiction. }
        exists k. cbn [xwords] in *.
        change (word_of X (xread2 X s) :: xwords X k (snd (xread2 X s))) with ([word_of X (xread2 X s)] ++ xwords X k (snd (xread2 X s))) in *.
        rewrite accepted_app in *. rewrite app_assoc in *. repeat split; try lia.
        intros k' Hk'. specialize (Hmin (S k') ltac:(lia)). cbn [xwords] in Hmin.
        change (word_of X (xread2 X s) :: xwords X k' (snd (xread2 X s))) with ([word_of X (xread2 X s)] ++ xwords X k' (snd (xread2 X s))) in Hmin.
        rewrite accepted_app, app_length in Hmin. rewrite app_length. lia.
Qed.

Lemma accepted_inq ws : inq (accepted ws).
Proof.
  apply Forall_forall. intros x Hx. unfold accepted in Hx. apply in_map_iff in Hx.
  destruct Hx as [w [<- _]]. apply modQ_range.
Qed.

Lemma hashToPoint_ok fuel message salt c : hashToPoint X fuel message salt = Ok c ->
  length c = 512%nat /\ inq c.
Proof.
  intros H. unfold hashToPoint in H. apply hash_loop_iff in H; [|cbn; lia].
  destruct H as [k [_ [E [L _]]]]. split; [assumption|]. rewrite E. apply accepted_inq.
Qed.

Lemma hash_loop_not fuel : forall n s acc,
  (exists c, hash_loop X fuel n s acc = Ok c) \/ hash_loop X fuel n s acc = Diverge.
Proof.
  induction fuel as [|fuel IH]; intros n s acc; cbn [hash_loop]; destruct (Nat.ltb (length acc) n); eauto.
  destruct (xread2 X s) as [[b0 b1] s']. destruct (_ <? 61445); apply IH.
Qed.

Lemma hashToPoint_cases fuel message salt :
  (exists c, hashToPoint X fuel message salt = Ok c) \/ hashToPoint X fuel message salt = Diverge.
Proof. apply hash_loop_not. Qed.

Lemma hash_loop_mono fuel : forall n s acc c fuel', hash_loop X fuel n s acc = Ok c -> (fuel <= fuel')%nat ->
  hash_loop X fuel' n s acc = Ok c.
Proof.
  induction fuel as [|fuel IH]; intros n s acc c fuel' H L.
  - cbn [hash_loop] in H. destruct (Nat.ltb_spec (length acc) n); [discriminate|].
    rewrite hash_loop_done by assumption. assumption.
  - destruct fuel' as [|fuel']; [lia|]. cbn [hash_loop] in *.
    destruct (Nat.ltb (length acc) n); [|assumption].
    destruct (xread2 X s) as [[b0 b1] s']. destruct (_ <? 61445); apply (IH _ _ _ _ fuel') in H; (assumption || lia).
Qed.

(** the hash point does not depend on the fuel *)
Lemma hashToPoint_det fuel fuel' message salt c c' :
  hashToPoint X fuel message salt = Ok c -> hashToPoint X fuel' message salt = Ok c' -> c = c'.
Proof.
  unfold hashToPoint. intros H H'.
  apply (hash_loop_mono _ _ _ _ _ (Nat.max fuel fuel')) in H; [|lia].
  apply (hash_loop_mono _ _ _ _ _ (Nat.max fuel fuel')) in H'; [|lia]. congruence.
Qed.

End Hash.

(** ** Centring and norms *)
Lemma center_ok s : 0 <= s < Q -> center s = centred s.
Proof.
  intros H. unfold center, centred. change ((q - 1) / 2) with 6144. change q with Q.
  unfold Q in *. rewrite (wrap16_id (s + 6144)) by (unfold is_int16; lia).
  rewrite Z.rem_mod_nonneg by lia.
  pose proof (Z.mod_pos_bound (s + 6144) 12289 ltac:(lia)).
  apply wrap16_id. unfold is_int16. lia.
Qed.

Lemma centred_mod s : centred (s mod Q) = centred s.
Proof.
  unfold centred. change q with Q. f_equal. apply cong_modeq. rewrite cong_mod. reflexivity.
Qed.

Lemma centred_range s : -6144 <= centred s <= 6144.
Proof.
  unfold centred. change ((q - 1) / 2) with 6144.
  pose proof (modQ_range (s + 6144)). change q with Q. lia.
Qed.

Lemma centred_cong s : cong Q (centred s) s.
Proof.
  unfold centred. change q with Q. rewrite cong_mod. cring.
Qed.

Lemma centred_small s : -6144 <= s <= 6144 -> centred s = s.
Proof.
  intros H. unfold centred. change ((q - 1) / 2) with 6144. unfold q.
  rewrite Z.mod_small by lia. lia.
Qed.

Lemma norm_acc_ok v : forall acc, norm_acc acc v mod 2 ^ 32 = (acc + sqnorm v) mod 2 ^ 32.
Proof.
  unfold norm_acc. induction v as [|c v IH]; intros acc.
  - cbn [fold_left sqnorm fold_right]. f_equal. lia.
  - cbn [fold_left]. rewrite IH. cbn [sqnorm fold_right]. fold (sqnorm v).
    unfold wrap32u, wrapu. fold (cong (2 ^ 32) ((acc + ((c mod 2 ^ 32 * (c mod 2 ^ 32)) mod 2 ^ 32)) mod 2 ^ 32 + sqnorm v) (acc + (c * c + sqnorm v))).
    apply (cong_equiv (2 ^ 32)) with (y := acc + c * c + sqnorm v); [|apply cong_eq; ring].
    apply cong_add; [|apply cong_refl].
    apply (cong_equiv (2 ^ 32)) with (y := acc + (c mod 2 ^ 32 * (c mod 2 ^ 32)) mod 2 ^ 32); [apply cong_mod|].
    apply cong_add; [apply cong_refl|].
    apply (cong_equiv (2 ^ 32)) with (y := c mod 2 ^ 32 * (c mod 2 ^ 32)); [apply cong_mod|].
    apply cong_mul; apply cong_mod.
Qed.

Lemma norm_acc_range v : forall acc, 0 <= acc < 2 ^ 32 -> 0 <= norm_acc acc v < 2 ^ 32.
Proof.
  unfold norm_acc. induction v as [|c v IH]; intros acc H; cbn [fold_left]; [assumption|].
  apply IH. unfold wrap32u, wrapu. apply Z.mod_pos_bound. lia.
Qed.

Lemma norm_acc_two a b : norm_acc (norm_acc 0 a) b = (sqnorm a + sqnorm b) mod 2 ^ 32.
Proof.
  pose proof (norm_acc_range a 0 ltac:(lia)) as Ra.
  pose proof (norm_acc_range b _ Ra) as Rb.
  rewrite <- (Z.mod_small _ _ Rb), norm_acc_ok.
  apply (cong_add (2 ^ 32)); [|apply cong_refl].
  unfold cong. rewrite norm_acc_ok. reflexivity.
Qed.

Lemma sqnorm_nonneg v : 0 <= sqnorm v.
Proof. induction v as [|c v IH]; cbn [sqnorm fold_right]; [lia|]. fold (sqnorm v). nia. Qed.

(** ** Verify *)
Lemma params512 : GetParamSet 512 = params_512.
Proof. reflexivity. Qed.

Lemma s0_eq c m h s1 : inq c -> length c = 512%nat ->
  length h = 512%nat -> length s1 = 512%nat -> m = pmod Q (negacyc 512 s1 h) ->
  exists s, SubZq c m = Ok s /\ map center s = falcon_s0 512 h c s1.
Proof.
  intros Hc Lc Lh Ls ->. eexists. split.
  - apply (SubZq_ok 512); try assumption.
    + rewrite pmod_length, negacyc_length. reflexivity.
    + eapply Forall_impl; [|exact Hc]. unfold Q. cbn. lia.
    + eapply Forall_impl; [|apply inq_pmod]. unfold Q. cbn. lia.
  - unfold falcon_s0, pmod, psub. rewrite !map_map. apply map_ext_in. intros i Hi. apply in_seq in Hi.
    rewrite center_ok by apply modQ_range. rewrite centred_mod.
    unfold coef at 2. fold (pmod Q (negacyc 512 s1 h)). rewrite pmod_nth.
    rewrite <- (centred_mod (_ - _ mod Q)), <- (centred_mod (coef c i - _)). f_equal.
    apply cong_modeq. rewrite cong_mod. reflexivity.
Qed.

Lemma firstn_skipn_len {A} (l : list A) a b : (a <= b)%nat -> (b <= length l)%nat -> length (firstn (b - a) (skipn a l)) = (b - a)%nat.
Proof. intros. apply firstn_length_le. rewrite skipn_length. lia. Qed.

Definition salt_of (sig : list Z) : list Z := firstn 40 (skipn 1 sig).
Definition body_of (sig : list Z) : list Z := skipn 41 sig.

Lemma sig_slices sig : (41 <= length sig)%nat ->
  slice sig (Z.to_nat HeadLen) (Z.to_nat (HeadLen + SaltLen)) = Ok (salt_of sig) /\
  slice sig (Z.to_nat (HeadLen + SaltLen)) (length sig) = Ok (body_of sig).
Proof.
  intros H. change (Z.to_nat HeadLen) with 1%nat. change (Z.to_nat (HeadLen + SaltLen)) with 41%nat.
  rewrite !slice_ok by lia. split; [reflexivity|]. f_equal. unfold body_of.
  apply firstn_all2. rewrite skipn_length. lia.
Qed.

Section Verify.
Variable iw : Z -> Z.
Hypothesis iw_id : forall z, is_int64 z -> iw z = z.
Variable X : XOF.

Lemma sig_short sig fuel h msg : (length sig < 41)%nat -> Verify iw X fuel h msg sig = Panic.
Proof.
  intros H. unfold Verify. change (Z.to_nat HeadLen) with 1%nat. change (Z.to_nat (HeadLen + SaltLen)) with 41%nat.
  unfold slice at 1. destruct (Nat.leb_spec 41 (length sig)); [lia|]. rewrite andb_false_r. reflexivity.
Qed.

Lemma Verify_eq fuel h msg sig : (41 <= length sig)%nat -> length h = 512%nat -> int16s h ->
  Verify iw X fuel h msg sig =
  match Decompress (body_of sig) 625 512 with
  | Err _ => Ok false
  | Panic => Panic
  | Diverge => Diverge
  | Ok ss1 =>
    c <- hashToPoint X fuel msg (salt_of sig) ;;
    let s1 := map wrap16 ss1 in
    Ok ((sqnorm (falcon_s0 512 h c s1) + sqnorm s1) mod 2 ^ 32 <=? beta2_512)
  end.
Proof.
  intros Hs Hh Ih. unfold Verify. destruct (sig_slices sig Hs) as [E1 E2]. rewrite E1, E2. cbn [bind].
  rewrite params512. change (wrap16u (p_sigbytelen params_512 - HeadLen - SaltLen)) with 625.
  destruct (Decompress (body_of sig) 625 512) as [ss1| | |] eqn:D; try reflexivity.
  destruct (hashToPoint_cases X fuel msg (salt_of sig)) as [[c Ec]|Ec]; rewrite Ec; cbn [bind]; [|reflexivity].
  destruct (hashToPoint_ok X _ _ _ _ Ec) as [Lc Ic].
  assert (Ls : length (map wrap16 ss1) = 512%nat).
  { rewrite map_length. unfold Decompress in D.
    destruct (_ >? _) in D; [discriminate|]. destruct (trim _) in D; try discriminate. cbn [bind] in D.
    destruct (decode_loop _ _ _ _) as [w| | |] in D; try discriminate. cbn [bind] in D.
    destruct (Z.eqb_spec (Z.of_nat (length w)) 512); cbn [negb] in D; [|discriminate]. injection D as <-. lia. }
  assert (I1 : int16s (map wrap16 ss1)).
  { apply Forall_forall. intros x Hx. apply in_map_iff in Hx. destruct Hx as [y [<- _]]. apply wrap16_int16. }
  change 512%nat with (2 ^ 9)%nat in Ls, Hh.
  rewrite (MulZq_ok iw iw_id 9) by (assumption || lia). cbn [bind].
  destruct (s0_eq c _ h (map wrap16 ss1) Ic Lc Hh Ls eq_refl) as [s [Es E0]].
  change (2 ^ 9)%nat with 512%nat. rewrite Es. cbn [bind]. rewrite E0, norm_acc_two.
  change (p_sigbound params_512) with beta2_512.
  destruct (Z.gtb_spec ((sqnorm (falcon_s0 512 h c (map wrap16 ss1)) + sqnorm (map wrap16 ss1)) mod 2 ^ 32) beta2_512) as [G|G].
  - symmetry. f_equal. apply Z.leb_gt. lia.
  - symmetry. f_equal. apply Z.leb_le. lia.
Qed.

End Verify.
