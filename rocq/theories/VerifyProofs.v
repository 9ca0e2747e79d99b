(** Verification on arbitrary keys and byte strings; forgeries. *)
From Verif Require Import GoBase Util Ntt Encoding Params Xof Falcon Spec SpecHash PolyZ BaseProofs
  NttProofs NttLen EncodingProofs FalconProofs.

(** ** hash_point *)
Section HP.
Variable X : XOF.

Lemma xwords_app k j s : exists r, xwords X (k + j) s = xwords X k s ++ r.
Proof.
  revert s. induction k as [|k IH]; intros s.
  - exists (xwords X j s). reflexivity.
  - destruct (IH (snd (xread2 X s))) as [r E]. exists r. cbn [Nat.add xwords]. rewrite E. reflexivity.
Qed.

Lemma hash_point_prefix n s k k' : length (accepted (xwords X k s)) = n ->
  length (accepted (xwords X k' s)) = n -> (k <= k')%nat -> accepted (xwords X k s) = accepted (xwords X k' s).
Proof.
  intros H H' L. destruct (xwords_app k (k' - k) s) as [r E].
  replace (k + (k' - k))%nat with k' in E by lia. rewrite E, accepted_app in *.
  rewrite app_length in H'. destruct (accepted r); [rewrite app_nil_r; reflexivity|].
  cbn [length] in H'. lia.
Qed.

Lemma hash_point_fun n msg salt c c' : hash_point X n msg salt c -> hash_point X n msg salt c' -> c = c'.
Proof.
  intros [L [k E]] [L' [k' E']]. subst c c'.
  destruct (Nat.le_ge_cases k k').
  - apply (hash_point_prefix n); assumption.
  - symmetry. apply (hash_point_prefix n); assumption.
Qed.

Lemma hash_loop_len fuel : forall n s acc, (length acc <= n)%nat ->
  hash_loop X fuel n s acc = Diverge ->
  (length acc + length (accepted (xwords X fuel s)) < n)%nat.
Proof.
  induction fuel as [|fuel IH]; intros n s acc Hn H.
  - cbn [hash_loop] in H. destruct (Nat.ltb_spec (length acc) n); [|discriminate]. cbn. lia.
  - destruct (Nat.lt_ge_cases (length acc) n) as [L|L].
    + rewrite hash_loop_step in H by assumption.
      pose proof (accepted_one_le (word_of X (xread2 X s))) as O1.
      apply IH in H; [|rewrite app_length; lia].
      cbn [xwords]. change (word_of X (xread2 X s) :: xwords X fuel (snd (xread2 X s)))
        with ([word_of X (xread2 X s)] ++ xwords X fuel (snd (xread2 X s))).
      rewrite accepted_app, app_length. rewrite app_length in H. lia.
    + rewrite hash_loop_done in H by lia. discriminate.
Qed.

Lemma accepted_mono k k' s : (k <= k')%nat ->
  (length (accepted (xwords X k s)) <= length (accepted (xwords X k' s)))%nat.
Proof.
  intros L. destruct (xwords_app k (k' - k) s) as [r E].
  replace (k + (k' - k))%nat with k' in E by lia. rewrite E, accepted_app, app_length. lia.
Qed.

(** hash_point is exactly termination of the loop *)
Lemma hash_loop_point n s c :
  (exists fuel, hash_loop X fuel n s [] = Ok c) <-> (length c = n /\ exists k, c = accepted (xwords X k s)).
Proof.
  split.
  - intros [fuel H]. apply hash_loop_iff in H; [|cbn; lia].
    destruct H as [k [_ [E [L _]]]]. split; [assumption|]. exists k. assumption.
  - intros [L [k E]]. exists k.
    destruct (hash_loop_not X k n s []) as [[c' E']|D].
    + rewrite E'. f_equal. apply hash_loop_iff in E'; [|cbn; lia].
      destruct E' as [k' [Lk [E' [L' _]]]]. cbn [app] in E'. subst c c'.
      apply (hash_point_prefix n); assumption.
    + apply hash_loop_len in D; [|cbn; lia]. cbn [length] in D. subst c. lia.
Qed.

Lemma hashToPoint_point msg salt c :
  (exists fuel, hashToPoint X fuel msg salt = Ok c) <-> hash_point X 512 msg salt c.
Proof. apply hash_loop_point. Qed.

Lemma hash_point_inq n msg salt c : hash_point X n msg salt c -> inq c /\ length c = n.
Proof. intros [L [k E]]. split; [subst c; apply accepted_inq|assumption]. Qed.

End HP.

(** ** Verify on any key *)
Section V.
Variable iw : Z -> Z.
Hypothesis iw_id : forall z, is_int64 z -> iw z = z.
Variable X : XOF.

Definition good_len (h : list Z) : Prop := (512 <= length h <= 767)%nat.
Lemma good_len_dec h : {good_len h} + {~ good_len h}.
Proof.
  unfold good_len. destruct (le_dec 512 (length h)), (le_dec (length h) 767); [left|right|right|right]; lia.
Qed.

Lemma int16_of_wrap z : int16_of z = wrap16 z.
Proof. reflexivity. Qed.

Lemma Decompress_length x slen n v : Decompress x slen n = Ok v -> Z.of_nat (length v) = n.
Proof.
  intros D. unfold Decompress in D.
  destruct (_ >? _) in D; [discriminate|]. destruct (trim _) in D; try discriminate. cbn [bind] in D.
  destruct (decode_loop _ _ _ _) as [w| | |] in D; try discriminate. cbn [bind] in D.
  destruct (Z.eqb_spec (Z.of_nat (length w)) n) as [E|]; cbn [negb] in D; [|discriminate].
  injection D as <-. exact E.
Qed.

Definition accept_norm (h c s1 : list Z) : bool :=
  (sqnorm (falcon_s0 512 h c s1) + sqnorm s1) mod 2 ^ 32 <=? beta2_512.

Lemma MulZq_key s1 h : length s1 = 512%nat -> int16s s1 -> int16s h ->
  (good_len h -> MulZq iw s1 h = Ok (pmod Q (negacyc 512 s1 (firstn 512 h)))) /\
  (~ good_len h -> MulZq iw s1 h = Panic).
Proof.
  intros Ls Is Ih. destruct (MulZq_any iw iw_id 9 s1 h ltac:(lia) Ls Is Ih) as [A B].
  change (2 ^ 9)%nat with 512%nat in *. change (2 ^ (9 - 1))%nat with 256%nat in *. unfold good_len.
  split; intros H; [apply A|apply B]; lia.
Qed.

Lemma Verify_gen fuel h msg sig : int16s h ->
  Verify iw X fuel h msg sig =
  if Nat.ltb (length sig) 41 then Panic else
  match Decompress (body_of sig) 625 512 with
  | Err _ => Ok false
  | Panic => Panic
  | Diverge => Diverge
  | Ok ss1 =>
    c <- hashToPoint X fuel msg (salt_of sig) ;;
    if good_len_dec h then Ok (accept_norm (firstn 512 h) c (map int16_of ss1)) else Panic
  end.
Proof.
  intros Ih. destruct (Nat.ltb_spec (length sig) 41) as [Hs|Hs]; [apply sig_short; assumption|].
  destruct (good_len_dec h) as [G|G].
  - assert (Lf : length (firstn 512 h) = 512%nat) by (apply firstn_length_le; unfold good_len in G; lia).
    assert (If : int16s (firstn 512 h)).
    { apply Forall_forall. intros x Hx. unfold int16s in Ih. rewrite Forall_forall in Ih. apply Ih.
      rewrite <- (firstn_skipn 512 h). apply in_or_app. left. assumption. }
    pose proof (Verify_eq iw iw_id X fuel (firstn 512 h) msg sig Hs Lf If) as E.
    change (map int16_of) with (map wrap16). unfold accept_norm. cbv zeta in E. rewrite <- E.
    unfold Verify. destruct (sig_slices sig Hs) as [E1 E2]. rewrite E1, E2. cbn [bind].
    rewrite params512. change (wrap16u (p_sigbytelen params_512 - HeadLen - SaltLen)) with 625.
    destruct (Decompress (body_of sig) 625 512) as [ss1| | |] eqn:D; try reflexivity.
    apply Decompress_length in D.
    assert (Ls : length (map wrap16 ss1) = 512%nat) by (rewrite map_length; lia).
    assert (I1 : int16s (map wrap16 ss1)).
    { apply Forall_forall. intros x Hx. apply in_map_iff in Hx. destruct Hx as [y [<- _]]. apply wrap16_int16. }
    rewrite (proj1 (MulZq_key _ h Ls I1 Ih) G).
    rewrite (proj1 (MulZq_key _ (firstn 512 h) Ls I1 If)) by (unfold good_len; lia).
    rewrite firstn_firstn. reflexivity.
  - unfold Verify. destruct (sig_slices sig Hs) as [E1 E2]. rewrite E1, E2. cbn [bind].
    rewrite params512. change (wrap16u (p_sigbytelen params_512 - HeadLen - SaltLen)) with 625.
    destruct (Decompress (body_of sig) 625 512) as [ss1| | |] eqn:D; try reflexivity.
    destruct (hashToPoint_cases X fuel msg (salt_of sig)) as [[c Ec]|Ec]; rewrite Ec; cbn [bind]; [|reflexivity].
    apply Decompress_length in D.
    rewrite (proj2 (MulZq_key (map wrap16 ss1) h ltac:(rewrite map_length; lia)
               ltac:(apply Forall_forall; intros x Hx; apply in_map_iff in Hx; destruct Hx as [y [<- _]]; apply wrap16_int16) Ih) G).
    reflexivity.
Qed.

Lemma decodes_Decompress x v : bytes x -> Decompress x 625 512 = Ok v <-> decodes x 625 512 v.
Proof.
  intros Hx. rewrite Decompress_iff by assumption. unfold decodes. split.
  - intros (A & B & _ & C). auto.
  - intros (A & B & r & C). split; [assumption|]. split; [assumption|]. split; [|exists r; assumption].
    rewrite C. apply in_or_app. left. destruct (code_last v) as [t ->]; [intros ->; discriminate|].
    apply in_or_app. right. left. reflexivity.
Qed.

Lemma bytes_skipn k x : bytes x -> bytes (skipn k x).
Proof.
  intros H. apply Forall_forall. intros y Hy. unfold bytes in H. rewrite Forall_forall in H. apply H.
  rewrite <- (firstn_skipn k x). apply in_or_app. right. assumption.
Qed.

(** exact acceptance *)
Theorem Verify_true fuel h msg sig : int16s h -> bytes sig ->
  Verify iw X fuel h msg sig = Ok true <->
  (41 <= length sig)%nat /\ (512 <= length h <= 767)%nat /\
  exists ss1 c, decodes (skipn 41 sig) 625 512 ss1 /\
    hashToPoint X fuel msg (firstn 40 (skipn 1 sig)) = Ok c /\
    let s1 := map int16_of ss1 in
    (sqnorm (falcon_s0 512 (firstn 512 h) c s1) + sqnorm s1) mod 2 ^ 32 <= beta2_512.
Proof.
  intros Ih Hb. rewrite Verify_gen by assumption.
  pose proof (bytes_skipn 41 sig Hb) as Hbs. unfold body_of, salt_of.
  destruct (Nat.ltb_spec (length sig) 41) as [Hs|Hs].
  { split; [discriminate|]. intros [H _]. lia. }
  split.
  - destruct (Decompress (skipn 41 sig) 625 512) as [ss1| | |] eqn:D; try discriminate.
    destruct (hashToPoint_cases X fuel msg (firstn 40 (skipn 1 sig))) as [[c Ec]|Ec]; rewrite Ec; cbn [bind]; [|discriminate].
    destruct (good_len_dec h) as [G|G]; [|discriminate]. unfold accept_norm. intros H. apply Ok_inj in H.
    split; [assumption|]. split; [exact G|]. exists ss1, c. split; [apply decodes_Decompress; assumption|].
    split; [reflexivity|]. apply Z.leb_le. exact H.
  - intros (_ & G & ss1 & c & D & Ec & H). apply decodes_Decompress in D; [|assumption].
    rewrite D, Ec. cbn [bind]. destruct (good_len_dec h) as [G'|G']; [|contradiction].
    unfold accept_norm. f_equal. apply Z.leb_le. exact H.
Qed.

(** exact panics *)
Theorem Verify_panic fuel h msg sig : int16s h -> bytes sig ->
  Verify iw X fuel h msg sig = Panic <->
  (length sig < 41)%nat \/
  Decompress (skipn 41 sig) 625 512 = Panic \/
  (~ (512 <= length h <= 767)%nat /\
   exists ss1 c, decodes (skipn 41 sig) 625 512 ss1 /\ hashToPoint X fuel msg (firstn 40 (skipn 1 sig)) = Ok c).
Proof.
  intros Ih Hb. rewrite Verify_gen by assumption.
  pose proof (bytes_skipn 41 sig Hb) as Hbs. unfold body_of, salt_of.
  destruct (Nat.ltb_spec (length sig) 41) as [Hs|Hs].
  { split; [intros _; left; exact Hs|reflexivity]. }
  destruct (Decompress (skipn 41 sig) 625 512) as [ss1| | |] eqn:D.
  - destruct (hashToPoint_cases X fuel msg (firstn 40 (skipn 1 sig))) as [[c Ec]|Ec]; rewrite Ec; cbn [bind].
    + destruct (good_len_dec h) as [G|G].
      * split; [discriminate|]. intros [H|[H|[H _]]]; [lia|discriminate|]. contradiction.
      * split; [|reflexivity]. intros _. right. right. split; [exact G|]. exists ss1, c.
        split; [apply decodes_Decompress; assumption|reflexivity].
    + split; [discriminate|]. intros [H|[H|[_ [s [c [_ H]]]]]]; [lia|discriminate|congruence].
  - split; [discriminate|]. intros [H|[H|[_ [s [c [H _]]]]]]; [lia|discriminate|].
    apply decodes_Decompress in H; [|assumption]. congruence.
  - split; [|reflexivity]. intros _. right. left. reflexivity.
  - exfalso. apply (Decompress_no_diverge (skipn 41 sig) 625 512); assumption.
Qed.

Theorem Verify_no_err fuel h msg sig e : int16s h -> Verify iw X fuel h msg sig <> Err e.
Proof.
  intros Ih. rewrite Verify_gen by assumption.
  destruct (Nat.ltb (length sig) 41); [discriminate|].
  destruct (Decompress _ _ _); try discriminate.
  destruct (hashToPoint_cases X fuel msg (salt_of sig)) as [[c Ec]|Ec]; rewrite Ec; cbn [bind]; [|discriminate].
  destruct (good_len_dec h); discriminate.
Qed.

(** ** Assembled signatures *)
Lemma assembled hdr salt enc : length salt = 40%nat ->
  salt_of (hdr :: salt ++ enc) = salt /\ body_of (hdr :: salt ++ enc) = enc.
Proof.
  intros H. unfold salt_of, body_of. rewrite !skipn_cons, skipn_O.
  rewrite firstn_app_l by exact H. rewrite skipn_app_l by exact H. split; reflexivity.
Qed.

Lemma map_int16_id s : int16s s -> map int16_of s = s.
Proof.
  intros H. rewrite <- (map_id s) at 2. apply map_ext_in. intros x Hx.
  unfold int16s in H. rewrite Forall_forall in H. apply (wrap16_id x (H x Hx)).
Qed.

(** accepted whenever the wrapped norm is small *)
Lemma Verify_assembled fuel h msg hdr salt s c enc :
  int16s h -> (512 <= length h <= 767)%nat -> length salt = 40%nat -> length s = 512%nat -> int16s s ->
  Compress s 625 = Ok enc -> hashToPoint X fuel msg salt = Ok c ->
  Verify iw X fuel h msg (hdr :: salt ++ enc) = Ok (accept_norm (firstn 512 h) c s).
Proof.
  intros Ih Lh Hsalt Ls Is He Ec. rewrite Verify_gen by assumption.
  destruct (assembled hdr salt enc Hsalt) as [-> ->].
  assert (Hl : (41 <= length (hdr :: salt ++ enc))%nat) by (cbn [length]; rewrite app_length; lia).
  destruct (Nat.ltb_spec (length (hdr :: salt ++ enc)) 41); [lia|].
  pose proof (Decompress_Compress s 625 enc ltac:(unfold fits64, is_int64; lia)) as D.
  rewrite Ls in D. change (Z.of_nat 512) with 512 in D.
  rewrite D; [|intros E; rewrite E in Ls; discriminate|exact He].
  rewrite Ec. cbn [bind]. destruct (good_len_dec h) as [G|G]; [|contradiction].
  rewrite map_int16_id by assumption. reflexivity.
Qed.

Theorem Verify_complete fuel h msg hdr salt s c enc :
  length h = 512%nat -> int16s h -> length salt = 40%nat -> length s = 512%nat -> int16s s ->
  Compress s 625 = Ok enc -> hashToPoint X fuel msg salt = Ok c ->
  sqnorm (falcon_s0 512 h c s) + sqnorm s <= beta2_512 ->
  Verify iw X fuel h msg (hdr :: salt ++ enc) = Ok true.
Proof.
  intros Lh Ih Hsalt Ls Is He Ec Hn. rewrite (Verify_assembled fuel h msg hdr salt s c enc) by (assumption || lia).
  rewrite firstn_all2 by lia. unfold accept_norm. f_equal. apply Z.leb_le.
  pose proof (sqnorm_nonneg (falcon_s0 512 h c s)). pose proof (sqnorm_nonneg s).
  unfold beta2_512 in *. rewrite Z.mod_small by lia. exact Hn.
Qed.

End V.

(** ** Forgeries *)
Lemma sumn_first n f : (0 < n)%nat -> (forall i, (0 < i < n)%nat -> f i = 0) -> sumn n f = f 0%nat.
Proof.
  induction n as [|n IH]; intros Hn H; [lia|]. cbn [sumn]. destruct n as [|n]; [cbn; lia|].
  rewrite IH by (try lia; intros; apply H; lia). rewrite (H (S n)) by lia. lia.
Qed.

Lemma coef_pconst n c i : (i < n)%nat -> coef (pconst n c) i = if Nat.eqb i 0 then c else 0.
Proof. intros H. unfold pconst. rewrite coef_map_seq by assumption. reflexivity. Qed.

Lemma negacyc_const n c h : length h = n -> negacyc n (pconst n c) h = map (fun x => c * x) h.
Proof.
  intros Hh. apply nth_ext with (d := 0) (d' := c * 0).
  { rewrite negacyc_length, map_length. symmetry. assumption. }
  intros i Hi. rewrite negacyc_length in Hi. unfold negacyc. rewrite nth_map_seq by assumption.
  rewrite (map_nth (fun x => c * x)). unfold negacyc_coef. rewrite sumn_first; [|lia|].
  - rewrite Nat.sub_0_r, coef_pconst by lia. cbn [Nat.leb Nat.eqb]. reflexivity.
  - intros j Hj. rewrite coef_pconst by lia. destruct (Nat.eqb_spec j 0); [lia|].
    destruct (Nat.leb j i); ring.
Qed.

Lemma coef_map_mul a h i : coef (map (fun x => a * x) h) i = a * coef h i.
Proof.
  unfold coef. rewrite <- (map_nth (fun x => a * x)). f_equal. ring.
Qed.

Definition zero512 : list Z := pconst 512 0.
Definition one512 : list Z := pconst 512 1.
Definition ok_or_nil (r : res (list Z)) : list Z := match r with Ok e => e | _ => [] end.
(** the 625-byte encodings: the code of 0 is 000000001, that of 1 is 000000011 *)
Definition nine (a b c d e f g h i : Z) : list Z := [a; b; c; d; e; f; g; h; i].
Definition zeros_code : list Z := concat (repeat (nine 0 128 64 32 16 8 4 2 1) 64).
Definition enc_zero : list Z := zeros_code ++ repeat 0 49.
Definition enc_one : list Z := 1 :: skipn 1 zeros_code ++ repeat 0 49.

Lemma enc_zero_len : length enc_zero = 625%nat. Proof. reflexivity. Qed.
Lemma enc_one_len : length enc_one = 625%nat. Proof. reflexivity. Qed.
Lemma byte_list_dec l : forallb (fun b => (0 <=? b) && (b <=? 255)) l = true -> bytes l.
Proof.
  intros H. apply Forall_forall. intros x Hx. rewrite forallb_forall in H. specialize (H x Hx).
  unfold is_byte. lia.
Qed.
Lemma enc_zero_bits : bits_of enc_zero = code zero512 ++ repeat false 392.
Proof. vm_compute. reflexivity. Qed.
Lemma enc_one_bits : bits_of enc_one = code one512 ++ repeat false 392.
Proof. vm_compute. reflexivity. Qed.
Lemma enc_zero_bytes : bytes enc_zero. Proof. apply byte_list_dec. vm_compute. reflexivity. Qed.
Lemma enc_one_bytes : bytes enc_one. Proof. apply byte_list_dec. vm_compute. reflexivity. Qed.
Lemma fits625 (x : list Z) : length x = 625%nat -> fits64 (Z.of_nat (length x)).
Proof. intros ->. unfold fits64, is_int64. lia. Qed.
Lemma enc_zero_ok : Compress zero512 625 = Ok enc_zero.
Proof. exact (Compress_intro zero512 enc_zero 392 (fits625 _ enc_zero_len) enc_zero_bytes enc_zero_bits). Qed.
Lemma enc_one_ok : Compress one512 625 = Ok enc_one.
Proof. exact (Compress_intro one512 enc_one 392 (fits625 _ enc_one_len) enc_one_bytes enc_one_bits). Qed.
Lemma zero512_len : length zero512 = 512%nat. Proof. apply pconst_length. Qed.
Lemma one512_len : length one512 = 512%nat. Proof. apply pconst_length. Qed.
Lemma pconst_int16 n c : is_int16 c -> int16s (pconst n c).
Proof.
  intros H. apply Forall_forall. intros x Hx. unfold pconst in Hx. apply in_map_iff in Hx.
  destruct Hx as [i [<- _]]. destruct (Nat.eqb i 0); [assumption|unfold is_int16; lia].
Qed.

#[local] Opaque Compress enc_zero enc_one.

(** with s1 = 0 the recovered s0 is the centred hash point, for every key *)
Lemma s0_zero h c : length h = 512%nat -> length c = 512%nat -> falcon_s0 512 h c zero512 = map centred c.
Proof.
  intros Lh Lc. unfold falcon_s0, zero512. rewrite negacyc_const by assumption. f_equal.
  unfold psub. transitivity (map (fun i => nth i c 0) (seq 0 (length c))); [|apply map_seq_nth].
  rewrite Lc. apply map_ext_in. intros i Hi.
  rewrite coef_map_mul. unfold coef. ring.
Qed.

(** with s1 = 1 it is the centred difference of the hash point and the key *)
Lemma s0_one h c : length h = 512%nat -> falcon_s0 512 h c one512 = map centred (psub 512 c h).
Proof.
  intros Lh. unfold falcon_s0, one512. rewrite negacyc_const by exact Lh.
  assert (E1 : map (fun x => 1 * x) h = h).
  { transitivity (map (fun x => x) h); [apply map_ext; intros a; ring|apply map_id]. }
  rewrite E1. reflexivity.
Qed.

Lemma sqnorm_zero512 : sqnorm zero512 = 0.
Proof. vm_compute. reflexivity. Qed.
Lemma sqnorm_one512 : sqnorm one512 = 1.
Proof. vm_compute. reflexivity. Qed.

Definition wrap_key (c : list Z) : list Z := map (fun x => (x - 2897) mod q) c.

Lemma s0_wrap c : length c = 512%nat -> falcon_s0 512 (wrap_key c) c one512 = repeat 2897 512.
Proof.
  intros Lc. unfold falcon_s0, one512. rewrite negacyc_const by (unfold wrap_key; rewrite map_length; assumption).
  apply nth_ext with (d := centred 0) (d' := 2897).
  { unfold psub. rewrite !map_length, seq_length, repeat_length. reflexivity. }
  intros i Hi. unfold psub in Hi. rewrite !map_length, seq_length in Hi.
  rewrite map_nth. unfold psub. rewrite nth_map_seq by assumption.
  rewrite nth_repeat, coef_map_mul. unfold wrap_key, coef. 
  rewrite (nth_indep (map _ c) 0 ((fun x => (x - 2897) mod q) 0)) by (rewrite map_length; lia).
  rewrite (map_nth (fun x => (x - 2897) mod q)). change q with Q.
  rewrite <- centred_mod. transitivity (centred (2897 mod Q)); [|reflexivity]. f_equal.
  apply cong_modeq. rewrite cong_mod. cring.
Qed.

(** only h mod q matters *)
Lemma negacyc_cong n s h h' : (forall i, cong Q (coef h i) (coef h' i)) ->
  forall k, cong Q (negacyc_coef n s h k) (negacyc_coef n s h' k).
Proof.
  intros H k. unfold negacyc_coef. apply csum_ext. intros i Hi.
  destruct (Nat.leb i k); rewrite H; reflexivity.
Qed.

Lemma falcon_s0_key n h h' c s : (forall i, cong Q (coef h i) (coef h' i)) ->
  falcon_s0 n h c s = falcon_s0 n h' c s.
Proof.
  intros H. unfold falcon_s0, psub. rewrite !map_map. apply map_ext_in. intros i Hi. apply in_seq in Hi.
  rewrite <- centred_mod, <- (centred_mod (_ - coef (negacyc n s h') i)). f_equal. apply cong_modeq.
  unfold negacyc. rewrite !coef_map_seq by lia. rewrite (negacyc_cong n s h h' H i). reflexivity.
Qed.

Section V3.
Variable iw : Z -> Z.
Hypothesis iw_id : forall z, is_int64 z -> iw z = z.
Variable X : XOF.

(** The all-zero signature polynomial is accepted for EVERY key as soon as the
    squared norm of the centred hash point is small modulo 2^32. *)
Theorem zero_forgery fuel h msg hdr salt c :
  int16s h -> length h = 512%nat -> length salt = 40%nat -> hashToPoint X fuel msg salt = Ok c ->
  sqnorm (map centred c) mod 2 ^ 32 <= beta2_512 ->
  Verify iw X fuel h msg (hdr :: salt ++ enc_zero) = Ok true.
Proof.
  intros Ih Lh Hsalt Ec Hn.
  rewrite (Verify_assembled iw iw_id X fuel h msg hdr salt zero512 c enc_zero Ih ltac:(lia) Hsalt zero512_len
    ltac:(apply pconst_int16; unfold is_int16; lia) enc_zero_ok Ec).
  destruct (hashToPoint_ok X _ _ _ _ Ec) as [Lc _].
    rewrite firstn_all2 by lia. unfold accept_norm. rewrite s0_zero by assumption.
    rewrite sqnorm_zero512, Z.add_0_r. f_equal. apply Z.leb_le. exact Hn.
Qed.

(** For every XOF, message and salt there are a key and a signature whose
    recovered vector is far beyond the bound, and Verify accepts it. *)
Theorem wrap_forgery fuel msg hdr salt c :
  length salt = 40%nat -> hashToPoint X fuel msg salt = Ok c ->
  Verify iw X fuel (wrap_key c) msg (hdr :: salt ++ enc_one) = Ok true /\
  sqnorm (falcon_s0 512 (wrap_key c) c one512) + sqnorm one512 = 4297015809.
Proof.
  intros Hsalt Ec. destruct (hashToPoint_ok X _ _ _ _ Ec) as [Lc _].
  assert (Lw : length (wrap_key c) = 512%nat) by (unfold wrap_key; rewrite map_length; assumption).
  assert (E : sqnorm (falcon_s0 512 (wrap_key c) c one512) + sqnorm one512 = 4297015809).
  { rewrite s0_wrap by assumption. vm_compute. reflexivity. }
  split; [|exact E].
  rewrite (Verify_assembled iw iw_id X fuel (wrap_key c) msg hdr salt one512 c enc_one
    (inq_int16 _ (inq_mapZ (fun x => x - 2897) c)) ltac:(lia) Hsalt one512_len
    ltac:(apply pconst_int16; unfold is_int16; lia) enc_one_ok Ec).
  rewrite firstn_all2 by lia. unfold accept_norm. rewrite E. reflexivity.
Qed.

Theorem Verify_key_cong fuel h h' msg sig : int16s h -> int16s h' ->
  (512 <= length h <= 767)%nat -> (512 <= length h' <= 767)%nat ->
  pmod q (firstn 512 h) = pmod q (firstn 512 h') ->
  Verify iw X fuel h msg sig = Verify iw X fuel h' msg sig.
Proof.
  intros Ih Ih' L L' E. rewrite !(Verify_gen iw iw_id X) by assumption.
  destruct (Nat.ltb (length sig) 41); [reflexivity|].
  destruct (Decompress _ _ _) as [ss1| | |]; try reflexivity.
  destruct (hashToPoint _ _ _ _) as [c| | |]; try reflexivity. cbn [bind].
  destruct (good_len_dec h) as [|G]; [|contradiction]. destruct (good_len_dec h') as [|G]; [|contradiction].
  unfold accept_norm. rewrite (falcon_s0_key 512 (firstn 512 h) (firstn 512 h')); [reflexivity|].
  intros i. unfold cong, coef. rewrite <- !pmod_nth. change Q with q. rewrite E. reflexivity.
Qed.

(** header byte, trailing bits and missing trailing zeros are ignored *)
Theorem Verify_header fuel h msg hdr hdr' salt enc : int16s h -> length salt = 40%nat ->
  Verify iw X fuel h msg (hdr :: salt ++ enc) = Verify iw X fuel h msg (hdr' :: salt ++ enc).
Proof.
  intros Ih Hs. rewrite !(Verify_gen iw iw_id X) by assumption.
  destruct (assembled hdr salt enc Hs) as [-> ->]. destruct (assembled hdr' salt enc Hs) as [-> ->].
  reflexivity.
Qed.

Theorem Verify_same_decoding fuel h msg hdr hdr' salt enc enc' ss1 : int16s h -> length salt = 40%nat ->
  bytes enc -> bytes enc' -> decodes enc 625 512 ss1 -> decodes enc' 625 512 ss1 ->
  Verify iw X fuel h msg (hdr :: salt ++ enc) = Verify iw X fuel h msg (hdr' :: salt ++ enc').
Proof.
  intros Ih Hs Be Be' D D'. rewrite !(Verify_gen iw iw_id X) by assumption.
  destruct (assembled hdr salt enc Hs) as [-> ->]. destruct (assembled hdr' salt enc' Hs) as [-> ->].
  apply decodes_Decompress in D; [|assumption]. apply decodes_Decompress in D'; [|assumption].
  rewrite D, D'. destruct (Nat.ltb_spec (length (hdr :: salt ++ enc)) 41) as [L|L]; [cbn [length] in L; rewrite app_length in L; lia|].
  destruct (Nat.ltb_spec (length (hdr' :: salt ++ enc')) 41) as [L'|L']; [cbn [length] in L'; rewrite app_length in L'; lia|].
  reflexivity.
Qed.

End V3.
