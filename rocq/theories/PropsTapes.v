(** Hashing and verification over all streams of k 16-bit words (C98). *)
From Verif Require Import GoBase Util Encoding Params Xof Falcon Spec SpecHash NttProofs EncodingProofs
  FalconProofs VerifyProofs WordSize Examples Witness PolyZ Counting Levels GuessLevels GuessRare PropsGuess Tapes.

Lemma listZ_eqb_spec (a b : list Z) : (if list_eq_dec Z.eq_dec a b then true else false) = true <-> a = b.
Proof. destruct (list_eq_dec Z.eq_dec a b); split; congruence. Qed.

#[local] Opaque Z.pow total tsum tapes points firstn xwords ways guess_enc Compress.

(** every stream that starts with the words w hashes to c *)
Definition hashes_to (k : nat) (w c : list Z) : Prop :=
  tape k w /\ forall X msg salt, xwords X k (absorbed X msg salt) = w -> hashToPoint X k msg salt = Ok c.

Definition to_point (c : list Z) : list Z -> bool := leads (fun v => if list_eq_dec Z.eq_dec v c then true else false).
Lemma to_point_ok k w c : tape k w -> to_point c w = true <-> hashes_to k w c.
Proof.
  intros T. unfold to_point, leads. rewrite andb_true_iff, listZ_eqb_spec, Nat.leb_le. split.
  - intros [L E]. split; [exact T|]. intros X msg salt EX. rewrite hash_words, EX. cbn zeta.
    destruct (Nat.leb_spec 512 (length (accepted w))); [|lia]. now rewrite E.
  - intros [_ H]. specialize (H (tapeXOF w) [] [] (tapeXOF_words w [] [] k T)).
    rewrite hash_words, (tapeXOF_words w [] [] k T) in H. cbn zeta in H.
    destruct (Nat.leb_spec 512 (length (accepted w))); [|discriminate]. split; [assumption|congruence].
Qed.
Lemma total_delta n c : point n c -> total n (fun v => b2z (if list_eq_dec Z.eq_dec v c then true else false)) = 1.
Proof.
  intros P. rewrite <- hits_count.
  assert (E : forall v, In v (hits n (fun v => if list_eq_dec Z.eq_dec v c then true else false)) <-> v = c).
  { intros v. rewrite in_hits, listZ_eqb_spec. split; [tauto|intros ->; tauto]. }
  pose proof (nodup_hits n (fun v => if list_eq_dec Z.eq_dec v c then true else false)) as N.
  destruct (hits n _) as [|a [|b l]] eqn:H.
  - exfalso. apply (proj2 (E c) eq_refl).
  - reflexivity.
  - exfalso. inversion N as [|? ? A _]; subst. apply A.
    rewrite (proj1 (E a)) by (now left). rewrite (proj1 (E b)) by (right; now left). now left.
Qed.

Lemma to_point_total k c : point 512 c -> tsum k (fun w => b2z (to_point c w)) = ways k 512.
Proof.
  intros P. etransitivity; [exact (leads_total k (fun v => if list_eq_dec Z.eq_dec v c then true else false))|].
  etransitivity; [exact (f_equal (Z.mul (ways k 512)) (total_delta 512 c P))|]. apply Z.mul_1_r.
Qed.

(** C98: over the streams of k words, all hash points are equally likely *)
Theorem C98_uniform : forall k c c', point 512 c -> point 512 c' ->
  exists l l', NoDup l /\ NoDup l' /\ length l = length l' /\
    (forall w, In w l <-> hashes_to k w c) /\ (forall w, In w l' <-> hashes_to k w c').
Proof.
  intros k c c' P P'. exists (theard k (to_point c)), (theard k (to_point c')).
  split; [apply nodup_theard|]. split; [apply nodup_theard|]. split.
  - apply Nat2Z.inj. etransitivity; [apply theard_count|].
    etransitivity; [apply to_point_total, P|]. symmetry. etransitivity; [apply theard_count|]. apply to_point_total, P'.
  - split; intros w; rewrite in_theard; split.
    + intros [T E]. now apply to_point_ok.
    + intros H. split; [apply H|]. apply (to_point_ok k); [apply H|exact H].
    + intros [T E]. now apply to_point_ok.
    + intros H. split; [apply H|]. apply (to_point_ok k); [apply H|exact H].
Qed.
Print Assumptions C98_uniform.

(** fewer than one in 2^40 streams of 600 words does not determine a point *)
Definition wgt (x : Z) : Z := if x <? 61445 then 5 else 13.
Lemma tsum_prod g k : tsum k (vprod g) = zsum words g ^ Z.of_nat k.
Proof.
  induction k as [|k IH].
  - rewrite tsum_O. change (Z.of_nat 0) with 0. rewrite Z.pow_0_r. reflexivity.
  - rewrite tsum_S, Nat2Z.inj_succ, Z.pow_succ_r by lia. rewrite <- IH, <- zsum_scale_r.
    apply zsum_ext. intros x _. unfold vprod. cbn [fold_right]. apply tsum_scale.
Qed.
Lemma wgt_prod w : Forall (fun x => 0 <= x < 2 ^ 16) w ->
  vprod wgt w = 5 ^ Z.of_nat (length (accepted w)) * 13 ^ (Z.of_nat (length w) - Z.of_nat (length (accepted w))) /\
  (length (accepted w) <= length w)%nat.
Proof.
  induction 1 as [|x w Hx F [IH L]].
  - split; [|unfold accepted; cbn; lia]. change (accepted []) with (@nil Z). cbn [length].
    change (Z.of_nat 0 - Z.of_nat 0) with 0. change (Z.of_nat 0) with 0. rewrite !Z.pow_0_r. reflexivity.
  - unfold vprod in *. cbn [fold_right]. rewrite IH. unfold wgt.
    assert (A : length (accepted (x :: w)) = ((if (x <? 61445)%Z then 1 else 0) + length (accepted w))%nat).
    { unfold accepted. cbn [filter]. change (5 * q) with 61445. destruct (x <? 61445); reflexivity. }
    rewrite A. cbn [length]. destruct (x <? 61445).
    + cbn [Nat.add]. split; [|lia]. rewrite !Nat2Z.inj_succ.
      replace (Z.succ (Z.of_nat (length w)) - Z.succ (Z.of_nat (length (accepted w)))) with
        (Z.of_nat (length w) - Z.of_nat (length (accepted w))) by lia.
      rewrite Z.pow_succ_r by lia. ring.
    + cbn [Nat.add]. split; [|lia]. rewrite Nat2Z.inj_succ.
      replace (Z.succ (Z.of_nat (length w)) - Z.of_nat (length (accepted w))) with
        (Z.succ (Z.of_nat (length w) - Z.of_nat (length (accepted w)))) by lia.
      rewrite (Z.pow_succ_r 13) by lia. ring.
Qed.
Lemma wgt_sum : zsum words wgt = 360408.
Proof.
  rewrite words_split, !zsum_app, !zsum_map.
  assert (B : forall j, 0 <= j < 5 -> zsum residues (fun x => wgt (x + j * q)) = q * 5).
  { intros j Hj. transitivity (zsum residues (fun _ => 5)); [|rewrite zsum_const, len_residues; reflexivity].
    apply zsum_ext. intros r Hr. apply in_residues in Hr.
    unfold wgt. destruct (Z.ltb_spec (r + j * q) 61445); [reflexivity|unfold q in *; lia]. }
  assert (B0 : zsum residues wgt = q * 5).
  { rewrite <- (B 0) by lia. apply zsum_ext. intros r _. f_equal; lia. }
  assert (B1 : zsum residues (fun x => wgt (x + q)) = q * 5).
  { rewrite <- (B 1) by lia. apply zsum_ext. intros r _. f_equal; lia. }
  assert (O : zsum (zrange (Z.to_nat 4091) 61445) wgt = 4091 * 13).
  { rewrite (zsum_ext _ _ (fun _ => 13)).
    - rewrite zsum_const, len_zrange, Z2Nat.id by lia. reflexivity.
    - intros x Hx. apply in_zrange in Hx. unfold wgt. destruct (Z.ltb_spec x 61445); [lia|reflexivity]. }
  rewrite B0, B1, (B 2), (B 3), (B 4), O by lia. reflexivity.
Qed.
Definition tail_ok : bool := (360408 ^ 8 * 2 ^ 16 <=? 140358 * 327680 ^ 8) && (2 ^ 40 * 140358 ^ 75 * 5 ^ 89 <=? 13 ^ 89 * 2 ^ 1200).
Lemma tail_ok_true : tail_ok = true. Proof. vm_compute. reflexivity. Qed.
Lemma tail_check : 2 ^ 40 * 360408 ^ 600 <= 5 ^ 511 * 13 ^ 89 * 2 ^ 9600.
Proof.
  pose proof tail_ok_true as K. apply andb_prop in K. destruct K as [K1 K2].
  apply Z.leb_le in K1. apply Z.leb_le in K2.
  assert (K3 : 360408 ^ 600 * 2 ^ 1200 <= 140358 ^ 75 * (5 ^ 511 * 5 ^ 89 * 2 ^ 9600)).
  { replace (5 ^ 511 * 5 ^ 89 * 2 ^ 9600) with ((327680 ^ 8) ^ 75).
    - replace (360408 ^ 600) with ((360408 ^ 8) ^ 75) by (rewrite <- Z.pow_mul_r by discriminate; reflexivity).
      replace (2 ^ 1200) with ((2 ^ 16) ^ 75) by (rewrite <- Z.pow_mul_r by discriminate; reflexivity).
      rewrite <- !Z.pow_mul_l. apply Z.pow_le_mono_l. split; [|exact K1].
      apply Z.mul_nonneg_nonneg; apply Z.pow_nonneg; discriminate.
    - rewrite <- Z.pow_mul_r, <- Z.pow_add_r by discriminate. change (8 * 75) with 600. change (511 + 89) with 600.
      replace 9600 with (16 * 600) by reflexivity. rewrite (Z.pow_mul_r 2), <- Z.pow_mul_l by discriminate. reflexivity. }
  assert (P1 : 0 < 2 ^ 1200) by (apply Z.pow_pos_nonneg; (reflexivity || discriminate)).
  assert (P2 : 0 < 5 ^ 89) by (apply Z.pow_pos_nonneg; (reflexivity || discriminate)).
  assert (P3 : 0 <= 2 ^ 40) by (apply Z.pow_nonneg; discriminate).
  assert (P4 : 0 <= 5 ^ 511 * 2 ^ 9600) by (apply Z.mul_nonneg_nonneg; apply Z.pow_nonneg; discriminate).
  revert K2 K3 P1 P2 P3 P4. generalize (2 ^ 40) (360408 ^ 600) (2 ^ 1200) (140358 ^ 75) (5 ^ 511) (5 ^ 89) (2 ^ 9600) (13 ^ 89).
  clear. intros t x u a f g z v K2 K3 P1 P2 P3 P4.
  apply (Zmult_le_reg_r _ _ (u * g)); [nia|].
  apply Z.le_trans with (t * (a * (f * g * z)) * g).
  - replace (t * x * (u * g)) with (t * (x * u) * g) by ring.
    apply Z.mul_le_mono_nonneg_r; [lia|]. apply Z.mul_le_mono_nonneg_l; assumption.
  - replace (t * (a * (f * g * z)) * g) with ((f * z) * g * (t * a * g)) by ring.
    replace (f * v * z * (u * g)) with ((f * z) * g * (v * u)) by ring.
    apply Z.mul_le_mono_nonneg_l; [nia|assumption].
Qed.
Lemma tail_count : 2 ^ 40 * tsum 600 (fun w => b2z (length (accepted w) <? 512)%nat) <= 2 ^ 9600.
Proof.
  assert (K : 5 ^ 511 * 13 ^ 89 * tsum 600 (fun w => b2z (length (accepted w) <? 512)%nat) <= 360408 ^ 600).
  { pose proof (tsum_prod wgt 600) as TP. rewrite wgt_sum in TP. change (Z.of_nat 600) with 600 in TP.
    rewrite <- TP, <- tsum_scale. apply tsum_le. intros w [L F].
    destruct (wgt_prod w F) as [E LA]. rewrite L in E, LA. change (Z.of_nat 600) with 600 in E.
    assert (V : 0 <= vprod wgt w).
    { rewrite E. apply Z.mul_nonneg_nonneg; apply Z.pow_nonneg; discriminate. }
    destruct (Nat.ltb_spec (length (accepted w)) 512); cbn [b2z]; [|rewrite Z.mul_0_r; exact V].
    rewrite Z.mul_1_r, E. set (a := Z.of_nat (length (accepted w))).
    assert (Ha : 0 <= a <= 511) by (unfold a; lia).
    replace (5 ^ 511) with (5 ^ a * 5 ^ (511 - a)) by (rewrite <- Z.pow_add_r by lia; f_equal; lia).
    replace (13 ^ (600 - a)) with (13 ^ (511 - a) * 13 ^ 89) by (rewrite <- Z.pow_add_r by lia; f_equal; lia).
    assert (M : 5 ^ (511 - a) <= 13 ^ (511 - a)) by (apply Z.pow_le_mono_l; lia).
    assert (P1 : 0 <= 5 ^ a) by (apply Z.pow_nonneg; discriminate).
    assert (P2 : 0 <= 13 ^ 89) by (apply Z.pow_nonneg; discriminate).
    revert M P1 P2. generalize (5 ^ (511 - a)) (13 ^ (511 - a)) (5 ^ a) (13 ^ 89). clear. intros x y u v M P1 P2.
    rewrite <- !Z.mul_assoc. apply Z.mul_le_mono_nonneg_l; [exact P1|]. apply Z.mul_le_mono_nonneg_r; assumption. }
  pose proof tail_check as C.
  assert (P : 0 < 5 ^ 511 * 13 ^ 89) by (apply Z.mul_pos_pos; apply Z.pow_pos_nonneg; (reflexivity || discriminate)).
  assert (P40 : 0 <= 2 ^ 40) by (apply Z.pow_nonneg; discriminate).
  revert K C P P40. generalize (5 ^ 511 * 13 ^ 89) (360408 ^ 600) (2 ^ 9600) (2 ^ 40)
    (tsum 600 (fun w => b2z (length (accepted w) <? 512)%nat)). clear. intros u v z t x K C P P40.
  apply (Zmult_le_reg_r _ _ u); [lia|]. apply Z.le_trans with (t * v); [|nia].
  replace (t * x * u) with (t * (u * x)) by ring. apply Z.mul_le_mono_nonneg_l; assumption.
Qed.
Theorem C98_returns : forall l, NoDup l ->
  (forall w, In w l -> tape 600 w /\ exists X msg salt, xwords X 600 (absorbed X msg salt) = w /\
     forall c, hashToPoint X 600 msg salt <> Ok c) ->
  2 ^ 40 * Z.of_nat (length l) <= 2 ^ (16 * 600).
Proof.
  intros l N H. change (16 * 600) with 9600.
  assert (K : Z.of_nat (length l) <= tsum 600 (fun w => b2z (length (accepted w) <? 512)%nat)).
  { apply theard_max; [exact N|]. intros w Hw. destruct (H w Hw) as [T (X & msg & salt & EX & D)].
    split; [exact T|]. rewrite hash_words, EX in D. cbn zeta in D. apply Nat.ltb_lt.
    destruct (Nat.leb_spec 512 (length (accepted w))) as [G|G]; [|exact G].
    exfalso. exact (D _ eq_refl). }
  pose proof tail_count as T. eapply Z.le_trans; [|exact T].
  apply Z.mul_le_mono_nonneg_l; [apply Z.pow_nonneg; discriminate|exact K].
Qed.
Print Assumptions C98_returns.

(** The forgery of C97 over the streams: among those of k words that determine a point, at least one
    in 2^16 makes Verify accept ... *)
Lemma accepted_point w : (512 <= length (accepted w))%nat -> point 512 (firstn 512 (accepted w)).
Proof.
  intros L. split; [rewrite firstn_length; lia|].
  pose proof (accepted_inq w) as F. rewrite <- (firstn_skipn 512 (accepted w)) in F. apply Forall_app in F. apply F.
Qed.
Lemma ways_all k : tsum k (fun w => b2z (512 <=? length (accepted w))%nat) = ways k 512 * q ^ 512.
Proof.
  change (q ^ 512) with (q ^ Z.of_nat 512). rewrite <- total_one, <- hashed_total. apply tsum_ext. intros w _.
  unfold at_point. destruct (512 <=? length (accepted w))%nat; reflexivity.
Qed.
Theorem C98_forgery : forall h k, int16s h -> (512 <= length h <= 767)%nat ->
  exists l r, NoDup l /\ NoDup r /\
  (forall w, In w r <-> exists c, hashes_to k w c) /\
  Z.of_nat (length r) <= 2 ^ 16 * Z.of_nat (length l) /\
  forall w, In w l -> tape k w /\
    forall X msg hdr salt, length salt = 40%nat -> xwords X k (absorbed X msg salt) = w ->
      Verify wrap64 X k h msg (hdr :: salt ++ guess_enc) = Ok true.
Proof.
  intros h k Ih Lh. destruct (C97_forgery h Ih Lh) as (pts & Np & Pp & Cp & Vp).
  set (p := fun c => if in_dec (list_eq_dec Z.eq_dec) c pts then true else false).
  assert (pE : forall c, p c = true <-> In c pts) by (intros c; unfold p; destruct (in_dec _ c pts); split; congruence).
  exists (theard k (leads p)), (theard k (fun w => 512 <=? length (accepted w))%nat).
  split; [apply nodup_theard|]. split; [apply nodup_theard|]. split; [|split].
  - intros w. rewrite in_theard, Nat.leb_le. split.
    + intros [T L]. exists (firstn 512 (accepted w)). split; [exact T|]. intros X msg salt E. rewrite hash_words, E. cbn zeta.
      destruct (Nat.leb_spec 512 (length (accepted w))); [reflexivity|lia].
    + intros [c [T H]]. split; [exact T|]. specialize (H (tapeXOF w) [] [] (tapeXOF_words w [] [] k T)).
      rewrite hash_words, (tapeXOF_words w [] [] k T) in H. cbn zeta in H.
      destruct (Nat.leb_spec 512 (length (accepted w))); [assumption|discriminate].
  - rewrite !theard_count, ways_all, leads_total.
    assert (C : Z.of_nat (length pts) <= total 512 (fun v => b2z (p v))).
    { apply hits_max; [exact Np|]. intros c Hc. split; [now apply Pp|]. now apply pE. }
    pose proof (ways_nonneg k 512) as W.
    assert (P16 : 0 < 2 ^ 16) by (apply Z.pow_pos_nonneg; (reflexivity || discriminate)).
    revert Cp C W P16. generalize (q ^ 512) (ways k 512) (2 ^ 16) (total 512 (fun v => b2z (p v))) (Z.of_nat (length pts)).
    clear. intros z a t b n H1 H2 H3 H4. assert (z <= t * b) by nia.
    replace (t * (a * b)) with (a * (t * b)) by ring. apply Z.mul_le_mono_nonneg_l; assumption.
  - intros w Hw. apply in_theard in Hw. destruct Hw as [T E]. split; [exact T|].
    intros X msg hdr salt Ls EX. unfold leads in E. apply andb_prop in E. destruct E as [L E].
    apply pE in E. apply Nat.leb_le in L.
    refine (proj1 (Vp X k msg hdr salt (firstn 512 (accepted w)) E Ls _)).
    rewrite hash_words, EX. cbn zeta. destruct (Nat.leb_spec 512 (length (accepted w))); [reflexivity|lia].
Qed.
Print Assumptions C98_forgery.

Lemma returns_all k r : (forall w, In w r <-> exists c, hashes_to k w c) ->
  tsum k (fun w => b2z (512 <=? length (accepted w))%nat) <= Z.of_nat (length r).
Proof.
  intros Er. rewrite <- theard_count. apply inj_le, NoDup_incl_length; [apply nodup_theard|].
  intros w Hw. apply in_theard in Hw. destruct Hw as [T L]. apply Nat.leb_le in L. apply Er.
  exists (firstn 512 (accepted w)). split; [exact T|]. intros X msg salt E. rewrite hash_words, E. cbn zeta.
  destruct (Nat.leb_spec 512 (length (accepted w))); [reflexivity|lia].
Qed.
Lemma returns_split k : tsum k (fun w => b2z (512 <=? length (accepted w))%nat) +
  tsum k (fun w => b2z (length (accepted w) <? 512)%nat) = 2 ^ (16 * Z.of_nat k).
Proof.
  transitivity (tsum k (fun _ => 1)).
  - rewrite <- tsum_add. apply tsum_ext. intros w _.
    destruct (Nat.leb_spec 512 (length (accepted w))), (Nat.ltb_spec (length (accepted w)) 512); try lia; reflexivity.
  - rewrite tsum_const, Z.mul_1_r. reflexivity.
Qed.
(** ... in particular one in 2^17 of all the streams of 600 words *)
Theorem C98_forgery_rate : forall h, int16s h -> (512 <= length h <= 767)%nat ->
  exists l, NoDup l /\ 2 ^ (16 * 600) <= 2 ^ 17 * Z.of_nat (length l) /\
  forall w, In w l -> tape 600 w /\
    forall X msg hdr salt, length salt = 40%nat -> xwords X 600 (absorbed X msg salt) = w ->
      Verify wrap64 X 600 h msg (hdr :: salt ++ guess_enc) = Ok true.
Proof.
  intros h Ih Lh. destruct (C98_forgery h 600 Ih Lh) as (l & r & Nl & Nr & Er & C & V).
  exists l. split; [exact Nl|]. split; [|exact V]. change (16 * 600) with 9600.
  pose proof (returns_all 600 r Er) as R. pose proof (returns_split 600) as S0.
  change (16 * Z.of_nat 600) with 9600 in S0.
  pose proof tail_count as T. change (2 ^ 17) with 131072. change (2 ^ 16) with 65536 in C. change (2 ^ 40) with 1099511627776 in T.
  revert C R S0 T. generalize (2 ^ 9600) (tsum 600 (fun w => b2z (512 <=? length (accepted w))%nat))
    (tsum 600 (fun w => b2z (length (accepted w) <? 512)%nat)). clear. intros. lia.
Qed.
Print Assumptions C98_forgery_rate.

(** ... and a short vector is accepted for at most one in 2^41 of the streams *)
Theorem C98_short_rare : forall h s enc k l, int16s h -> (512 <= length h <= 767)%nat ->
  length s = 512%nat -> int16s s -> Compress s 625 = Ok enc -> sqnorm s <= beta2_512 ->
  NoDup l ->
  (forall w, In w l -> tape k w /\ exists X msg hdr salt, length salt = 40%nat /\
     xwords X k (absorbed X msg salt) = w /\ Verify wrap64 X k h msg (hdr :: salt ++ enc) = Ok true) ->
  2 ^ 41 * Z.of_nat (length l) <= 2 ^ (16 * Z.of_nat k).
Proof.
  intros h s enc k l Ih Lh Ls Is Ee Ns Nl Hl.
  set (p := fun c => accept_norm (firstn 512 h) c s).
  assert (KP : 2 ^ 41 * total 512 (fun v => b2z (p v)) <= q ^ 512).
  { rewrite <- hits_count.
    apply (C97_short_rare h s enc (hits 512 p) Ih Lh Ls Is Ee Ns (nodup_hits _ _)).
    intros c Hc. apply in_hits in Hc. destruct Hc as [P A]. split; [exact P|].
    exists (listXOF c), 512%nat, [], 57, ex_salt. split; [exact ex_salt_len|]. split; [now apply C97_points_hashed|].
    rewrite (Verify_assembled wrap64 id64 (listXOF c) 512 h [] 57 ex_salt s c enc Ih Lh ex_salt_len Ls Is Ee
      (C97_points_hashed c [] ex_salt P)). now rewrite <- A. }
  assert (K : Z.of_nat (length l) <= tsum k (fun w => b2z (leads p w))).
  { apply theard_max; [exact Nl|]. intros w Hw. destruct (Hl w Hw) as [T (X & msg & hdr & salt & L40 & EX & V)].
    split; [exact T|]. unfold leads.
    pose proof (hash_words X k msg salt) as HW. rewrite EX in HW. cbn zeta in HW.
    destruct (Nat.leb_spec 512 (length (accepted w))) as [G|G].
    - rewrite (Verify_assembled wrap64 id64 X k h msg hdr salt s _ enc Ih Lh L40 Ls Is Ee HW) in V.
      cbn [andb]. unfold p. congruence.
    - exfalso. revert V. rewrite (Verify_gen wrap64 id64 X k h msg (hdr :: salt ++ enc) Ih).
      destruct (assembled hdr salt enc L40) as [-> _].
      rewrite HW.
      destruct (Nat.ltb _ 41); [discriminate|]. destruct (Decompress _ 625 512); discriminate. }
  rewrite leads_total in K.
  assert (A : ways k 512 * q ^ 512 <= 2 ^ (16 * Z.of_nat k)).
  { rewrite <- ways_all. rewrite <- (Z.mul_1_r (2 ^ (16 * Z.of_nat k))), <- tsum_const. apply tsum_le.
    intros w _. apply b2z_range. }
  pose proof (ways_nonneg k 512) as W.
  assert (P41 : 0 <= 2 ^ 41) by (apply Z.pow_nonneg; discriminate).
  revert KP K A W P41. generalize (q ^ 512) (ways k 512) (2 ^ 41) (total 512 (fun v => b2z (p v))) (2 ^ (16 * Z.of_nat k)) (Z.of_nat (length l)).
  clear. intros z a t b m n H1 H2 H3 H4 H5.
  apply Z.le_trans with (t * (a * b)); [apply Z.mul_le_mono_nonneg_l; assumption|].
  replace (t * (a * b)) with (a * (t * b)) by ring. apply Z.le_trans with (a * z); [|assumption].
  apply Z.mul_le_mono_nonneg_l; assumption.
Qed.
Print Assumptions C98_short_rare.

Lemma tape_dec k w : ((length w =? k)%nat && forallb (fun x => (0 <=? x) && (x <? 2 ^ 16)) w) = true -> tape k w.
Proof.
  intros H. apply andb_prop in H. destruct H as [L F]. split; [now apply Nat.eqb_eq|].
  apply Forall_forall. intros x Hx. rewrite forallb_forall in F. specialize (F x Hx). lia.
Qed.
Example C98_nonvacuous : point 512 (repeat 0 512) /\ point 512 (repeat 7 512) /\
  hashes_to 513 (65535 :: repeat 12289 512) (repeat 0 512) /\
  hashes_to 513 (repeat 12296 511 ++ [65535; 7]) (repeat 7 512) /\
  tape 600 (repeat 65535 600) /\
  (forall c, hashToPoint (tapeXOF (repeat 65535 600)) 600 ex_msg ex_salt <> Ok c) /\
  Compress zero512 625 = Ok enc_zero /\ sqnorm zero512 <= beta2_512 /\
  tape 600 (repeat 0 600) /\
  Verify wrap64 (tapeXOF (repeat 0 600)) 600 h_small ex_msg (57 :: ex_salt ++ enc_zero) = Ok true.
Proof.
  assert (P : forall x, 0 <= x < q -> point 512 (repeat x 512)).
  { intros x Hx. split; [apply repeat_length|]. apply Forall_forall. intros y Hy. apply repeat_spec in Hy. now subst. }
  split; [apply P; unfold q; lia|]. split; [apply P; unfold q; lia|].
  assert (T1 : tape 513 (65535 :: repeat 12289 512)) by (apply tape_dec; vm_compute; reflexivity).
  assert (T2 : tape 513 (repeat 12296 511 ++ [65535; 7])) by (apply tape_dec; vm_compute; reflexivity).
  assert (T3 : tape 600 (repeat 65535 600)) by (apply tape_dec; vm_compute; reflexivity).
  assert (T4 : tape 600 (repeat 0 600)) by (apply tape_dec; vm_compute; reflexivity).
  split; [apply (to_point_ok 513 _ _ T1); vm_compute; reflexivity|].
  split; [apply (to_point_ok 513 _ _ T2); vm_compute; reflexivity|].
  split; [exact T3|].
  split; [intros c; rewrite hash_words, (tapeXOF_words _ ex_msg ex_salt 600 T3); vm_compute; discriminate|].
  split; [exact enc_zero_ok|]. split; [rewrite sqnorm_zero512; discriminate|]. split; [exact T4|].
  assert (LH : length h_small = 512%nat) by (vm_compute; reflexivity).
  refine (Verify_complete wrap64 id64 (tapeXOF (repeat 0 600)) 600 h_small ex_msg 57 ex_salt zero512 (repeat 0 512) enc_zero LH h_small_int16
      ex_salt_len zero512_len _ enc_zero_ok _ _).
  - apply pconst_int16. unfold is_int16. lia.
  - rewrite hash_words, (tapeXOF_words _ ex_msg ex_salt 600 T4). vm_compute. reflexivity.
  - rewrite s0_zero by (exact LH || reflexivity). rewrite sqnorm_zero512. vm_compute. discriminate.
Qed.
