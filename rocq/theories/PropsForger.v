(** A forger that tries t salts (C103). *)
From Verif Require Import GoBase Util BaseProofs Encoding Params Xof Falcon Spec SpecHash EncodingProofs
  FalconProofs VerifyProofs WordSize Examples Witness PolyZ Counting Levels GuessLevels GuessRare PropsGuess.

(** ** Tuples *)
Section Tuples.
Context {A : Type}.
(** the lists of t members of l *)
Fixpoint tuples (t : nat) (l : list A) : list (list A) :=
  match t with O => [[]] | S t => flat_map (fun x => map (cons x) (tuples t l)) l end.
Lemma in_tuples t l : forall v, In v (tuples t l) <-> length v = t /\ Forall (fun x => In x l) v.
Proof.
  induction t as [|t IH]; intros v; cbn [tuples].
  - split; [intros [<-|[]]; split; [reflexivity|constructor]|]. intros [L _]. destruct v; [now left|discriminate].
  - rewrite in_flat_map. split.
    + intros (x & Hx & Hv). apply in_map_iff in Hv. destruct Hv as (u & <- & Hu). apply IH in Hu. destruct Hu as [L F].
      split; [cbn [length]; now rewrite L|constructor; assumption].
    + intros [L F]. destruct v as [|x v]; [discriminate|]. inversion F as [|? ? Hx Fv]; subst.
      exists x. split; [exact Hx|]. apply in_map_iff. exists v. split; [reflexivity|]. apply IH. split; [cbn in L; lia|exact Fv].
Qed.
Lemma nodup_flat (l : list A) (vs : list (list A)) : NoDup l -> NoDup vs -> NoDup (flat_map (fun x => map (cons x) vs) l).
Proof.
  intros Nl Nv. induction Nl as [|x l Hx Nl IH]; cbn [flat_map]; [constructor|].
  assert (D : forall m m' : list (list A), NoDup m -> NoDup m' -> (forall a, In a m -> ~ In a m') -> NoDup (m ++ m')).
  { induction 1 as [|a m Ha Nm IHm]; intros Nm' H; cbn [app]; [exact Nm'|]. constructor.
    - rewrite in_app_iff. intros [K|K]; [now apply Ha|]. now apply (H a); [left|].
    - apply IHm; [exact Nm'|]. intros b Hb. apply H. now right. }
  apply D; [apply FinFun.Injective_map_NoDup; [intros a b E; congruence|exact Nv]|exact IH|].
  intros v Hv K. apply in_map_iff in Hv. destruct Hv as (u & <- & _). apply in_flat_map in K.
  destruct K as (y & Hy & K). apply in_map_iff in K. destruct K as (u' & E & _). apply Hx. congruence.
Qed.
Lemma nodup_tuples t l : NoDup l -> NoDup (tuples t l).
Proof.
  intros N. induction t as [|t IH]; cbn [tuples]; [constructor; [easy|constructor]|]. now apply nodup_flat.
Qed.
Lemma len_tuples t l : Z.of_nat (length (tuples t l)) = Z.of_nat (length l) ^ Z.of_nat t.
Proof.
  induction t as [|t IH]; [reflexivity|]. cbn [tuples]. rewrite Nat2Z.inj_succ, Z.pow_succ_r, <- IH by lia. clear IH.
  set (vs := tuples t l). clearbody vs. induction l as [|x l IH]; [reflexivity|].
  cbn [flat_map]. rewrite app_length, map_length, Nat2Z.inj_add, IH. cbn [length]. lia.
Qed.
End Tuples.

(** ** (1 - 1/N)^N <= 1/2 *)
Lemma bernoulli a m : 0 <= a -> a ^ Z.of_nat m * a + Z.of_nat m * a ^ Z.of_nat m <= (a + 1) ^ Z.of_nat m * a.
Proof.
  intros Ha. induction m as [|m IH]; [cbn; lia|].
  rewrite Nat2Z.inj_succ, !Z.pow_succ_r by lia.
  assert (P : 0 <= a ^ Z.of_nat m) by (apply Z.pow_nonneg; lia). revert IH P.
  generalize (a ^ Z.of_nat m) ((a + 1) ^ Z.of_nat m). intros x y IH P.
  assert (K : (a + 1) * (x * a + Z.of_nat m * x) <= (a + 1) * (y * a)) by (apply Z.mul_le_mono_nonneg_l; lia).
  assert (Pm : 0 <= Z.of_nat m * x) by (apply Z.mul_nonneg_nonneg; lia).
  replace ((a + 1) * y * a) with ((a + 1) * (y * a)) by ring.
  replace (a * x * a + Z.succ (Z.of_nat m) * (a * x)) with ((a + 1) * (x * a + Z.of_nat m * x) - Z.of_nat m * x) by ring.
  lia.
Qed.
Lemma half N : 1 < N -> 2 * (N - 1) ^ N <= N ^ N.
Proof.
  intros H. pose proof (bernoulli (N - 1) (Z.to_nat N) ltac:(lia)) as B. rewrite Z2Nat.id in B by lia.
  replace (N - 1 + 1) with N in B by lia. revert B.
  assert (P : 0 <= (N - 1) ^ N) by (apply Z.pow_nonneg; lia). revert P.
  generalize ((N - 1) ^ N) (N ^ N). intros x y P B.
  apply (Zmult_le_reg_r _ _ (N - 1)); [lia|]. nia.
Qed.

(** ** Tuples with a member that satisfies p *)
Lemma some_count {A} (l : list A) (p : A -> bool) t :
  zsum (tuples t l) (fun v => b2z (existsb p v)) * Z.of_nat (length l) <= Z.of_nat t * zsum l (fun x => b2z (p x)) * Z.of_nat (length l) ^ Z.of_nat t.
Proof.
  induction t as [|t IH]; [cbn; lia|].
  cbn [tuples]. rewrite zsum_flat.
  assert (E : zsum l (fun x => zsum (map (cons x) (tuples t l)) (fun v => b2z (existsb p v))) <=
    zsum l (fun x => b2z (p x) * Z.of_nat (length l) ^ Z.of_nat t + zsum (tuples t l) (fun v => b2z (existsb p v)))).
  { apply zsum_le. intros x _. rewrite zsum_map, <- len_tuples, Z.mul_comm, <- zsum_const, <- zsum_add. apply zsum_le.
    intros v _. cbn [existsb]. destruct (p x), (existsb p v); cbn; lia. }
  rewrite zsum_add, zsum_scale_r, zsum_const in E.
  rewrite Nat2Z.inj_succ, Z.pow_succ_r by lia.
  revert E IH. generalize (zsum l (fun x => b2z (p x))) (Z.of_nat (length l) ^ Z.of_nat t) (zsum (tuples t l) (fun v => b2z (existsb p v)))
    (zsum l (fun x => zsum (map (cons x) (tuples t l)) (fun v => b2z (existsb p v)))).
  assert (P : 0 <= Z.of_nat (length l)) by lia. revert P. generalize (Z.of_nat (length l)) (Z.of_nat t). clear.
  intros n m P a b s s' E IH.
  apply Z.le_trans with ((a * b + n * s) * n); [apply Z.mul_le_mono_nonneg_r; assumption|].
  replace ((a * b + n * s) * n) with (a * b * n + n * (s * n)) by ring.
  replace (Z.succ m * a * (n * b)) with (a * b * n + n * (m * a * b)) by ring.
  apply Z.add_le_mono_l. now apply Z.mul_le_mono_nonneg_l.
Qed.
Lemma len_points n : Z.of_nat (length (points n)) = q ^ Z.of_nat n.
Proof. rewrite <- total_one. unfold total. rewrite zsum_const. lia. Qed.
Lemma some_bound n (p : list Z -> bool) m t (l : list (list (list Z))) : 0 <= m -> m * total n (fun v => b2z (p v)) <= q ^ Z.of_nat n ->
  NoDup l -> (forall cs, In cs l -> length cs = t /\ Forall (point n) cs /\ existsb p cs = true) ->
  m * Z.of_nat (length l) <= Z.of_nat t * (q ^ Z.of_nat n) ^ Z.of_nat t.
Proof.
  intros T A Nl Hl. unfold total in A.
  assert (K : Z.of_nat (length l) <= zsum (tuples t (points n)) (fun v => b2z (existsb p v))).
  { assert (F : incl l (filter (existsb p) (tuples t (points n)))).
    { intros cs Hc. destruct (Hl cs Hc) as (L & P & E). apply filter_In. split; [|exact E].
      apply in_tuples. split; [exact L|]. apply Forall_forall. intros c K. rewrite Forall_forall in P. now apply in_points, P. }
    pose proof (NoDup_incl_length Nl F) as LE.
    assert (G : forall m : list (list (list Z)), Z.of_nat (length (filter (existsb p) m)) = zsum m (fun v => b2z (existsb p v))).
    { induction m0 as [|v m0 IH]; [reflexivity|]. cbn [filter zsum fold_right]. unfold zsum in IH. rewrite <- IH.
      destruct (existsb p v); cbn [b2z length]; lia. }
    rewrite <- G. lia. }
  pose proof (some_count (points n) p t) as S. rewrite len_points in S.
  assert (Q : 0 < q ^ Z.of_nat n) by (apply Z.pow_pos_nonneg; [reflexivity|lia]).
  assert (Q2 : 0 <= (q ^ Z.of_nat n) ^ Z.of_nat t) by (apply Z.pow_nonneg; lia).
  assert (T2 : 0 <= Z.of_nat t) by lia.
  revert A K S Q Q2 T T2. clear. generalize ((q ^ Z.of_nat n) ^ Z.of_nat t). generalize (q ^ Z.of_nat n) (Z.of_nat t) (Z.of_nat (length l))
    (zsum (points n) (fun v => b2z (p v))) (zsum (tuples t (points n)) (fun v => b2z (existsb p v))).
  intros z u k a b w A K S Q Q2 T T2. apply (Zmult_le_reg_r _ _ z); [lia|].
  apply Z.le_trans with (m * (b * z)).
  - replace (m * k * z) with (m * z * k) by ring. replace (m * (b * z)) with (m * z * b) by ring.
    apply Z.mul_le_mono_nonneg_l; [|exact K]. apply Z.mul_nonneg_nonneg; lia.
  - apply Z.le_trans with (m * (u * a * w)); [now apply Z.mul_le_mono_nonneg_l|].
    replace (m * (u * a * w)) with (u * w * (m * a)) by ring.
    apply Z.mul_le_mono_nonneg_l; [apply Z.mul_nonneg_nonneg; lia|exact A].
Qed.

#[local] Opaque Z.pow total points guess_enc Compress.

Definition bad (l : list (list Z)) : list (list Z) :=
  hits 512 (fun c => if in_dec (list_eq_dec Z.eq_dec) c l then false else true).
Lemma in_bad l c : In c (bad l) <-> point 512 c /\ ~ In c l.
Proof.
  unfold bad. rewrite in_hits. destruct (in_dec (list_eq_dec Z.eq_dec) c l) as [i|i]; split; intros [P H]; try split; try assumption; try reflexivity; try contradiction; discriminate H.
Qed.
Lemma bad_count l : NoDup l -> (forall c, In c l -> point 512 c) ->
  Z.of_nat (length l) + Z.of_nat (length (bad l)) = q ^ 512.
Proof.
  intros N P. change 512 with (Z.of_nat 512). rewrite <- total_one. unfold bad. rewrite hits_count.
  assert (E : Z.of_nat (length l) = total 512 (fun c => b2z (if in_dec (list_eq_dec Z.eq_dec) c l then true else false))).
  { rewrite <- hits_count. f_equal. apply Nat.le_antisymm; apply NoDup_incl_length.
    - exact N.
    - intros c Hc. apply in_hits. split; [now apply P|]. now destruct (in_dec (list_eq_dec Z.eq_dec) c l).
    - apply nodup_hits.
    - intros c Hc. destruct (proj1 (in_hits _ _ _) Hc) as [_ Hc2]. destruct (in_dec (list_eq_dec Z.eq_dec) c l); [assumption|discriminate Hc2]. }
  rewrite E, <- total_add. apply total_ext. intros v _. now destruct (in_dec (list_eq_dec Z.eq_dec) v l).
Qed.

(** the salts hash, with the message, to the points *)
Definition hashed X fuel msg (cs : list (list Z)) (salts : list (list Z)) : Prop :=
  Forall2 (fun c salt => length salt = 40%nat /\ hashToPoint X fuel msg salt = Ok c) cs salts.

(** C103: of the q^(512 t) tuples of hash points, at most a part (1 - 2^-16)^t is one for which none of
    the t signatures made of a salt and the fixed body is accepted. *)
Theorem C103_forger : forall h t, int16s h -> (512 <= length h <= 767)%nat ->
  exists fail, NoDup fail /\ (forall cs, In cs fail -> length cs = t /\ Forall (point 512) cs) /\
  (2 ^ 16) ^ Z.of_nat t * Z.of_nat (length fail) <= (2 ^ 16 - 1) ^ Z.of_nat t * (q ^ 512) ^ Z.of_nat t /\
  forall X fuel msg hdr cs salts, hashed X fuel msg cs salts -> length cs = t -> ~ In cs fail ->
    exists salt, In salt salts /\ Verify wrap64 X fuel h msg (hdr :: salt ++ guess_enc) = Ok true.
Proof.
  intros h t Ih Lh. destruct (C97_forgery h Ih Lh) as (l & N & P & C & V). exists (tuples t (bad l)).
  split; [apply nodup_tuples, nodup_hits|]. split.
  { intros cs H. apply in_tuples in H. destruct H as [L F]. split; [exact L|].
    apply Forall_forall. intros c Hc. rewrite Forall_forall in F. exact (proj1 (proj1 (in_bad l c) (F c Hc))). }
  split.
  - rewrite len_tuples, <- !Z.pow_mul_l. apply Z.pow_le_mono_l.
    pose proof (bad_count l N P) as B. split; [apply Z.mul_nonneg_nonneg; [apply Z.pow_nonneg; discriminate|lia]|].
    revert B C. generalize (q ^ 512) (Z.of_nat (length l)) (Z.of_nat (length (bad l))) (2 ^ 16). intros z a b m B C.
    replace b with (z - a) by lia. lia.
  - intros X fuel msg hdr cs salts H L NF.
    assert (E : Exists (fun c => In c l) cs).
    { destruct (Exists_dec (fun c => In c l) cs (fun c => in_dec (list_eq_dec Z.eq_dec) c l)) as [E|E]; [exact E|].
      exfalso. apply NF, in_tuples. split; [exact L|]. apply Forall_forall. intros c Hc. apply (proj2 (in_bad l c)). split.
      - clear - H Hc. induction H as [|c' s cs' ss [Ls Hs] H IH]; [destruct Hc|]. destruct Hc as [->|Hc]; [|now apply IH].
        destruct (hashToPoint_ok X _ _ _ _ Hs) as [Lc Ic]. split; [exact Lc|exact Ic].
      - intros Hl. apply E, Exists_exists. now exists c. }
    clear NF L. revert E. induction H as [|c s cs ss [Ls Hs] H IH]; intros E; [inversion E|].
    inversion E as [? ? Hc|? ? Hc]; subst.
    + exists s. split; [now left|]. exact (proj1 (V X fuel msg hdr s c Hc Ls Hs)).
    + destruct (IH Hc) as (salt & Hi & Hv). exists salt. split; [now right|exact Hv].
Qed.
Print Assumptions C103_forger.

(** 65536 k salts fail for at most one tuple in 2^k *)
Theorem C103_attempts : forall h k, int16s h -> (512 <= length h <= 767)%nat ->
  let t := Z.to_nat (2 ^ 16 * Z.of_nat k) in
  exists fail, NoDup fail /\ (forall cs, In cs fail -> length cs = t /\ Forall (point 512) cs) /\
  2 ^ Z.of_nat k * Z.of_nat (length fail) <= (q ^ 512) ^ Z.of_nat t /\
  forall X fuel msg hdr cs salts, hashed X fuel msg cs salts -> length cs = t -> ~ In cs fail ->
    exists salt, In salt salts /\ Verify wrap64 X fuel h msg (hdr :: salt ++ guess_enc) = Ok true.
Proof.
  intros h k Ih Lh t. destruct (C103_forger h t Ih Lh) as (fail & N & F & C & V).
  exists fail. split; [exact N|]. split; [exact F|]. split; [|exact V]. clear N F V Ih Lh.
  assert (Et : Z.of_nat t = 2 ^ 16 * Z.of_nat k).
  { unfold t. apply Z2Nat.id, Z.mul_nonneg_nonneg; [apply Z.pow_nonneg; discriminate|lia]. }
  clearbody t.
  assert (H : 2 ^ Z.of_nat k * (2 ^ 16 - 1) ^ Z.of_nat t <= (2 ^ 16) ^ Z.of_nat t).
  { rewrite Et, !Z.pow_mul_r by (try apply Z.pow_nonneg; lia). rewrite <- Z.pow_mul_l. apply Z.pow_le_mono_l.
    split; [|apply half; reflexivity]. apply Z.mul_nonneg_nonneg; [discriminate|]. apply Z.pow_nonneg. discriminate. }
  assert (P : 0 < (2 ^ 16) ^ Z.of_nat t) by (apply Z.pow_pos_nonneg; [reflexivity|lia]).
  assert (Q : 0 <= (q ^ 512) ^ Z.of_nat t) by (apply Z.pow_nonneg, Z.pow_nonneg; discriminate).
  assert (K : 0 <= 2 ^ Z.of_nat k) by (apply Z.pow_nonneg; discriminate).
  revert C H P Q K. clear. generalize ((2 ^ 16) ^ Z.of_nat t) ((2 ^ 16 - 1) ^ Z.of_nat t) ((q ^ 512) ^ Z.of_nat t) (2 ^ Z.of_nat k) (Z.of_nat (length fail)).
  intros a b z m n C H P Q K. apply (Zmult_le_reg_r _ _ a); [lia|].
  apply Z.le_trans with (m * (b * z)).
  - replace (m * n * a) with (m * (a * n)) by ring. now apply Z.mul_le_mono_nonneg_l.
  - replace (m * (b * z)) with (m * b * z) by ring. rewrite (Z.mul_comm z a). now apply Z.mul_le_mono_nonneg_r.
Qed.
Print Assumptions C103_attempts.

(** With a body of norm within the bound, as the specification demands, t salts succeed for at most t
    tuples in 2^41. *)
Theorem C103_short : forall h s enc t l, int16s h -> (512 <= length h <= 767)%nat ->
  length s = 512%nat -> int16s s -> Compress s 625 = Ok enc -> sqnorm s <= beta2_512 ->
  NoDup l ->
  (forall cs, In cs l -> length cs = t /\ exists X fuel msg hdr salts salt, hashed X fuel msg cs salts /\
     In salt salts /\ Verify wrap64 X fuel h msg (hdr :: salt ++ enc) = Ok true) ->
  2 ^ 41 * Z.of_nat (length l) <= Z.of_nat t * (q ^ 512) ^ Z.of_nat t.
Proof.
  intros h s enc t l Ih Lh Ls Is Ee Ns Nl Hl.
  apply (some_bound 512 (fun c => accept_norm (firstn 512 h) c s)); [apply Z.pow_nonneg; discriminate| |exact Nl|].
  - rewrite <- hits_count. apply (C97_short_rare h s enc _ Ih Lh Ls Is Ee Ns (nodup_hits _ _)). intros c Hc.
    destruct (proj1 (in_hits _ _ _) Hc) as [P K]. split; [exact P|].
    exists (listXOF c), 512%nat, [], 57, ex_salt. split; [exact ex_salt_len|].
    pose proof (C97_points_hashed c [] ex_salt P) as Ec. split; [exact Ec|].
    rewrite (Verify_assembled wrap64 id64 _ _ h [] 57 ex_salt s c enc Ih Lh ex_salt_len Ls Is Ee Ec). now rewrite K.
  - intros cs Hc. destruct (Hl cs Hc) as (L & X & fuel & msg & hdr & salts & salt & H & Hi & V). split; [exact L|]. split.
    + clear - H. induction H as [|c s cs ss [Lc Hs] H IH]; constructor; [|exact IH].
      destruct (hashToPoint_ok X _ _ _ _ Hs) as [Lc' Ic]. split; assumption.
    + clear L Hc. induction H as [|c s' cs ss [Lc Hs] H IH]; [destruct Hi|]. cbn [existsb]. destruct Hi as [->|Hi].
      * rewrite (Verify_assembled wrap64 id64 _ _ h msg hdr salt s c enc Ih Lh Lc Ls Is Ee Hs) in V.
        destruct (accept_norm (firstn 512 h) c s); [reflexivity|discriminate V].
      * rewrite (IH Hi). apply orb_true_r.
Qed.
Print Assumptions C103_short.

Example C103_nonvacuous : int16s h_small /\ length h_small = 512%nat /\ point 512 (repeat 0 512) /\
  (exists X fuel cs salts salt, hashed X fuel ex_msg cs salts /\ length cs = 3%nat /\ In salt salts /\
     Verify wrap64 X fuel h_small ex_msg (57 :: salt ++ guess_enc) = Ok true) /\
  Compress zero512 625 = Ok enc_zero /\ sqnorm zero512 <= beta2_512 /\
  hashed zeroXOF 600 ex_msg [repeat 0 512; repeat 0 512] [ex_salt; ex_salt] /\
  Verify wrap64 zeroXOF 600 h_small ex_msg (57 :: ex_salt ++ enc_zero) = Ok true.
Proof.
  assert (LH : length h_small = 512%nat) by (vm_compute; reflexivity).
  destruct C97_nonvacuous as (_ & _ & _ & _ & _ & H1 & H2 & H3 & H4 & _).
  split; [exact h_small_int16|]. split; [exact LH|]. split; [exact H3|]. split; [|split; [exact H1|]; split; [exact H2|]; split; [|exact H4]].
  - destruct (C97_forgery h_small h_small_int16 ltac:(rewrite LH; lia)) as (l & _ & Pl & Cl & Vl).
    destruct l as [|c l].
    + exfalso. assert (0 < q ^ 512) by (apply Z.pow_pos_nonneg; [reflexivity|discriminate]).
      cbn [length] in Cl. revert Cl H. generalize (q ^ 512) (2 ^ 16). intros. lia.
    + pose proof (C97_points_hashed c ex_msg ex_salt (Pl c (or_introl eq_refl))) as Ec.
      exists (listXOF c), 512%nat, [c; c; c], [ex_salt; ex_salt; ex_salt], ex_salt.
      split; [repeat (constructor; [split; [exact ex_salt_len|exact Ec]|]); constructor|]. split; [reflexivity|]. split; [now left|].
      exact (proj1 (Vl (listXOF c) 512%nat ex_msg 57 ex_salt c (or_introl eq_refl) ex_salt_len Ec)).
  - repeat (constructor; [split; [exact ex_salt_len|exact zero_hash]|]). constructor.
Qed.
