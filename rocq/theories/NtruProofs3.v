(** Lemmas about reduce and NtruSolve, and about the lengths Karatsuba rejects. *)
From Coq Require Import Ring Setoid Morphisms Znumtheory.
From Verif Require Import GoBase Util Spec PolyRing PolyZ PolyEval BaseProofs UtilProofs Ntrugen
  NtruProofs NtruProofs2.

(** ** Lengths on which Karatsuba panics *)
Lemma mapM_seq_panic {B} (f : nat -> res B) n :
  (forall i, (i < n)%nat -> (exists b, f i = Ok b) \/ f i = Panic) ->
  (exists i, (i < n)%nat /\ f i = Panic) -> mapM f (seq 0 n) = Panic.
Proof.
  intros H (i & Hi & E).
  assert (G : forall m s, (s + m = n)%nat -> (s <= i)%nat -> mapM f (seq s m) = Panic).
  { induction m as [|m IH]; intros s Es Hs; [lia|]. cbn [seq mapM].
    destruct (Nat.eq_dec s i) as [->|N]; [rewrite E; reflexivity|].
    destruct (H s ltac:(lia)) as [[b Eb]|Eb]; rewrite Eb; cbn [bind]; [|reflexivity].
    rewrite IH by lia. reflexivity. }
  apply (G n O); lia.
Qed.

Lemma foldM_seq_panic {A} (f : A -> nat -> res A) n a :
  (forall i a, (i < n)%nat -> (exists b, f a i = Ok b) \/ f a i = Panic) ->
  (exists i, (i < n)%nat /\ forall a, f a i = Panic) -> foldM f (seq 0 n) a = Panic.
Proof.
  intros H (i & Hi & E).
  assert (G : forall m s a, (s + m = n)%nat -> (s <= i)%nat -> foldM f (seq s m) a = Panic).
  { induction m as [|m IH]; intros s b Es Hs; [lia|]. cbn [seq foldM].
    destruct (Nat.eq_dec s i) as [->|N]; [rewrite E; reflexivity|].
    destruct (H s b ltac:(lia)) as [[b' Eb]|Eb]; rewrite Eb; cbn [bind]; [|reflexivity].
    apply IH; lia. }
  apply (G n O); lia.
Qed.

Lemma idx_cases {A} (l : list A) i : (exists b, idx l i = Ok b) \/ idx l i = Panic.
Proof. unfold idx. destruct (nth_error l i); eauto. Qed.
Lemma add_at_cases l i v : (exists b, add_at l i v = Ok b) \/ add_at l i v = Panic.
Proof. unfold add_at. destruct (idx_cases l i) as [[b ->]| ->]; cbn [bind]; eauto. Qed.

(** the second operand is too short *)
Lemma Karatsuba_fuel_short fuel k a b : (0 < fuel)%nat ->
  (2 ^ k <= length a)%nat -> (length b < 2 ^ k)%nat ->
  Karatsuba_fuel fuel a b (2 ^ k) = Panic.
Proof.
  intros P La Lb. destruct fuel as [|fuel]; [lia|].
  destruct k as [|k].
  - cbn [Nat.pow] in *. cbn [Karatsuba_fuel Nat.eqb]. rewrite idx_coef by lia. cbn [bind].
    rewrite idx_out by lia. reflexivity.
  - cbn [Karatsuba_fuel]. rewrite pow2_half.
    destruct (Nat.eqb_spec (2 ^ S k) 1) as [E|_]; [cbn [Nat.pow] in E; pose proof (pow2_pos k); lia|].
    assert (En : (2 ^ S k = 2 ^ k + 2 ^ k)%nat) by (cbn [Nat.pow]; lia).
    set (m := (2 ^ k)%nat) in *.
    rewrite (slice_prefix a), slice_suffix by lia. cbn [bind].
    destruct (Nat.le_gt_cases m (length b)) as [H|H].
    + rewrite slice_prefix, slice_suffix by lia. cbn [bind].
      rewrite (mapM_Ok _ (fun i => coef a i + coef a (m + i))).
      2:{ intros i Hi. apply in_seq in Hi.
          assert (length (firstn m a) = m) by (apply firstn_length_le; lia).
          rewrite !idx_coef by (try rewrite skipn_length; lia). cbn [bind].
          rewrite coef_firstn, coef_skipn by lia. reflexivity. }
      cbn [bind]. rewrite (mapM_seq_panic _ m).
      * reflexivity.
      * intros i Hi. destruct (idx_cases (firstn m b) i) as [[x ->]| ->]; cbn [bind]; [|auto].
        destruct (idx_cases (skipn m b) i) as [[y ->]| ->]; cbn [bind]; eauto.
      * exists (m - 1)%nat. split; [lia|].
        assert (length (firstn m b) = m) by (apply firstn_length_le; lia).
        rewrite idx_coef by lia. cbn [bind]. rewrite idx_out by (rewrite skipn_length; lia). reflexivity.
    + unfold slice at 1. destruct (Nat.leb_spec m (length b)); [lia|].
      rewrite andb_false_r. reflexivity.
Qed.

Lemma Karatsuba_short k a b : (2 ^ k <= length a)%nat -> (length b < 2 ^ k)%nat ->
  Karatsuba a b (2 ^ k) = Panic.
Proof. apply Karatsuba_fuel_short. apply pow2_pos. Qed.

(** n is not a power of two *)
Lemma Karatsuba_fuel_odd fuel : forall a b n,
  (0 < n)%nat -> (forall k, n <> (2 ^ k)%nat) -> (n <= fuel)%nat ->
  (n <= length a)%nat -> (n <= length b)%nat -> Karatsuba_fuel fuel a b n = Panic.
Proof.
  induction fuel as [|fuel IH]; intros a b n Hn Hp Hf La Lb; [lia|].
  cbn [Karatsuba_fuel].
  destruct (Nat.eqb_spec n 1) as [E|N1]; [exfalso; exact (Hp O E)|].
  set (m := Nat.div n 2).
  assert (Hm : (2 * m <= n < 2 * m + 2)%nat).
  { unfold m. pose proof (Nat.div_mod n 2 ltac:(lia)). pose proof (Nat.mod_upper_bound n 2 ltac:(lia)). lia. }
  rewrite !slice_prefix, !slice_suffix by lia. cbn [bind].
  assert (F1 : length (firstn m a) = m) by (apply firstn_length_le; lia).
  assert (F2 : length (firstn m b) = m) by (apply firstn_length_le; lia).
  assert (S1 : (m <= length (skipn m a))%nat) by (rewrite skipn_length; lia).
  assert (S2 : (m <= length (skipn m b))%nat) by (rewrite skipn_length; lia).
  rewrite (mapM_Ok _ (fun i => coef a i + coef a (m + i))).
  2:{ intros i Hi. apply in_seq in Hi. rewrite !idx_coef by lia. cbn [bind].
      rewrite coef_firstn, coef_skipn by lia. reflexivity. }
  cbn [bind].
  rewrite (mapM_Ok _ (fun i => coef b i + coef b (m + i))).
  2:{ intros i Hi. apply in_seq in Hi. rewrite !idx_coef by lia. cbn [bind].
      rewrite coef_firstn, coef_skipn by lia. reflexivity. }
  cbn [bind].
  destruct (pow2_or m) as [[k Ek]|Np].
  - assert (k < fuel)%nat.
    { pose proof (Nat.pow_gt_lin_r 2 k ltac:(lia)). lia. }
    assert (En : n = (2 * m + 1)%nat).
    { destruct (Nat.eq_dec n (2 * m)) as [E|]; [|lia]. exfalso. apply (Hp (S k)).
      cbn [Nat.pow]. lia. }
    rewrite Ek in *.
    destruct (Karatsuba_fuel_ok k fuel (firstn (2 ^ k) a) (firstn (2 ^ k) b)) as (r0 & E0 & L0 & _); [lia..|].
    destruct (Karatsuba_fuel_ok k fuel (skipn (2 ^ k) a) (skipn (2 ^ k) b)) as (r1 & E1 & L1 & _); [lia..|].
    destruct (Karatsuba_fuel_ok k fuel (map (fun i => coef a i + coef a (2 ^ k + i)) (seq 0 (2 ^ k)))
                      (map (fun i => coef b i + coef b (2 ^ k + i)) (seq 0 (2 ^ k))))
      as (rx & Ex & Lx & _); [lia|rewrite map_length, seq_length; lia..|].
    rewrite E0, E1, Ex. cbn [bind]. rewrite foldM_seq_panic; [reflexivity| |].
    + intros i l _. destruct (idx_cases r0 i) as [[x ->]| ->]; cbn [bind]; [|auto].
      destruct (idx_cases r1 i) as [[y ->]| ->]; cbn [bind]; [|auto]. apply add_at_cases.
    + exists (2 * 2 ^ k)%nat. split; [lia|]. intros l. rewrite idx_out by lia. reflexivity.
  - rewrite IH; [reflexivity|lia|exact Np|lia|lia|lia].
Qed.

Theorem Karatsuba_other a b n :
  (0 < n)%nat -> (forall k, n <> (2 ^ k)%nat) -> (n <= length a)%nat -> (n <= length b)%nat ->
  Karatsuba a b n = Panic.
Proof. intros. apply Karatsuba_fuel_odd; auto. Qed.

(** n = 0: the recursion never ends, whatever the depth allowed *)
Theorem Karatsuba_zero fuel a b : Karatsuba_fuel fuel a b 0 = Diverge.
Proof.
  revert a b. induction fuel as [|fuel IH]; intros a b; [reflexivity|].
  cbn [Karatsuba_fuel Nat.eqb]. change (Nat.div 0 2) with O.
  rewrite !slice_prefix by lia. cbn [bind seq mapM]. rewrite IH. reflexivity.
Qed.

(** ** reduce *)
Lemma pscale_length c f : length (pscale c f) = length f.
Proof. apply map_length. Qed.
Lemma eval_pscale c f x : eval (pscale c f) x = c * eval f x.
Proof.
  induction f as [|a f IH]; [cbn; ring|]. cbn [pscale map]. rewrite !eval_cons.
  fold (pscale c f). rewrite IH. ring.
Qed.
Lemma coef_pscale c f i : coef (pscale c f) i = c * coef f i.
Proof.
  unfold coef, pscale. replace 0 with (c * 0) at 1 by ring. apply map_nth.
Qed.

Lemma sub_shifted_ok n F fk s : 0 <= s -> length F = n -> length fk = n ->
  sub_shifted n F fk s = Ok (psub n F (pscale (2 ^ s) fk)).
Proof.
  intros Hs LF Lk. unfold sub_shifted.
  match goal with |- foldM ?f _ _ = _ =>
    destruct (foldM_seq_inv f (fun i l => length l = n /\
       forall j, coef l j = coef F j - (if Nat.ltb j i then 2 ^ s * coef fk j else 0)) n F)
      as (r & Er & Lr & Cr) end.
  { split; [exact LF|]. intros j. ifs; ring. }
  { intros i l Hi (Ll & Cl). rewrite idx_coef by lia. cbn [bind].
    destruct (add_at_ok l i (- Z.shiftl (coef fk i) s)) as (l' & E' & L' & C'); [lia|].
    exists l'. split; [exact E'|]. split; [lia|]. intros j. rewrite C', Cl.
    rewrite Z.shiftl_mul_pow2 by exact Hs. ifs; subst; ring. }
  rewrite Er. f_equal. apply list_eq_coef; [rewrite psub_length; lia|].
  intros i Hi. rewrite Cr. unfold psub. rewrite coef_map_seq, coef_pscale by lia. ifs; ring.
Qed.

Lemma negacyc_firstn n f k : negacyc n f (firstn n k) = negacyc n f k.
Proof.
  unfold negacyc. apply map_ext_in. intros i Hi. apply in_seq in Hi.
  unfold negacyc_coef. apply sumn_ext. intros j Hj.
  ifs; rewrite coef_firstn by lia; reflexivity.
Qed.

Lemma karamul_cases k a b : length a = (2 ^ k)%nat ->
  karamul a b = (if Nat.leb (2 ^ k) (length b) then Ok (negacyc (2 ^ k) a b) else Panic).
Proof.
  intros La. destruct (Nat.leb_spec (2 ^ k) (length b)) as [H|H].
  - apply karamul_ok; assumption.
  - unfold karamul. rewrite La, Karatsuba_short by lia. reflexivity.
Qed.

(** one step *)
Lemma step_sub n f F k kk s : (0 < n)%nat ->
  length f = n -> length F = n -> length k = n -> length kk = n ->
  psub n (psub n F (negacyc n f k)) (pscale s (negacyc n f kk)) =
  psub n F (negacyc n f (padd n k (pscale s kk))).
Proof.
  intros Hn Lf LF Lk Lkk. apply (poly_eq n); try apply psub_length. intros x _.
  rewrite !eval_psub, eval_pscale by (try assumption; try apply psub_length;
    try rewrite pscale_length; apply negacyc_length).
  pose proof (nega_eval n f k x Lf Lk) as H1.
  pose proof (nega_eval n f kk x Lf Lkk) as H2.
  pose proof (nega_eval n f (padd n k (pscale s kk)) x Lf (padd_length _ _ _)) as H3.
  rewrite eval_padd, eval_pscale in H3 by (try rewrite pscale_length; assumption).
  generalize dependent (x ^ Z.of_nat n + 1). intros M H1 H2 H3.
  setoid_rewrite H1. setoid_rewrite H2. setoid_rewrite H3. apply cong_eq. ring.
Qed.

Lemma psub_zero_mul n f F : length F = n -> psub n F (negacyc n f (repeat 0 n)) = F.
Proof.
  intros L. apply list_eq_coef; [rewrite psub_length; lia|]. rewrite psub_length. intros i Hi.
  unfold psub. rewrite coef_map_seq by exact Hi. unfold negacyc. rewrite coef_map_seq by exact Hi.
  unfold negacyc_coef. rewrite sumn_zero_ext; [ring|]. intros j Hj.
  unfold coef. rewrite !nth_repeat. destruct (Nat.leb j i); ring.
Qed.

(** what a run of the loop does, for any quotients *)
Definition reduced (n : nat) (f g F G : list Z) (FG : list Z * list Z) : Prop :=
  exists k, length k = n /\ FG = (psub n F (negacyc n f k), psub n G (negacyc n g k)).

Lemma reduced_refl n f g F G : length F = n -> length G = n -> reduced n f g F G (F, G).
Proof.
  intros LF LG. exists (repeat 0 n). split; [apply repeat_length|].
  rewrite !psub_zero_mul by assumption. reflexivity.
Qed.

Lemma reduce_loop_ok quo fuel k f g size : forall F G FG,
  let n := (2 ^ k)%nat in
  length f = n -> length g = n -> length F = n -> length G = n ->
  reduce_loop quo fuel f g size F G = Ok FG -> reduced n f g F G FG.
Proof.
  cbv zeta. set (n := (2 ^ k)%nat). assert (Pn : (0 < n)%nat) by apply pow2_pos.
  induction fuel as [|fuel IH]; intros F G FG Lf Lg LF LG; cbn [reduce_loop]; [discriminate|].
  destruct (max_bitsize F G) as [S| | |]; cbn [bind]; try discriminate.
  destruct (Z.ltb_spec S size) as [H|H].
  { intros E. apply Ok_inj in E. subst FG. apply reduced_refl; assumption. }
  destruct (quo _ _ _ _) as [kk| | |]; cbn [bind]; try discriminate.
  destruct (AllZeroes kk).
  { intros E. apply Ok_inj in E. subst FG. apply reduced_refl; assumption. }
  unfold IntToBigInt. rewrite !(karamul_cases k) by assumption. fold n.
  destruct (Nat.leb_spec n (length kk)) as [Lk|Lk]; cbn [bind]; [|discriminate].
  rewrite Lf, !sub_shifted_ok by (try lia; try assumption; apply negacyc_length). cbn [bind].
  intros E. apply IH in E; try assumption; try apply psub_length.
  destruct E as (k' & Lk' & ->).
  assert (Lk1 : length (firstn n kk) = n) by (apply firstn_length_le; exact Lk).
  exists (padd n (pscale (2 ^ (S - size)) (firstn n kk)) k'). split; [apply padd_length|].
  assert (C : forall f F, length f = n -> length F = n ->
    psub n (psub n F (pscale (2 ^ (S - size)) (negacyc n f kk))) (negacyc n f k') =
    psub n F (negacyc n f (padd n (pscale (2 ^ (S - size)) (firstn n kk)) k'))).
  { intros f0 F0 L1 L2. apply (poly_eq n); try apply psub_length. intros x _.
    rewrite !eval_psub, eval_pscale by (try assumption; try apply psub_length;
      try rewrite pscale_length; apply negacyc_length).
    rewrite <- (negacyc_firstn n f0 kk).
    pose proof (nega_eval n f0 k' x L1 Lk') as H1.
    pose proof (nega_eval n f0 (firstn n kk) x L1 Lk1) as H2.
    pose proof (nega_eval n f0 (padd n (pscale (2 ^ (S - size)) (firstn n kk)) k') x L1 (padd_length _ _ _)) as H3.
    rewrite eval_padd, eval_pscale in H3 by (try rewrite pscale_length; assumption).
    generalize dependent (x ^ Z.of_nat n + 1). intros M H1 H2 H3.
    setoid_rewrite H1. setoid_rewrite H2. setoid_rewrite H3. apply cong_eq. ring. }
  rewrite !C by assumption. reflexivity.
Qed.

Theorem reduce_ok quo fuel k f g F G FG :
  let n := (2 ^ k)%nat in
  length f = n -> length g = n -> length F = n -> length G = n ->
  reduce quo fuel f g F G = Ok FG -> reduced n f g F G FG.
Proof.
  cbv zeta. intros Lf Lg LF LG. unfold reduce. destruct (max_bitsize f g); cbn [bind]; try discriminate.
  apply reduce_loop_ok; assumption.
Qed.

Lemma bitsize_Ok a : exists s, bitsize a = Ok s.
Proof. destruct (bitsize_ok a) as (s & E & _). eauto. Qed.
Lemma MinBig_Ok x : x <> [] -> exists m, MinFromBigInt x = Ok m.
Proof. unfold MinFromBigInt. destruct x; [contradiction|]. cbn. eauto. Qed.
Lemma MaxBig_Ok x : x <> [] -> exists m, MaxFromBigInt x = Ok m.
Proof. unfold MaxFromBigInt. destruct x; [contradiction|]. cbn. eauto. Qed.
Lemma max_bitsize_Ok a b : a <> [] -> b <> [] -> exists s, max_bitsize a b = Ok s.
Proof.
  intros Ha Hb. unfold max_bitsize.
  destruct (MinBig_Ok a Ha) as (m1 & ->). cbn [bind]. destruct (bitsize_Ok m1) as (s1 & ->). cbn [bind].
  destruct (MaxBig_Ok a Ha) as (m2 & ->). cbn [bind]. destruct (bitsize_Ok m2) as (s2 & ->). cbn [bind].
  destruct (MinBig_Ok b Hb) as (m3 & ->). cbn [bind]. destruct (bitsize_Ok m3) as (s3 & ->). cbn [bind].
  destruct (MaxBig_Ok b Hb) as (m4 & ->). cbn [bind]. destruct (bitsize_Ok m4) as (s4 & ->). cbn [bind].
  unfold Max. cbn. eauto.
Qed.
Lemma nonempty_len {A} (l : list A) n : length l = n -> (0 < n)%nat -> l <> [].
Proof. intros <- H ->. cbn in H. lia. Qed.

(** The quotient function has no error, respectively returns a vector of the
    right length, at degree 2^k. *)
Definition quo_noerr (quo : quotient) (k : nat) : Prop := forall a b c d e,
  length a = (2 ^ k)%nat -> length b = (2 ^ k)%nat -> length c = (2 ^ k)%nat -> length d = (2 ^ k)%nat ->
  quo a b c d <> Err e.
Definition quo_total (quo : quotient) (k : nat) : Prop := forall a b c d,
  length a = (2 ^ k)%nat -> length b = (2 ^ k)%nat -> length c = (2 ^ k)%nat -> length d = (2 ^ k)%nat ->
  exists r, length r = (2 ^ k)%nat /\ quo a b c d = Ok r.

(** errors and panics of reduce can only come from the quotient function *)
Lemma reduce_loop_bad quo fuel k f g size : forall F G,
  let n := (2 ^ k)%nat in
  length f = n -> length g = n -> length F = n -> length G = n ->
  (quo_noerr quo k ->
     forall e, reduce_loop quo fuel f g size F G <> Err e) /\
  (quo_total quo k ->
     reduce_loop quo fuel f g size F G <> Panic).
Proof.
  cbv zeta. set (n := (2 ^ k)%nat). assert (Pn : (0 < n)%nat) by apply pow2_pos.
  induction fuel as [|fuel IH]; intros F G Lf Lg LF LG; cbn [reduce_loop]; [split; discriminate|].
  destruct (max_bitsize_Ok F G) as (S & ->); [eapply nonempty_len; eassumption..|]. cbn [bind].
  destruct (Z.ltb_spec S size) as [H|H]; [split; discriminate|].
  set (qq := quo _ _ _ _).
  assert (C : (exists kk, qq = Ok kk) \/ (exists e, qq = Err e) \/ qq = Panic \/ qq = Diverge)
    by (destruct qq; eauto).
  destruct C as [(kk & E)|[(e & E)|[E|E]]].
  - rewrite E. cbn [bind]. destruct (AllZeroes kk); [split; discriminate|].
    unfold IntToBigInt. rewrite !(karamul_cases k) by assumption. fold n.
    destruct (Nat.leb_spec n (length kk)) as [Lk|Lk]; cbn [bind].
    + rewrite Lf, !sub_shifted_ok by (try lia; try assumption; apply negacyc_length). cbn [bind].
      apply IH; try assumption; apply psub_length.
    + split; [discriminate|]. intros Hq _.
      destruct (Hq (adjust size f) (adjust size g) (adjust S F) (adjust S G)) as (k0 & L0 & E0); try (unfold adjust; rewrite map_length; assumption).
      fold qq in E0. rewrite E in E0. apply Ok_inj in E0. subst k0.
      fold n in L0. lia.
  - split; [|rewrite E; discriminate]. intros Hq. exfalso. eapply Hq; [..|exact E]; unfold adjust; rewrite map_length; assumption.
  - split; [rewrite E; discriminate|]. intros Hq.
    destruct (Hq (adjust size f) (adjust size g) (adjust S F) (adjust S G)) as (k0 & L0 & E0); try (unfold adjust; rewrite map_length; assumption).
    fold qq in E0. congruence.
  - rewrite E. split; discriminate.
Qed.

Lemma reduce_bad quo fuel k f g F G :
  let n := (2 ^ k)%nat in
  length f = n -> length g = n -> length F = n -> length G = n ->
  (quo_noerr quo k ->
     forall e, reduce quo fuel f g F G <> Err e) /\
  (quo_total quo k ->
     reduce quo fuel f g F G <> Panic).
Proof.
  cbv zeta. intros Lf Lg LF LG. unfold reduce. assert (Pn : (0 < 2 ^ k)%nat) by apply pow2_pos.
  destruct (max_bitsize_Ok f g) as (S & ->); [eapply nonempty_len; eassumption..|]. cbn [bind].
  apply (reduce_loop_bad quo fuel k); assumption.
Qed.

(** the equation is unchanged *)
Lemma reduced_equation n f g F G FG : (0 < n)%nat ->
  length f = n -> length g = n -> length F = n -> length G = n ->
  reduced n f g F G FG ->
  length (fst FG) = n /\ length (snd FG) = n /\
  psub n (negacyc n f (snd FG)) (negacyc n g (fst FG)) = psub n (negacyc n f G) (negacyc n g F).
Proof.
  intros Pn Lf Lg LF LG (k & Lk & ->). cbn [fst snd].
  refine (conj (psub_length _ _ _) (conj (psub_length _ _ _) _)).
  apply (poly_eq n); try apply psub_length. intros x _.
  rewrite !eval_psub by apply negacyc_length.
  pose proof (nega_eval n f k x Lf Lk) as H1.
  pose proof (nega_eval n g k x Lg Lk) as H2.
  pose proof (nega_eval n f (psub n G (negacyc n g k)) x Lf (psub_length _ _ _)) as H3.
  pose proof (nega_eval n g (psub n F (negacyc n f k)) x Lg (psub_length _ _ _)) as H4.
  pose proof (nega_eval n f G x Lf LG) as H5.
  pose proof (nega_eval n g F x Lg LF) as H6.
  rewrite eval_psub in H3, H4 by (try assumption; apply negacyc_length).
  generalize dependent (x ^ Z.of_nat n + 1). intros M H1 H2 H3 H4 H5 H6.
  setoid_rewrite H3. setoid_rewrite H4. setoid_rewrite H5. setoid_rewrite H6.
  setoid_rewrite H1. setoid_rewrite H2. apply cong_eq. ring.
Qed.

(** ** Norms *)
Lemma is_norm_fun k : forall f m m', is_norm k f m -> is_norm k f m' -> m = m'.
Proof.
  induction k as [|k IH]; intros f m m' H H'; inversion H; inversion H'; subst; [congruence|].
  assert (g = g0) by (apply plift_inj; congruence). subst g0. eapply IH; eassumption.
Qed.
Lemma is_norm_length k f m : is_norm k f m -> length f = (2 ^ k)%nat.
Proof. intros H. inversion H; [reflexivity|assumption]. Qed.
Lemma is_norm_nonneg k : forall f m, is_norm (S k) f m -> 0 <= m.
Proof.
  induction k as [|k IH]; intros f m H; inversion H; subst; [|eapply IH; eassumption].
  match goal with H : is_norm 0 _ _ |- _ => inversion H; subst end.
  destruct f as [|a [|b [|]]]; try discriminate.
  match goal with E : plift _ = _ |- _ => apply (f_equal (fun l => coef l 0)) in E; cbn in E end.
  destruct a, b; nia.
Qed.
Lemma is_norm_exists k : forall f, length f = (2 ^ k)%nat -> exists m, is_norm k f m.
Proof.
  induction k as [|k IH]; intros f L.
  - destruct f as [|c [|]]; try discriminate L. exists c. constructor.
  - destruct (fieldNorm_ok k f L) as (r & _ & Lr & E). destruct (IH r Lr) as (m & Hm).
    exists m. econstructor; eassumption.
Qed.

(** ** NtruSolve *)
(** one level up: from a solution for the norms to one for f, g *)
Lemma lift_solution m f g fp gp Fp Gp c : (0 < m)%nat ->
  length f = (2 * m)%nat -> length g = (2 * m)%nat -> length fp = m -> length gp = m ->
  length Fp = m -> length Gp = m ->
  plift fp = negacyc (2 * m) f (pconj f) -> plift gp = negacyc (2 * m) g (pconj g) ->
  psub m (negacyc m fp Gp) (negacyc m gp Fp) = pconst m c ->
  psub (2 * m) (negacyc (2 * m) f (negacyc (2 * m) (plift Gp) (pconj f)))
               (negacyc (2 * m) g (negacyc (2 * m) (plift Fp) (pconj g))) = pconst (2 * m) c.
Proof.
  intros Pm Lf Lg Lfp Lgp LFp LGp Ef Eg E. set (n := (2 * m)%nat) in *.
  assert (Lcf : length (pconj f) = n) by (rewrite pconj_length; exact Lf).
  assert (Lcg : length (pconj g) = n) by (rewrite pconj_length; exact Lg).
  assert (LlF : length (plift Fp) = n) by (rewrite plift_length; unfold n; lia).
  assert (LlG : length (plift Gp) = n) by (rewrite plift_length; unfold n; lia).
  apply (poly_eq n); [apply psub_length|apply pconst_length|]. intros x _.
  rewrite eval_pconst by (unfold n; lia). rewrite eval_psub by apply negacyc_length.
  pose proof (nega_eval n f (negacyc n (plift Gp) (pconj f)) x Lf (negacyc_length _ _ _)) as H1.
  pose proof (nega_eval n g (negacyc n (plift Fp) (pconj g)) x Lg (negacyc_length _ _ _)) as H2.
  pose proof (nega_eval n (plift Gp) (pconj f) x LlG Lcf) as H3.
  pose proof (nega_eval n (plift Fp) (pconj g) x LlF Lcg) as H4.
  pose proof (nega_eval n f (pconj f) x Lf Lcf) as H5.
  pose proof (nega_eval n g (pconj g) x Lg Lcg) as H6.
  pose proof (nega_eval m fp Gp (x * x) Lfp LGp) as H7.
  pose proof (nega_eval m gp Fp (x * x) Lgp LFp) as H8.
  rewrite <- Ef in H5. rewrite <- Eg in H6. rewrite eval_plift in *.
  apply (f_equal (fun l => eval l (x * x))) in E.
  rewrite eval_pconst, eval_psub in E by (try assumption; apply negacyc_length).
  unfold n in H1, H2, H3, H4, H5, H6 |- *. rewrite pow_sq in *.
  generalize dependent ((x * x) ^ Z.of_nat m + 1). intros M H1 H2 H3 H4 H5 H6 H7 H8.
  setoid_rewrite H1. setoid_rewrite H2. setoid_rewrite H3. setoid_rewrite H4.
  transitivity (eval Gp (x * x) * (eval f x * eval (pconj f) x)
              - eval Fp (x * x) * (eval g x * eval (pconj g) x)); [apply cong_eq; ring|].
  setoid_rewrite <- H5. setoid_rewrite <- H6.
  transitivity (eval fp (x * x) * eval Gp (x * x) - eval gp (x * x) * eval Fp (x * x));
    [apply cong_eq; ring|].
  setoid_rewrite <- H7. setoid_rewrite <- H8. apply cong_eq. exact E.
Qed.

Definition solution (k : nat) (f g : list Z) (FG : list Z * list Z) (d : Z) : Prop :=
  length (fst FG) = (2 ^ k)%nat /\ length (snd FG) = (2 ^ k)%nat /\
  psub (2 ^ k) (negacyc (2 ^ k) f (snd FG)) (negacyc (2 ^ k) g (fst FG)) = pconst (2 ^ k) (q * d).

Lemma degree_one a b c d :
  psub 1 (negacyc 1 [a] [b]) (negacyc 1 [c] [d]) = [a * b - c * d].
Proof. reflexivity. Qed.

Lemma NtruSolve_depth_ok quo fuel k : forall depth f g,
  (k < depth)%nat -> length f = (2 ^ k)%nat -> length g = (2 ^ k)%nat ->
  exists nf ng d, is_norm k f nf /\ is_norm k g ng /\
    Z.abs d = Z.gcd nf ng /\ (0 <= nf -> 0 <= ng -> 0 <= d) /\
    (forall FG, NtruSolve_depth quo fuel depth f g = Ok FG ->
       big_Int64 d = 1 /\ solution k f g FG d) /\
    ((forall j, (1 <= j <= k)%nat -> quo_noerr quo j) ->
     forall e, NtruSolve_depth quo fuel depth f g = Err e ->
       big_Int64 d <> 1 /\ e = ErrEquation) /\
    (big_Int64 d <> 1 -> NtruSolve_depth quo fuel depth f g = Err ErrEquation) /\
    ((forall j, (1 <= j <= k)%nat -> quo_total quo j) ->
     NtruSolve_depth quo fuel depth f g <> Panic).
Proof.
  induction k as [|k IH]; intros [|depth] f g Hd Lf Lg; try lia.
  - cbn [Nat.pow] in *. destruct f as [|f0 [|]], g as [|g0 [|]]; try discriminate.
    cbn [NtruSolve_depth length Nat.eqb]. cbn [idx nth_error bind].
    destruct (xgcd_ok f0 g0) as (d & u & v & -> & Ed & Eg & Sg). cbn [bind].
    exists f0, g0, d. split; [constructor|]. split; [constructor|]. split; [exact Eg|].
    split; [intros; lia|].
    destruct (Z.eqb_spec (big_Int64 d) 1) as [E|E]; cbn [negb];
      (split; [|split; [|split]]); try discriminate; auto.
    + intros FG H. apply Ok_inj in H. subst FG. split; [exact E|].
      unfold solution. cbn [fst snd length]. split; [reflexivity|]. split; [reflexivity|].
      assert (H : f0 * (Q * u) - g0 * (- Q * v) = q * d) by (subst d; change q with Q; ring).
      exact (f_equal (fun z => [z]) H).
    + intros H. contradiction.
    + intros _ e H. injection H as <-. auto.
  - destruct (fieldNorm_ok k f Lf) as (fp & E1 & L1 & P1).
    destruct (fieldNorm_ok k g Lg) as (gp & E2 & L2 & P2).
    assert (Pm : (0 < 2 ^ k)%nat) by apply pow2_pos.
    destruct (IH depth fp gp ltac:(lia) L1 L2) as (nf & ng & d & Nf & Ng & Ed & Sd & HOk & HErr & HNo & HPan).
    exists nf, ng, d.
    split; [exact (norm_half k f fp nf Lf L1 P1 Nf)|]. split; [exact (norm_half k g gp ng Lg L2 P2 Ng)|]. split; [exact Ed|].
    split; [exact Sd|].
    cbn [NtruSolve_depth]. 
    destruct (Nat.eqb_spec (length f) 1) as [N|_]; [rewrite Lf in N; cbn [Nat.pow] in N; lia|].
    rewrite E1, E2. cbn [bind].
    destruct (NtruSolve_depth quo fuel depth fp gp) as [[Fp Gp]|e| |]; cbn [bind].
    + destruct (HOk _ eq_refl) as (Hd1 & LFp & LGp & Eq). cbn [fst snd] in *.
      rewrite !galoisConjugate_ok, !lift_ok. cbn [bind].
      assert (En : (2 ^ S k = 2 * 2 ^ k)%nat) by reflexivity.
      rewrite !(karamul_ok (S k)) by (rewrite ?plift_length, ?pconj_length; lia). cbn [bind].
      rewrite En in *. set (m := (2 ^ k)%nat) in *.
      destruct (reduce_bad quo fuel (S k) f g
        (negacyc (2 * m) (plift Fp) (pconj g)) (negacyc (2 * m) (plift Gp) (pconj f))) as [Be Bp];
        rewrite ?En; fold m; try assumption; try apply negacyc_length.
      split; [|split; [|split]]; [| |contradiction|intros Hq; apply Bp, Hq; lia].
      * intros FG E.
        apply (reduce_ok quo fuel (S k)) in E; rewrite ?En; fold m; try assumption; try apply negacyc_length.
        rewrite En in E. fold m in E.
        apply reduced_equation in E; try assumption; try apply negacyc_length; [|lia].
        destruct E as (LF & LG & E). split; [exact Hd1|]. unfold solution. rewrite En. fold m.
        split; [exact LF|]. split; [exact LG|]. rewrite E.
        apply (lift_solution m f g fp gp); assumption.
      * intros Hq e E. exfalso. refine (Be _ e E). apply Hq. lia.
    + split; [discriminate|]. split; [|split; [|discriminate]].
      * intros Hq e' E. injection E as <-. apply HErr; auto. intros j Hj. apply Hq. lia.
      * intros H. specialize (HNo H). congruence.
    + split; [discriminate|]. split; [discriminate|]. split; [intros H; specialize (HNo H); discriminate HNo|]. intros Hq. apply HPan. intros j Hj. apply Hq. lia.
    + split; [discriminate|]. split; [discriminate|]. split; [intros H; specialize (HNo H); discriminate HNo|discriminate].
Qed.

Theorem NtruSolve_ok quo fuel k f g :
  length f = (2 ^ k)%nat -> length g = (2 ^ k)%nat ->
  exists nf ng d, is_norm k f nf /\ is_norm k g ng /\
    Z.abs d = Z.gcd nf ng /\ (0 <= nf -> 0 <= ng -> 0 <= d) /\
    (forall FG, NtruSolve quo fuel f g = Ok FG -> big_Int64 d = 1 /\ solution k f g FG d) /\
    ((forall j, (1 <= j <= k)%nat -> quo_noerr quo j) ->
     forall e, NtruSolve quo fuel f g = Err e -> big_Int64 d <> 1 /\ e = ErrEquation) /\
    (big_Int64 d <> 1 -> NtruSolve quo fuel f g = Err ErrEquation) /\
    ((forall j, (1 <= j <= k)%nat -> quo_total quo j) ->
     NtruSolve quo fuel f g <> Panic).
Proof.
  intros Lf Lg. apply NtruSolve_depth_ok; try assumption.
  rewrite Lf. apply Nat.pow_gt_lin_r. lia.
Qed.
