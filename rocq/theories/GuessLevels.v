(** At least one in 2^16 hash points has a squared norm in the window [2^33 - 1393883648,
    2^33 - 1393883648 + beta^2]: the residues are divided into 20 levels, the number of points per
    sum of levels is bounded below by repeated squaring, and the rest by Chebyshev's inequality. *)
From Verif Require Import GoBase Spec Counting Levels.

Definition bounds : list Z := [1248; 1849; 2308; 2686; 3023; 3320; 3599; 3852; 4095; 4320; 4537; 4741; 4940;
  5128; 5313; 5487; 5661; 5825; 5989].
(** six times the mean of x^2 in each level *)
Definition means : list Z := [3117504; 14577006; 26038786; 37496479; 48962934; 60413608; 71868520; 83330460;
  94785580; 106268896; 117719790; 129170569; 140631486; 152094813; 163570158; 175007539; 186465439; 197940201;
  209404785; 220862946].
Fixpoint level_of (bs : list Z) (x : Z) : nat :=
  match bs with [] => 0%nat | b :: bs => if x <=? b then 0%nat else S (level_of bs x) end.
Definition lev (c : Z) : nat := level_of bounds (Z.abs (centred c)).
Definition mean (b : nat) : Z := nth b means 0.
Definition dev (c : Z) : Z := 6 * (centred c * centred c) - mean (lev c).
Definition VV : Z := 11289749052785.

Definition table : list (nat * Z) := map (fun c => (lev c, dev c)) residues.
Definition stats : list (Z * Z * Z) :=
  map (fun b =>
    fold_left (fun s p => if Nat.eqb (fst p) b
        then (fst (fst s) + 1, snd (fst s) + snd p, snd s + snd p * snd p) else s) table (0, 0, 0)) (seq 0 20).
Definition sizes : list Z := [2497; 1202; 918; 756; 674; 594; 558; 506; 486; 450; 434; 408; 398; 376; 370; 348; 348;
  328; 328; 310].
Definition stats_ok : bool :=
  forallb (fun p => Nat.ltb (fst p) 20) table &&
  (let st := stats in
   forallb (fun s => (snd (fst s) =? 0) && (snd s <=? VV * fst (fst s))) st &&
   forallb (fun p => fst p =? snd p) (combine (map (fun s => fst (fst s)) st) sizes)).
Lemma stats_check : stats_ok = true.
Proof. vm_compute. reflexivity. Qed.

Lemma stats_fold (b : nat) (l : list Z) : forall x y z : Z,
  fold_left (fun s p => if Nat.eqb (fst p) b
      then (fst (fst s) + 1, snd (fst s) + snd p, snd s + snd p * snd p) else s)
    (map (fun c => (lev c, dev c)) l) (x, y, z) =
  (x + zsum l (fun c => b2z (Nat.eqb (lev c) b)), y + zsum l (fun c => b2z (Nat.eqb (lev c) b) * dev c),
   z + zsum l (fun c => b2z (Nat.eqb (lev c) b) * (dev c * dev c))).
Proof.
  induction l as [|c l IH]; intros x y z.
  - cbn. rewrite !Z.add_0_r. reflexivity.
  - cbn [map fold_left fst snd zsum fold_right].
    destruct (Nat.eqb (lev c) b); rewrite IH; unfold zsum; cbn [b2z]; repeat (f_equal; try ring).
Qed.

Lemma lev_lt c : In c residues -> (lev c < 20)%nat.
Proof.
  intros Hc. pose proof stats_check as K. unfold stats_ok in K. apply andb_prop in K. destruct K as [K _].
  rewrite forallb_forall in K. specialize (K (lev c, dev c)). apply Nat.ltb_lt.
  apply K. unfold table. apply in_map_iff. exists c. split; [reflexivity|exact Hc].
Qed.
Lemma stats_nth b : (b < 20)%nat -> nth b stats (0, 0, 0) =
  (zsum residues (fun c => b2z (Nat.eqb (lev c) b)), zsum residues (fun c => b2z (Nat.eqb (lev c) b) * dev c),
   zsum residues (fun c => b2z (Nat.eqb (lev c) b) * (dev c * dev c))).
Proof.
  intros Hb. unfold stats.
  rewrite (nth_indep _ _ (fold_left (fun s p => if Nat.eqb (fst p) 20%nat
        then (fst (fst s) + 1, snd (fst s) + snd p, snd s + snd p * snd p) else s) table (0, 0, 0)))
    by (rewrite map_length, seq_length; exact Hb).
  rewrite (map_nth (fun b => fold_left (fun s p => if Nat.eqb (fst p) b
        then (fst (fst s) + 1, snd (fst s) + snd p, snd s + snd p * snd p) else s) table (0, 0, 0)) (seq 0 20) 20%nat b).
  rewrite seq_nth by exact Hb. cbn [Nat.add]. unfold table. rewrite stats_fold. rewrite !Z.add_0_l. reflexivity.
Qed.
Lemma stats_len : length stats = 20%nat.
Proof. unfold stats. rewrite map_length. apply seq_length. Qed.
Lemma stats_in b : (b < 20)%nat -> In (nth b stats (0, 0, 0)) stats.
Proof. intros Hb. apply nth_In. rewrite stats_len. exact Hb. Qed.
Lemma dev_mean b : (b < 20)%nat -> zsum residues (fun c => b2z (Nat.eqb (lev c) b) * dev c) = 0.
Proof.
  intros Hb. pose proof stats_check as K. unfold stats_ok in K. apply andb_prop in K. destruct K as [_ K].
  cbv zeta in K. apply andb_prop in K. destruct K as [K _].
  rewrite forallb_forall in K. specialize (K _ (stats_in b Hb)). rewrite (stats_nth b Hb) in K.
  cbn [fst snd] in K. apply andb_prop in K. destruct K as [K _]. apply Z.eqb_eq in K. exact K.
Qed.
Lemma dev_var b : (b < 20)%nat ->
  zsum residues (fun c => b2z (Nat.eqb (lev c) b) * (dev c * dev c)) <= VV * zsum residues (fun c => b2z (Nat.eqb (lev c) b)).
Proof.
  intros Hb. pose proof stats_check as K. unfold stats_ok in K. apply andb_prop in K. destruct K as [_ K].
  cbv zeta in K. apply andb_prop in K. destruct K as [K _].
  rewrite forallb_forall in K. specialize (K _ (stats_in b Hb)). rewrite (stats_nth b Hb) in K.
  cbn [fst snd] in K. apply andb_prop in K. destruct K as [_ K]. apply Z.leb_le in K. exact K.
Qed.
Lemma size_level b : (b < 20)%nat -> zsum residues (fun c => b2z (Nat.eqb (lev c) b)) = nth b sizes 0.
Proof.
  intros Hb. pose proof stats_check as K. unfold stats_ok in K. apply andb_prop in K. destruct K as [_ K].
  cbv zeta in K. apply andb_prop in K. destruct K as [_ K].
  rewrite forallb_forall in K.
  assert (L : length (map (fun s => fst (fst s)) stats) = length sizes) by (rewrite map_length, stats_len; reflexivity).
  assert (E : nth b (map (fun s => fst (fst s)) stats) 0 = zsum residues (fun c => b2z (Nat.eqb (lev c) b))).
  { change 0 with ((fun s : Z * Z * Z => fst (fst s)) (0, 0, 0)). rewrite map_nth, (stats_nth b Hb). reflexivity. }
  specialize (K (nth b (combine (map (fun s => fst (fst s)) stats) sizes) (0, 0))).
  rewrite <- E. apply Z.eqb_eq. rewrite combine_nth in K by exact L. apply K.
  rewrite <- (combine_nth _ _ _ _ _ L). apply nth_In. rewrite combine_length, map_length, stats_len. exact Hb.
Qed.

(** ** The bound by repeated squaring *)
Definition start : list Z := [12992618; 6393342; 4991274; 4201805; 3829299; 3449778; 3312716; 3070760; 3014928;
  2853635; 2813332; 2703565; 2695907; 2603485; 2618872; 2517892; 2573845; 2479832; 2534940; 2449068].
Definition plan : list (Z * nat * nat) := [(24, 0%nat, 39%nat); (28, 0%nat, 67%nat); (28, 10%nat, 100%nat); (31, 25%nat, 142%nat); (29, 40%nat, 199%nat);
  (27, 57%nat, 279%nat); (25, 81%nat, 390%nat); (25, 114%nat, 547%nat)].
Definition start_ok : bool :=
  forallb (fun j => nth j start 0 * (2 ^ 92 * 45 ^ Z.of_nat j) <=? nth j sizes 0 * (45 ^ 19 * 46 ^ Z.of_nat j)) (seq 0 20).
Lemma start_check : start_ok = true. Proof. vm_compute. reflexivity. Qed.
Lemma pmf_one b : (b < 20)%nat -> pmf lev 1 b = nth b sizes 0.
Proof.
  intros Hb. unfold pmf. rewrite total_S, <- (size_level b Hb). apply zsum_ext. intros c _.
  rewrite total_O. cbn [lsum fold_right]. rewrite Nat.add_0_r. reflexivity.
Qed.
Lemma start_lower : lower lev 46 45 1 (2 ^ 92) (45 ^ 19) 0 start.
Proof.
  split; [lia|]. split; [lia|]. split.
  - repeat (constructor; [lia|]). constructor.
  - intros j. destruct (Nat.lt_ge_cases j 20) as [L|L].
    + rewrite pmf_one by exact L. pose proof start_check as K. unfold start_ok in K. rewrite forallb_forall in K.
      specialize (K j). apply Z.leb_le. cbn [Nat.add]. apply K. apply in_seq. lia.
    + rewrite nth_overflow by exact L. rewrite Z.mul_0_l.
      apply Z.mul_nonneg_nonneg; [apply pmf_nonneg|]. apply Z.mul_nonneg_nonneg; [lia|]. apply Z.pow_nonneg. lia.
Qed.

(** the three coefficients that are needed, and the offset *)
Definition final : nat * list Z := squares plan (0%nat, start).
Definition wanted : nat * list Z := let st := final in (fst st, map (lcoef (snd st)) [548; 549; 550]%nat).
Lemma wanted_eq : wanted = (1544%nat, [21264101639; 21256534224; 21247761085]).
Proof. vm_compute. reflexivity. Qed.

(** ** Upper bounds of powers, with a mantissa of 65 bits *)
Definition cut (p : Z * Z) : Z * Z :=
  let k := Z.log2 (fst p) - 64 in
  if k <=? 0 then p else (Z.shiftr (fst p) k + 1, snd p + k).
Fixpoint upow (x : Z) (p : positive) : Z * Z :=
  match p with
  | xH => (x, 0)
  | xO p => let u := upow x p in cut (fst u * fst u, 2 * snd u)
  | xI p => let u := upow x p in cut (fst u * fst u * x, 2 * snd u)
  end.
Definition above (y : Z) (p : Z * Z) : Prop := 0 <= fst p /\ 0 <= snd p /\ y <= fst p * 2 ^ snd p.
Lemma cut_above y p : above y p -> above y (cut p).
Proof.
  intros (A & B & C). unfold cut. set (k := Z.log2 (fst p) - 64).
  destruct (Z.leb_spec k 0); [split; [|split]; assumption|]. unfold above. cbn [fst snd].
  assert (P2 : 0 < 2 ^ k) by (apply Z.pow_pos_nonneg; lia).
  rewrite Z.shiftr_div_pow2 by lia. pose proof (Z.div_pos (fst p) (2 ^ k) A P2).
  split; [lia|]. split; [lia|]. eapply Z.le_trans; [exact C|].
  replace (snd p + k) with (k + snd p) by lia. rewrite Z.pow_add_r by lia. rewrite Z.mul_assoc.
  apply Z.mul_le_mono_nonneg_r; [apply Z.pow_nonneg; lia|].
  pose proof (Z.mul_succ_div_gt (fst p) (2 ^ k) P2). nia.
Qed.
Lemma upow_above x p : 0 <= x -> above (x ^ Zpos p) (upow x p).
Proof.
  intros Hx. induction p as [p (A & B & C)|p (A & B & C)|]; cbn [upow].
  - apply cut_above. unfold above. cbn [fst snd].
    assert (P0 : 0 <= x ^ Zpos p) by (apply Z.pow_nonneg; exact Hx).
    split; [nia|]. split; [lia|]. replace (Zpos p~1) with (Zpos p + Zpos p + 1) by lia.
    rewrite !Z.pow_add_r, Z.pow_1_r by lia. replace (2 * snd (upow x p)) with (snd (upow x p) + snd (upow x p)) by lia.
    rewrite Z.pow_add_r by lia.
    replace (fst (upow x p) * fst (upow x p) * x * (2 ^ snd (upow x p) * 2 ^ snd (upow x p)))
      with (fst (upow x p) * 2 ^ snd (upow x p) * (fst (upow x p) * 2 ^ snd (upow x p)) * x) by ring.
    apply Z.mul_le_mono_nonneg_r; [exact Hx|]. apply Z.mul_le_mono_nonneg; assumption.
  - apply cut_above. unfold above. cbn [fst snd].
    assert (P0 : 0 <= x ^ Zpos p) by (apply Z.pow_nonneg; exact Hx).
    split; [nia|]. split; [lia|]. replace (Zpos p~0) with (Zpos p + Zpos p) by lia.
    rewrite !Z.pow_add_r by lia. replace (2 * snd (upow x p)) with (snd (upow x p) + snd (upow x p)) by lia.
    rewrite Z.pow_add_r by lia.
    replace (fst (upow x p) * fst (upow x p) * (2 ^ snd (upow x p) * 2 ^ snd (upow x p)))
      with (fst (upow x p) * 2 ^ snd (upow x p) * (fst (upow x p) * 2 ^ snd (upow x p))) by ring.
    apply Z.mul_le_mono_nonneg; assumption.
  - unfold above. cbn [fst snd]. rewrite Z.pow_1_r. lia.
Qed.
Lemma above_mul x y p r : 0 <= x -> 0 <= y -> above x p -> above y r -> above (x * y) (fst p * fst r, snd p + snd r).
Proof.
  intros Hx Hy (A & B & C) (A' & B' & C'). unfold above. cbn [fst snd]. split; [nia|]. split; [lia|].
  rewrite Z.pow_add_r by lia.
  replace (fst p * fst r * (2 ^ snd p * 2 ^ snd r)) with (fst p * 2 ^ snd p * (fst r * 2 ^ snd r)) by ring.
  apply Z.mul_le_mono_nonneg; assumption.
Qed.

(** ** The three sums of levels *)
Definition near (s : nat) (d : Z) : Z :=
  total 512 (fun v => b2z (Nat.eqb (lsum lev v) s && (Z.abs (esum dev v) <? d))).
Definition sums_ok : bool :=
  forallb (fun x : positive * positive * Z * Z * Z => let '(s, r, d, lc, w) := x in
    let u1 := upow q 512 in let u2 := upow 46 s in let u3 := upow 45 r in
    (snd u1 + (snd u2 + snd u3) <=? 60446) && (512 * VV <=? d * d) &&
    (w * (d * d) * (fst u1 * (fst u2 * fst u3)) <=?
     (d * d - 512 * VV) * lc * 65536000 * 2 ^ (60446 - (snd u1 + (snd u2 + snd u3)))))
  [(3636%positive, 6092%positive, 82239104, 21264101639, 230);
   (3637%positive, 6091%positive, 93699104, 21256534224, 520);
   (3638%positive, 6090%positive, 86393124, 21247761085, 330)].
Lemma sums_check : sums_ok = true. Proof. vm_compute. reflexivity. Qed.

#[local] Opaque final lmul squares start lcoef total points upow Z.pow.
Lemma final_lower : exists A B, (forall e, 0 <= e <= 60446 -> A * A = 2 ^ e * 2 ^ (60446 - e)) /\
  (forall s r, 0 <= s -> 0 <= r -> s + r = 9728 -> B * B = 45 ^ s * 45 ^ r) /\
  lower lev 46 45 256 A B 1544 (snd final).
Proof.
  exists (2 ^ exp2 plan 92), ((45 ^ 19) ^ 2 ^ Z.of_nat (length plan)). split; [|split].
  - replace (exp2 plan 92) with 30223 by (vm_compute; reflexivity). intros e He.
    rewrite <- !Z.pow_add_r by lia. f_equal. lia.
  - replace (Z.of_nat (length plan)) with 8 by reflexivity. intros s r Hs Hr E.
    rewrite <- !Z.pow_mul_r by lia. change (19 * 2 ^ 8) with 4864.
    rewrite <- !Z.pow_add_r by lia. f_equal. lia.
  - pose proof (lower_squares lev 46 45 ltac:(lia) ltac:(lia) plan) as K.
    assert (F : Forall (fun p : Z * nat * nat => 0 <= fst (fst p)) plan) by (repeat (constructor; [cbn; lia|]); constructor).
    specialize (K F 1%nat 92 (45 ^ 19) (0%nat, start) ltac:(lia) start_lower).
    replace 1544%nat with (fst final) by exact (f_equal fst wanted_eq). exact K.
Qed.
Lemma final_pmf : exists A B, (forall e, 0 <= e <= 60446 -> A = 2 ^ e * 2 ^ (60446 - e)) /\
  (forall s r, 0 <= s -> 0 <= r -> s + r = 9728 -> B = 45 ^ s * 45 ^ r) /\
  forall t lc, nth t (lmul (snd final) (snd final)) 0 = lc -> forall s, (s = 3088 + t)%nat ->
  lc * (A * 45 ^ Z.of_nat s) <= pmf lev 512 s * (B * 46 ^ Z.of_nat s).
Proof.
  destruct final_lower as (A & B & HA & HB & L). exists (A * A), (B * B). split; [exact HA|]. split; [exact HB|].
  intros t lc E s ->.
  destruct (lower_mul lev 46 45 ltac:(lia) ltac:(lia) _ _ _ _ _ _ _ _ _ _ L L) as (_ & _ & _ & K).
  specialize (K t). rewrite E in K. exact K.
Qed.
Lemma near_arith d w lc vv mm q512 x46 y45 z45 tE tF N pm : 0 < d -> 0 <= w -> vv <= d * d ->
  0 < x46 -> 0 < y45 -> 0 < z45 -> 0 < tE -> 0 < tF ->
  q512 * (x46 * y45) <= mm * tE -> w * (d * d) * mm <= (d * d - vv) * lc * 65536000 * tF ->
  lc * (tE * tF * z45) <= pm * (z45 * y45 * x46) -> (d * d - vv) * pm <= d * d * N ->
  w * q512 <= 65536000 * N.
Proof.
  intros Hd Hw K2 P2 P3 PS PE PF M2 K3 K4 K5.
  assert (K4' : lc * (tE * tF) <= pm * (y45 * x46)).
  { apply (Zmult_le_reg_r _ _ z45); [lia|]. eapply Z.le_trans; [|eapply Z.le_trans; [exact K4|]];
      apply Z.eq_le_incl; ring. }
  apply (Zmult_le_reg_r _ _ (d * d * (x46 * y45))); [apply Z.lt_gt; nia|].
  apply Z.le_trans with (w * (d * d) * (mm * tE)).
  { replace (w * q512 * (d * d * (x46 * y45))) with (w * (d * d) * (q512 * (x46 * y45))) by ring.
    apply Z.mul_le_mono_nonneg_l; [nia|exact M2]. }
  apply Z.le_trans with ((d * d - vv) * lc * 65536000 * tF * tE).
  { rewrite Z.mul_assoc. apply Z.mul_le_mono_nonneg_r; [lia|exact K3]. }
  apply Z.le_trans with ((d * d - vv) * 65536000 * (pm * (y45 * x46))).
  { replace ((d * d - vv) * lc * 65536000 * tF * tE)
      with ((d * d - vv) * 65536000 * (lc * (tE * tF))) by ring.
    apply Z.mul_le_mono_nonneg_l; [lia|exact K4']. }
  replace ((d * d - vv) * 65536000 * (pm * (y45 * x46)))
    with ((d * d - vv) * pm * (65536000 * (y45 * x46))) by ring.
  replace (65536000 * N * (d * d * (x46 * y45))) with (d * d * N * (65536000 * (y45 * x46))) by ring.
  apply Z.mul_le_mono_nonneg_r; [nia|exact K5].
Qed.
Lemma pow_up (u1 u2 u3 : Z * Z) a b c : 0 <= a -> 0 <= b -> 0 <= c -> above a u1 -> above b u2 -> above c u3 ->
  0 <= snd u1 + (snd u2 + snd u3) /\
  a * (b * c) <= fst u1 * (fst u2 * fst u3) * 2 ^ (snd u1 + (snd u2 + snd u3)).
Proof.
  intros Ha Hb Hc A1 A2 A3.
  destruct (above_mul _ _ _ _ Ha (Z.mul_nonneg_nonneg _ _ Hb Hc) A1 (above_mul _ _ _ _ Hb Hc A2 A3)) as (_ & M1 & M2).
  cbn [fst snd] in M1, M2. split; assumption.
Qed.
Lemma near_at (s r : positive) (d lc w : Z) t : 0 < d -> 0 <= w ->
  In (s, r, d, lc, w) [(3636%positive, 6092%positive, 82239104, 21264101639, 230);
   (3637%positive, 6091%positive, 93699104, 21256534224, 520);
   (3638%positive, 6090%positive, 86393124, 21247761085, 330)] ->
  nth t (lmul (snd final) (snd final)) 0 = lc -> (Pos.to_nat s = 3088 + t)%nat -> Zpos s + Zpos r = 9728 ->
  w * q ^ 512 <= 65536000 * near (Pos.to_nat s) d.
Proof.
  intros Hd Hw I E Es Er. pose proof sums_check as K. unfold sums_ok in K. rewrite forallb_forall in K.
  specialize (K _ I). cbv beta iota zeta in K.
  apply andb_prop in K. destruct K as [K K3]. apply andb_prop in K. destruct K as [K1 K2].
  apply Z.leb_le in K1, K2, K3.
  destruct final_pmf as (A & B & HA & HB & K4). specialize (K4 t lc E (Pos.to_nat s) Es). rewrite positive_nat_Z in K4.
  pose proof (near_count lev dev 20 VV lev_lt dev_mean dev_var 512 (Pos.to_nat s) d Hd) as K5.
  change (Z.of_nat 512) with 512 in K5.
  rewrite (HB (Zpos s) (Zpos r) (Pos2Z.is_nonneg s) (Pos2Z.is_nonneg r) Er) in K4.
  assert (Hq : 0 <= q ^ 512) by (apply Z.pow_nonneg; discriminate).
  assert (P2 : 0 < 46 ^ Zpos s) by (apply Z.pow_pos_nonneg; [reflexivity|apply Pos2Z.is_nonneg]).
  assert (P3 : 0 < 45 ^ Zpos r) by (apply Z.pow_pos_nonneg; [reflexivity|apply Pos2Z.is_nonneg]).
  assert (PS : 0 < 45 ^ Zpos s) by (apply Z.pow_pos_nonneg; [reflexivity|apply Pos2Z.is_nonneg]).
  destruct (pow_up (upow q 512) (upow 46 s) (upow 45 r) (q ^ 512) (46 ^ Zpos s) (45 ^ Zpos r)
    Hq (Z.lt_le_incl _ _ P2) (Z.lt_le_incl _ _ P3)
    (upow_above q 512 ltac:(discriminate)) (upow_above 46 s ltac:(discriminate)) (upow_above 45 r ltac:(discriminate))) as [M1 M2].
  rewrite (HA _ (conj M1 K1)) in K4.
  refine (near_arith d w lc (512 * VV) _ (q ^ 512) _ _ _ _ _ _ _ Hd Hw K2 P2 P3 PS _ _ M2 K3 K4 K5).
  - apply Z.pow_pos_nonneg; [reflexivity|exact M1].
  - apply Z.pow_pos_nonneg; [reflexivity|apply Z.le_0_sub, K1].
Qed.

(** ** The window *)
Definition low : Z := 2 ^ 33 - 1393883648.
Definition window (N : Z) : bool := (low <=? N) && (N <=? low + beta2_512).
Definition norm (v : list Z) : Z := sqnorm (map centred v).
Definition at_level (s : nat) (d : Z) (v : list Z) : Z :=
  b2z (Nat.eqb (lsum lev v) s && (Z.abs (esum dev v) <? d)).

Definition means_ok : bool :=
  forallb (fun b => (-12065 <=? mean b - 3117504 - 11460000 * Z.of_nat b) && (mean b - 3117504 - 11460000 * Z.of_nat b <=? 12654))
    (seq 0 20).
Lemma means_check : means_ok = true. Proof. vm_compute. reflexivity. Qed.
Lemma norm_sum n v : point n v ->
  esum dev v + 11460000 * Z.of_nat (lsum lev v) + Z.of_nat n * (3117504 - 12065) <= 6 * norm v <=
  esum dev v + 11460000 * Z.of_nat (lsum lev v) + Z.of_nat n * (3117504 + 12654).
Proof.
  revert v. induction n as [|n IH]; intros v [L F]; destruct v as [|c v]; try discriminate.
  - cbn. lia.
  - injection L as L. inversion F as [|? ? Hc Hv]; subst. specialize (IH v (conj eq_refl Hv)).
    unfold norm in *. cbn [map sqnorm fold_right]. fold (sqnorm (map centred v)).
    cbn [lsum esum fold_right]. fold (lsum lev v) (esum dev v). unfold dev at 1 3.
    pose proof means_check as K. unfold means_ok in K. rewrite forallb_forall in K.
    assert (I : In (lev c) (seq 0 20)).
    { apply in_seq. split; [lia|]. cbn [Nat.add]. apply lev_lt. now apply in_residues. }
    specialize (K _ I). apply andb_prop in K. destruct K as [K1 K2]. apply Z.leb_le in K1, K2.
    rewrite Nat2Z.inj_add. cbn [length]. rewrite Nat2Z.inj_succ. lia.
Qed.
Lemma at_level_window s d v : point 512 v ->
  6 * low + d <= 11460000 * Z.of_nat s + 512 * (3117504 - 12065) ->
  11460000 * Z.of_nat s + 512 * (3117504 + 12654) + d <= 6 * (low + beta2_512) ->
  at_level s d v <= b2z (window (norm v)).
Proof.
  intros P L U. unfold at_level. destruct (Nat.eqb_spec (lsum lev v) s) as [E|_]; [|apply b2z_range].
  destruct (Z.ltb_spec (Z.abs (esum dev v)) d) as [D|_]; [|apply b2z_range]. cbn [andb].
  pose proof (norm_sum 512 v P) as K. change (Z.of_nat 512) with 512 in K. rewrite E in K. unfold window.
  destruct (Z.leb_spec low (norm v)); [|exfalso; lia].
  destruct (Z.leb_spec (norm v) (low + beta2_512)); [|exfalso; lia]. cbn. lia.
Qed.
Lemma at_level_disjoint s s' d d' v : s <> s' -> at_level s d v = 0 \/ at_level s' d' v = 0.
Proof.
  intros N. unfold at_level. destruct (Nat.eqb_spec (lsum lev v) s) as [->|_]; [|now left].
  destruct (Nat.eqb_spec s s'); [contradiction|]. now right.
Qed.
Lemma near3_window a b c da db dc v : a <> b -> a <> c -> b <> c ->
  at_level a da v <= b2z (window (norm v)) -> at_level b db v <= b2z (window (norm v)) ->
  at_level c dc v <= b2z (window (norm v)) ->
  at_level a da v + (at_level b db v + at_level c dc v) <= b2z (window (norm v)).
Proof.
  intros Nab Nac Nbc. pose proof (at_level_disjoint a b da db v Nab). pose proof (at_level_disjoint a c da dc v Nac).
  pose proof (at_level_disjoint b c db dc v Nbc). pose proof (b2z_range (window (norm v))).
  assert (R : forall s d, 0 <= at_level s d v <= 1) by (intros; apply b2z_range).
  pose proof (R a da). pose proof (R b db). pose proof (R c dc). lia.
Qed.
Lemma nat_neq a b : Nat.eqb a b = false -> a <> b.
Proof. apply Nat.eqb_neq. Qed.
Lemma leb_le a b : (a <=? b) = true -> a <= b.
Proof. apply Z.leb_le. Qed.

Theorem window_count : q ^ 512 <= 2 ^ 16 * total 512 (fun v => b2z (window (norm v))).
Proof.
  assert (W : map (lcoef (snd final)) [548; 549; 550]%nat = [21264101639; 21256534224; 21247761085])
    by exact (f_equal snd wanted_eq).
  assert (W1 : lcoef (snd final) 548 = 21264101639) by exact (f_equal (hd 0) W).
  assert (W2 : lcoef (snd final) 549 = 21256534224) by exact (f_equal (fun l => hd 0 (tl l)) W).
  assert (W3 : lcoef (snd final) 550 = 21247761085) by exact (f_equal (fun l => hd 0 (tl (tl l))) W).
  rewrite lcoef_mul in W1, W2, W3.
  assert (K : total 512 (fun v => at_level 3636 82239104 v + (at_level 3637 93699104 v + at_level 3638 86393124 v))
    <= total 512 (fun v => b2z (window (norm v)))).
  { apply total_le. intros v P. apply near3_window; try (apply nat_neq; vm_compute; reflexivity);
      apply (at_level_window _ _ _ P); apply leb_le; vm_compute; reflexivity. }
  rewrite !total_add in K.
  pose proof (near_at 3636 6092 82239104 _ 230 548 eq_refl ltac:(discriminate) (or_introl eq_refl) W1 eq_refl eq_refl) as N1.
  pose proof (near_at 3637 6091 93699104 _ 520 549 eq_refl ltac:(discriminate) (or_intror (or_introl eq_refl)) W2 eq_refl eq_refl) as N2.
  pose proof (near_at 3638 6090 86393124 _ 330 550 eq_refl ltac:(discriminate) (or_intror (or_intror (or_introl eq_refl))) W3 eq_refl eq_refl) as N3.
  change (near (Pos.to_nat 3636) 82239104) with (total 512 (at_level 3636 82239104)) in N1.
  change (near (Pos.to_nat 3637) 93699104) with (total 512 (at_level 3637 93699104)) in N2.
  change (near (Pos.to_nat 3638) 86393124) with (total 512 (at_level 3638 86393124)) in N3.
  change (total 512 (fun v => at_level 3636 82239104 v)) with (total 512 (at_level 3636 82239104)) in K.
  change (total 512 (fun v => at_level 3637 93699104 v)) with (total 512 (at_level 3637 93699104)) in K.
  change (total 512 (fun v => at_level 3638 86393124 v)) with (total 512 (at_level 3638 86393124)) in K.
  change (2 ^ 16) with 65536.
  assert (P1 : 0 <= q ^ 512) by (apply Z.pow_nonneg; discriminate).
  revert N1 N2 N3 P1 K. generalize (q ^ 512).
  generalize (total 512 (at_level 3636 82239104)). generalize (total 512 (at_level 3637 93699104)).
  generalize (total 512 (at_level 3638 86393124)). generalize (total 512 (fun v => b2z (window (norm v)))).
  clear. intros. lia.
Qed.
