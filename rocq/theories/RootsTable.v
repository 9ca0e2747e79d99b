(** The repository's tables of roots: every decimal entry is within 2*10^-15 of
    the exact root.  The tables are checked by integer arithmetic: the square of
    entry 2i of a table is close to entry i of the table below. *)
From Coq Require Import Lra.
From Verif Require Import GoBase Util BaseProofs PolyRing Float FftTables Fft FftShape SpecFft ExactReal
  FftProofs RootsProofs.
Local Open Scope R_scope.

Notation lit := ((Z * Z) * (Z * Z))%type.
(** m * 10^-e in units of 10^-17 *)
Definition sc (p : Z * Z) : Z := (fst p * 10 ^ (17 - snd p))%Z.
Definition sc_ok (p : Z * Z) : bool := (0 <=? snd p)%Z && (snd p <=? 17)%Z.
Definition ok1 (v : lit) (a : Z) (w : lit) : bool :=
  let A := sc (fst w) in let B := sc (snd w) in
  let e0 := (A * A - B * B - sc (fst v) * 10 ^ 17)%Z in
  let e1 := (2 * (A * B) - sc (snd v) * 10 ^ 17)%Z in
  sc_ok (fst w) && sc_ok (snd w) && sc_ok (fst v) && sc_ok (snd v) &&
  (0 <=? A)%Z && (0 <=? B * a)%Z && (99 * 10 ^ 32 <=? A * A + B * B)%Z &&
  (e0 * e0 + e1 * e1 <=? 324 * 10 ^ 36)%Z.
Definition opp_lit (w w' : lit) : bool :=
  (fst (fst w') =? - fst (fst w))%Z && (snd (fst w') =? snd (fst w))%Z &&
  (fst (snd w') =? - fst (snd w))%Z && (snd (snd w') =? snd (snd w))%Z.
Fixpoint check (child parent : list lit) (order : list Z) {struct parent} : bool :=
  match parent, order, child with
  | v :: ps, a :: os, w :: w' :: cs => ok1 v a w && opp_lit w w' && check cs ps os
  | [], [], [] => true
  | _, _, _ => false
  end.

Lemma check_sound child parent order (z : lit) : check child parent order = true ->
  length child = (2 * length parent)%nat /\ length order = length parent /\
  forall i, (i < length parent)%nat ->
    ok1 (nth i parent z) (nth i order 0%Z) (nth (2 * i) child z) = true /\
    opp_lit (nth (2 * i) child z) (nth (2 * i + 1) child z) = true.
Proof.
  revert child order. induction parent as [|v ps IH]; intros child order H; cbn [check] in H.
  - destruct order; [|discriminate H]. destruct child; [|discriminate H].
    repeat split; auto; cbn in *; lia.
  - destruct order as [|a os]; [discriminate H|]. destruct child as [|w [|w' cs]]; try discriminate H.
    apply andb_prop in H. destruct H as [H H3]. apply andb_prop in H. destruct H as [H1 H2].
    destruct (IH cs os H3) as (L1 & L2 & H). cbn [length]. repeat split; try lia.
    all: destruct i as [|i]; [assumption|].
    all: replace (2 * S i)%nat with (S (S (2 * i))) by lia.
    all: destruct (H i ltac:(cbn [length] in *; lia)) as [Ha Hb]; cbn [nth Nat.add]; assumption.
Qed.

Definition lv (p : Z * Z) : R := IZR (fst p) / IZR (10 ^ snd p).
Definition cv (w : lit) : Cx := (lv (fst w), lv (snd w)).
Lemma lv_sc p : sc_ok p = true -> lv p = IZR (sc p) / 10 ^ 17.
Proof.
  unfold sc_ok, lv, sc. rewrite andb_true_iff, !Z.leb_le. intros [H1 H2].
  replace (10 ^ 17)%R with (IZR (10 ^ (17 - snd p)) * IZR (10 ^ snd p)).
  - rewrite mult_IZR. field. split; apply not_0_IZR; apply Z.pow_nonzero; lia.
  - rewrite <- mult_IZR, <- Z.pow_add_r by lia. replace (17 - snd p + snd p)%Z with 17%Z by lia.
    change (10 ^ 17)%Z with 100000000000000000%Z. cbn [pow]. lra.
Qed.

(** One square root: from v close to v* to w close to w*, where w*^2 = v*. *)
Lemma sqrt_close (v vs w ws : Cx) : Cmul ws ws = vs -> Csqnorm ws = 1 ->
  Csqnorm (Csub v vs) <= 4 / 10 ^ 30 ->
  Csqnorm (Csub (Cmul w w) v) <= 324 / 10 ^ 32 ->
  99 / 100 <= Csqnorm w ->
  0 <= fst w * fst ws + snd w * snd ws ->
  Csqnorm (Csub w ws) <= 4 / 10 ^ 30.
Proof.
  intros E U Hv Hw Nw Hd.
  assert (PQ : Csqnorm (Csub w ws) * Csqnorm (Cadd w ws) = Csqnorm (Csub (Cmul w w) vs)).
  { rewrite <- E. unfold Csqnorm, Csub, Cadd, Cmul. cbn [fst snd]. ring. }
  assert (T : Csqnorm (Csub (Cmul w w) vs) <= 2 * Csqnorm (Csub (Cmul w w) v) + 2 * Csqnorm (Csub v vs)).
  { unfold Csqnorm, Csub. cbn [fst snd]. set (a := fst (Cmul w w)). set (b := snd (Cmul w w)).
    set (c := fst v). set (d := snd v). set (e := fst vs). set (f := snd vs).
    pose proof (Rle_0_sqr ((a - c) - (c - e))) as S1. pose proof (Rle_0_sqr ((b - d) - (d - f))) as S2.
    unfold Rsqr in S1, S2. lra. }
  assert (Sm : Csqnorm (Csub w ws) + Csqnorm (Cadd w ws) = 2 * Csqnorm w + 2).
  { replace 2 with (2 * Csqnorm ws) at 2 by lra. unfold Csqnorm, Csub, Cadd. cbn [fst snd]. ring. }
  assert (Q1 : Csqnorm (Cadd w ws) >= 199 / 100).
  { replace (Csqnorm (Cadd w ws)) with (Csqnorm w + Csqnorm ws + 2 * (fst w * fst ws + snd w * snd ws)).
    - lra.
    - unfold Csqnorm, Cadd. cbn [fst snd]. ring. }
  assert (P0 : 0 <= Csqnorm (Csub w ws)).
  { unfold Csqnorm. pose proof (Rle_0_sqr (fst (Csub w ws))). pose proof (Rle_0_sqr (snd (Csub w ws))).
    unfold Rsqr in *. lra. }
  set (P := Csqnorm (Csub w ws)) in *. set (Q := Csqnorm (Cadd w ws)) in *. clearbody P Q.
  assert (B : P * Q <= 1448 / 10 ^ 32) by lra.
  assert (P1 : P <= 8 / 10 ^ 30).
  { assert (P * (199 / 100) <= P * Q) by (apply Rmult_le_compat_l; lra). lra. }
  assert (Q2 : Q >= 39 / 10) by lra.
  assert (P * (39 / 10) <= P * Q) by (apply Rmult_le_compat_l; lra). lra.
Qed.

Lemma ok1_sound v a w : ok1 v a w = true ->
  Csqnorm (Csub (Cmul (cv w) (cv w)) (cv v)) <= 324 / 10 ^ 32 /\ 99 / 100 <= Csqnorm (cv w) /\
  0 <= fst (cv w) /\ 0 <= snd (cv w) * IZR a.
Proof.
  unfold ok1. rewrite !andb_true_iff, !Z.leb_le. intros H.
  destruct H as (((((((S1 & S2) & S3) & S4) & HA) & HB) & HN) & HE).
  unfold cv, Csqnorm, Csub, Cmul. cbn [fst snd]. rewrite !lv_sc by assumption.
  set (A := sc (fst w)) in *. set (B := sc (snd w)) in *. set (V := sc (fst v)) in *. set (W := sc (snd v)) in *.
  apply IZR_le in HA, HB, HN, HE.
  repeat first [rewrite plus_IZR in HE|rewrite minus_IZR in HE|rewrite mult_IZR in HE].
  repeat first [rewrite plus_IZR in HN|rewrite mult_IZR in HN]. rewrite mult_IZR in HB.
  change (IZR (10 ^ 17)) with (IZR 100000000000000000) in *.
  change (IZR (10 ^ 32)) with (IZR 100000000000000000000000000000000) in *.
  change (IZR (10 ^ 36)) with (IZR 1000000000000000000000000000000000000) in *.
  set (a' := IZR A) in *. set (b' := IZR B) in *. set (v' := IZR V) in *. set (w' := IZR W) in *.
  set (o := IZR a) in *. clearbody a' b' v' w' o. clear - HA HB HN HE.
  assert (T : 10 ^ 17 = 100000000000000000) by lra. rewrite T. clear T.
  set (t := 100000000000000000) in *.
  assert (Ht : t > 0) by (unfold t; lra).
  split; [|split; [|split]].
  - replace (_ + _) with (((a' * a' - b' * b' - v' * t) * (a' * a' - b' * b' - v' * t)
       + (2 * (a' * b') - w' * t) * (2 * (a' * b') - w' * t)) / (t * t * t * t)) by (field; lra).
    apply Rmult_le_reg_r with (t * t * t * t); [repeat apply Rmult_lt_0_compat; lra|].
    unfold Rdiv at 1. rewrite Rmult_assoc, Rinv_l by (repeat apply Rmult_integral_contrapositive_currified; lra).
    rewrite Rmult_1_r. eapply Rle_trans; [exact HE|]. unfold t. lra.
  - replace (_ + _) with ((a' * a' + b' * b') / (t * t)) by (field; lra).
    apply Rmult_le_reg_r with (t * t); [apply Rmult_lt_0_compat; lra|].
    unfold Rdiv at 2. rewrite Rmult_assoc, Rinv_l by (apply Rmult_integral_contrapositive_currified; lra).
    rewrite Rmult_1_r. eapply Rle_trans; [|exact HN]. unfold t. lra.
  - apply Rmult_le_pos; [exact HA|]. left. apply Rinv_0_lt_compat. lra.
  - replace (b' / t * o) with (b' * o / t) by (field; lra).
    apply Rmult_le_pos; [exact HB|]. left. apply Rinv_0_lt_compat. lra.
Qed.

Lemma Csqnorm_opp z : Csqnorm (Copp z) = Csqnorm z.
Proof. unfold Csqnorm, Copp. cbn [fst snd]. ring. Qed.

Definition close_tab (k : nat) (tab : list lit) : Prop :=
  length tab = (2 ^ S k)%nat /\
  forall i, (i < 2 ^ S k)%nat ->
    Csqnorm (Csub (nth i (map cv tab) C0) (zeta (2 ^ S k) (nth i (root_order k) 0%Z))) <= 4 / 10 ^ 30.

Lemma close_step k parent child : close_tab k parent -> check child parent (root_order k) = true ->
  close_tab (S k) child.
Proof.
  intros [Lp Hp] H. set (z := ((0, 0), (0, 0))%Z : lit).
  destruct (check_sound child parent _ z H) as (L1 & L2 & Hi). rewrite Lp in L1, Hi.
  assert (L : length child = (2 ^ S (S k))%nat) by (rewrite (pow2_S (S k)); exact L1).
  split; [exact L|].
  assert (N : forall j l, (j < length l)%nat -> nth j (map cv l) C0 = cv (nth j l z)).
  { intros j l Hj. rewrite (nth_indep _ C0 (cv z)) by now rewrite map_length. apply map_nth. }
  assert (EV : forall i, (i < 2 ^ S k)%nat ->
    Csqnorm (Csub (cv (nth (2 * i) child z)) (zeta (2 ^ S (S k)) (nth i (root_order k) 0%Z))) <= 4 / 10 ^ 30).
  { intros i Hlt. destruct (Hi i Hlt) as [O1 _]. apply ok1_sound in O1. destruct O1 as (A1 & A2 & A3 & A4).
    pose proof (Hp i Hlt) as P. rewrite N in P by lia.
    pose proof (pow2_ge1 (S k)) as Pk.
    set (a := nth i (root_order k) 0%Z) in *.
    assert (Ra : (Z.abs a < 2 ^ Z.of_nat (S k))%Z).
    { pose proof (root_order_range k) as RR. rewrite Forall_forall in RR.
      apply (RR a). apply nth_In. now rewrite root_order_length. }
    apply (sqrt_close (cv (nth i parent z)) (zeta (2 ^ S k) a)); auto.
    - rewrite (pow2_S (S k)). apply zeta_double. lia.
    - pose proof (zeta_unit (2 ^ S (S k)) a) as U. unfold Cmul, Cconj, C1 in U.
      apply (f_equal fst) in U. cbn [fst snd] in U. unfold Csqnorm. lra.
    - unfold zeta. cbn [fst snd].
      assert (An : Rabs (IZR a * PI / INR (2 ^ S (S k))) < PI / 2).
      { assert (In : INR (2 ^ S (S k)) = 2 * IZR (2 ^ Z.of_nat (S k))).
        { rewrite INR_IZR_INZ, (pow2_S (S k)), Nat2Z.inj_mul, mult_IZR, pow2_Z. reflexivity. }
        rewrite In. set (p := (2 ^ Z.of_nat (S k))%Z) in *.
        assert (Pp : (0 < p)%Z) by (unfold p; apply Z.pow_pos_nonneg; lia).
        apply IZR_lt in Pp. pose proof PI_RGT_0 as PP.
        replace (IZR a * PI / (2 * IZR p)) with (IZR a / IZR p * (PI / 2)) by (field; lra).
        rewrite Rabs_mult, (Rabs_pos_eq (PI / 2)) by lra.
        replace (PI / 2) with (1 * (PI / 2)) at 2 by ring. apply Rmult_lt_compat_r; [lra|].
        unfold Rdiv. rewrite Rabs_mult, Rabs_inv, (Rabs_pos_eq (IZR p)) by lra.
        rewrite <- abs_IZR. apply Rmult_lt_reg_r with (IZR p); [exact Pp|].
        rewrite Rmult_assoc, Rinv_l, Rmult_1_r, Rmult_1_l by lra. apply IZR_lt, Ra. }
      set (th := IZR a * PI / INR (2 ^ S (S k))) in *.
      assert (Sg : 0 <= th * IZR a).
      { unfold th. replace (IZR a * PI / INR (2 ^ S (S k)) * IZR a)
          with (IZR a * IZR a * (PI * / INR (2 ^ S (S k)))) by (unfold Rdiv; ring).
        apply Rmult_le_pos; [exact (Rle_0_sqr (IZR a))|]. apply Rmult_le_pos; [left; apply PI_RGT_0|].
        left. apply Rinv_0_lt_compat. apply lt_0_INR. pose proof (pow2_ge1 (S (S k))). lia. }
      clearbody th. apply Rabs_def2 in An. destruct An as [An1 An2].
      assert (Cp : 0 <= cos th) by (apply cos_ge_0; lra).
      assert (Sp : 0 <= sin th * IZR a).
      { destruct (Rtotal_order (IZR a) 0) as [La|[Ea|Ga]].
        - assert (th <= 0) by (apply Rmult_le_reg_r with (- IZR a); [lra|]; lra).
          assert (sin th <= 0).
          { replace th with (- - th) by ring. rewrite sin_neg.
            pose proof (sin_ge_0 (- th) ltac:(lra)) as G. pose proof PI_RGT_0. lra. }
          replace (sin th * IZR a) with ((- sin th) * (- IZR a)) by ring. apply Rmult_le_pos; lra.
        - rewrite Ea. lra.
        - assert (0 <= th) by (apply Rmult_le_reg_r with (IZR a); [lra|]; lra).
          apply Rmult_le_pos; [|lra]. apply sin_ge_0; pose proof PI_RGT_0; lra. }
      set (A := fst (cv (nth (2 * i) child z))) in *. set (B := snd (cv (nth (2 * i) child z))) in *.
      assert (0 <= A * cos th) by (apply Rmult_le_pos; assumption).
      assert (Az : IZR a <> 0).
      { apply not_0_IZR. intros Z0. pose proof (nth_odd k i Hlt) as No. fold a in No. rewrite Z0 in No. cbn in No. lia. }
      assert (0 <= B * sin th).
      { apply Rmult_le_reg_r with (IZR a * IZR a).
        - apply Rsqr_pos_lt in Az. exact Az.
        - rewrite Rmult_0_l. replace (B * sin th * (IZR a * IZR a)) with ((B * IZR a) * (sin th * IZR a)) by ring.
          apply Rmult_le_pos; assumption. }
      lra. }
  intros i Hlt. rewrite (pow2_S (S k)) in Hlt.
  pose proof (Nat.div_mod i 2 ltac:(lia)) as D. pose proof (Nat.mod_upper_bound i 2 ltac:(lia)) as M.
  assert (Q : (i / 2 < 2 ^ S k)%nat) by lia. set (j := (i / 2)%nat) in *.
  rewrite N by lia.
  destruct (i mod 2)%nat as [|[|?]]; [| |lia].
  - replace i with (2 * j)%nat by lia. rewrite root_order_even by exact Q. apply EV, Q.
  - replace i with (2 * j + 1)%nat by lia.
    destruct (Hi j Q) as [_ O2].
    assert (Ez : zeta (2 ^ S (S k)) (nth (2 * j + 1) (root_order (S k)) 0%Z)
                 = Copp (zeta (2 ^ S (S k)) (nth j (root_order k) 0%Z))).
    { pose proof (gr_opp _ exact_good (S k) j ltac:(lia) Q) as GO.
      rewrite <- (pow2_S (S k)) in GO. rewrite !(exact_roots_nth (S k)) in GO by (rewrite (pow2_S (S k)); lia).
      rewrite root_order_even in GO by exact Q. exact GO. }
    rewrite Ez.
    assert (Ec : cv (nth (2 * j + 1) child z) = Copp (cv (nth (2 * j) child z))).
    { unfold opp_lit in O2. rewrite !andb_true_iff, !Z.eqb_eq in O2. destruct O2 as (((B1 & B2) & B3) & B4).
      unfold cv, Copp, lv. cbn [fst snd]. rewrite B1, B2, B3, B4, !opp_IZR. apply f_equal2; unfold Rdiv; ring. }
    rewrite Ec. replace (Csub (Copp (cv (nth (2 * j) child z))) (Copp (zeta (2 ^ S (S k)) (nth j (root_order k) 0%Z))))
      with (Copp (Csub (cv (nth (2 * j) child z)) (zeta (2 ^ S (S k)) (nth j (root_order k) 0%Z)))) by ring.
    rewrite Csqnorm_opp. apply EV, Q.
Qed.

Lemma close_4 : close_tab 0 phi4_roots.
Proof.
  split; [reflexivity|].
  pose proof exact_good as G. pose proof (gr_two _ G) as T. change 2%nat with (2 ^ 1)%nat in T.
  intros i Hi. rewrite <- exact_roots_nth by exact Hi. rewrite T.
  change (2 ^ 1)%nat with 2%nat in Hi. destruct i as [|[|?]]; [| |lia].
  - cbn [nth map phi4_roots]. unfold cv, lv, Csqnorm, Csub, Ci. cbn [fst snd]. change (10 ^ 0)%Z with 1%Z. lra.
  - cbn [nth map phi4_roots]. unfold cv, lv, Csqnorm, Csub, Copp, Ci. cbn [fst snd]. change (10 ^ 0)%Z with 1%Z. lra.
Qed.
Lemma close_8 : close_tab 1 phi8_roots. Proof. apply (close_step _ _ _ close_4). vm_compute. reflexivity. Qed.
Lemma close_16 : close_tab 2 phi16_roots. Proof. apply (close_step _ _ _ close_8). vm_compute. reflexivity. Qed.
Lemma close_32 : close_tab 3 phi32_roots. Proof. apply (close_step _ _ _ close_16). vm_compute. reflexivity. Qed.
Lemma close_64 : close_tab 4 phi64_roots. Proof. apply (close_step _ _ _ close_32). vm_compute. reflexivity. Qed.
Lemma close_128 : close_tab 5 phi128_roots. Proof. apply (close_step _ _ _ close_64). vm_compute. reflexivity. Qed.
Lemma close_256 : close_tab 6 phi256_roots. Proof. apply (close_step _ _ _ close_128). vm_compute. reflexivity. Qed.
Lemma close_512 : close_tab 7 phi512_roots. Proof. apply (close_step _ _ _ close_256). vm_compute. reflexivity. Qed.
Lemma close_1024 : close_tab 8 phi1024_roots. Proof. apply (close_step _ _ _ close_512). vm_compute. reflexivity. Qed.
Lemma close_2048 : close_tab 9 phi2048_roots. Proof. apply (close_step _ _ _ close_1024). vm_compute. reflexivity. Qed.

Definition tables : list (list lit) :=
  [phi4_roots; phi8_roots; phi16_roots; phi32_roots; phi64_roots; phi128_roots; phi256_roots;
   phi512_roots; phi1024_roots; phi2048_roots].
Lemma roots_dict_tables k : (k < 10)%nat -> roots_dict exactR (2 ^ S k) = map cv (nth k tables []).
Proof.
  intros Hk. unfold roots_dict, tables.
  do 10 (destruct k as [|k]; [
    cbn -[phi4_roots phi8_roots phi16_roots phi32_roots phi64_roots phi128_roots phi256_roots
      phi512_roots phi1024_roots phi2048_roots map]; reflexivity|]). lia.
Qed.
Lemma tables_close k : (k < 10)%nat -> close_tab k (nth k tables []).
Proof.
  intros Hk. do 10 (destruct k as [|k]; [
    cbn [nth tables]; first [exact close_4|exact close_8|exact close_16|exact close_32|exact close_64
          |exact close_128|exact close_256|exact close_512|exact close_1024|exact close_2048]|]). lia.
Qed.

Lemma roots_dict_close k i : (1 <= k <= 10)%nat -> (i < 2 ^ k)%nat ->
  length (roots_dict exactR (2 ^ k)) = (2 ^ k)%nat /\
  Csqnorm (Csub (nth i (roots_dict exactR (2 ^ k)) C0) (nth i (exact_roots (2 ^ k)) C0)) <= 4 / 10 ^ 30.
Proof.
  intros Hk Hi. split; [apply (roots_dict_full exactR); lia|].
  destruct k as [|k]; [lia|]. rewrite exact_roots_nth by exact Hi.
  pose proof (proj2 (tables_close k ltac:(lia)) i Hi) as T.
  rewrite <- roots_dict_tables in T by lia. exact T.
Qed.
