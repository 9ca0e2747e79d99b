(** The nearest plane algorithm on the basis of a key, in exact arithmetic: the
    leaves of the tree sum to at most 2n times the Gram-Schmidt norm, and the
    distance found is that of the signature. *)
From Coq Require Import Reals Lra Lia ZArith List.
From Verif Require Import GoBase Util BaseProofs PolyZ PolyEval Spec Float Fft FftShape SpecFft SpecBabai ExactReal FftProofs RootsProofs FftErr
  Ntrugen Ffsampling FfExact Samplerz KeyGen Babai PropsFft PropsBabai GsExact GsReduce.
Local Open Scope R_scope.

Notation P := (Babai.P exact_roots).

Lemma Csqnorm_opp a : Csqnorm (Copp a) = Csqnorm a.
Proof. unfold Csqnorm, Copp. cbn [fst snd]. ring. Qed.
Lemma map_IZR_padd n a b : map IZR (padd n a b) = radd n (map IZR a) (map IZR b).
Proof. unfold padd, radd. rewrite map_map. apply map_ext. intros i. unfold coef. rewrite plus_IZR, !nth_IZR. reflexivity. Qed.
Lemma map_IZR_psub n a b : map IZR (psub n a b) = rsub n (map IZR a) (map IZR b).
Proof. unfold psub, rsub. rewrite map_map. apply map_ext. intros i. unfold coef. rewrite minus_IZR, !nth_IZR. reflexivity. Qed.
Lemma rsum_sq_app m l : (length l <= m)%nat -> 
  rsum m (fun i => nth i (map IZR l) 0 * nth i (map IZR l) 0) = IZR (Spec.sqnorm l).
Proof.
  revert m. induction l as [|a l IH]; intros m Hm.
  - cbn [map Spec.sqnorm fold_right]. assert (E : forall j, rsum j (fun i => nth i (@nil R) 0 * nth i (@nil R) 0) = 0).
    { induction j as [|j IHj]; [reflexivity|]. cbn [rsum]. rewrite IHj. destruct j; cbn [nth]; ring. }
    apply E.
  - destruct m as [|m]; [cbn in Hm; lia|]. cbn [Spec.sqnorm fold_right]. rewrite plus_IZR, mult_IZR.
    change (fold_right (fun c acc => c * c + acc)%Z 0%Z l) with (Spec.sqnorm l). rewrite <- (IH m) by (cbn in Hm; lia). clear.
    cbn [map]. generalize (map IZR l). intros r.
    induction m as [|m IHm]; [cbn [rsum nth]; ring|]. cbn [rsum] in *. rewrite <- Rplus_assoc, <- IHm. cbn [nth]. reflexivity.
Qed.
Lemma sqnorm_IZR l : sqnorm (length l) (map IZR l) = IZR (Spec.sqnorm l).
Proof. apply rsum_sq_app; lia. Qed.

Lemma nth_opp l i : nth i (map IZR (map Z.opp l)) 0 = - nth i (map IZR l) 0.
Proof. rewrite !nth_IZR, <- opp_IZR. f_equal. exact (map_nth Z.opp l 0%Z i). Qed.

Section NP.
Context (k : nat) (Hk : (1 <= k)%nat).
Notation n := (2 ^ k)%nat.
Notation G0 := exact_good.

(** ceval of the negation *)
Lemma ceval_opp (a : list Z) z : ceval (map IZR (map Z.opp a)) z = Copp (ceval (map IZR a) z).
Proof.
  unfold ceval. rewrite !map_length.
  assert (E : forall m, Csum m (fun i => Cmul (RtoC (nth i (map IZR (map Z.opp a)) 0)) (Cpow z i)) =
                 Copp (Csum m (fun i => Cmul (RtoC (nth i (map IZR a) 0)) (Cpow z i)))).
  { induction m as [|m IH]; cbn [Csum]; [unfold Copp, C0; cbn; f_equal; ring|]. rewrite IH, nth_opp.
    unfold Copp, Cadd, Cmul, RtoC. cbn [fst snd]. f_equal; ring. }
  apply E.
Qed.

(** ** The leaves *)
Context (f g F G : list Z).
Context (Lf : length f = n) (Lg : length g = n) (LF : length F = n) (LG : length G = n).
Context (EQ : ntru_equation n f g F G).
Notation rf := (map IZR f). Notation rg := (map IZR g). Notation rF := (map IZR F). Notation rG := (map IZR G).
Notation nf := (map IZR (map Z.opp f)). Notation nF := (map IZR (map Z.opp F)).
Notation g00 := (gram2 n rg nf rg nf).
Notation g10 := (gram2 n rG nF rg nf).
Notation g11 := (gram2 n rG nF rG nF).

Lemma Ln a : length a = n -> length (map IZR a) = n. Proof. rewrite map_length. auto. Qed.
Lemma Lm a : length a = n -> length (map IZR (map Z.opp a)) = n. Proof. rewrite !map_length. auto. Qed.
Hint Resolve Ln Lm : core.

Lemma ntru_at i : (i < n)%nat -> Csub (Cmul (ceval rf (P k i)) (ceval rG (P k i))) (Cmul (ceval rg (P k i)) (ceval rF (P k i))) = RtoC 12289.
Proof. intros Hi. apply (rntru_at exact_roots G0 k); auto. apply ntru_real; auto. Qed.
Lemma lam_pos' i : (i < n)%nat -> 0 < lam rf rg (P k i).
Proof.
  intros Hi. pose proof (ntru_at i Hi) as X. unfold lam.
  destruct (ceval rf (P k i)) as [a a'], (ceval rg (P k i)) as [b b'], (ceval rF (P k i)) as [x x'], (ceval rG (P k i)) as [y y'].
  unfold Csub, Cmul, RtoC in X. cbn [fst snd] in X. injection X as X _. unfold Csqnorm. cbn [fst snd].
  destruct (Rle_lt_or_eq_dec 0 (a * a + a' * a' + (b * b + b' * b')) ltac:(nra)) as [H|H]; [exact H|exfalso].
  assert (a = 0 /\ a' = 0 /\ b = 0 /\ b' = 0) as (-> & -> & -> & ->) by (repeat split; nra). lra.
Qed.

Lemma schur_const (l : list R) : length l = n -> rmul n l g00 = g10 ->
  nth 0 (schur n g00 g11 l) 0 = gs2 exact_roots k rf rg 12289.
Proof.
  intros Ll E. rewrite <- (avg_const_coef exact_roots G0 k) by apply rsub_length.
  unfold gs2, Babai.avg. unfold Rdiv. rewrite <- Rmult_assoc. f_equal. rewrite <- rsum_scal.
  apply rsum_ext. intros i Hi.
  assert (EL : ceval (rmul n l g00) (P k i) = ceval g10 (P k i)) by now rewrite E.
  rewrite (ceval_rmul_P exact_roots G0 k) in EL by (auto; apply radd_length).
  rewrite !(ceval_gram exact_roots G0 k) in EL by auto.
  unfold schur. rewrite ceval_rsub by (first [apply rmul_length|apply radd_length]).
  rewrite !(ceval_rmul_P exact_roots G0 k) by (auto; first [apply rmul_length|apply radd_length|apply radj_length]).
  rewrite (ceval_radj_P exact_roots G0 k) by auto.
  rewrite !(ceval_gram exact_roots G0 k) by auto. rewrite !ceval_opp in *.
  pose proof (ntru_at i Hi) as X. pose proof (lam_pos' i Hi) as HL. unfold lam in *.
  destruct (ceval rf (P k i)) as [a a'], (ceval rg (P k i)) as [b b'], (ceval rF (P k i)) as [x x'], (ceval rG (P k i)) as [y y'].
  destruct (ceval l (P k i)) as [c c'].
  unfold Csub, Cmul, RtoC, Cadd, Cconj, Copp, Csqnorm in *. cbn [fst snd] in *.
  injection X as X1 X2. injection EL as E1 E2.
  set (L := a * a + a' * a' + (b * b + b' * b')) in *.
  assert (C1 : c = (y * b + y' * b' + (x * a + x' * a')) / L).
  { apply Rmult_eq_reg_r with L; [|lra]. unfold Rdiv. rewrite Rmult_assoc, Rinv_l, Rmult_1_r by lra. unfold L. lra. }
  assert (C2 : c' = (y' * b - y * b' + (x' * a - x * a')) / L).
  { apply Rmult_eq_reg_r with L; [|lra]. unfold Rdiv. rewrite Rmult_assoc, Rinv_l, Rmult_1_r by lra. unfold L. lra. }
  apply Rmult_eq_reg_r with L; [|lra]. rewrite (Rmult_assoc (12289 * 12289)), Rinv_l, Rmult_1_r by lra.
  assert (Q2 : 12289 * 12289 = (a * y - a' * y' - (b * x - b' * x')) * (a * y - a' * y' - (b * x - b' * x')) + (a * y' + a' * y - (b * x' + b' * x)) * (a * y' + a' * y - (b * x' + b' * x))).
  { rewrite X1, X2. ring. }
  rewrite Q2.
  set (N1 := y * b + y' * b' + (x * a + x' * a')) in *. set (N2 := y' * b - y * b' + (x' * a - x * a')) in *.
  transitivity ((y * y + y' * y' + (x * x + x' * x')) * L - (N1 * N1 + N2 * N2)).
  - rewrite C1, C2.
    transitivity ((y * y + y' * y' + (x * x + x' * x')) * L - (N1 / L * (N1 / L) + N2 / L * (N2 / L)) * L * L); [|field; lra].
    unfold L. ring.
  - unfold N1, N2, L. ring.
Qed.

Lemma leaf_bound T v : ldl_tree k g00 g10 g11 T -> GsNorm_at exactR exact_roots rf rg 12289 = Ok v ->
  leaf_sum k g00 g11 T <= 2 * INR n * v.
Proof.
  intros HT EV.
  assert (HV : nth 0 g00 0 <= v /\ gs2 exact_roots k rf rg 12289 <= v).
  { destruct (gram_inv k Hk 12289 rf rg rF rG) as (h & Lh & Inv); auto; try lra; try (apply ntru_real; auto; fail).
    destruct (gs_value k Hk rf rg h v) as [A B]; auto. split; [|exact B].
    eapply Rle_trans; [|exact A]. apply Req_le.
    rewrite <- (avg_const_coef exact_roots G0 k) by apply radd_length.
    rewrite <- !(parseval exact_roots G0 k) by auto. rewrite <- avg_plus. apply avg_ext. intros i Hi.
    rewrite (ceval_gram exact_roots G0 k) by auto. rewrite ceval_opp.
    unfold Csqnorm, Cadd, Cmul, Cconj, Copp. cbn [fst snd]. ring. }
  destruct HV as [V0 V1].
  assert (PS : psd exact_roots k g00 g10 g11) by (apply gram_psd; auto using exact_good).
  pose proof schur_const as SC.
  assert (L00 : length g00 = n) by apply radd_length. assert (L11 : length g11 = n) by apply radd_length.
  revert HT V0 V1 PS SC L00 L11. generalize g00 g10 g11 (gs2 exact_roots k rf rg 12289). clear - Hk. intros a b c s HT V0 V1 PS SC L00 L11.
  destruct k as [|m]; [lia|]. destruct T as [|l T0 T1]; [destruct HT|]. cbn [ldl_tree] in HT. destruct HT as (Ll & EL & HT0 & HT1). cbn [leaf_sum].
  specialize (SC l Ll EL). set (d := schur (2 ^ S m) a c l) in *. set (h := (2 ^ m)%nat) in *.
  assert (N1 : nonneg exact_roots (S m) d) by (apply (nonneg_schur exact_roots G0 (S m) a b c l); auto).
  destruct PS as (N0 & _ & _). assert (Ld : length d = (2 ^ S m)%nat) by apply rsub_length.
  pose proof (leaf_sum_le exact_roots G0 m _ _ _ T0 (reven_length h a) (reven_length h a) (psd_halves exact_roots G0 m a L00 N0) HT0) as B0.
  pose proof (leaf_sum_le exact_roots G0 m _ _ _ T1 (reven_length h d) (reven_length h d) (psd_halves exact_roots G0 m d Ld N1) HT1) as B1.
  assert (Z : forall f, nth 0 (reven h f) 0 = nth 0 f 0).
  { intros f. unfold reven. rewrite nth_map_seq by (unfold h; pose proof (pow2_ge1 m); lia). reflexivity. }
  rewrite !Z in B0, B1. fold h in B0, B1. rewrite SC in B1.
  assert (Hn : INR (2 ^ S m) = 2 * INR h).
  { unfold h. rewrite pow2_S, mult_INR. replace (INR 2) with 2 by (cbn; ring). reflexivity. }
  pose proof (pos_INR h). rewrite Hn. nra.
Qed.

(** ** The distance *)
(** (t0, t1) is the hash point (c, 0) in the basis *)
Definition target (c : list Z) (t0 t1 : list R) : Prop :=
  length t0 = n /\ length t1 = n /\
  radd n (rmul n t0 rg) (rmul n t1 rG) = map IZR c /\ radd n (rmul n t0 nf) (rmul n t1 nF) = rconst n 0.

Lemma dist_norm c t0 t1 z0 z1 u w : length c = n -> target c t0 t1 -> length z0 = n -> length z1 = n ->
  u = padd n (negacyc n z0 g) (negacyc n z1 G) ->
  w = psub n (repeat 0%Z n) (padd n (negacyc n z0 f) (negacyc n z1 F)) ->
  dist2 n rg nf rG nF t0 t1 z0 z1 = IZR (Spec.sqnorm (psub n c u) + Spec.sqnorm w).
Proof.
  intros Lc (Lt0 & Lt1 & E0 & E1) Lz0 Lz1 -> ->. unfold dist2. cbv zeta. rewrite plus_IZR, <- !sqnorm_IZR.
  set (W := psub n (repeat _ _) _). assert (LW : length W = n) by (unfold W, psub; now rewrite map_length, seq_length).
  set (U := psub n c _). assert (LU : length U = n) by (unfold U, psub; now rewrite map_length, seq_length).
  rewrite LW, LU. 
  replace (sqnorm n (map IZR W)) with (sqnorm n (map IZR (map Z.opp W))).
  2:{ unfold sqnorm. apply rsum_ext. intros i Hi. rewrite nth_opp. ring. }
  assert (T0 : forall i, (i < n)%nat -> Cadd (Cmul (ceval t0 (P k i)) (ceval rg (P k i))) (Cmul (ceval t1 (P k i)) (ceval rG (P k i))) = ceval (map IZR c) (P k i)).
  { intros i Hi. rewrite <- E0, ceval_radd' by apply rmul_length. rewrite !(ceval_rmul_P exact_roots G0 k) by auto. reflexivity. }
  assert (T1 : forall i, (i < n)%nat -> Cadd (Cmul (ceval t0 (P k i)) (ceval nf (P k i))) (Cmul (ceval t1 (P k i)) (ceval nF (P k i))) = RtoC 0).
  { intros i Hi. rewrite <- (ceval_const exact_roots k 0 i), <- E1, ceval_radd' by apply rmul_length. rewrite !(ceval_rmul_P exact_roots G0 k) by auto. reflexivity. }
  f_equal.
  - f_equal. apply (ceval_inj exact_roots G0 k Hk); [apply radd_length|auto|]. intros i Hi.
    rewrite ceval_radd' by apply rmul_length. rewrite !(ceval_rmul_P exact_roots G0 k) by (auto; apply rsub_length).
    rewrite !ceval_rsub by auto. unfold U. rewrite map_IZR_psub, map_IZR_padd. rewrite ceval_rsub by (auto; apply radd_length).
    rewrite <- T0 by exact Hi.
    rewrite <- !rmul_IZR. rewrite ceval_radd' by apply rmul_length. rewrite !(ceval_rmul_P exact_roots G0 k) by auto.
    ring.
  - assert (LL : length (map IZR (repeat 0%Z n)) = n) by (rewrite map_length; apply repeat_length).
    rewrite <- !(parseval exact_roots G0 k) by (auto; apply radd_length). apply avg_ext. intros i Hi.
    rewrite ceval_opp, Csqnorm_opp.
    rewrite ceval_radd' by apply rmul_length. rewrite !(ceval_rmul_P exact_roots G0 k) by (auto; apply rsub_length).
    rewrite !ceval_rsub by auto. unfold W. rewrite map_IZR_psub, map_IZR_padd. rewrite ceval_rsub by (auto; apply radd_length).
    rewrite <- !rmul_IZR. rewrite ceval_radd' by apply rmul_length. rewrite !(ceval_rmul_P exact_roots G0 k) by auto.
    replace (map IZR (repeat 0%Z n)) with (rconst n 0).
    2:{ unfold rconst. rewrite <- (repeat_length 0%Z n) at 1. clear. apply (nth_ext _ _ 0 0); [rewrite !map_length, seq_length; reflexivity|].
        intros i Hi. rewrite map_length, seq_length in Hi. rewrite nth_map_seq by exact Hi. rewrite nth_IZR, nth_repeat. destruct i; reflexivity. }
    rewrite ceval_const. pose proof (T1 i Hi) as X. rewrite !ceval_opp in *.
    unfold Cadd, Csub, Cmul, Copp, RtoC in *.
    destruct (ceval rf (P k i)) as [a a'], (ceval rF (P k i)) as [x x'].
    destruct (ceval t0 (P k i)) as [p p'], (ceval t1 (P k i)) as [r r'], (ceval (map IZR z0) (P k i)) as [s s'], (ceval (map IZR z1) (P k i)) as [o o'].
    cbn [fst snd] in *. unfold Csqnorm. cbn [fst snd]. injection X as X1 X2.
    match goal with |- ?a * ?a + ?b * ?b = ?c * ?c + ?d * ?d =>
      replace a with (- c) by lra; replace b with (- d) by lra; generalize c d end. intros; ring.
Qed.

(** the target exists *)
Lemma target_exists c : length c = n -> exists t0 t1, target c t0 t1.
Proof.
  intros Lc. set (sc := rconst n (/ 12289)). assert (Ls : length sc = n) by apply rconst_length.
  exists (rmul n sc (rmul n (map IZR c) nF)), (rmul n sc (rmul n (map IZR c) rf)).
  split; [apply rmul_length|]. split; [apply rmul_length|].
  split; (apply (ceval_inj exact_roots G0 k Hk); [apply radd_length|first [apply rconst_length|auto]|]; intros i Hi;
    rewrite ceval_radd' by apply rmul_length;
    repeat (rewrite !(ceval_rmul_P exact_roots G0 k) by (auto; apply rmul_length));
    unfold sc; rewrite ?ceval_const, ?ceval_opp).
  - pose proof (ntru_at i Hi) as X.
    destruct (ceval rf (P k i)) as [a a'], (ceval rg (P k i)) as [b b'], (ceval rF (P k i)) as [x x'], (ceval rG (P k i)) as [y y'], (ceval (map IZR c) (P k i)) as [p p'].
    unfold Csub, Cmul, RtoC, Cadd, Cconj, Copp in *. cbn [fst snd] in *. injection X as X1 X2.
    apply f_equal2.
    + transitivity (/ 12289 * ((a * y - a' * y' - (b * x - b' * x')) * p - (a * y' + a' * y - (b * x' + b' * x)) * p')); [ring|].
      rewrite X1, X2. field.
    + transitivity (/ 12289 * ((a * y - a' * y' - (b * x - b' * x')) * p' + (a * y' + a' * y - (b * x' + b' * x)) * p)); [ring|].
      rewrite X1, X2. field.
  - destruct (ceval rf (P k i)) as [a a'], (ceval rF (P k i)) as [x x'], (ceval (map IZR c) (P k i)) as [p p'].
    unfold Csub, Cmul, RtoC, Cadd, Cconj, Copp in *. cbn [fst snd] in *. apply f_equal2; ring.
Qed.
End NP.
