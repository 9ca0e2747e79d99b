(** Lemmas about fieldNorm, lift, galoisConjugate, xgcd, bitsize, reduce and
    NtruSolve. *)
From Coq Require Import Ring Setoid Morphisms Znumtheory.
From Verif Require Import GoBase Util Spec PolyRing PolyZ PolyEval BaseProofs Ntrugen NtruProofs.

#[global] Instance cong_equiv_i m : Equivalence (cong m) := cong_equiv m.
#[global] Instance cong_add_i m : Proper (cong m ==> cong m ==> cong m) Z.add.
Proof. intros a b H c d H'. apply cong_add; assumption. Qed.
#[global] Instance cong_sub_i m : Proper (cong m ==> cong m ==> cong m) Z.sub.
Proof. intros a b H c d H'. apply cong_sub; assumption. Qed.
#[global] Instance cong_mul_i m : Proper (cong m ==> cong m ==> cong m) Z.mul.
Proof. intros a b H c d H'. apply cong_mul; assumption. Qed.
#[global] Instance cong_opp_i m : Proper (cong m ==> cong m) Z.opp.
Proof. intros a b H. apply cong_opp; assumption. Qed.

(** ** a(-x) and a(x^2) *)
Lemma pconj_length f : length (pconj f) = length f.
Proof. unfold pconj. rewrite map_length, seq_length. reflexivity. Qed.
Lemma plift_length f : length (plift f) = (2 * length f)%nat.
Proof. unfold plift. rewrite map_length, seq_length. reflexivity. Qed.
Lemma pow_neg x n : (- x) ^ Z.of_nat n = (-1) ^ Z.of_nat n * x ^ Z.of_nat n.
Proof. replace (- x) with (-1 * x) by ring. apply Z.pow_mul_l. Qed.
Lemma eval_pconj f x : eval (pconj f) x = eval f (- x).
Proof.
  unfold pconj. rewrite eval_map_seq. unfold eval. apply sumn_ext. intros i _.
  rewrite pow_neg. ring.
Qed.
Lemma sumn_even_odd n f :
  sumn (2 * n) f = sumn n (fun i => f (2 * i)%nat) + sumn n (fun i => f (2 * i + 1)%nat).
Proof.
  induction n as [|n IH]; [reflexivity|].
  replace (2 * S n)%nat with (S (S (2 * n))) by lia. cbn [sumn]. rewrite IH.
  replace (2 * n + 1)%nat with (S (2 * n)) by lia. ring.
Qed.
Lemma eval_plift f x : eval (plift f) x = eval f (x * x).
Proof.
  unfold plift. rewrite eval_map_seq, sumn_even_odd.
  rewrite (sumn_zero_ext _ (fun i => (if Nat.even (2 * i + 1) then _ else 0) * _)).
  - rewrite Z.add_0_r. unfold eval. apply sumn_ext. intros i _.
    replace (Nat.even (2 * i)) with true by (rewrite Nat.even_mul; reflexivity).
    rewrite Nat.div2_double. f_equal.
    replace (Z.of_nat (2 * i)) with (2 * Z.of_nat i) by lia.
    rewrite Z.pow_mul_r by lia. f_equal. ring.
  - intros i _. replace (Nat.even (2 * i + 1)) with false; [ring|].
    rewrite Nat.even_add, Nat.even_mul. reflexivity.
Qed.
Lemma coef_plift f i : (i < 2 * length f)%nat ->
  coef (plift f) i = if Nat.even i then coef f (Nat.div2 i) else 0.
Proof. apply coef_map_seq. Qed.

Lemma galoisConjugate_ok a : galoisConjugate a = Ok (pconj a).
Proof.
  unfold galoisConjugate, pconj. apply mapM_Ok. intros i Hi. apply in_seq in Hi.
  rewrite idx_coef by lia. reflexivity.
Qed.
Lemma lift_ok a : lift a = plift a.
Proof.
  apply list_eq_coef.
  - rewrite plift_length. unfold lift. induction a as [|x a IH]; [reflexivity|].
    cbn [map concat app length]. rewrite IH. lia.
  - intros i Hi.
    assert (Hi' : (i < 2 * length a)%nat).
    { revert Hi. unfold lift. clear. revert i. induction a as [|x a IH]; cbn [map concat app length]; intros; [lia|].
      destruct i as [|[|i]]; [lia..|]. specialize (IH i). lia. }
    rewrite coef_plift by exact Hi'. clear Hi. revert i Hi'. unfold lift.
    induction a as [|x a IH]; intros i Hi; [cbn in Hi; lia|].
    cbn [map concat app]. destruct i as [|[|i]]; [reflexivity..|].
    cbn [Nat.even Nat.div2]. unfold coef in *. cbn [nth]. apply IH. cbn [length] in Hi. lia.
Qed.

(** x * t in the ring of degree m *)
Definition mulx (m : nat) (t : list Z) : list Z := - coef t (m - 1) :: firstn (m - 1) t.
Lemma mulx_length m t : (0 < m)%nat -> length t = m -> length (mulx m t) = m.
Proof. intros H L. unfold mulx. cbn [length]. rewrite firstn_length_le by lia. lia. Qed.
Lemma eval_mulx m t y : (0 < m)%nat -> length t = m ->
  cong (y ^ Z.of_nat m + 1) (eval (mulx m t) y) (y * eval t y).
Proof.
  intros H L. unfold mulx. rewrite eval_cons.
  assert (E : eval t y = eval (firstn (m - 1) t) y + y ^ Z.of_nat (m - 1) * coef t (m - 1)).
  { rewrite <- (firstn_skipn (m - 1) t) at 1. rewrite eval_app, firstn_length_le by lia.
    do 2 f_equal.
    assert (L1 : length (skipn (m - 1) t) = 1%nat) by (rewrite skipn_length; lia).
    pose proof (coef_skipn t (m - 1) 0) as C. rewrite Nat.add_0_r in C. rewrite <- C.
    destruct (skipn (m - 1) t) as [|c [|]]; try discriminate L1.
    rewrite eval_cons, eval_nil. unfold coef. cbn. ring. }
  rewrite E. set (e := eval (firstn (m - 1) t) y). set (c := coef t (m - 1)).
  replace (y * (e + y ^ Z.of_nat (m - 1) * c)) with (y * e + y ^ Z.of_nat m * c).
  - pose proof (root_cong m y) as R. generalize dependent (y ^ Z.of_nat m + 1).
    intros M R. setoid_rewrite R. apply cong_eq. ring.
  - replace (Z.of_nat m) with (Z.succ (Z.of_nat (m - 1))) by lia.
    rewrite Z.pow_succ_r by lia. ring.
Qed.

(** ** fieldNorm *)
Lemma fieldNorm_coefs k a : length a = (2 ^ S k)%nat ->
  let m := (2 ^ k)%nat in
  let s := negacyc m (evens 0 a) (evens 0 a) in
  let t := negacyc m (odds 0 a) (odds 0 a) in
  fieldNorm a = Ok (psub m s (mulx m t)).
Proof.
  intros La. cbv zeta. unfold fieldNorm. rewrite La, pow2_half. set (m := (2 ^ k)%nat).
  assert (Pm : (0 < m)%nat) by apply pow2_pos.
  assert (L2 : Nat.div (length a) 2 = m) by (rewrite La; apply pow2_half).
  assert (En : (2 ^ S k = m + m)%nat) by (cbn [Nat.pow]; unfold m; lia).
  rewrite (mapM_Ok _ (fun i => nth (2 * i) a 0)).
  2:{ intros i Hi. apply in_seq in Hi. apply idx_nth. lia. }
  cbn [bind].
  rewrite (mapM_Ok _ (fun i => nth (2 * i + 1) a 0)).
  2:{ intros i Hi. apply in_seq in Hi. apply idx_nth. lia. }
  cbn [bind].
  replace (map (fun i => nth (2 * i) a 0) (seq 0 m)) with (evens 0 a)
    by (unfold evens; rewrite L2; reflexivity).
  replace (map (fun i => nth (2 * i + 1) a 0) (seq 0 m)) with (odds 0 a)
    by (unfold odds; rewrite L2; reflexivity).
  assert (Le : length (evens 0 a) = m) by (rewrite evens_length; exact L2).
  assert (Lo : length (odds 0 a) = m) by (rewrite odds_length; exact L2).
  rewrite !(karamul_ok k) by (unfold m in *; lia). cbn [bind]. fold m.
  set (s := negacyc m (evens 0 a) (evens 0 a)).
  set (t := negacyc m (odds 0 a) (odds 0 a)).
  assert (Ls : length s = m) by apply negacyc_length.
  assert (Lt : length t = m) by apply negacyc_length.
  match goal with |- bind (foldM ?f _ _) _ = _ =>
    destruct (foldM_seq_inv f (fun i l => length l = m /\
       forall j, coef l j = coef s j - (if Nat.leb 1 j && Nat.leb j i then coef t (j - 1) else 0))
       (m - 1) s) as (r & Er & Lr & Cr) end.
  { split; [exact Ls|]. intros j. ifs; ring. }
  { intros i l Hi (Ll & Cl). rewrite idx_coef by lia. cbn [bind].
    destruct (add_at_ok l (i + 1) (- coef t i)) as (l' & E' & L' & C'); [lia|].
    exists l'. split; [exact E'|]. split; [lia|]. intros j. rewrite C', Cl.
    ifs; subst; try ring. all: replace (i + 1 - 1)%nat with i by lia; ring. }
  rewrite Er. cbn [bind]. rewrite idx_coef by lia. cbn [bind].
  destruct (add_at_ok r 0 (coef t (m - 1))) as (r' & E' & L' & C'); [lia|].
  rewrite E'. f_equal. apply list_eq_coef; [rewrite psub_length; lia|].
  intros i Hi. rewrite C', Cr. unfold psub. rewrite coef_map_seq by lia.
  unfold mulx. destruct i as [|i].
  - cbn [Nat.eqb Nat.leb andb]. change (coef (- coef t (m - 1) :: firstn (m - 1) t) 0) with (- coef t (m - 1)). ring.
  - cbn [Nat.eqb]. ifs. replace (coef (- coef t (m - 1) :: firstn (m - 1) t) (S i)) with (coef t i).
    + replace (S i - 1)%nat with i by lia. ring.
    + symmetry. apply coef_firstn. lia.
Qed.

Lemma evens_coef a i : (i < Nat.div (length a) 2)%nat -> coef (evens 0 a) i = coef a (2 * i).
Proof. apply evens_nth. Qed.
Lemma odds_coef a i : (i < Nat.div (length a) 2)%nat -> coef (odds 0 a) i = coef a (2 * i + 1).
Proof. apply odds_nth. Qed.

Lemma eval_halves m a x : length a = (2 * m)%nat ->
  eval a x = eval (evens 0 a) (x * x) + x * eval (odds 0 a) (x * x).
Proof.
  intros La.
  assert (L2 : Nat.div (length a) 2 = m) by (rewrite La, Nat.mul_comm; apply Nat.div_mul; lia).
  rewrite (eval_len m (evens 0 a)) by (rewrite evens_length; exact L2).
  rewrite (eval_len m (odds 0 a)) by (rewrite odds_length; exact L2).
  rewrite (eval_len (2 * m) a), sumn_even_odd by exact La. f_equal; [|rewrite <- sumn_mul_l];
    apply sumn_ext; intros i Hi.
  - rewrite evens_coef by lia. f_equal. replace (Z.of_nat (2 * i)) with (2 * Z.of_nat i) by lia.
    rewrite Z.pow_mul_r by lia. f_equal. ring.
  - rewrite odds_coef by lia. replace (Z.of_nat (2 * i + 1)) with (Z.succ (2 * Z.of_nat i)) by lia.
    rewrite Z.pow_succ_r, Z.pow_mul_r by lia. replace (x ^ 2) with (x * x) by ring. ring.
Qed.

Lemma pow_sq x m : x ^ Z.of_nat (2 * m) = (x * x) ^ Z.of_nat m.
Proof.
  replace (Z.of_nat (2 * m)) with (2 * Z.of_nat m) by lia. rewrite Z.pow_mul_r by lia.
  f_equal. ring.
Qed.

Theorem fieldNorm_ok k a : length a = (2 ^ S k)%nat ->
  exists r, fieldNorm a = Ok r /\ length r = (2 ^ k)%nat /\
    plift r = negacyc (2 ^ S k) a (pconj a).
Proof.
  intros La. eexists. split; [apply (fieldNorm_coefs k a La)|]. split; [apply psub_length|].
  set (m := (2 ^ k)%nat) in *.
  assert (Pm : (0 < m)%nat) by apply pow2_pos.
  assert (En : (2 ^ S k = 2 * m)%nat) by reflexivity. rewrite En in *.
  assert (L2 : Nat.div (length a) 2 = m) by (rewrite La, Nat.mul_comm; apply Nat.div_mul; lia).
  assert (Le : length (evens 0 a) = m) by (rewrite evens_length; exact L2).
  assert (Lo : length (odds 0 a) = m) by (rewrite odds_length; exact L2).
  apply (poly_eq (2 * m)).
  - rewrite plift_length, psub_length. lia.
  - apply negacyc_length.
  - intros x _.
    pose proof (nega_eval (2 * m) a (pconj a) x La) as H1.
    rewrite pconj_length in H1. specialize (H1 La).
    pose proof (eval_mulx m (negacyc m (odds 0 a) (odds 0 a)) (x * x) Pm (negacyc_length _ _ _)) as H2.
    pose proof (nega_eval m (evens 0 a) (evens 0 a) (x * x) Le Le) as H3.
    pose proof (nega_eval m (odds 0 a) (odds 0 a) (x * x) Lo Lo) as H4.
    rewrite eval_plift, eval_psub by (try apply mulx_length; try assumption; apply negacyc_length).
    rewrite pow_sq in *. generalize dependent ((x * x) ^ Z.of_nat m + 1). intros M H1 H2 H3 H4.
    setoid_rewrite H1. setoid_rewrite H2. setoid_rewrite H3. setoid_rewrite H4.
    rewrite eval_pconj, !(eval_halves m a) by exact La.
    replace (- x * - x) with (x * x) by ring. apply cong_eq. ring.
Qed.

(** the norm is determined by its lift *)
Lemma plift_inj f g : length f = length g -> plift f = plift g -> f = g.
Proof.
  intros L E. apply list_eq_coef; [exact L|]. intros i Hi.
  pose proof (coef_plift f (2 * i) ltac:(lia)) as A.
  pose proof (coef_plift g (2 * i) ltac:(lia)) as B.
  replace (Nat.even (2 * i)) with true in A, B by (rewrite Nat.even_mul; reflexivity).
  rewrite Nat.div2_double in A, B. congruence.
Qed.

(** ** bitsize *)
Lemma bitsize_loop_ok fuel : forall val r, 0 <= val -> 0 <= r -> (val < 2 ^ Z.of_nat fuel) ->
  exists s, bitsize_loop fuel val r = Ok (r + 8 * s) /\ 0 <= s /\
    val < 2 ^ (8 * s) /\ (0 < s -> 2 ^ (8 * (s - 1)) <= val).
Proof.
  induction fuel as [|fuel IH]; intros val r Hv Hr Hf; cbn [bitsize_loop].
  - change (2 ^ Z.of_nat 0) with 1 in Hf. assert (val = 0) by lia. subst val.
    exists 0. cbn. repeat split; try lia. f_equal. lia.
  - destruct (Z.gtb_spec val 0) as [H|H].
    + rewrite Z.shiftr_div_pow2 by lia.
      destruct (IH (val / 2 ^ 8) (r + 8)) as (s & E & Hs & B1 & B2).
      * apply Z.div_pos; lia.
      * lia.
      * apply Z.div_lt_upper_bound; [lia|]. rewrite Nat2Z.inj_succ, Z.pow_succ_r in Hf by lia.
        assert (0 < 2 ^ Z.of_nat fuel) by (apply Z.pow_pos_nonneg; lia).
        change (2 ^ 8) with 256. lia.
      * exists (s + 1). rewrite E. split; [f_equal; ring|]. split; [lia|].
        replace (8 * (s + 1)) with (8 + 8 * s) by ring. rewrite Z.pow_add_r by lia.
        change (2 ^ 8) with 256 in *. split.
        -- pose proof (Z.div_mod val 256 ltac:(lia)) as D.
           pose proof (Z.mod_pos_bound val 256 ltac:(lia)). nia.
        -- intros _. replace (s + 1 - 1) with s by ring.
           destruct (Z.eq_dec s 0) as [->|Ns]; [cbn; lia|].
           specialize (B2 ltac:(lia)).
           replace (8 * s) with (8 + 8 * (s - 1)) by ring. rewrite Z.pow_add_r by lia.
           change (2 ^ 8) with 256. pose proof (Z.mul_div_le val 256 ltac:(lia)). nia.
    + exists 0. split; [f_equal; lia|]. split; [lia|]. split; [cbn; lia|lia].
Qed.

(** least multiple of 8 bounding the bit length *)
Theorem bitsize_ok a : exists s, bitsize a = Ok (8 * s) /\ 0 <= s /\
  Z.abs a < 2 ^ (8 * s) /\ (0 < s -> 2 ^ (8 * (s - 1)) <= Z.abs a).
Proof.
  unfold bitsize.
  destruct (bitsize_loop_ok (S (Z.to_nat (Z.log2 (Z.abs a)))) (Z.abs a) 0)
    as (s & E & Hs & B); try lia.
  - rewrite Nat2Z.inj_succ, Z2Nat.id by apply Z.log2_nonneg.
    destruct (Z.eq_dec (Z.abs a) 0) as [->|N]; [cbn; lia|].
    apply Z.log2_spec. lia.
  - exists s. rewrite E. split; [f_equal; ring|]. split; [exact Hs|exact B].
Qed.

(** ** xgcd *)
Lemma big_div_mod b n : n <> 0 -> b = big_Div b n * n + big_Mod b n /\ 0 <= big_Mod b n < Z.abs n.
Proof.
  intros H. unfold big_Div, big_Mod. pose proof (Z.div_mod b (Z.abs n) ltac:(lia)) as D.
  split; [|apply Z.mod_pos_bound; lia].
  rewrite D at 1. f_equal. rewrite <- (Z.abs_sgn n) at 1. 
  replace (Z.abs n * (b / Z.abs n)) with ((b / Z.abs n) * Z.abs n) by ring.
  destruct (Z.sgn_spec n) as [[? ->]|[[? ->]|[? ->]]]; lia.
Qed.

Lemma big_gcd b n : Z.gcd n (big_Mod b n) = Z.gcd b n.
Proof.
  unfold big_Mod. rewrite <- Z.gcd_abs_l. destruct (Z.eq_dec n 0) as [->|H].
  - change (Z.abs 0) with 0. rewrite Zmod_0_r, Z.gcd_comm. reflexivity.
  - rewrite Z.gcd_comm, Z.gcd_mod by lia. rewrite Z.gcd_abs_l. apply Z.gcd_comm.
Qed.

(** the product b*n at least halves at each round once 0 <= n < b *)
Lemma xgcd_loop_ok fuel : forall B N b n x0 x1 y0 y1,
  0 <= n < b -> b * n < 2 ^ Z.of_nat fuel ->
  b = x0 * B + y0 * N -> n = x1 * B + y1 * N -> Z.gcd b n = Z.gcd B N ->
  exists d u v, xgcd_loop fuel b n x0 x1 y0 y1 = Ok (d, u, v) /\
    d = u * B + v * N /\ d = Z.gcd B N.
Proof.
  induction fuel as [|fuel IH]; intros B N b n x0 x1 y0 y1 Hn Hf Eb En Eg; cbn [xgcd_loop].
  - change (2 ^ Z.of_nat 0) with 1 in Hf.
    destruct (Z.eqb_spec n 0) as [E0|E0]; [|nia].
    exists b, x0, y0. split; [reflexivity|]. split; [exact Eb|].
    rewrite <- Eg, E0, Z.gcd_0_r. lia.
  - destruct (Z.eqb_spec n 0) as [E0|E0].
    + exists b, x0, y0. split; [reflexivity|]. split; [exact Eb|].
      rewrite <- Eg, E0, Z.gcd_0_r. lia.
    + destruct (big_div_mod b n E0) as [D R]. rewrite (Z.abs_eq n) in R by lia.
      rewrite Nat2Z.inj_succ, Z.pow_succ_r in Hf by lia.
      assert (1 <= big_Div b n) by nia.
      apply IH; [lia|nia|exact En| |].
      * rewrite Z.mul_sub_distr_r. rewrite Z.mul_sub_distr_r.
        replace (x0 * B - big_Div b n * x1 * B + (y0 * N - big_Div b n * y1 * N))
          with ((x0 * B + y0 * N) - big_Div b n * (x1 * B + y1 * N)) by ring.
        rewrite <- Eb, <- En. lia.
      * rewrite <- Eg. apply big_gcd.
Qed.

Lemma log2_sq n : Z.abs n * Z.abs n < 2 ^ (2 * Z.log2 (Z.abs n) + 2).
Proof.
  destruct (Z.eq_dec n 0) as [->|H]; [reflexivity|].
  pose proof (Z.log2_nonneg (Z.abs n)).
  destruct (Z.log2_spec (Z.abs n) ltac:(lia)) as [_ U].
  replace (2 * Z.log2 (Z.abs n) + 2) with (Z.succ (Z.log2 (Z.abs n)) + Z.succ (Z.log2 (Z.abs n))) by lia.
  rewrite Z.pow_add_r by lia. nia.
Qed.

Theorem xgcd_ok b n : exists d u v, xgcd b n = Ok (d, u, v) /\
  d = u * b + v * n /\ Z.abs d = Z.gcd b n /\
  (d < 0 <-> (n = 0 /\ b < 0) \/ (n < 0 /\ (n | b))).
Proof.
  unfold xgcd. pose proof (Z.log2_nonneg (Z.abs n)) as L0.
  replace (Z.to_nat (2 * Z.log2 (Z.abs n) + 4)) with (S (S (Z.to_nat (2 * Z.log2 (Z.abs n) + 2)))) by lia.
  set (fuel := Z.to_nat (2 * Z.log2 (Z.abs n) + 2)).
  assert (Hf : Z.abs n * Z.abs n < 2 ^ Z.of_nat fuel)
    by (unfold fuel; rewrite Z2Nat.id by lia; apply log2_sq).
  cbn [xgcd_loop]. destruct (Z.eqb_spec n 0) as [E0|E0].
  { exists b, 1, 0. split; [reflexivity|]. split; [ring|]. subst n. rewrite Z.gcd_0_r.
    split; [reflexivity|]. split; [auto|]. intros [[_ H]|[H _]]; lia. }
  destruct (big_div_mod b n E0) as [D R].
  destruct (Z.eqb_spec (big_Mod b n) 0) as [E1|E1].
  { exists n, 0, 1. split; [reflexivity|]. split; [ring|].
    rewrite <- big_gcd, E1, Z.gcd_0_r. split; [reflexivity|].
    split; [|intros [[H _]|[H _]]; lia].
    intros H. right. split; [exact H|]. exists (big_Div b n). lia. }
  destruct (big_div_mod n (big_Mod b n) E1) as [D' R']. rewrite (Z.abs_eq (big_Mod b n)) in R' by lia.
  destruct (xgcd_loop_ok fuel b n (big_Mod b n) (big_Mod n (big_Mod b n))
    (1 - big_Div b n * 0) (0 - big_Div n (big_Mod b n) * (1 - big_Div b n * 0))
    (0 - big_Div b n * 1) (1 - big_Div n (big_Mod b n) * (0 - big_Div b n * 1)))
    as (d & u & v & E & Ed & Eg).
  - lia.
  - nia.
  - lia.
  - nia.
  - rewrite big_gcd. apply big_gcd.
  - exists d, u, v. split; [exact E|]. split; [exact Ed|].
    pose proof (Z.gcd_nonneg b n). split; [lia|]. split; [lia|].
    intros [[H' _]|[Hn [c Hc]]]; [lia|]. exfalso. apply E1. unfold big_Mod.
    apply Z.mod_divide; [lia|]. apply Z.divide_abs_l. exists c. exact Hc.
Qed.
