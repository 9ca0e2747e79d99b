(** The exact roots: the table order, and the facts the FFT relies on. *)
From Coq Require Import Lra.
From Verif Require Import GoBase BaseProofs FftShape SpecFft ExactReal FftProofs.

Lemma flat_map_pair_nth {A B} (f g : A -> B) l i a b :
  (i < length l)%nat ->
  nth (2 * i) (flat_map (fun x => [f x; g x]) l) b = f (nth i l a) /\
  nth (2 * i + 1) (flat_map (fun x => [f x; g x]) l) b = g (nth i l a).
Proof.
  revert i. induction l as [|x l IH]; intros i Hi; [cbn in Hi; lia|].
  destruct i as [|i]; [split; reflexivity|].
  replace (2 * S i)%nat with (S (S (2 * i))) by lia.
  replace (S (S (2 * i)) + 1)%nat with (S (S (2 * i + 1))) by lia.
  cbn [flat_map app nth]. apply IH. cbn in Hi. lia.
Qed.

Lemma root_order_length k : length (root_order k) = (2 ^ S k)%nat.
Proof.
  induction k as [|k IH]; [reflexivity|]. cbn [root_order].
  assert (A : forall (l : list Z) (f : Z -> Z), length (flat_map (fun a => [a; f a]) l) = (2 * length l)%nat).
  { intros l f. induction l as [|x l IHl]; [reflexivity|]. cbn [flat_map]. rewrite app_length, IHl. cbn [length]. lia. }
  rewrite (A _ (fun a => (a - Z.sgn a * 2 ^ Z.of_nat (S (S k)))%Z)), IH. reflexivity.
Qed.

Lemma root_order_even k i : (i < 2 ^ S k)%nat ->
  nth (2 * i) (root_order (S k)) 0 = nth i (root_order k) 0.
Proof.
  intros H. cbn [root_order].
  apply (flat_map_pair_nth (fun a => a) (fun a => a - Z.sgn a * 2 ^ Z.of_nat (S (S k)))).
  now rewrite root_order_length.
Qed.

Lemma root_order_odd k i : (i < 2 ^ S k)%nat ->
  nth (2 * i + 1) (root_order (S k)) 0 =
  nth i (root_order k) 0 - Z.sgn (nth i (root_order k) 0) * 2 ^ Z.of_nat (S (S k)).
Proof.
  intros H. cbn [root_order].
  apply (flat_map_pair_nth (fun a => a) (fun a => a - Z.sgn a * 2 ^ Z.of_nat (S (S k)))).
  now rewrite root_order_length.
Qed.

Lemma pow2_Z k : Z.of_nat (2 ^ k) = 2 ^ Z.of_nat k.
Proof. rewrite Nat2Z.inj_pow. reflexivity. Qed.

(** Every entry is odd and below 2^(k+1) in absolute value. *)
Lemma root_order_range k : Forall (fun a => Z.odd a = true /\ Z.abs a < 2 ^ Z.of_nat (S k)) (root_order k).
Proof.
  induction k as [|k IH].
  - repeat constructor.
  - cbn [root_order]. apply Forall_flat_map. revert IH. apply Forall_impl. intros a [O B].
    assert (E : 2 ^ Z.of_nat (S (S k)) = 2 * 2 ^ Z.of_nat (S k)).
    { rewrite !Nat2Z.inj_succ, <- Z.pow_succ_r by lia. reflexivity. }
    assert (a <> 0) by (intros ->; discriminate).
    repeat constructor; auto; try lia.
    rewrite Z.odd_sub, O. rewrite E.
      replace (Z.sgn a * (2 * 2 ^ Z.of_nat (S k))) with (2 * (Z.sgn a * 2 ^ Z.of_nat (S k))) by ring.
      rewrite Z.odd_mul. reflexivity.
Qed.

Lemma root_order_NoDup k : NoDup (root_order k).
Proof.
  induction k as [|k IH].
  - repeat constructor; cbn; intuition lia.
  - cbn [root_order]. pose proof (root_order_range k) as R. revert IH R.
    set (P := 2 ^ Z.of_nat (S k)).
    assert (E : 2 ^ Z.of_nat (S (S k)) = 2 * P).
    { unfold P. rewrite !Nat2Z.inj_succ, <- Z.pow_succ_r by lia. reflexivity. }
    rewrite E. generalize (root_order k). clear E. intros l. induction l as [|a l IHl]; intros ND R; [constructor|].
    inversion ND as [|? ? Na NDl]; subst. inversion R as [|? ? [Oa Ba] Rl]; subst.
    specialize (IHl NDl Rl). cbn [flat_map app].
    assert (a <> 0) by (intros ->; discriminate).
    assert (IN : forall x, In x (flat_map (fun a => [a; a - Z.sgn a * (2 * P)]) l) ->
       exists b, In b l /\ (x = b \/ x = b - Z.sgn b * (2 * P))).
    { intros x Hx. apply in_flat_map in Hx. destruct Hx as (b & Hb & [ | [ | []]]); eauto. }
    rewrite Forall_forall in Rl.
    constructor; [|constructor; [|exact IHl]].
    + intros [H1|H1].
      * destruct (Z.sgn_spec a) as [[? E]|[[? E]|[? E]]]; rewrite E in H1; lia.
      * destruct (IN _ H1) as (b & Hb & [E|E]); [subst; auto|].
        destruct (Rl b Hb) as [Ob Bb]. assert (b <> 0) by (intros ->; discriminate).
        destruct (Z.sgn_spec b) as [[? S]|[[? S]|[? S]]]; rewrite S in E; lia.
    + intros H1. destruct (IN _ H1) as (b & Hb & E).
      destruct (Rl b Hb) as [Ob Bb]. assert (b <> 0) by (intros ->; discriminate).
      destruct E as [E|E].
      * destruct (Z.sgn_spec a) as [[? S]|[[? S]|[? S]]]; rewrite S in E; lia.
      * assert (a = b); [|subst; auto].
        destruct (Z.sgn_spec a) as [[? S]|[[? S]|[? S]]]; rewrite S in E;
        destruct (Z.sgn_spec b) as [[? S']|[[? S']|[? S']]]; rewrite S' in E; lia.
Qed.

(** The second half of the list is the opposite of the first. *)
Lemma root_order_halves k : exists l, length l = (2 ^ k)%nat /\ root_order k = l ++ map Z.opp l.
Proof.
  induction k as [|k (l & L & E)].
  - exists [1]. split; reflexivity.
  - exists (flat_map (fun a => [a; a - Z.sgn a * 2 ^ Z.of_nat (S (S k))]) l). split.
    + rewrite pow2_S, <- L. clear. induction l as [|x l IH]; [reflexivity|].
      cbn [flat_map]. rewrite app_length, IH. cbn [length]. lia.
    + cbn [root_order]. rewrite E, flat_map_app. f_equal. clear.
      induction l as [|x l IH]; [reflexivity|]. cbn [map flat_map app]. rewrite IH. f_equal. f_equal.
      rewrite Z.sgn_opp. ring.
Qed.

Lemma root_order_opp k i : (i < 2 ^ k)%nat ->
  nth (i + 2 ^ k) (root_order k) 0 = - nth i (root_order k) 0.
Proof.
  intros H. destruct (root_order_halves k) as (l & L & ->).
  rewrite app_nth2, app_nth1 by lia. replace (i + 2 ^ k - length l)%nat with i by lia.
  change 0 with (- 0) at 1. apply map_nth.
Qed.

(** They are all the odd numbers below 2^(k+1) in absolute value. *)
Lemma root_order_all k a : In a (root_order k) <-> Z.odd a = true /\ Z.abs a < 2 ^ Z.of_nat (S k).
Proof.
  split.
  - intros H. pose proof (root_order_range k) as R. rewrite Forall_forall in R. auto.
  - revert a. induction k as [|k IH]; intros a [O B].
    + change (2 ^ Z.of_nat 1) with 2 in B. cbn. assert (a = 1 \/ a = -1 \/ a = 0) by lia.
      destruct H as [-> |[-> | ->]]; auto; discriminate.
    + assert (E : 2 ^ Z.of_nat (S (S k)) = 2 * 2 ^ Z.of_nat (S k)).
      { rewrite !Nat2Z.inj_succ, <- Z.pow_succ_r by lia. reflexivity. }
      assert (EP : 2 ^ Z.of_nat (S k) = 2 * 2 ^ Z.of_nat k).
      { rewrite !Nat2Z.inj_succ, <- Z.pow_succ_r by lia. reflexivity. }
      set (P := 2 ^ Z.of_nat (S k)) in *. assert (a <> 0) by (intros ->; discriminate).
      cbn [root_order]. apply in_flat_map. rewrite E.
      destruct (Z.lt_ge_cases (Z.abs a) P) as [H1|H1].
      * exists a. split; [apply IH; auto|]. left. reflexivity.
      * exists (a - Z.sgn a * (2 * P)).
        assert (Z.abs a <> P).
        { intros Ea. assert (Z.odd (Z.abs a) = true).
          { destruct (Z.abs_spec a) as [[_ ->]|[_ ->]]; [exact O|now rewrite Z.odd_opp]. }
          rewrite Ea, EP, Z.odd_mul in *. discriminate. }
        split.
        -- apply IH. split.
           ++ rewrite Z.odd_sub, O. replace (Z.sgn a * (2 * P)) with (2 * (Z.sgn a * P)) by ring.
              rewrite Z.odd_mul. reflexivity.
           ++ destruct (Z.sgn_spec a) as [[? S]|[[? S]|[? S]]]; rewrite S; lia.
        -- right. left. destruct (Z.sgn_spec a) as [[? S]|[[? S]|[? S]]]; rewrite S;
             destruct (Z.sgn_spec (a - Z.sgn a * (2 * P))) as [[? S']|[[? S']|[? S']]]; rewrite S in *; try rewrite S'; lia.
Qed.

(** ** zeta *)
Local Open Scope R_scope.

Lemma zeta_double n a : (0 < n)%nat -> Cmul (zeta (2 * n) a) (zeta (2 * n) a) = zeta n a.
Proof.
  intros Hn. unfold zeta.
  assert (N : INR n <> 0) by (apply not_0_INR; lia).
  assert (E : IZR a * PI / INR n = IZR a * PI / INR (2 * n) + IZR a * PI / INR (2 * n)).
  { rewrite mult_INR. cbn [INR]. field. exact N. }
  rewrite E. unfold Cmul. cbn [fst snd]. rewrite cos_plus, sin_plus. apply f_equal2; ring.
Qed.

Lemma zeta_conj n a : zeta n (- a) = Cconj (zeta n a).
Proof.
  unfold zeta, Cconj. cbn [fst snd]. rewrite opp_IZR.
  replace (- IZR a * PI / INR n) with (- (IZR a * PI / INR n)) by (unfold Rdiv; ring).
  now rewrite cos_neg, sin_neg.
Qed.

Lemma zeta_unit n a : Cmul (zeta n a) (Cconj (zeta n a)) = C1.
Proof.
  unfold zeta, Cmul, Cconj, C1. cbn [fst snd].
  pose proof (sin2_cos2 (IZR a * PI / INR n)) as H. unfold Rsqr in H. apply f_equal2; [lra|ring].
Qed.

Lemma zeta_shift n a s : (0 < n)%nat -> (s = 1 \/ s = -1)%Z ->
  zeta n (a - s * Z.of_nat n) = Copp (zeta n a).
Proof.
  intros Hn Hs. unfold zeta, Copp. cbn [fst snd].
  assert (N : INR n <> 0) by (apply not_0_INR; lia).
  rewrite minus_IZR, mult_IZR, <- INR_IZR_INZ.
  destruct Hs as [-> | ->].
  - replace ((IZR a - 1 * INR n) * PI / INR n) with (- (PI - IZR a * PI / INR n)) by (field; exact N).
    rewrite cos_neg, sin_neg, Rtrigo_facts.cos_pi_minus, Rtrigo_facts.sin_pi_minus. reflexivity.
  - replace ((IZR a - -1 * INR n) * PI / INR n) with (IZR a * PI / INR n + PI) by (field; exact N).
    rewrite neg_cos, neg_sin. reflexivity.
Qed.

Lemma zeta_one : zeta 2 1 = Ci.
Proof.
  unfold zeta, Ci. cbn [INR]. replace (1 * PI / (1 + 1)) with (PI / 2) by field.
  now rewrite cos_PI2, sin_PI2.
Qed.

Lemma exact_roots_pow k : exact_roots (2 ^ S k) = map (zeta (2 ^ S k)) (root_order k).
Proof. unfold exact_roots. rewrite Nat.log2_pow2 by lia. cbn [Nat.sub]. now rewrite Nat.sub_0_r. Qed.

Lemma exact_roots_nth k i : (i < 2 ^ S k)%nat ->
  nth i (exact_roots (2 ^ S k)) C0 = zeta (2 ^ S k) (nth i (root_order k) 0%Z).
Proof.
  intros H. rewrite exact_roots_pow.
  rewrite (nth_indep _ C0 (zeta (2 ^ S k) 0)) by now rewrite map_length, root_order_length.
  apply map_nth.
Qed.

Lemma nth_odd k i : (i < 2 ^ S k)%nat -> Z.sgn (nth i (root_order k) 0%Z) = 1%Z \/ Z.sgn (nth i (root_order k) 0%Z) = (-1)%Z.
Proof.
  intros H. pose proof (root_order_range k) as R. rewrite Forall_forall in R.
  destruct (R (nth i (root_order k) 0%Z)) as [O _]; [apply nth_In; now rewrite root_order_length|].
  destruct (Z.sgn_spec (nth i (root_order k) 0%Z)) as [[? E]|[[? E]|[? E]]]; rewrite ?E; auto.
  rewrite <- H0 in O. discriminate.
Qed.

Lemma exact_good : good_roots exact_roots.
Proof.
  constructor.
  - intros [|k] Hk; [lia|]. rewrite exact_roots_pow, map_length. apply root_order_length.
  - change 2%nat with (2 ^ 1)%nat at 1. rewrite exact_roots_pow. cbn [root_order map].
    change (2 ^ 1)%nat with 2%nat. rewrite zeta_one. f_equal. f_equal.
    change (-1)%Z with (- (1))%Z. rewrite zeta_conj, zeta_one. unfold Cconj, Copp, Ci. cbn. apply f_equal2; ring.
  - intros [|k] i Hk Hi; [lia|]. rewrite <- pow2_S.
    pose proof (pow2_ge1 (S k)).
    rewrite (exact_roots_nth (S k)) by (rewrite (pow2_S (S k)); lia). rewrite exact_roots_nth by exact Hi.
    rewrite root_order_even by exact Hi. rewrite (pow2_S (S k)). apply zeta_double. lia.
  - intros [|k] i Hk Hi; [lia|]. rewrite <- pow2_S.
    rewrite !(exact_roots_nth (S k)) by (rewrite (pow2_S (S k)); lia).
    rewrite root_order_even, root_order_odd by exact Hi.
    rewrite <- pow2_Z. apply zeta_shift; [apply (pow2_ge1 (S (S k)))|]. now apply nth_odd.
  - intros [|k] i Hk Hi; [lia|]. rewrite exact_roots_nth by exact Hi. apply zeta_unit.
  - intros k i Hi. rewrite <- pow2_S.
    rewrite !exact_roots_nth by (rewrite pow2_S; lia).
    rewrite root_order_opp by exact Hi. apply zeta_conj.
Qed.
