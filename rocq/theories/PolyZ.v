(** The polynomial lemmas of PolyRing at Z, and at Z modulo m. *)
From Coq Require Import List ZArith Bool Lia Setoid Morphisms Ring.
From Verif Require Import Spec PolyRing.
Import ListNotations.
Open Scope Z_scope.

Definition cong (m a b : Z) : Prop := a mod m = b mod m.

Lemma cong_equiv m : Equivalence (cong m).
Proof. unfold cong. split; red; intros; congruence. Qed.

Lemma cong_add m a b c d : cong m a b -> cong m c d -> cong m (a + c) (b + d).
Proof. unfold cong. intros H H'. rewrite (Zplus_mod a), (Zplus_mod b), H, H'. reflexivity. Qed.
Lemma cong_mul m a b c d : cong m a b -> cong m c d -> cong m (a * c) (b * d).
Proof. unfold cong. intros H H'. rewrite (Zmult_mod a), (Zmult_mod b), H, H'. reflexivity. Qed.
Lemma cong_opp m a b : cong m a b -> cong m (- a) (- b).
Proof.
  intros H. replace (- a) with ((-1) * a) by ring. replace (- b) with ((-1) * b) by ring.
  apply cong_mul; [reflexivity|assumption].
Qed.
Lemma cong_sub m a b c d : cong m a b -> cong m c d -> cong m (a - c) (b - d).
Proof. intros H H'. apply (cong_add m a b (- c) (- d) H), cong_opp, H'. Qed.
Lemma cong_mod m a : cong m (a mod m) a.
Proof. unfold cong. apply Zmod_mod. Qed.
Lemma cong_refl m a : cong m a a.
Proof. reflexivity. Qed.
Lemma cong_eq m a b : a = b -> cong m a b.
Proof. intros ->. reflexivity. Qed.

Lemma cong_divide m a b : m <> 0 -> cong m a b <-> (m | a - b).
Proof.
  intros Hm. unfold cong. split.
  - intros H. exists (a / m - b / m).
    pose proof (Z.div_mod a m Hm). pose proof (Z.div_mod b m Hm). lia.
  - intros [k Hk]. replace a with (b + k * m) by lia. apply Z_mod_plus_full.
Qed.

Lemma cong_reqe m : ring_eq_ext Z.add Z.mul Z.opp (cong m).
Proof.
  constructor.
  - intros a b H c d H'. apply cong_add; assumption.
  - intros a b H c d H'. apply cong_mul; assumption.
  - intros a b H. apply cong_opp; assumption.
Qed.

Lemma cong_ring m : ring_theory 0 1 Z.add Z.mul Z.sub Z.opp (cong m).
Proof. constructor; intros; apply cong_eq; ring. Qed.

Lemma Z_ring : ring_theory 0 1 Z.add Z.mul Z.sub Z.opp (@eq Z).
Proof. constructor; intros; ring. Qed.
Lemma Z_reqe : ring_eq_ext Z.add Z.mul Z.opp (@eq Z).
Proof. constructor; repeat intro; congruence. Qed.

(** ** Bridges between Spec and PolyRing *)
Notation zsum := (gsum Z 0 Z.add).
Notation zpow := (gpow Z 1 Z.mul).
Notation zeval := (geval Z 0 1 Z.add Z.mul).
Notation znega := (gnega Z 0 Z.add Z.mul Z.opp).

Lemma sumn_gsum : sumn = zsum.
Proof. reflexivity. Qed.

Lemma zpow_pow x n : zpow x n = x ^ Z.of_nat n.
Proof.
  induction n as [|n IH]; [reflexivity|].
  cbn [gpow]. rewrite IH, Nat2Z.inj_succ, Z.pow_succ_r by lia. ring.
Qed.

Lemma sumn_ext n f g : (forall i, (i < n)%nat -> f i = g i) -> sumn n f = sumn n g.
Proof. exact (gsum_ext Z 0 1 Z.add Z.mul Z.sub Z.opp eq _ Z_reqe Z_ring n f g). Qed.

Lemma eval_geval f x : eval f x = zeval f x.
Proof.
  unfold eval, geval. rewrite sumn_gsum. apply sumn_ext. intros i _.
  rewrite zpow_pow. reflexivity.
Qed.

Lemma negacyc_gnega n f g : negacyc n f g = znega n f g.
Proof. reflexivity. Qed.

Lemma negacyc_length n f g : length (negacyc n f g) = n.
Proof. unfold negacyc. rewrite map_length, seq_length. reflexivity. Qed.

Lemma coef_map_seq h n i : (i < n)%nat -> coef (map h (seq 0 n)) i = h i.
Proof. exact (gcoef_map_seq Z 0 1 Z.add Z.mul Z.sub Z.opp eq _ Z_reqe Z_ring h n i). Qed.

Section Cong.
Variable m : Z.
Notation "a == b" := (cong m a b) (at level 70).

Lemma csum_ext n f g : (forall i, (i < n)%nat -> f i == g i) -> sumn n f == sumn n g.
Proof. exact (gsum_ext Z 0 1 Z.add Z.mul Z.sub Z.opp _ (cong_equiv m) (cong_reqe m) (cong_ring m) n f g). Qed.

Lemma cpow x y n : x == y -> zpow x n == zpow y n.
Proof.
  intros H. exact (gpow_proper Z 0 1 Z.add Z.mul Z.sub Z.opp _ (cong_equiv m) (cong_reqe m) (cong_ring m) x y H n n eq_refl).
Qed.

Lemma ceval_x f x y : x == y -> eval f x == eval f y.
Proof.
  intros H. rewrite !eval_geval.
  exact (geval_proper Z 0 1 Z.add Z.mul Z.sub Z.opp _ (cong_equiv m) (cong_reqe m) (cong_ring m) f x y H).
Qed.

Lemma ceval_f f g x : length f = length g ->
  (forall i, (i < length f)%nat -> coef f i == coef g i) -> eval f x == eval g x.
Proof.
  intros Hl H. unfold eval. rewrite <- Hl. apply csum_ext.
  intros i Hi. apply cong_mul; [apply H; assumption|reflexivity].
Qed.

Lemma ceval_even_odd n f fe fo x :
  length f = (2 * n)%nat -> length fe = n -> length fo = n ->
  (forall i, (i < n)%nat -> coef fe i == coef f (2 * i)) ->
  (forall i, (i < n)%nat -> coef fo i == coef f (2 * i + 1)) ->
  eval f x == eval fe (x * x) + x * eval fo (x * x).
Proof.
  intros. rewrite !eval_geval.
  exact (geval_even_odd Z 0 1 Z.add Z.mul Z.sub Z.opp _ (cong_equiv m) (cong_reqe m) (cong_ring m)
          n f fe fo x ltac:(assumption) ltac:(assumption) ltac:(assumption) ltac:(assumption) ltac:(assumption)).
Qed.

Lemma cnega_eval n f g x :
  length f = n -> length g = n -> x ^ Z.of_nat n == -1 ->
  eval (negacyc n f g) x == eval f x * eval g x.
Proof.
  intros Hf Hg Hx. rewrite !eval_geval, negacyc_gnega.
  apply (gnega_eval Z 0 1 Z.add Z.mul Z.sub Z.opp _ (cong_equiv m) (cong_reqe m) (cong_ring m)
          n f g x Hf Hg).
  rewrite zpow_pow. exact Hx.
Qed.

End Cong.
