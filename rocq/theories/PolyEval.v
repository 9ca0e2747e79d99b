(** A polynomial of length n over Z is determined by its value modulo x^n+1 at
    one large enough integer x; so identities in Z[x]/(x^n+1) can be checked by
    evaluation. *)
From Coq Require Import Ring Setoid Morphisms.
From Verif Require Import GoBase Spec PolyRing PolyZ BaseProofs.

Lemma sumn_S_l n f : sumn (S n) f = f O + sumn n (fun i => f (S i)).
Proof. induction n as [|n IH]; [cbn; ring|]. cbn [sumn] in *. rewrite IH. ring. Qed.

Lemma sumn_mul_l n c f : sumn n (fun i => c * f i) = c * sumn n f.
Proof. induction n as [|n IH]; cbn [sumn]; [ring|]. rewrite IH. ring. Qed.
Lemma sumn_add n f g : sumn n (fun i => f i + g i) = sumn n f + sumn n g.
Proof. induction n as [|n IH]; cbn [sumn]; [ring|]. rewrite IH. ring. Qed.
Lemma sumn_sub n f g : sumn n (fun i => f i - g i) = sumn n f - sumn n g.
Proof. induction n as [|n IH]; cbn [sumn]; [ring|]. rewrite IH. ring. Qed.
Lemma sumn_opp n f : sumn n (fun i => - f i) = - sumn n f.
Proof. induction n as [|n IH]; cbn [sumn]; [ring|]. rewrite IH. ring. Qed.
Lemma sumn_zero n : sumn n (fun _ => 0) = 0.
Proof. induction n as [|n IH]; cbn [sumn]; [reflexivity|]. rewrite IH. ring. Qed.
Lemma sumn_zero_ext n f : (forall i, (i < n)%nat -> f i = 0) -> sumn n f = 0.
Proof. intros H. rewrite (sumn_ext n f (fun _ => 0) H). apply sumn_zero. Qed.
Lemma sumn_split m n f : sumn (m + n) f = sumn m f + sumn n (fun i => f (m + i)%nat).
Proof.
  induction n as [|n IH].
  - rewrite Nat.add_0_r. cbn [sumn]. ring.
  - rewrite Nat.add_succ_r. cbn [sumn]. rewrite IH. ring.
Qed.
Lemma sumn_single n k f :
  (k < n)%nat -> (forall i, (i < n)%nat -> i <> k -> f i = 0) -> sumn n f = f k.
Proof.
  intros Hk H. replace n with (k + (1 + (n - k - 1)))%nat by lia.
  rewrite sumn_split, (sumn_split 1). cbn [sumn].
  rewrite (sumn_zero_ext k), (sumn_zero_ext (n - k - 1)); [|intros; apply H; lia..].
  replace (k + 0)%nat with k by lia. ring.
Qed.

Lemma eval_nil x : eval [] x = 0.
Proof. reflexivity. Qed.
Lemma eval_cons c l x : eval (c :: l) x = c + x * eval l x.
Proof.
  unfold eval. cbn [length]. rewrite sumn_S_l. cbn [coef nth]. 
  change (Z.of_nat 0) with 0. rewrite Z.pow_0_r. unfold coef. cbn [nth].
  rewrite Z.mul_1_r. f_equal. rewrite <- sumn_mul_l. apply sumn_ext. intros i _.
  rewrite Nat2Z.inj_succ, Z.pow_succ_r by lia. ring.
Qed.

Lemma eval_app l l' x : eval (l ++ l') x = eval l x + x ^ Z.of_nat (length l) * eval l' x.
Proof.
  induction l as [|c l IH].
  - cbn [app length]. change (Z.of_nat 0) with 0. rewrite Z.pow_0_r, eval_nil. ring.
  - cbn [app length]. rewrite !eval_cons, IH, Nat2Z.inj_succ, Z.pow_succ_r by lia. ring.
Qed.

Lemma eval_map_seq n h x :
  eval (map h (seq 0 n)) x = sumn n (fun i => h i * x ^ Z.of_nat i).
Proof.
  unfold eval. rewrite map_length, seq_length. apply sumn_ext. intros i Hi.
  rewrite coef_map_seq by exact Hi. reflexivity.
Qed.

Lemma eval_len n f x : length f = n -> eval f x = sumn n (fun i => coef f i * x ^ Z.of_nat i).
Proof. intros <-. reflexivity. Qed.

Lemma eval_psub n f g x : length f = n -> length g = n ->
  eval (psub n f g) x = eval f x - eval g x.
Proof.
  intros Hf Hg. unfold psub. rewrite eval_map_seq, (eval_len n f), (eval_len n g) by assumption.
  rewrite <- sumn_sub. apply sumn_ext. intros. ring.
Qed.
Lemma eval_padd n f g x : length f = n -> length g = n ->
  eval (padd n f g) x = eval f x + eval g x.
Proof.
  intros Hf Hg. unfold padd. rewrite eval_map_seq, (eval_len n f), (eval_len n g) by assumption.
  rewrite <- sumn_add. apply sumn_ext. intros. ring.
Qed.
Lemma eval_pconst n c x : (0 < n)%nat -> eval (pconst n c) x = c.
Proof.
  intros Hn. unfold pconst. rewrite eval_map_seq.
  rewrite (sumn_single n 0 _ Hn); [cbn; ring|].
  intros i _ Hi. destruct (Nat.eqb_spec i 0); [lia|ring].
Qed.
Lemma psub_length n f g : length (psub n f g) = n.
Proof. unfold psub. rewrite map_length, seq_length. reflexivity. Qed.
Lemma padd_length n f g : length (padd n f g) = n.
Proof. unfold padd. rewrite map_length, seq_length. reflexivity. Qed.
Lemma pconst_length n c : length (pconst n c) = n.
Proof. unfold pconst. rewrite map_length, seq_length. reflexivity. Qed.

(** the size of a value *)
Lemma eval_bound B l x : 0 <= B -> 1 <= x -> Forall (fun c => Z.abs c <= B) l ->
  Z.abs (eval l x) * (x - 1) <= B * (x ^ Z.of_nat (length l) - 1).
Proof.
  intros HB Hx H. induction H as [|c l Hc Hl IH].
  - rewrite eval_nil. cbn [length]. change (Z.of_nat 0) with 0. rewrite Z.pow_0_r. lia.
  - rewrite eval_cons. cbn [length]. rewrite Nat2Z.inj_succ, Z.pow_succ_r by lia.
    assert (Z.abs (c + x * eval l x) <= B + x * Z.abs (eval l x)).
    { rewrite Z.abs_triangle, Z.abs_mul, (Z.abs_eq x) by lia. lia. }
    nia.
Qed.

Lemma eval_zero B l x : Forall (fun c => Z.abs c <= B) l -> B < x -> eval l x = 0 ->
  l = repeat 0 (length l).
Proof.
  intros H Hx. induction H as [|c l Hc Hl IH]; [reflexivity|].
  rewrite eval_cons. intros E. cbn [length repeat].
  assert (c = 0).
  { assert (D : (x | c)) by (exists (- eval l x); lia).
    destruct D as [z D]. assert (z = 0) by nia. subst. lia. }
  subst c. f_equal. apply IH. nia.
Qed.

Lemma list_bound (l : list Z) : exists B, 0 <= B /\ Forall (fun c => Z.abs c <= B) l.
Proof.
  induction l as [|c l (B & HB & H)]; [exists 0; split; [lia|constructor]|].
  exists (Z.max B (Z.abs c)). split; [lia|]. constructor; [lia|].
  eapply Forall_impl; [|exact H]. cbn. lia.
Qed.

Lemma psub_zero n f g : length f = n -> length g = n -> psub n f g = repeat 0 n -> f = g.
Proof.
  intros Hf Hg E. apply (nth_ext f g 0 0); [congruence|]. intros i Hi.
  assert (A : coef (psub n f g) i = 0).
  { rewrite E. unfold coef. apply nth_repeat. }
  unfold psub in A. rewrite coef_map_seq in A by lia. unfold coef in A. lia.
Qed.

(** equality in Z[x]/(x^n+1) by evaluation *)
Theorem poly_eq n f g : length f = n -> length g = n ->
  (forall x, 1 < x -> cong (x ^ Z.of_nat n + 1) (eval f x) (eval g x)) -> f = g.
Proof.
  intros Hf Hg H. apply (psub_zero n); auto.
  destruct (list_bound (psub n f g)) as (B & HB & Hb).
  set (x := B + 2). specialize (H x ltac:(unfold x; lia)).
  assert (Hp : 0 < x ^ Z.of_nat n) by (apply Z.pow_pos_nonneg; unfold x; lia).
  apply cong_divide in H; [|lia]. rewrite <- (eval_psub n) in H by assumption.
  pose proof (eval_bound B _ x HB ltac:(unfold x; lia) Hb) as Bd.
  rewrite psub_length in Bd.
  assert (Z0 : eval (psub n f g) x = 0).
  { destruct H as [z Hz]. destruct (Z.eq_dec z 0) as [->|Nz]; [lia|].
    exfalso. assert (x ^ Z.of_nat n + 1 <= Z.abs (eval (psub n f g) x)).
    { rewrite Hz, Z.abs_mul, (Z.abs_eq (x ^ Z.of_nat n + 1)) by lia. nia. }
    unfold x in *. nia. }
  pose proof (eval_zero B _ x Hb ltac:(unfold x; lia) Z0) as E.
  rewrite psub_length in E. exact E.
Qed.

(** [-1] modulo x^n+1 *)
Lemma root_cong n x : cong (x ^ Z.of_nat n + 1) (x ^ Z.of_nat n) (-1).
Proof.
  destruct (Z.eq_dec (x ^ Z.of_nat n + 1) 0) as [E|E].
  - replace (x ^ Z.of_nat n) with (-1) by lia. reflexivity.
  - apply cong_divide; [exact E|]. exists 1. ring.
Qed.

Lemma nega_eval n f g x : length f = n -> length g = n ->
  cong (x ^ Z.of_nat n + 1) (eval (negacyc n f g) x) (eval f x * eval g x).
Proof. intros Hf Hg. apply cnega_eval; auto using root_cong. Qed.
