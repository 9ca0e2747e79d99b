(** Lemmas about the base vocabulary: mapM, idx, interleaving, wraps. *)
From Verif Require Import GoBase Util.

Ltac Zify.zify_post_hook ::= Z.div_mod_to_equations.

Lemma wrap_id w z : 0 < w -> - 2 ^ (w - 1) <= z < 2 ^ (w - 1) -> wrap w z = z.
Proof.
  intros Hw Hz. unfold wrap.
  assert (E : 2 ^ w = 2 * 2 ^ (w - 1)).
  { rewrite <- Z.pow_succ_r by lia. f_equal; lia. }
  rewrite Z.mod_small by lia. lia.
Qed.

Lemma wrap16_id z : is_int16 z -> wrap16 z = z.
Proof. intros H. apply wrap_id; [lia|]. unfold is_int16 in H. change (2 ^ (16 - 1)) with 32768. lia. Qed.

Lemma wrap64_id z : is_int64 z -> wrap64 z = z.
Proof. intros H. apply wrap_id; [lia|]. unfold is_int64 in H. change (64 - 1) with 63. lia. Qed.

Lemma wrap32_id z : - 2 ^ 31 <= z < 2 ^ 31 -> wrap32 z = z.
Proof. intros H. apply wrap_id; lia. Qed.

Lemma wrap_range w z : 0 < w -> - 2 ^ (w - 1) <= wrap w z < 2 ^ (w - 1).
Proof.
  intros Hw. unfold wrap.
  assert (E : 2 ^ w = 2 * 2 ^ (w - 1)).
  { rewrite <- Z.pow_succ_r by lia. f_equal; lia. }
  assert (0 < 2 ^ w) by (apply Z.pow_pos_nonneg; lia).
  pose proof (Z.mod_pos_bound (z + 2 ^ (w - 1)) (2 ^ w)). lia.
Qed.

Lemma wrap_congr w z : 0 < w -> (wrap w z) mod 2 ^ w = z mod 2 ^ w.
Proof.
  intros Hw. unfold wrap.
  rewrite Zminus_mod, Zmod_mod, <- Zminus_mod. f_equal. lia.
Qed.

Lemma wrap16_int16 z : is_int16 (wrap16 z).
Proof. pose proof (wrap_range 16 z ltac:(lia)) as H. unfold is_int16, wrap16.
  change (2 ^ (16 - 1)) with 32768 in H. lia. Qed.

Lemma Pmod_Q x : Pmod x Q = Ok (x mod Q).
Proof.
  unfold Pmod, Q. cbn [Z.eqb].
  change (12289 =? 0) with false. cbv iota.
  change (12289 <? 0) with false.
  pose proof (Z.rem_bound_abs x 12289 ltac:(lia)) as Hb.
  pose proof (Z.quot_rem' x 12289) as Hq.
  destruct (Z.leb_spec 0 (Z.rem x 12289)) as [H|H]; f_equal.
  - apply (Z.mod_unique_pos x 12289 (Z.quot x 12289)); lia.
  - apply (Z.mod_unique_pos x 12289 (Z.quot x 12289 - 1)); lia.
Qed.

Lemma modQ_range x : 0 <= x mod Q < 12289.
Proof. apply (Z.mod_pos_bound x Q). reflexivity. Qed.

Lemma modQ_int16 x : is_int16 (x mod Q).
Proof. pose proof (modQ_range x). unfold is_int16. lia. Qed.

Lemma wrap16_modQ x : wrap16 (x mod Q) = x mod Q.
Proof. apply wrap16_id, modQ_int16. Qed.

(** ** mapM *)
Lemma mapM_Ok {A B} (f : A -> res B) (g : A -> B) l :
  (forall a, In a l -> f a = Ok (g a)) -> mapM f l = Ok (map g l).
Proof.
  induction l as [|a l IH]; intros H; cbn [mapM map]; [reflexivity|].
  rewrite (H a) by (left; reflexivity). cbn [bind].
  rewrite IH by (intros; apply H; right; assumption). reflexivity.
Qed.

Lemma mapM_ext {A B} (f g : A -> res B) l :
  (forall a, In a l -> f a = g a) -> mapM f l = mapM g l.
Proof.
  induction l as [|a l IH]; intros H; cbn [mapM]; [reflexivity|].
  rewrite (H a) by (left; reflexivity).
  rewrite IH by (intros; apply H; right; assumption). reflexivity.
Qed.

Lemma mapM_length {A B} (f : A -> res B) l l' :
  mapM f l = Ok l' -> length l' = length l.
Proof.
  revert l'; induction l as [|a l IH]; intros l' H; cbn [mapM] in H.
  - injection H as <-. reflexivity.
  - destruct (f a); try discriminate. cbn [bind] in H.
    destruct (mapM f l) eqn:E; try discriminate. injection H as <-.
    cbn [length]. f_equal. apply IH; reflexivity.
Qed.

Lemma mapM_Ok_inv {A B} (f : A -> res B) l l' :
  mapM f l = Ok l' -> Forall2 (fun a b => f a = Ok b) l l'.
Proof.
  revert l'; induction l as [|a l IH]; intros l' H; cbn [mapM] in H.
  - injection H as <-. constructor.
  - destruct (f a) eqn:Ef; try discriminate. cbn [bind] in H.
    destruct (mapM f l) eqn:E; try discriminate. injection H as <-.
    constructor; [assumption|]. apply IH; reflexivity.
Qed.

Lemma mapM_panic_at {A B} (f : A -> res B) l1 a l2 :
  (forall x, In x l1 -> exists b, f x = Ok b) -> f a = Panic ->
  mapM f (l1 ++ a :: l2) = Panic.
Proof.
  induction l1 as [|x l1 IH]; intros H Ha; cbn [mapM app].
  - rewrite Ha. reflexivity.
  - destruct (H x ltac:(left; reflexivity)) as [b Hb]. rewrite Hb. cbn [bind].
    rewrite IH; [reflexivity| |assumption]. intros; apply H; right; assumption.
Qed.

Lemma idx_nth {A} (l : list A) i d : (i < length l)%nat -> idx l i = Ok (nth i l d).
Proof. intros H. unfold idx. rewrite (nth_error_nth' l d H). reflexivity. Qed.

Lemma idx_out {A} (l : list A) i : (length l <= i)%nat -> idx l i = Panic.
Proof. intros H. unfold idx. apply nth_error_None in H. rewrite H. reflexivity. Qed.

(** ** Lists as functions of the index *)
Lemma map_seq_nth {A} (l : list A) d : map (fun i => nth i l d) (seq 0 (length l)) = l.
Proof.
  apply nth_ext with (d := d) (d' := d).
  - rewrite map_length, seq_length. reflexivity.
  - intros i Hi. rewrite map_length, seq_length in Hi.
    rewrite (nth_indep _ d (nth 0%nat l d)) by (rewrite map_length, seq_length; assumption).
    change (nth 0%nat l d) with ((fun i => nth i l d) 0%nat).
    rewrite map_nth, seq_nth by assumption. reflexivity.
Qed.

Lemma nth_map_seq {A} (f : nat -> A) n i d :
  (i < n)%nat -> nth i (map f (seq 0 n)) d = f i.
Proof.
  intros H. rewrite (nth_indep _ d (f 0%nat)) by (rewrite map_length, seq_length; assumption).
  rewrite map_nth, seq_nth by assumption. reflexivity.
Qed.

Lemma map_seq_ext {A} (f g : nat -> A) n :
  (forall i, (i < n)%nat -> f i = g i) -> map f (seq 0 n) = map g (seq 0 n).
Proof. intros H. apply map_ext_in. intros i Hi. apply in_seq in Hi. apply H; lia. Qed.

(** ** Interleaving *)
Definition interleave {A} (a b : nat -> A) (n : nat) : list A :=
  concat (map (fun i => [a i; b i]) (seq 0 n)).

Lemma interleave_S {A} (a b : nat -> A) n :
  interleave a b (S n) = interleave a b n ++ [a n; b n].
Proof.
  unfold interleave. rewrite seq_S, map_app, concat_app. reflexivity.
Qed.

Lemma interleave_length {A} (a b : nat -> A) n : length (interleave a b n) = (2 * n)%nat.
Proof.
  induction n as [|n IH]; [reflexivity|].
  rewrite interleave_S, app_length, IH. cbn [length]. lia.
Qed.

Lemma interleave_even {A} (a b : nat -> A) n i d :
  (i < n)%nat -> nth (2 * i) (interleave a b n) d = a i.
Proof.
  induction n as [|n IH]; intros H; [lia|].
  rewrite interleave_S.
  destruct (Nat.eq_dec i n) as [->|Hne].
  - rewrite app_nth2; rewrite interleave_length; [|lia].
    rewrite Nat.sub_diag. reflexivity.
  - rewrite app_nth1 by (rewrite interleave_length; lia). apply IH. lia.
Qed.

Lemma interleave_odd {A} (a b : nat -> A) n i d :
  (i < n)%nat -> nth (2 * i + 1) (interleave a b n) d = b i.
Proof.
  induction n as [|n IH]; intros H; [lia|].
  rewrite interleave_S.
  destruct (Nat.eq_dec i n) as [->|Hne].
  - rewrite app_nth2; rewrite interleave_length; [|lia].
    replace (2 * n + 1 - 2 * n)%nat with 1%nat by lia. reflexivity.
  - rewrite app_nth1 by (rewrite interleave_length; lia). apply IH. lia.
Qed.

Lemma list_eq_pairs {A} (l l' : list A) m d :
  length l = (2 * m)%nat -> length l' = (2 * m)%nat ->
  (forall i, (i < m)%nat -> nth (2 * i) l d = nth (2 * i) l' d /\
                            nth (2 * i + 1) l d = nth (2 * i + 1) l' d) ->
  l = l'.
Proof.
  intros Hl Hl' H. apply nth_ext with (d := d) (d' := d); [lia|].
  intros i Hi. rewrite Hl in Hi.
  destruct (Nat.Even_or_Odd i) as [[j ->]|[j ->]].
  - apply (H j). lia.
  - apply (H j). lia.
Qed.

(** ** Split and merge *)
Definition evens {A} (d : A) (f : list A) : list A :=
  map (fun i => nth (2 * i) f d) (seq 0 (Nat.div (length f) 2)).
Definition odds {A} (d : A) (f : list A) : list A :=
  map (fun i => nth (2 * i + 1) f d) (seq 0 (Nat.div (length f) 2)).

Lemma evens_length {A} (d : A) f : length (evens d f) = Nat.div (length f) 2.
Proof. unfold evens. rewrite map_length, seq_length. reflexivity. Qed.
Lemma odds_length {A} (d : A) f : length (odds d f) = Nat.div (length f) 2.
Proof. unfold odds. rewrite map_length, seq_length. reflexivity. Qed.

Lemma div2_lt i n : (i < Nat.div n 2)%nat -> (2 * i + 1 < n)%nat.
Proof. intros H. pose proof (Nat.div_mod n 2 ltac:(lia)). lia. Qed.

Lemma SplitPolys_ok {A} (d : A) f : SplitPolys f = Ok (evens d f, odds d f).
Proof.
  unfold SplitPolys.
  rewrite (mapM_Ok _ (fun i => nth (2 * i) f d)).
  2:{ intros i Hi. apply in_seq in Hi. apply idx_nth.
      pose proof (div2_lt i (length f)). lia. }
  cbn [bind].
  rewrite (mapM_Ok _ (fun i => nth (2 * i + 1) f d)).
  2:{ intros i Hi. apply in_seq in Hi. apply idx_nth.
      pose proof (div2_lt i (length f)). lia. }
  reflexivity.
Qed.

Lemma MergePolys_ok {A} (d : A) f0 f1 :
  (length f0 <= length f1)%nat ->
  MergePolys f0 f1 =
  Ok (interleave (fun i => nth i f0 d) (fun i => nth i f1 d) (length f0)).
Proof.
  intros H. unfold MergePolys.
  rewrite (mapM_Ok _ (fun i => [nth i f0 d; nth i f1 d])).
  2:{ intros i Hi. apply in_seq in Hi.
      rewrite (idx_nth f0 i d), (idx_nth f1 i d) by lia. reflexivity. }
  reflexivity.
Qed.

Lemma evens_nth {A} (d : A) f i : (i < Nat.div (length f) 2)%nat -> nth i (evens d f) d = nth (2 * i) f d.
Proof. intros H. unfold evens. exact (nth_map_seq (fun i => nth (2 * i) f d) _ i d H). Qed.
Lemma odds_nth {A} (d : A) f i : (i < Nat.div (length f) 2)%nat -> nth i (odds d f) d = nth (2 * i + 1) f d.
Proof. intros H. unfold odds. exact (nth_map_seq (fun i => nth (2 * i + 1) f d) _ i d H). Qed.

Lemma interleave_evens_odds {A} (d : A) f m :
  length f = (2 * m)%nat ->
  interleave (fun i => nth i (evens d f) d) (fun i => nth i (odds d f) d) m = f.
Proof.
  intros Hf.
  assert (Hd : Nat.div (length f) 2 = m) by (rewrite Hf, Nat.mul_comm, Nat.div_mul; lia).
  apply (list_eq_pairs _ _ m d).
  - apply interleave_length.
  - assumption.
  - intros i Hi. rewrite interleave_even, interleave_odd by assumption.
    rewrite evens_nth, odds_nth by (rewrite Hd; assumption). split; reflexivity.
Qed.

Lemma Forall_evens {A} (P : A -> Prop) d f : Forall P f -> Forall P (evens d f).
Proof.
  intros H. apply Forall_forall. intros x Hx. unfold evens in Hx.
  apply in_map_iff in Hx. destruct Hx as [i [<- Hi]]. apply in_seq in Hi.
  rewrite Forall_forall in H. apply H, nth_In.
  pose proof (div2_lt i (length f)). lia.
Qed.
Lemma Forall_odds {A} (P : A -> Prop) d f : Forall P f -> Forall P (odds d f).
Proof.
  intros H. apply Forall_forall. intros x Hx. unfold odds in Hx.
  apply in_map_iff in Hx. destruct Hx as [i [<- Hi]]. apply in_seq in Hi.
  rewrite Forall_forall in H. apply H, nth_In.
  pose proof (div2_lt i (length f)). lia.
Qed.

Lemma Forall_nth_d {A} (P : A -> Prop) f i d : Forall P f -> (i < length f)%nat -> P (nth i f d).
Proof. intros H Hi. rewrite Forall_forall in H. apply H, nth_In. assumption. Qed.

Lemma Ok_inj {A} (a b : A) : Ok a = Ok b -> a = b.
Proof. intros H. injection H as H. exact H. Qed.
