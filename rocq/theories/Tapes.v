(** Streams of k 16-bit words, and how many of them hash to a given point. *)
From Verif Require Import GoBase Xof Falcon Spec SpecHash FalconProofs Counting.

Definition words : list Z := zrange (Z.to_nat (2 ^ 16)) 0.
(** the 65536^k streams of k words *)
Fixpoint tapes (k : nat) : list (list Z) :=
  match k with
  | O => [[]]
  | S k => flat_map (fun x => map (cons x) (tapes k)) words
  end.
Definition tape (k : nat) (w : list Z) : Prop := length w = k /\ Forall (fun x => 0 <= x < 2 ^ 16) w.

Lemma zrange_app a : forall b z, zrange (a + b) z = zrange a z ++ zrange b (z + Z.of_nat a).
Proof.
  induction a as [|a IH]; intros b z.
  - cbn [Nat.add zrange app]. now rewrite Z.add_0_r.
  - cbn [Nat.add zrange app]. rewrite IH. do 3 f_equal. lia.
Qed.
Lemma zrange_shift a d : forall z, zrange a (z + d) = map (fun x => x + d) (zrange a z).
Proof.
  induction a as [|a IH]; intros z; cbn [zrange map]; [reflexivity|]. f_equal.
  rewrite <- IH. f_equal. lia.
Qed.
Lemma words_split : words = (residues ++ map (fun x => x + q) residues ++ map (fun x => x + 2 * q) residues ++
   map (fun x => x + 3 * q) residues ++ map (fun x => x + 4 * q) residues) ++ zrange (Z.to_nat 4091) 61445.
Proof.
  unfold words. Transparent residues. unfold residues.
  replace (Z.to_nat (2 ^ 16)) with (Z.to_nat q + (Z.to_nat q + (Z.to_nat q + (Z.to_nat q + (Z.to_nat q + Z.to_nat 4091)))))%nat
    by (rewrite <- !Z2Nat.inj_add by (unfold q; lia); reflexivity).
  rewrite !zrange_app, !q_nat, !Z.add_0_l. rewrite <- !app_assoc.
  rewrite <- !zrange_shift, !Z.add_0_l.
  replace (q + q) with (2 * q) by ring. replace (2 * q + q) with (3 * q) by ring.
  replace (3 * q + q) with (4 * q) by ring. replace (4 * q + q) with 61445 by reflexivity. reflexivity.
Qed.
#[global] Opaque residues.
Lemma in_words x : In x words <-> 0 <= x < 2 ^ 16.
Proof. unfold words. rewrite in_zrange, Z2Nat.id by lia. reflexivity. Qed.
Lemma nodup_words : NoDup words. Proof. apply nodup_zrange. Qed.
Lemma len_words : Z.of_nat (length words) = 2 ^ 16.
Proof. unfold words. rewrite len_zrange. apply Z2Nat.id. lia. Qed.
#[global] Opaque words.

Lemma in_tapes k : forall c, In c (tapes k) <-> tape k c.
Proof.
  induction k as [|k IH]; intros c.
  - cbn. unfold tape. split.
    + intros [<-|[]]. split; [reflexivity|constructor].
    + intros [L _]. destruct c; [left; reflexivity|discriminate].
  - cbn [tapes]. rewrite in_flat_map. split.
    + intros (x & Hx & Hc). apply in_map_iff in Hc. destruct Hc as (v & <- & Hv).
      apply IH in Hv. destruct Hv as [L F]. split; [cbn; now rewrite L|].
      constructor; [now apply in_words|exact F].
    + intros [L F]. destruct c as [|x v]; [discriminate|]. inversion F; subst.
      exists x. split; [now apply in_words|]. apply in_map. apply IH. split; [now injection L|assumption].
Qed.
Lemma nodup_tapes k : NoDup (tapes k).
Proof.
  induction k as [|k IH]; cbn [tapes]; [constructor; [easy|constructor]|].
  apply nodup_flat_cons; [apply nodup_words|exact IH].
Qed.

(** sums over all streams *)
Definition tsum (k : nat) (f : list Z -> Z) : Z := zsum (tapes k) f.
Lemma tsum_S k f : tsum (S k) f = zsum words (fun x => tsum k (fun w => f (x :: w))).
Proof.
  unfold tsum. cbn [tapes]. rewrite zsum_flat. apply zsum_ext. intros x _. apply zsum_map.
Qed.
Lemma tsum_O f : tsum 0 f = f []. Proof. unfold tsum. cbn. lia. Qed.
Lemma tsum_ext k f g : (forall w, tape k w -> f w = g w) -> tsum k f = tsum k g.
Proof. intros H. apply zsum_ext. intros w Hw. apply H. now apply in_tapes. Qed.
Lemma tsum_le k f g : (forall w, tape k w -> f w <= g w) -> tsum k f <= tsum k g.
Proof. intros H. apply zsum_le. intros w Hw. apply H. now apply in_tapes. Qed.
Lemma tsum_scale k a f : tsum k (fun w => a * f w) = a * tsum k f. Proof. apply zsum_scale. Qed.
Lemma tsum_add k f g : tsum k (fun w => f w + g w) = tsum k f + tsum k g. Proof. apply zsum_add. Qed.
Lemma tsum_const k a : tsum k (fun _ => a) = 2 ^ (16 * Z.of_nat k) * a.
Proof.
  revert a. induction k as [|k IH]; intros a.
  - rewrite tsum_O. change (16 * Z.of_nat 0) with 0. rewrite Z.pow_0_r. lia.
  - rewrite tsum_S, Nat2Z.inj_succ.
    replace (16 * Z.succ (Z.of_nat k)) with (16 + 16 * Z.of_nat k) by lia. rewrite Z.pow_add_r by lia.
    rewrite (zsum_ext words _ (fun _ => 2 ^ (16 * Z.of_nat k) * a)) by (intros; apply IH).
    rewrite zsum_const, len_words. ring.
Qed.

(** the weight of the point a stream of words hashes to *)
Definition at_point (n : nat) (W : list Z -> Z) (w : list Z) : Z :=
  if (n <=? length (accepted w))%nat then W (firstn n (accepted w)) else 0.

(** the number of streams of k words for each point of length n *)
Fixpoint ways (k n : nat) : Z :=
  match n, k with
  | O, _ => 2 ^ (16 * Z.of_nat k)
  | S _, O => 0
  | S n', S k => 4091 * ways k n + 5 * ways k n'
  end.
Lemma ways_nonneg k : forall n, 0 <= ways k n.
Proof.
  induction k as [|k IH]; intros [|n]; cbn [ways]; try (apply Z.pow_nonneg; lia); [lia|].
  pose proof (IH (S n)). pose proof (IH n). lia.
Qed.

Lemma accepted_in j r w : 0 <= j < 5 -> 0 <= r < q -> accepted (r + j * q :: w) = r :: accepted w.
Proof.
  intros Hj Hr. unfold accepted. cbn [filter]. destruct (Z.ltb_spec (r + j * q) (5 * q)); [|unfold q in *; lia].
  cbn [map]. f_equal. rewrite Z_mod_plus_full. apply Z.mod_small, Hr.
Qed.
Lemma accepted_out x w : 61445 <= x -> accepted (x :: w) = accepted w.
Proof.
  intros H. unfold accepted. cbn [filter]. destruct (Z.ltb_spec x (5 * q)); [unfold q in *; lia|]. reflexivity.
Qed.
Lemma at_point_in n W j r w : 0 <= j < 5 -> 0 <= r < q ->
  at_point (S n) W (r + j * q :: w) = at_point n (fun v => W (r :: v)) w.
Proof. intros Hj Hr. unfold at_point. rewrite accepted_in by assumption. reflexivity. Qed.
Lemma at_point_out n W x w : 61445 <= x -> at_point n W (x :: w) = at_point n W w.
Proof. intros Hx. unfold at_point. rewrite accepted_out by assumption. reflexivity. Qed.

(** all points are equally likely *)
Theorem hashed_total k : forall n W, tsum k (at_point n W) = ways k n * total n W.
Proof.
  induction k as [|k IH]; intros [|n] W.
  - rewrite tsum_O, total_O. unfold at_point. change (accepted []) with (@nil Z). cbn [ways length Nat.leb firstn].
    change (16 * Z.of_nat 0) with 0. rewrite Z.pow_0_r. lia.
  - rewrite tsum_O. unfold at_point. change (accepted []) with (@nil Z). cbn [ways length Nat.leb]. lia.
  - rewrite (total_O W). cbn [ways]. etransitivity; [|apply tsum_const]. apply tsum_ext. intros w _. reflexivity.
  - rewrite tsum_S, words_split, !zsum_app, !zsum_map.
    assert (B : forall j, 0 <= j < 5 ->
      zsum residues (fun x => tsum k (fun w => at_point (S n) W (x + j * q :: w))) = ways k n * total (S n) W).
    { intros j Hj. rewrite total_S, <- zsum_scale. apply zsum_ext. intros r Hr. apply in_residues in Hr.
      rewrite <- IH. apply tsum_ext. intros w _. apply at_point_in; assumption. }
    assert (B0 : zsum residues (fun x => tsum k (fun w => at_point (S n) W (x :: w))) = ways k n * total (S n) W).
    { rewrite <- (B 0) by lia. apply zsum_ext. intros r _. apply tsum_ext. intros w _. do 2 f_equal; lia. }
    assert (B1 : zsum residues (fun x => tsum k (fun w => at_point (S n) W (x + q :: w))) = ways k n * total (S n) W).
    { rewrite <- (B 1) by lia. apply zsum_ext. intros r _. apply tsum_ext. intros w _. do 2 f_equal; lia. }
    assert (O : zsum (zrange (Z.to_nat 4091) 61445) (fun x => tsum k (fun w => at_point (S n) W (x :: w))) =
      4091 * (ways k (S n) * total (S n) W)).
    { rewrite <- IH.
      rewrite (zsum_ext _ _ (fun _ => tsum k (at_point (S n) W))).
      - rewrite zsum_const, len_zrange, Z2Nat.id by lia. reflexivity.
      - intros x Hx. apply in_zrange in Hx. apply tsum_ext. intros w _. apply at_point_out. lia. }
    rewrite B0, B1, (B 2), (B 3), (B 4), O by lia. cbn [ways]. ring.
Qed.

(** the result of hashing, from the first k words of the stream *)
Theorem hash_words X k msg salt : hashToPoint X k msg salt =
  let a := accepted (xwords X k (absorbed X msg salt)) in
  if (512 <=? length a)%nat then Ok (firstn 512 a) else Diverge.
Proof.
  unfold hashToPoint. fold (absorbed X msg salt).
  assert (G : forall k s acc, (length acc <= 512)%nat -> hash_loop X k 512 s acc =
    let a := acc ++ accepted (xwords X k s) in if (512 <=? length a)%nat then Ok (firstn 512 a) else Diverge).
  { clear. induction k as [|k IH]; intros s acc L; cbn zeta.
    - cbn [xwords]. change (accepted []) with (@nil Z). rewrite app_nil_r. cbn [hash_loop].
      destruct (Nat.ltb_spec (length acc) 512); destruct (Nat.leb_spec 512 (length acc)); try lia; [reflexivity|].
      rewrite firstn_all2 by lia. reflexivity.
    - destruct (Nat.eq_dec (length acc) 512) as [E|E].
      + rewrite hash_loop_done by lia. rewrite app_length.
        destruct (Nat.leb_spec 512 (length acc + length (accepted (xwords X (S k) s)))); [|lia].
        rewrite firstn_app, E, Nat.sub_diag, firstn_O, app_nil_r, firstn_all2 by lia. reflexivity.
      + rewrite hash_loop_step by lia. pose proof (accepted_one_le (word_of X (xread2 X s))).
        rewrite IH by (rewrite app_length; lia). cbn zeta. cbn [xwords].
        change (word_of X (xread2 X s) :: xwords X k (snd (xread2 X s))) with ([word_of X (xread2 X s)] ++ xwords X k (snd (xread2 X s))).
        rewrite accepted_app, app_assoc. reflexivity. }
  rewrite (G k (absorbed X msg salt) []) by (cbn; lia). reflexivity.
Qed.

(** counting streams by a boolean *)
Definition theard (k : nat) (p : list Z -> bool) : list (list Z) := filter p (tapes k).
Lemma theard_count k p : Z.of_nat (length (theard k p)) = tsum k (fun w => b2z (p w)).
Proof.
  unfold theard, tsum. induction (tapes k) as [|v l IH]; [reflexivity|].
  cbn [filter zsum fold_right]. unfold zsum in IH. destruct (p v); cbn [length b2z]; lia.
Qed.
Lemma in_theard k p w : In w (theard k p) <-> tape k w /\ p w = true.
Proof. unfold theard. rewrite filter_In, in_tapes. reflexivity. Qed.
Lemma nodup_theard k p : NoDup (theard k p).
Proof. apply NoDup_filter, nodup_tapes. Qed.
Lemma theard_max k p l : NoDup l -> (forall w, In w l -> tape k w /\ p w = true) ->
  Z.of_nat (length l) <= tsum k (fun w => b2z (p w)).
Proof.
  intros N H. rewrite <- theard_count. apply inj_le. apply NoDup_incl_length; [exact N|].
  intros w Hw. apply in_theard, H, Hw.
Qed.
(** the streams of k words that hash to a point with property p *)
Definition leads (p : list Z -> bool) (w : list Z) : bool :=
  (512 <=? length (accepted w))%nat && p (firstn 512 (accepted w)).
Lemma leads_total k p : tsum k (fun w => b2z (leads p w)) = ways k 512 * total 512 (fun v => b2z (p v)).
Proof.
  rewrite <- hashed_total. apply tsum_ext. intros w _. unfold leads, at_point.
  destruct (512 <=? length (accepted w))%nat; reflexivity.
Qed.

(** an XOF whose stream starts with the given words *)
Definition tapeXOF (w : list Z) : XOF.
Proof.
  refine {| xst := list Z; xnew := w; xwrite := fun s _ => s;
    xread2 := fun s => ((hd 0 s / 256) mod 256, hd 0 s mod 256, tl s) |}.
  intros s. cbn [fst snd]. unfold is_byte.
  split; [pose proof (Z.mod_pos_bound (hd 0 s / 256) 256)|pose proof (Z.mod_pos_bound (hd 0 s) 256)]; lia.
Defined.
Lemma tapeXOF_words w msg salt k : tape k w -> xwords (tapeXOF w) k (absorbed (tapeXOF w) msg salt) = w.
Proof.
  change (tape k w -> xwords (tapeXOF w) k w = w).
  assert (G : forall v k, tape k v -> xwords (tapeXOF w) k v = v).
  { clear k. induction v as [|x v IH]; intros k [L F]; subst k; [reflexivity|].
    inversion F as [|? ? Hx Hv]; subst. cbn [length xwords]. change (snd (xread2 (tapeXOF w) (x :: v))) with v.
    rewrite (IH (length v) (conj eq_refl Hv)). f_equal. unfold word_of. cbn [tapeXOF xread2 fst snd hd].
    rewrite (Z.mod_small (x / 256)) by (split; [apply Z.div_pos; lia|apply Z.div_lt_upper_bound; lia]).
    symmetry. apply Z.div_mod. lia. }
  apply G.
Qed.
