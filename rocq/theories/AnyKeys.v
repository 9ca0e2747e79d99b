(** Random streams from which GenPoly (ntrugen.go:285-307) makes given polynomials. *)
From Verif Require Import GoBase Util Ntt Params Falcon Spec BaseProofs Float Samplerz SamplerProofs Fft
  Ntrugen Ffsampling KeyGen Binary64 Hang.

(** nine bytes, most significant first *)
Definition nine (u : Z) : list Z := map (fun i => (u / 256 ^ Z.of_nat (8 - i)) mod 256) (seq 0 9).
(** eleven bytes from which Samplerz returns z in its first round *)
Definition block_for (z : Z) : list Z :=
  let b := if 1 <=? z then 1 else 0 in
  let z0 := if 1 <=? z then z - 1 else - z in
  nine ((if z0 =? 0 then 2 ^ 72 else nth (Z.to_nat (z0 - 1)) RCDT 0) - 1) ++ [b; 0].
Definition streamZ (t : nat -> Z) : rand := fun k => Some (block_for (t k)).
Definition all_samples : list Z := map (fun i => Z.of_nat i - 18) (seq 0 38).
Lemma in_all z : -18 <= z <= 19 -> In z all_samples.
Proof. intros H. apply in_map_iff. exists (Z.to_nat (z + 18)). split; [lia|]. apply in_seq. lia. Qed.
Lemma block_bytes z : -18 <= z <= 19 -> length (block_for z) = 11%nat /\ Forall (fun x => 0 <= x < 256) (block_for z).
Proof.
  intros Hz. unfold block_for. cbv zeta. split; [reflexivity|]. apply Forall_app. split.
  - apply Forall_forall. intros x Hx. apply in_map_iff in Hx. destruct Hx as (i & <- & _). apply Z.mod_pos_bound. lia.
  - repeat constructor; destruct (1 <=? z); lia.
Qed.

Lemma first_round (FO : floats) (rb : rand) l fuel mu sigma sigmin k v j : rb k = Some l ->
  Samplerz FO (fun _ => Some l) 1 mu sigma sigmin 0 = Ok (v, j) -> Samplerz FO rb (S fuel) mu sigma sigmin k = Ok (v, S k).
Proof.
  intros E. unfold Samplerz. cbn [sampler_loop]. unfold generateAndSplitRandBytes. rewrite E. cbn [bind].
  destruct (sampler_round _ _ _ _ _ _ _) as [[z [|]]| | |]; cbn [bind fst snd]; try discriminate.
  intros H. apply (f_equal (fun r => match r with Ok p => fst p | _ => 0 end)) in H. cbn [fst] in H. rewrite H. reflexivity.
Qed.

Lemma map_block (t : nat -> Z) k m j i : (i * m + m <= j)%nat -> block (map t (seq k j)) m i = map t (seq (k + i * m) m).
Proof.
  intros H. unfold block. rewrite skipn_map, firstn_map. f_equal.
  replace j with (i * m + (m + (j - i * m - m)))%nat by lia.
  rewrite seq_app, skipn_app, skipn_all2 by (rewrite seq_length; lia).
  rewrite seq_length, Nat.sub_diag. cbn [skipn app].
  rewrite seq_app, firstn_app, firstn_all2 by (rewrite seq_length; lia).
  rewrite seq_length, Nat.sub_diag. cbn [firstn]. apply app_nil_r.
Qed.
Section Stream.
Context (ci cu : b64 -> Z).
Notation FO := (binary64 ci cu).
Definition draws_it (z : Z) : bool :=
  match Samplerz FO (fun _ => Some (block_for z)) 1 (f_of_int FO 0) (sigma_gen FO) (sigmin_gen FO) 0 with
  | Ok (v, _) => v =? z | _ => false end.
Lemma all_drawn : forallb draws_it all_samples = true.
Proof. vm_compute. reflexivity. Qed.

Lemma drawn t fuel k : draws_it (t k) = true ->
  Samplerz FO (streamZ t) (S fuel) (f_of_int FO 0) (sigma_gen FO) (sigmin_gen FO) k = Ok (t k, S k).
Proof.
  unfold draws_it. generalize (f_of_int FO 0) (sigma_gen FO) (sigmin_gen FO). intros mu sigma sigmin.
  destruct (Samplerz FO (fun _ => Some (block_for (t k))) 1 mu sigma sigmin 0) as [[v j]| | |] eqn:E; try discriminate.
  intros A. apply Z.eqb_eq in A. subst v.
  exact (first_round FO (streamZ t) (block_for (t k)) fuel _ _ _ k (t k) j eq_refl E).
Qed.

Context (t : nat -> Z) (Ht : forall i, -18 <= t i <= 19).
Lemma streamZ_sample fuel k :
  Samplerz FO (streamZ t) (S fuel) (f_of_int FO 0) (sigma_gen FO) (sigmin_gen FO) k = Ok (t k, S k).
Proof.
  apply drawn. pose proof all_drawn as A. rewrite forallb_forall in A. exact (A (t k) (in_all _ (Ht k))).
Qed.
Lemma streamZ_samples fuel m : forall k,
  samples FO (streamZ t) (S fuel) m k = Ok (map t (seq k m), (k + m)%nat).
Proof.
  induction m as [|m IH]; intros k; [cbn; rewrite Nat.add_0_r; reflexivity|].
  cbn [samples]. rewrite streamZ_sample. cbn [bind fst snd]. rewrite IH. cbn [bind fst snd seq map].
  rewrite Nat.add_succ_r. reflexivity.
Qed.
Lemma streamZ_GenPoly fuel n c : 1 <= n <= 4096 ->
  let m := Z.to_nat (4096 / n) in
  (forall i, (i < Z.to_nat n)%nat -> is_int16 (sum_list (map t (seq (c + i * m) m)))) ->
  GenPoly FO (streamZ t) (S fuel) n c =
  Ok (map (fun i => sum_list (map t (seq (c + i * m) m))) (seq 0 (Z.to_nat n)), (c + 4096)%nat).
Proof.
  intros Hn m H16. unfold GenPoly. rewrite Z.gtb_ltb. destruct (Z.ltb_spec 4096 n); [lia|].
  rewrite streamZ_samples. cbn [bind]. fold m.
  set (l := map t (seq c 4096)).
  assert (L : length l = 4096%nat) by (unfold l; rewrite map_length, seq_length; reflexivity).
  assert (Hm : (Z.to_nat n * m <= 4096)%nat).
  { unfold m. pose proof (Z.mul_div_le 4096 n ltac:(lia)). pose proof (Z.div_pos 4096 n). nia. }
  rewrite (mapM_Ok _ (fun i => sum_list (map t (seq (c + i * m) m)))); [reflexivity|].
  intros i Hi. apply in_seq in Hi.
  rewrite mapM_idx_seq by nia. cbn [bind]. f_equal.
  change (firstn m (skipn (i * m) l)) with (block l m i).
  assert (Hb : (i * m + m <= 4096)%nat).
  { apply Nat.le_trans with (Z.to_nat n * m)%nat; [|exact Hm]. replace (i * m + m)%nat with (S i * m)%nat by lia. apply Nat.mul_le_mono_r. lia. }
  unfold l. rewrite (map_block t c m 4096 i Hb).
  assert (F : Forall (fun v => -19 <= v <= 19) (map t (seq (c + i * m) m))).
  { apply Forall_forall. intros x Hx. apply in_map_iff in Hx. destruct Hx as (y & <- & _). pose proof (Ht y). lia. }
  rewrite (fold_sum_exact _ 19); [|lia|exact F|rewrite map_length, seq_length; nia].
  rewrite Z.add_0_l. apply wrap16_id. apply H16. lia.
Qed.
End Stream.

(** m samples that add up to c *)
Definition part (m : nat) (c : Z) (i : nat) : Z := (c + Z.of_nat i) / Z.of_nat m.
Definition reach (m : nat) (c : Z) : Prop := -18 * Z.of_nat m <= c <= 19 * Z.of_nat m.
Lemma part_range m c i : (i < m)%nat -> reach m c -> -18 <= part m c i <= 19.
Proof.
  intros Hi Hc. unfold part, reach in *.
  split; [apply Z.div_le_lower_bound; lia|]. apply Z.lt_succ_r, Z.div_lt_upper_bound; lia.
Qed.
Lemma sum_app l l' : sum_list (l ++ l') = sum_list l + sum_list l'.
Proof. induction l as [|x l IH]; [reflexivity|]. cbn [app]. change (sum_list (x :: ?l)) with (x + sum_list l). rewrite IH. lia. Qed.
Lemma part_succ m c : (0 < m)%nat -> sum_list (map (part m (c + 1)) (seq 0 m)) = sum_list (map (part m c) (seq 0 m)) + 1.
Proof.
  intros Hm. destruct m as [|m']; [lia|]. set (m := S m') in *.
  assert (E : map (part m (c + 1)) (seq 0 m') = map (part m c) (seq 1 m')).
  { rewrite <- seq_shift, map_map. apply map_ext. intros i. unfold part. f_equal. lia. }
  transitivity (sum_list (map (part m (c + 1)) (seq 0 m' ++ [m']))); [unfold m; rewrite seq_S; reflexivity|].
  transitivity (sum_list (map (part m c) (0%nat :: seq 1 m')) + 1); [|reflexivity].
  rewrite map_app, sum_app, E. cbn [map]. change (sum_list (?x :: ?l)) with (x + sum_list l). change (sum_list []) with 0.
  unfold part at 2 3. replace (c + 1 + Z.of_nat m') with (c + Z.of_nat 0 + 1 * Z.of_nat m) by (unfold m; lia).
  rewrite Z.div_add by (unfold m; lia). lia.
Qed.
Lemma part_sum m c : (0 < m)%nat -> sum_list (map (part m c) (seq 0 m)) = c.
Proof.
  intros Hm. assert (B : sum_list (map (part m 0) (seq 0 m)) = 0).
  { rewrite (map_ext_in _ (fun _ => 0)).
    - generalize (seq 0 m). induction l as [|x l IH]; [reflexivity|]. cbn [map]. change (sum_list (?x :: ?l)) with (x + sum_list l). rewrite IH. reflexivity.
    - intros i Hi. apply in_seq in Hi. apply Z.div_small. lia. }
  assert (U : forall j, sum_list (map (part m (Z.of_nat j)) (seq 0 m)) = Z.of_nat j).
  { induction j as [|j IH]; [exact B|]. replace (Z.of_nat (S j)) with (Z.of_nat j + 1) by lia. rewrite part_succ, IH by exact Hm. reflexivity. }
  assert (D : forall j, sum_list (map (part m (- Z.of_nat j)) (seq 0 m)) = - Z.of_nat j).
  { induction j as [|j IH]; [exact B|]. pose proof (part_succ m (- Z.of_nat (S j)) Hm) as X.
    replace (- Z.of_nat (S j) + 1) with (- Z.of_nat j) in X by lia. lia. }
  destruct (Z.le_gt_cases 0 c); [rewrite <- (Z2Nat.id c) by assumption; apply U|].
  replace c with (- Z.of_nat (Z.to_nat (- c))) by lia. apply D.
Qed.

Definition tape_for (n : nat) (f g : list Z) (k : nat) : Z :=
  let m := Nat.div 4096 n in part m (coef (f ++ g) (Nat.div k m)) (Nat.modulo k m).

Lemma coef_reach m l i : Forall (reach m) l -> reach m (coef l i).
Proof.
  intros F. unfold coef. destruct (Nat.lt_ge_cases i (length l)) as [H|H].
  - rewrite Forall_forall in F. apply F, nth_In, H.
  - rewrite nth_overflow by exact H. unfold reach. lia.
Qed.
Lemma coef_int16 l i : int16s l -> is_int16 (coef l i).
Proof.
  intros F. unfold coef. destruct (Nat.lt_ge_cases i (length l)) as [H|H].
  - unfold int16s in F. rewrite Forall_forall in F. apply F, nth_In, H.
  - rewrite nth_overflow by exact H. unfold is_int16. lia.
Qed.

Lemma tape_block n m f g b : (n * m = 4096)%nat -> (0 < m)%nat ->
  sum_list (map (tape_for n f g) (seq (b * m) m)) = coef (f ++ g) b.
Proof.
  intros E Hm. rewrite <- (part_sum m (coef (f ++ g) b) Hm). f_equal.
  rewrite <- (Nat.add_0_r (b * m)) at 1.
  assert (S : forall a s k, map (tape_for n f g) (seq (a + s) k) = map (fun i => tape_for n f g (a + i)) (seq s k)).
  { intros a s k. revert s. induction k as [|k IH]; intros s; [reflexivity|]. cbn [seq map]. f_equal.
    rewrite <- IH. f_equal. f_equal. lia. }
  rewrite S. apply map_ext_in. intros i Hi. apply in_seq in Hi. unfold tape_for.
  assert (D0 : Nat.div 4096 n = m).
  { symmetry. apply (Nat.div_unique _ n m 0); [destruct n; [discriminate E|lia]|lia]. }
  rewrite D0.
  assert (D : Nat.div (b * m + i) m = b) by (symmetry; apply (Nat.div_unique _ m b i); lia).
  assert (M : Nat.modulo (b * m + i) m = i) by (symmetry; apply (Nat.mod_unique _ m b i); lia).
  cbv zeta. rewrite D, M. reflexivity.
Qed.

(** Every pair of polynomials whose coefficients are int16 sums of 4096/n samples is drawn. *)
Theorem any_pair ci cu k f g sf : (1 <= k <= 10)%nat -> length f = (2 ^ k)%nat -> length g = (2 ^ k)%nat ->
  int16s f -> int16s g -> Forall (reach (2 ^ (12 - k))) f -> Forall (reach (2 ^ (12 - k))) g ->
  let n := Z.of_nat (2 ^ k) in let rb := streamZ (tape_for (2 ^ k) f g) in
  GenPoly (binary64 ci cu) rb (S sf) n 0 = Ok (f, 4096%nat) /\
  GenPoly (binary64 ci cu) rb (S sf) n 4096 = Ok (g, (4096 + 4096)%nat).
Proof.
  intros Hk Lf Lg If Ig Ff Fg n rb.
  assert (E : exists m, m = (2 ^ (12 - k))%nat /\ (2 ^ k * m = 4096)%nat /\ (0 < m)%nat /\ Z.to_nat (4096 / n) = m).
  { exists (2 ^ (12 - k))%nat. split; [reflexivity|]. split; [rewrite <- Nat.pow_add_r; replace (k + (12 - k))%nat with 12%nat by lia; reflexivity|].
    split; [pose proof (Nat.pow_nonzero 2 (12 - k)); lia|]. unfold n.
    assert (X : (2 ^ (12 - k) * 2 ^ k = 4096)%nat) by (rewrite <- Nat.pow_add_r; replace (12 - k + k)%nat with 12%nat by lia; reflexivity).
    change 4096 with (Z.of_nat 4096). rewrite <- X, Nat2Z.inj_mul, Z.div_mul, Nat2Z.id; [reflexivity|].
    pose proof (Nat.pow_nonzero 2 k). lia. }
  destruct E as (m & Dm & E & Hm & Em). rewrite <- Dm in *.
  assert (Fa : Forall (reach m) (f ++ g)) by (apply Forall_app; split; assumption).
  assert (Ia : int16s (f ++ g)) by (apply Forall_app; split; assumption).
  assert (D0 : Nat.div 4096 (2 ^ k) = m) by (symmetry; apply (Nat.div_unique _ _ m 0); [pose proof (Nat.pow_nonzero 2 k); lia|lia]).
  assert (R : forall i, -18 <= tape_for (2 ^ k) f g i <= 19).
  { intros i. unfold tape_for. rewrite D0. apply part_range; [apply Nat.mod_upper_bound; lia|apply coef_reach, Fa]. }
  assert (N : 1 <= n <= 4096).
  { unfold n. pose proof (Nat.pow_nonzero 2 k). nia. }
  assert (Q : forall c b0, c = (b0 * m)%nat -> forall i, (c + i * m)%nat = ((b0 + i) * m)%nat) by (intros; subst; lia).
  assert (T : forall c b0, c = (b0 * m)%nat ->
    GenPoly (binary64 ci cu) rb (S sf) n c = Ok (map (fun i => coef (f ++ g) (b0 + i)) (seq 0 (2 ^ k)), (c + 4096)%nat)).
  { intros c b0 Ec. unfold rb. rewrite (streamZ_GenPoly ci cu (tape_for (2 ^ k) f g) R sf n c N); rewrite Em.
    - unfold n. rewrite Nat2Z.id. f_equal. f_equal. apply map_ext. intros i. rewrite (Q c b0 Ec). apply (tape_block _ m); assumption.
    - intros i _. rewrite (Q c b0 Ec), (tape_block _ m) by assumption. apply coef_int16, Ia. }
  split.
  - rewrite (T 0%nat 0%nat eq_refl). change (0 + 4096)%nat with 4096%nat.
    match goal with |- Ok (?a, _) = Ok (?b, _) => enough (X : a = b) by (rewrite X; reflexivity) end.
    apply (nth_ext _ _ 0 0); [rewrite map_length, seq_length; now symmetry|]. intros i Hi. rewrite map_length, seq_length in Hi.
    rewrite (nth_indep _ 0 (coef (f ++ g) (0 + 0))) by (rewrite map_length, seq_length; exact Hi).
    rewrite (map_nth (fun i => coef (f ++ g) (0 + i))), seq_nth by exact Hi. unfold coef. cbn [Nat.add]. apply app_nth1. lia.
  - rewrite (T 4096%nat (2 ^ k)%nat (eq_sym E)).
    match goal with |- Ok (?a, _) = Ok (?b, _) => enough (X : a = b) by (rewrite X; reflexivity) end.
    apply (nth_ext _ _ 0 0); [rewrite map_length, seq_length; now symmetry|]. intros i Hi. rewrite map_length, seq_length in Hi.
    rewrite (nth_indep _ 0 (coef (f ++ g) (2 ^ k + 0))) by (rewrite map_length, seq_length; exact Hi).
    rewrite (map_nth (fun i => coef (f ++ g) (2 ^ k + i))), seq_nth by exact Hi. unfold coef. cbn [Nat.add].
    rewrite app_nth2 by lia. f_equal. lia.
Qed.

(** what the random source of the Go code gives: blocks of eleven bytes *)
Definition byte_blocks (rb : rand) : Prop :=
  forall i, exists b, rb i = Some b /\ length b = 11%nat /\ Forall (fun x => 0 <= x < 256) b.
Lemma tape_bytes k f g : (1 <= k <= 10)%nat -> Forall (reach (2 ^ (12 - k))) f -> Forall (reach (2 ^ (12 - k))) g ->
  byte_blocks (streamZ (tape_for (2 ^ k) f g)).
Proof.
  intros Hk Ff Fg i. eexists. split; [reflexivity|]. apply block_bytes. unfold tape_for.
  assert (D0 : Nat.div 4096 (2 ^ k) = (2 ^ (12 - k))%nat).
  { symmetry. apply (Nat.div_unique _ _ _ 0); [pose proof (Nat.pow_nonzero 2 k); lia|].
    rewrite Nat.add_0_r, <- Nat.pow_add_r. replace (k + (12 - k))%nat with 12%nat by lia. reflexivity. }
  cbv zeta. rewrite D0. pose proof (Nat.pow_nonzero 2 (12 - k)).
  apply part_range; [apply Nat.mod_upper_bound; lia|apply coef_reach, Forall_app; split; assumption].
Qed.
