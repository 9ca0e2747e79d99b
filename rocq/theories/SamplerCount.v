(** Counting the random blocks that make one round of Samplerz return a given
    value, and termination of the rejection loop. *)
From Verif Require Import GoBase Util BaseProofs SpecHash Float Samplerz SamplerProofs.

(** ** Counting *)
Lemma NoDup_map_on {A B} (f : A -> B) l :
  (forall x y, In x l -> In y l -> f x = f y -> x = y) -> NoDup l -> NoDup (map f l).
Proof.
  intros H N. induction N as [|x l Nx N IH]; cbn [map]; constructor.
  - intros Hin. apply in_map_iff in Hin. destruct Hin as (y & E & Hy). apply Nx.
    rewrite <- (H y x (or_intror Hy) (or_introl eq_refl) E). exact Hy.
  - apply IH. intros a b Ha Hb. apply H; right; assumption.
Qed.
Lemma NoDup_prod {A B} (l : list A) (m : list B) : NoDup l -> NoDup m -> NoDup (list_prod l m).
Proof.
  intros Nl Nm. induction Nl as [|x l Nx Nl IH]; cbn [list_prod]; [constructor|].
  assert (G : forall u v : list (A * B), NoDup u -> NoDup v -> (forall p, In p u -> ~ In p v) -> NoDup (u ++ v)).
  { clear. induction u as [|p u IH]; intros v Nu Nv D; [exact Nv|]. inversion Nu; subst. cbn. constructor.
    - rewrite in_app_iff. intros [H|H]; [contradiction|]. apply (D p); [left; reflexivity|exact H].
    - apply IH; auto. intros q Hq. apply D. right. exact Hq. }
  apply G; [|exact IH|].
  - apply NoDup_map_on; [|exact Nm]. intros a b _ _ E. congruence.
  - intros [a b] Hp Hq. apply in_map_iff in Hp. destruct Hp as (y & E & _). injection E as <- <-.
    apply in_prod_iff in Hq. apply Nx, Hq.
Qed.

(** the number of 72-bit strings for which BaseSampler returns z0 *)
Definition chi (z0 : Z) : Z :=
  (if z0 =? 0 then 2 ^ 72 else nth (Z.to_nat (z0 - 1)) RCDT 0) - nth (Z.to_nat z0) RCDT 0.

Lemma interval_count (P : list Z -> Prop) m lo hi : 0 <= lo -> lo <= hi <= 256 ^ Z.of_nat m ->
  (forall l, bytes l -> length l = m -> (P l <-> lo <= SetBytes l < hi)) ->
  exists L, NoDup L /\ Z.of_nat (length L) = hi - lo /\
    forall l, In l L <-> (bytes l /\ length l = m /\ P l).
Proof.
  intros Hlo Hhi HP.
  assert (G : forall d, (Z.of_nat d <= hi - lo) ->
    exists L, NoDup L /\ length L = d /\
      forall l, In l L <-> (bytes l /\ length l = m /\ lo <= SetBytes l < lo + Z.of_nat d)).
  { induction d as [|d IH]; intros Hd.
    - exists []. split; [apply NoDup_nil|]. split; [reflexivity|]. intros l. split; [intros H; destruct H|].
      intros (_ & _ & H). lia.
    - destruct IH as (L & N & Ll & HL); [lia|].
      destruct (SetBytes_surj m (lo + Z.of_nat d) ltac:(lia)) as (x & Bx & Lx & Ex).
      exists (x :: L). split; [constructor; [|exact N]|].
      + intros Hx. apply HL in Hx. lia.
      + split; [cbn; lia|]. intros l. cbn [In]. rewrite HL. split.
        * intros [<- | (B & C & D)]; repeat split; auto; lia.
        * intros (B & C & D). destruct (Z.eq_dec (SetBytes l) (lo + Z.of_nat d)) as [E|E].
          -- left. apply SetBytes_inj; auto; congruence.
          -- right. repeat split; auto; lia. }
  destruct (G (Z.to_nat (hi - lo)) ltac:(lia)) as (L & N & Ll & HL). exists L. split; [exact N|]. split; [lia|].
  intros l. rewrite HL. split; intros (B & C & D); repeat split; auto.
  - apply HP; auto. lia.
  - apply HP in D; auto. lia.
  - apply HP in D; auto. lia.
Qed.

Lemma BaseSampler_eq l z0 : bytes l -> length l = 9%nat -> 0 <= z0 <= 18 ->
  (BaseSampler l = z0 <->
   nth (Z.to_nat z0) RCDT 0 <= SetBytes l < if z0 =? 0 then 2 ^ 72 else nth (Z.to_nat (z0 - 1)) RCDT 0).
Proof.
  intros B L Hz. pose proof (BaseSampler_range l) as R.
  assert (U : BaseSampler l <= z0 <-> nth (Z.to_nat z0) RCDT 0 <= SetBytes l).
  { destruct (Z.eq_dec z0 18) as [->|N].
    - change (nth (Z.to_nat 18) RCDT 0) with 0. pose proof (SetBytes_range l B). lia.
    - pose proof (BaseSampler_gt l (Z.to_nat z0) ltac:(lia)). lia. }
  assert (V : z0 <= BaseSampler l <-> SetBytes l < if z0 =? 0 then 2 ^ 72 else nth (Z.to_nat (z0 - 1)) RCDT 0).
  { destruct (Z.eqb_spec z0 0) as [->|N].
    - pose proof (SetBytes_range l B) as SR. rewrite L in SR. change (256 ^ Z.of_nat 9) with (2 ^ 72) in SR. lia.
    - pose proof (BaseSampler_gt l (Z.to_nat (z0 - 1)) ltac:(lia)). lia. }
  lia.
Qed.

Lemma chi_count z0 : 0 <= z0 <= 18 ->
  exists L, NoDup L /\ Z.of_nat (length L) = chi z0 /\
    forall l, In l L <-> (bytes l /\ length l = 9%nat /\ BaseSampler l = z0).
Proof.
  intros Hz. unfold chi.
  assert (C : z0 = 0 \/ z0 = 1 \/ z0 = 2 \/ z0 = 3 \/ z0 = 4 \/ z0 = 5 \/ z0 = 6 \/ z0 = 7 \/ z0 = 8 \/ z0 = 9 \/
    z0 = 10 \/ z0 = 11 \/ z0 = 12 \/ z0 = 13 \/ z0 = 14 \/ z0 = 15 \/ z0 = 16 \/ z0 = 17 \/ z0 = 18) by lia.
  apply interval_count.
  - repeat (destruct C as [->|C]; [vm_compute; discriminate|]). subst. vm_compute. discriminate.
  - change (256 ^ Z.of_nat 9) with (2 ^ 72).
    repeat (destruct C as [->|C]; [split; vm_compute; discriminate|]). subst. split; vm_compute; discriminate.
  - intros l B L. apply BaseSampler_eq; auto.
Qed.

Section Float.
Context (FO : floats).
Notation F := (F FO).

(** the absolute value and the sign bit that give the candidate z *)
Definition z_abs (z : Z) : Z := if 1 <=? z then z - 1 else - z.
Definition z_bit (z : Z) : Z := if 1 <=? z then 1 else 0.
(** the exponent computed for the candidate z *)
Definition cand_exp (r dss : F) (z : Z) : F :=
  f_sub FO (f_mul FO (f_sqr FO (f_sub FO (f_of_int FO z) r)) dss)
           (f_mul FO (f_sqr FO (f_of_int FO (z_abs z))) (inv2sigma2 FO)).

Lemma land1 b : Z.land (wrap64 b) 1 = b mod 2.
Proof.
  change 1 with (Z.ones 1). rewrite Z.land_ones by lia. change (2 ^ 1) with 2. unfold wrap64, wrap. lia.
Qed.

(** what a round does with the block l *)
Definition round_of (r dss ccs : F) (l : list Z) : res (F * bool) :=
  sampler_round FO r dss ccs (firstn 9 l) (firstn 1 (skipn 9 l)) (skipn 10 l).

Lemma block_shape l : bytes l -> length l = 11%nat ->
  exists fb s t, l = fb ++ [s; t] /\ length fb = 9%nat /\ bytes fb /\ is_byte s /\ is_byte t.
Proof.
  intros B L.
  do 11 (destruct l as [|? l]; [discriminate|]). destruct l; [|discriminate].
  repeat match goal with H : bytes (_ :: _) |- _ => inversion H; subst; clear H
                       | H : Forall _ (_ :: _) |- _ => inversion H; subst; clear H end.
  eexists [_; _; _; _; _; _; _; _; _], _, _. split; [reflexivity|]. split; [reflexivity|].
  split; [|split; assumption]. unfold bytes. repeat (apply Forall_cons; [assumption|]). apply Forall_nil.
Qed.

Lemma round_of_cat r dss ccs fb s t : length fb = 9%nat -> is_byte s ->
  round_of r dss ccs (fb ++ [s; t]) =
  let z0 := BaseSampler fb in let z := s mod 2 + (2 * (s mod 2) - 1) * z0 in
  acc <- berexp FO (f_sub FO (f_mul FO (f_sqr FO (f_sub FO (f_of_int FO z) r)) dss)
                             (f_mul FO (f_sqr FO (f_of_int FO z0)) (inv2sigma2 FO))) ccs [t] ;;
  Ok (f_of_int FO z, acc).
Proof.
  intros L Hs. do 9 (destruct fb as [|? fb]; [discriminate|]). destruct fb; [|discriminate].
  unfold round_of. cbn [firstn skipn app]. unfold sampler_round.
  change (SetBytes [s]) with (0 * 256 + s). replace (0 * 256 + s) with s by lia.
  unfold is_byte in Hs. replace (wrap64u s) with s by (unfold wrap64u, wrapu; rewrite Z.mod_small; lia).
  rewrite land1. reflexivity.
Qed.

(** the number of third bytes giving the answer a *)
Definition answers (a : bool) (x ccs : F) : Z :=
  if a then accepted FO x ccs else 256 - accepted FO x ccs.

Lemma answers_true x ccs : answers true x ccs = accepted FO x ccs.
Proof. reflexivity. Qed.
Lemma answers_count a x ccs : 0 <= shift_count FO x ->
  Z.of_nat (length (filter (fun b => match berexp FO x ccs [b] with Ok t => Bool.eqb t a | _ => false end)
                           (map Z.of_nat (seq 0 256)))) = answers a x ccs.
Proof.
  intros Hc. unfold answers, accepted.
  generalize (map Z.of_nat (seq 0 256)) (map_length Z.of_nat (seq 0 256)). intros l El. rewrite seq_length in El.
  assert (G : Z.of_nat (length (filter (fun b => match berexp FO x ccs [b] with Ok t => Bool.eqb t false | _ => false end) l)) +
    Z.of_nat (length (filter (fun b => match berexp FO x ccs [b] with Ok t => t | _ => false end) l)) = Z.of_nat (length l)).
  { clear El. induction l as [|b l IH]; [reflexivity|]. cbn [filter].
    destruct (berexp_ok FO x ccs [b] Hc) as [t ->]. destruct t; cbn [Bool.eqb length]; lia. }
  destruct a.
  - f_equal. f_equal. apply filter_ext. intros b. destruct (berexp FO x ccs [b]) as [[|]| | |]; reflexivity.
  - rewrite El in G. change (Z.of_nat 256) with 256 in G. lia.
Qed.

Lemma round_counts a r dss ccs z : small_exact FO -> -18 <= z <= 19 ->
  0 <= shift_count FO (cand_exp r dss z) ->
  exists L, NoDup L /\
    Z.of_nat (length L) = chi (z_abs z) * 128 * answers a (cand_exp r dss z) ccs /\
    forall l, In l L <-> (bytes l /\ length l = 11%nat /\ round_of r dss ccs l = Ok (f_of_int FO z, a)).
Proof.
  intros SE Hz Hc. set (x := cand_exp r dss z) in *.
  assert (Za : 0 <= z_abs z <= 18) by (unfold z_abs; destruct (Z.leb_spec 1 z); lia).
  destruct (chi_count (z_abs z) Za) as (L9 & N9 & C9 & H9).
  set (Ls := filter (fun s => s mod 2 =? z_bit z) (map Z.of_nat (seq 0 256))).
  set (Lt := filter (fun b => match berexp FO x ccs [b] with Ok t => Bool.eqb t a | _ => false end) (map Z.of_nat (seq 0 256))).
  assert (N256 : NoDup (map Z.of_nat (seq 0 256))).
  { apply NoDup_map_on; [intros; lia|apply seq_NoDup]. }
  assert (I256 : forall b, In b (map Z.of_nat (seq 0 256)) <-> is_byte b).
  { intros b. rewrite in_map_iff. unfold is_byte. split.
    - intros (i & <- & Hi). apply in_seq in Hi. lia.
    - intros Hb. exists (Z.to_nat b). split; [lia|]. apply in_seq. lia. }
  assert (Cs : Z.of_nat (length Ls) = 128).
  { unfold Ls, z_bit. destruct (1 <=? z); reflexivity. }
  exists (map (fun p => fst p ++ [fst (snd p); snd (snd p)]) (list_prod L9 (list_prod Ls Lt))).
  split; [|split].
  - apply NoDup_map_on.
    + intros [e [b c]] [e' [b' c']] Ha Ha' E. apply in_prod_iff in Ha, Ha'.
      destruct Ha as [Ha _]. destruct Ha' as [Ha' _]. apply H9 in Ha, Ha'. cbn [fst snd] in E.
      assert (E' : e = e' /\ [b; c] = [b'; c']).
      { clear - E Ha Ha'. destruct Ha as (_ & La & _). destruct Ha' as (_ & La' & _). rewrite <- La' in La. clear La'.
        revert e' La E. induction e as [|u e IH]; intros [|u' e'] La E; try discriminate; [auto|].
        injection E as -> E. injection La as La. destruct (IH e' La E) as [-> ?]. auto. }
      destruct E' as [-> E']. congruence.
    + apply NoDup_prod; [exact N9|]. apply NoDup_prod; apply NoDup_filter; exact N256.
  - rewrite map_length, !prod_length, !Nat2Z.inj_mul, C9, Cs. unfold Lt. rewrite answers_count by exact Hc. apply Z.mul_assoc.
  - intros l. rewrite in_map_iff.
    assert (Inj : forall k, -18 <= k <= 19 -> f_of_int FO k = f_of_int FO z -> k = z).
    { intros k Hk E. rewrite <- (SE k Hk), E, (SE z Hz). reflexivity. }
    split.
    + intros ([fb [s t]] & <- & Hin). apply in_prod_iff in Hin. destruct Hin as [Hf Hin]. apply in_prod_iff in Hin.
      destruct Hin as [Hs Ht]. apply H9 in Hf. destruct Hf as (Bf & Lf & Ef).
      apply filter_In in Hs. destruct Hs as [Bs Es]. apply I256 in Bs. apply Z.eqb_eq in Es.
      apply filter_In in Ht. destruct Ht as [Bt Et]. apply I256 in Bt. cbn [fst snd].
      split; [apply Forall_app; split; [exact Bf|apply Forall_cons; [exact Bs|apply Forall_cons; [exact Bt|apply Forall_nil]]]|].
      split; [rewrite app_length, Lf; reflexivity|].
      rewrite round_of_cat by auto. cbv zeta. rewrite Ef, Es.
      replace (z_bit z + (2 * z_bit z - 1) * z_abs z) with z
        by (unfold z_bit, z_abs; destruct (Z.leb_spec 1 z); lia).
      fold (cand_exp r dss z). fold x. destruct (berexp FO x ccs [t]) as [a'| | |]; try discriminate. apply Bool.eqb_prop in Et. subst a'. reflexivity.
    + intros (B & Ll & E). destruct (block_shape l B Ll) as (fb & s & t & -> & Lf & Bf & Bs & Bt).
      rewrite round_of_cat in E by auto. cbv zeta in E. pose proof (BaseSampler_range fb) as R.
      set (z' := s mod 2 + (2 * (s mod 2) - 1) * BaseSampler fb) in *.
      destruct (berexp FO _ ccs [t]) as [a'| | |] eqn:Eb in E; try discriminate. cbn [bind] in E.
      apply Ok_inj in E. injection E as E1 ->.
      assert (Ez : z' = z) by (apply Inj; [unfold z'; pose proof (Z.mod_pos_bound s 2 ltac:(lia)); nia|exact E1]).
      assert (Es : s mod 2 = z_bit z /\ BaseSampler fb = z_abs z).
      { pose proof (Z.mod_pos_bound s 2 ltac:(lia)) as M. rewrite <- Ez. unfold z_bit, z_abs, z'.
        assert (s mod 2 = 0 \/ s mod 2 = 1) as [->| ->] by lia;
          destruct (Z.leb_spec 1 (0 + (2 * 0 - 1) * BaseSampler fb)) as [?|?];
          try (destruct (Z.leb_spec 1 (1 + (2 * 1 - 1) * BaseSampler fb)) as [?|?]); lia. }
      destruct Es as [Es Ef]. exists (fb, (s, t)). split; [reflexivity|].
      apply in_prod_iff. split; [apply H9; auto|]. apply in_prod_iff. split.
      * apply filter_In. split; [apply I256; exact Bs|]. apply Z.eqb_eq. exact Es.
      * apply filter_In. split; [apply I256; exact Bt|].
        rewrite Ez, Ef in Eb. fold (cand_exp r dss z) in Eb. fold x in Eb. rewrite Eb. apply Bool.eqb_reflx.
Qed.
(** every block has some outcome for exactly one candidate *)
Definition candidates : list Z := map (fun i => Z.of_nat i - 18) (seq 0 38).
Lemma candidates_spec z : In z candidates <-> -18 <= z <= 19.
Proof.
  unfold candidates. rewrite in_map_iff. split.
  - intros (i & <- & Hi). apply in_seq in Hi. lia.
  - intros H. exists (Z.to_nat (z + 18)). split; [lia|]. apply in_seq. lia.
Qed.
Lemma candidates_nodup : NoDup candidates.
Proof. apply NoDup_map_on; [intros; lia|apply seq_NoDup]. Qed.

(** the number of blocks that a round rejects *)
Definition reject_weight (r dss ccs : F) : Z :=
  fold_right Z.add 0 (map (fun z => chi (z_abs z) * 128 * answers false (cand_exp r dss z) ccs) candidates).
Definition rejected (r dss ccs : F) (l : list Z) : Prop :=
  exists z, round_of r dss ccs l = Ok (z, false).

Lemma reject_count r dss ccs : small_exact FO ->
  (forall z, -18 <= z <= 19 -> 0 <= shift_count FO (cand_exp r dss z)) ->
  exists L, NoDup L /\ Z.of_nat (length L) = reject_weight r dss ccs /\
    forall l, In l L <-> (bytes l /\ length l = 11%nat /\ rejected r dss ccs l).
Proof.
  intros SE Hc.
  assert (G : forall zs, NoDup zs -> (forall z, In z zs -> -18 <= z <= 19) ->
    exists L, NoDup L /\
      Z.of_nat (length L) = fold_right Z.add 0 (map (fun z => chi (z_abs z) * 128 * answers false (cand_exp r dss z) ccs) zs) /\
      forall l, In l L <-> (bytes l /\ length l = 11%nat /\
        exists z, In z zs /\ round_of r dss ccs l = Ok (f_of_int FO z, false))).
  { induction zs as [|z zs IH]; intros N Hz.
    - exists []. split; [apply NoDup_nil|]. split; [reflexivity|]. intros l. split; [intros H; destruct H|].
      intros (_ & _ & z & H & _). destruct H.
    - inversion N as [|? ? Nz N']; subst. destruct (IH N') as (L & NL & CL & HL); [intros; apply Hz; right; assumption|].
      pose proof (Hz z (or_introl eq_refl)) as Hz1.
      destruct (round_counts false r dss ccs z SE Hz1 (Hc z Hz1)) as (L1 & N1 & C1 & H1).
      exists (L1 ++ L). split; [|split].
      + assert (D : forall p, In p L1 -> ~ In p L).
        { intros p Hp Hq. apply H1 in Hp. apply HL in Hq. destruct Hp as (_ & _ & Ep). destruct Hq as (_ & _ & z' & Hz' & Eq).
          rewrite Ep in Eq. apply Ok_inj in Eq. injection Eq as Eq. apply Nz.
          replace z with z'; [exact Hz'|]. rewrite <- (SE z' (Hz z' (or_intror Hz'))), <- Eq. apply SE, Hz1. }
        clear - N1 NL D. induction L1 as [|p L1 IH]; [exact NL|]. inversion N1; subst. cbn [app]. constructor.
        * rewrite in_app_iff. intros [H|H]; [contradiction|]. apply (D p); [left; reflexivity|exact H].
        * apply IH; auto. intros q Hq. apply D. right. exact Hq.
      + rewrite app_length, Nat2Z.inj_add, C1, CL. reflexivity.
      + intros l. rewrite in_app_iff, H1, HL. split.
        * intros [(B & C & E)|(B & C & z' & I' & E)]; (split; [exact B|split; [exact C|]]).
          -- exists z. split; [left; reflexivity|exact E].
          -- exists z'. split; [right; exact I'|exact E].
        * intros (B & C & z' & [<-|I'] & E); [left; auto|right]. split; [exact B|split; [exact C|]]. eauto. }
  destruct (G candidates candidates_nodup (fun z => proj1 (candidates_spec z))) as (L & N & C & H).
  exists L. split; [exact N|]. split; [exact C|]. intros l. rewrite H. unfold rejected. split.
  - intros (B & Ll & z & _ & E). eauto.
  - intros (B & Ll & v & E). split; [exact B|]. split; [exact Ll|].
    destruct (block_shape l B Ll) as (fb & s & t & -> & Lf & Bf & Bs & Bt).
    rewrite round_of_cat in E by auto. cbv zeta in E. pose proof (BaseSampler_range fb) as R.
    pose proof (Z.mod_pos_bound s 2 ltac:(lia)) as M.
    eexists. split; [apply candidates_spec|rewrite round_of_cat by auto; cbv zeta].
    2:{ destruct (berexp FO _ ccs [t]) as [a| | |] in E |- *; try discriminate. cbn [bind] in E |- *.
        apply Ok_inj in E. injection E as _ ->. reflexivity. }
    nia.
Qed.

(** all lists of m elements of L *)
Lemma tuples {A} (L : list A) m : NoDup L ->
  exists LL, NoDup LL /\ length LL = (length L ^ m)%nat /\
    forall ls, In ls LL <-> (length ls = m /\ Forall (fun x => In x L) ls).
Proof.
  intros N. induction m as [|m IH].
  - exists [[]]. split; [constructor; [intros H; destruct H|apply NoDup_nil]|]. split; [reflexivity|].
    intros ls. cbn [In]. split.
    + intros [<-|H]; [split; [reflexivity|apply Forall_nil]|destruct H].
    + intros [H _]. destruct ls; [left; reflexivity|discriminate].
  - destruct IH as (LL & NN & CC & HH).
    exists (map (fun p => fst p :: snd p) (list_prod L LL)). split; [|split].
    + apply NoDup_map_on; [|apply NoDup_prod; assumption]. intros [a b] [c d] _ _ E. cbn in E. congruence.
    + rewrite map_length, prod_length, CC. reflexivity.
    + intros ls. rewrite in_map_iff. split.
      * intros ([a b] & <- & Hin). apply in_prod_iff in Hin. destruct Hin as [Ha Hb]. apply HH in Hb.
        cbn [fst snd]. split; [cbn; f_equal; apply Hb|]. constructor; [exact Ha|apply Hb].
      * intros [Hl Hf]. destruct ls as [|a ls]; [discriminate|]. inversion Hf; subst.
        exists (a, ls). split; [reflexivity|]. apply in_prod_iff. split; [assumption|]. apply HH. auto.
Qed.

(** the randomness that hands out the given blocks and then fails *)
Definition stream (ls : list (list Z)) : rand := fun k => nth_error ls k.

Lemma loop_diverges s r dss ccs (rb : rand) : forall m k,
  (forall j l, rb j = Some l -> exists z a, round_of r dss ccs l = Ok (z, a)) ->
  (forall j, (k <= j < k + m)%nat -> rb j <> None) ->
  (sampler_loop FO rb m s r dss ccs k = Diverge <->
   forall j l, (k <= j < k + m)%nat -> rb j = Some l -> rejected r dss ccs l).
Proof.
  intros m k Hok. revert k. induction m as [|m IH]; intros k Hrb.
  - split; [intros _ j l Hj; lia|reflexivity].
  - cbn [sampler_loop]. unfold generateAndSplitRandBytes.
    destruct (rb k) as [l|] eqn:E; [|exfalso; apply (Hrb k); [lia|exact E]]. cbn [bind].
    fold (round_of r dss ccs l). destruct (Hok k l E) as (z & a & Ea). rewrite Ea. cbn [bind fst snd].
    specialize (IH (S k) ltac:(intros; apply Hrb; lia)). destruct a.
    + split; [discriminate|]. intros H. destruct (H k l ltac:(lia) E) as [z' Ez]. rewrite Ea in Ez. discriminate.
    + rewrite IH. split; intros H j l' Hj Ej.
      * destruct (Nat.eq_dec j k) as [->|Nj]; [|apply (H j); [lia|exact Ej]].
        rewrite E in Ej. injection Ej as <-. exists z. exact Ea.
      * apply (H j); [lia|exact Ej].
Qed.

Lemma loop_returns s r dss ccs (rb : rand) j l z : rb j = Some l -> round_of r dss ccs l = Ok (z, true) ->
  (forall j l, rb j = Some l -> exists z a, round_of r dss ccs l = Ok (z, a)) ->
  (forall i, rb i <> None) ->
  forall m k, (k <= j < k + m)%nat ->
  exists v k', sampler_loop FO rb m s r dss ccs k = Ok (v, k') /\ (k' <= S j)%nat.
Proof.
  intros Ej Ez Hok Hrb. induction m as [|m IH]; intros k Hk; [lia|].
  cbn [sampler_loop]. unfold generateAndSplitRandBytes.
  destruct (rb k) as [l'|] eqn:E; [|exfalso; exact (Hrb k E)]. cbn [bind]. fold (round_of r dss ccs l').
  destruct (Hok k l' E) as (z' & a & Ea). rewrite Ea. cbn [bind fst snd]. destruct a.
  - exists (wrap8 (wrap64 (s + to_int FO z'))), (S k). split; [reflexivity|lia].
  - apply IH. destruct (Nat.eq_dec k j) as [->|Nj]; [|lia]. rewrite Ej in E. injection E as <-.
    rewrite Ez in Ea. discriminate.
Qed.

Section Round.
Context (r dss ccs : F).
Hypothesis SE : small_exact FO.
Hypothesis Hc : forall z, -18 <= z <= 19 -> 0 <= shift_count FO (cand_exp r dss z) <= 63.

Lemma round_shape fb s t : length fb = 9%nat -> is_byte s ->
  exists z, -18 <= z <= 19 /\
    round_of r dss ccs (fb ++ [s; t]) = (acc <- berexp FO (cand_exp r dss z) ccs [t] ;; Ok (f_of_int FO z, acc)).
Proof.
  clear Hc SE. intros Lf Bs. rewrite round_of_cat by auto. cbv zeta. pose proof (BaseSampler_range fb) as R.
  pose proof (Z.mod_pos_bound s 2 ltac:(lia)) as M.
  set (z0 := BaseSampler fb) in *. set (b := s mod 2) in *. exists (b + (2 * b - 1) * z0). split; [nia|].
  unfold cand_exp. replace (z_abs (b + (2 * b - 1) * z0)) with z0; [reflexivity|].
  unfold z_abs. assert (b = 0 \/ b = 1) as [->| ->] by lia.
  - destruct (Z.leb_spec 1 (0 + (2 * 0 - 1) * z0)); lia.
  - destruct (Z.leb_spec 1 (1 + (2 * 1 - 1) * z0)); lia.
Qed.

Lemma one_round_value s l z : -110 <= s <= 108 -> -18 <= z <= 19 -> bytes l -> length l = 11%nat ->
  (sampler_loop FO (fun _ => Some l) 1 s r dss ccs 0 = Ok (s + z, 1%nat) <->
   round_of r dss ccs l = Ok (f_of_int FO z, true)).
Proof.
  clear Hc. intros Hs Hz B Ll. cbn [sampler_loop generateAndSplitRandBytes bind]. fold (round_of r dss ccs l).
  assert (W : forall d, -18 <= d <= 19 -> wrap8 (wrap64 (s + to_int FO (f_of_int FO d))) = s + d).
  { intros d Hd. unfold to_int. rewrite (SE d Hd). rewrite (wrap64_id d) by (unfold is_int64; lia).
    rewrite wrap8_64. unfold wrap8, wrap. lia. }
  split; intros E.
  - destruct (block_shape l B Ll) as (fb & u & t & -> & Lf & Bf & Bs & Bt).
    destruct (round_shape fb u t Lf Bs) as (z' & Hz' & Ea). rewrite Ea in E |- *.
    destruct (berexp FO _ ccs [t]) as [a| | |] in E |- *; try discriminate. cbn [bind fst snd] in E |- *.
    destruct a; [|discriminate]. apply Ok_inj in E. injection E as E. rewrite W in E by exact Hz'.
    replace z' with z by lia. reflexivity.
  - rewrite E. cbn [bind fst snd]. rewrite W by exact Hz. reflexivity.
Qed.

Lemma loop_counts s z : -110 <= s <= 108 -> -18 <= z <= 19 ->
  exists L, NoDup L /\
    Z.of_nat (length L) = chi (z_abs z) * 128 * accepted FO (cand_exp r dss z) ccs /\
    forall l, In l L <-> (bytes l /\ length l = 11%nat /\
      sampler_loop FO (fun _ => Some l) 1 s r dss ccs 0 = Ok (s + z, 1%nat)).
Proof.
  intros Hs Hz. destruct (round_counts true r dss ccs z SE Hz (proj1 (Hc z Hz))) as (L & N & C & H).
  rewrite answers_true in C. exists L. split; [exact N|]. split; [exact C|]. intros l. rewrite H.
  split; intros (B & Ll & E); (split; [exact B|]); (split; [exact Ll|]).
  - apply (proj2 (one_round_value s l z Hs Hz B Ll)). exact E.
  - apply (proj1 (one_round_value s l z Hs Hz B Ll)). exact E.
Qed.

Lemma round_total l : exists z a, round_of r dss ccs l = Ok (z, a).
Proof.
  unfold round_of, sampler_round. set (b := Z.land (wrap64 (wrap64u (SetBytes (firstn 1 (skipn 9 l))))) 1).
  assert (Hb : b = 0 \/ b = 1).
  { unfold b. generalize (wrap64 (wrap64u (SetBytes (firstn 1 (skipn 9 l))))). intros v.
    change (Z.land v 1) with (Z.land v (Z.ones 1)). rewrite Z.land_ones by lia.
    pose proof (Z.mod_pos_bound v (2 ^ 1) ltac:(lia)). lia. }
  clearbody b. pose proof (BaseSampler_range (firstn 9 l)) as R. set (z0 := BaseSampler (firstn 9 l)) in *. clearbody z0.
  assert (Hz : -18 <= b + (2 * b - 1) * z0 <= 19) by nia.
  assert (Ea : z_abs (b + (2 * b - 1) * z0) = z0).
  { unfold z_abs. destruct Hb as [->| ->].
    - destruct (Z.leb_spec 1 (0 + (2 * 0 - 1) * z0)); lia.
    - destruct (Z.leb_spec 1 (1 + (2 * 1 - 1) * z0)); lia. }
  pose proof (Hc _ Hz) as C. unfold cand_exp in C. rewrite Ea in C.
  destruct (berexp_ok FO _ ccs (skipn 10 l) (proj1 C)) as [a ->]. cbn [bind]. eauto.
Qed.

Lemma diverge_count s m :
  exists LL, NoDup LL /\ Z.of_nat (length LL) = reject_weight r dss ccs ^ Z.of_nat m /\
    forall ls, In ls LL <-> (length ls = m /\ Forall (fun l => bytes l /\ length l = 11%nat) ls /\
      sampler_loop FO (stream ls) m s r dss ccs 0 = Diverge).
Proof.
  destruct (reject_count r dss ccs SE (fun z Hz => proj1 (Hc z Hz))) as (L & N & C & H).
  destruct (tuples L m N) as (LL & NN & CC & HH). exists LL. split; [exact NN|]. split.
  { rewrite CC, Nat2Z.inj_pow, C. reflexivity. }
  intros ls. rewrite HH.
  assert (G : length ls = m -> (sampler_loop FO (stream ls) m s r dss ccs 0 = Diverge <->
    forall j l, (0 <= j < 0 + m)%nat -> stream ls j = Some l -> rejected r dss ccs l)).
  { intros Hl. apply loop_diverges.
    - intros j l _. apply round_total.
    - intros j Hj E. unfold stream in E. apply nth_error_None in E. lia. }
  split.
  - intros (Hl & Hf). split; [exact Hl|]. rewrite Forall_forall in Hf. split.
    + apply Forall_forall. intros l Hin. apply Hf, H in Hin. tauto.
    + apply (G Hl). intros j l _ E. apply nth_error_In in E. apply Hf, H in E. tauto.
  - intros (Hl & Hf & E). split; [exact Hl|]. apply Forall_forall. intros l Hin. apply H.
    rewrite Forall_forall in Hf. destruct (Hf l Hin) as [B Ll]. split; [exact B|]. split; [exact Ll|].
    apply In_nth_error in Hin. destruct Hin as [j Ej].
    assert (Hj : (j < length ls)%nat) by (apply nth_error_Some; congruence).
    apply (proj1 (G Hl) E j l); [lia|exact Ej].
Qed.

(** the loop returns at the m-th block exactly when it rejects the blocks before *)
Lemma loop_result s z (rb : rand) : -110 <= s <= 108 -> -18 <= z <= 19 ->
  forall m k, (forall j, (k <= j <= k + m)%nat -> exists l, rb j = Some l /\ bytes l /\ length l = 11%nat) ->
  (sampler_loop FO rb (S m) s r dss ccs k = Ok (s + z, S (k + m)) <->
   (forall j l, (k <= j < k + m)%nat -> rb j = Some l -> rejected r dss ccs l) /\
   (forall l, rb (k + m)%nat = Some l -> round_of r dss ccs l = Ok (f_of_int FO z, true))).
Proof.
  intros Hs Hz. induction m as [|m IH]; intros k Hrb.
  - destruct (Hrb k ltac:(lia)) as (l & El & Bl & Ll). rewrite Nat.add_0_r.
    pose proof (one_round_value s l z Hs Hz Bl Ll) as V. cbn [sampler_loop generateAndSplitRandBytes bind] in V.
    cbn [sampler_loop]. unfold generateAndSplitRandBytes. rewrite El. cbn [bind].
    fold (round_of r dss ccs l) in *. destruct (round_total l) as (v & a & Ea). rewrite Ea in *. cbn [bind fst snd] in *.
    split.
    + intros E. split; [intros; lia|]. intros l' E'. assert (l' = l) by congruence. subst l'. rewrite Ea.
      apply V. destruct a; [|discriminate]. apply Ok_inj in E. injection E as E. rewrite E. reflexivity.
    + intros [_ E]. specialize (E l eq_refl). rewrite Ea in E. apply V in E.
      destruct a; [|discriminate]. apply Ok_inj in E. injection E as E. rewrite E. reflexivity.
  - destruct (Hrb k ltac:(lia)) as (l & El & Bl & Ll). specialize (IH (S k) ltac:(intros; apply Hrb; lia)).
    replace (k + S m)%nat with (S k + m)%nat by lia.
    set (n := S m) in *. cbn [sampler_loop]. unfold generateAndSplitRandBytes. rewrite El. cbn [bind].
    fold (round_of r dss ccs l) in *. destruct (round_total l) as (v & a & Ea). rewrite Ea in *. cbn [bind fst snd] in *.
    destruct a.
    + split.
      * intros E. apply Ok_inj in E. injection E as _ E. lia.
      * intros [E _]. destruct (E k l ltac:(lia) El) as [v' E']. rewrite Ea in E'. discriminate.
    + rewrite IH. split; intros [E1 E2]; (split; [|exact E2]); intros j l' Hj Ej.
      * destruct (Nat.eq_dec j k) as [->|Nj]; [|apply (E1 j l'); [lia|exact Ej]].
        rewrite El in Ej. injection Ej as <-. exists v. exact Ea.
      * apply (E1 j l'); [lia|exact Ej].
Qed.

Lemma result_count s z m : -110 <= s <= 108 -> -18 <= z <= 19 ->
  exists LL, NoDup LL /\
    Z.of_nat (length LL) = reject_weight r dss ccs ^ Z.of_nat m *
      (chi (z_abs z) * 128 * accepted FO (cand_exp r dss z) ccs) /\
    forall ls, In ls LL <-> (length ls = S m /\ Forall (fun l => bytes l /\ length l = 11%nat) ls /\
      sampler_loop FO (stream ls) (S m) s r dss ccs 0 = Ok (s + z, S m)).
Proof.
  intros Hs Hz. destruct (reject_count r dss ccs SE (fun z Hz => proj1 (Hc z Hz))) as (L & N & C & H).
  destruct (tuples L m N) as (LL & NN & CC & HH).
  destruct (round_counts true r dss ccs z SE Hz (proj1 (Hc z Hz))) as (L1 & N1 & C1 & H1).
  rewrite answers_true in C1.
  exists (map (fun p => fst p ++ [snd p]) (list_prod LL L1)). split; [|split].
  - apply NoDup_map_on; [|apply NoDup_prod; assumption]. intros [a b] [c d] _ _ E. cbn [fst snd] in E.
    apply app_inj_tail in E. destruct E as [-> ->]. reflexivity.
  - rewrite map_length, prod_length, Nat2Z.inj_mul, C1, CC, Nat2Z.inj_pow, C. reflexivity.
  - intros ls. rewrite in_map_iff.
    assert (G : length ls = S m -> Forall (fun l => bytes l /\ length l = 11%nat) ls ->
      (sampler_loop FO (stream ls) (S m) s r dss ccs 0 = Ok (s + z, S m) <->
       (forall j l, (0 <= j < 0 + m)%nat -> stream ls j = Some l -> rejected r dss ccs l) /\
       (forall l, stream ls (0 + m)%nat = Some l -> round_of r dss ccs l = Ok (f_of_int FO z, true)))).
    { intros Hl Hf. rewrite <- (loop_result s z (stream ls) Hs Hz m 0); [reflexivity|].
      intros j Hj. unfold stream. destruct (nth_error ls j) as [l|] eqn:E; [|apply nth_error_None in E; lia].
      exists l. split; [reflexivity|]. rewrite Forall_forall in Hf. apply Hf. eapply nth_error_In, E. }
    split.
    + intros ([a b] & <- & Hin). apply in_prod_iff in Hin. cbn [fst snd] in *. destruct Hin as [Ha Hb].
      apply HH in Ha. destruct Ha as [La Fa]. apply H1 in Hb. destruct Hb as (Bb & Lb & Eb).
      assert (Hl : length (a ++ [b]) = S m) by (rewrite app_length, La; cbn; lia).
      assert (Hf : Forall (fun l => bytes l /\ length l = 11%nat) (a ++ [b])).
      { apply Forall_app. split.
        - apply Forall_forall. intros l Hin. rewrite Forall_forall in Fa. apply Fa, H in Hin. tauto.
        - apply Forall_cons; [auto|apply Forall_nil]. }
      split; [exact Hl|]. split; [exact Hf|]. apply (G Hl Hf). unfold stream. split.
      * intros j l Hj E. rewrite nth_error_app1 in E by lia. apply nth_error_In in E.
        rewrite Forall_forall in Fa. apply Fa, H in E. tauto.
      * intros l E. rewrite nth_error_app2 in E by lia. replace (0 + m - length a)%nat with 0%nat in E by lia.
        injection E as <-. exact Eb.
    + intros (Hl & Hf & E). apply (G Hl Hf) in E. destruct E as [E1 E2].
      destruct (exists_last (l := ls)) as (a & b & ->); [intros ->; discriminate|].
      rewrite app_length in Hl. cbn [length] in Hl. rewrite Forall_app in Hf. destruct Hf as [Fa Fb].
      inversion Fb as [|? ? [Bb Lb] _]; subst.
      exists (a, b). split; [reflexivity|]. apply in_prod_iff. split.
      * apply HH. split; [lia|]. apply Forall_forall. intros l Hin. apply H.
        rewrite Forall_forall in Fa. destruct (Fa l Hin) as [Bl Ll]. split; [exact Bl|]. split; [exact Ll|].
        apply In_nth_error in Hin. destruct Hin as [j Ej].
        assert (Hj : (j < length a)%nat) by (apply nth_error_Some; congruence).
        apply (E1 j l); [lia|]. unfold stream. rewrite nth_error_app1 by lia. exact Ej.
      * apply H1. split; [exact Bb|]. split; [exact Lb|]. apply E2. unfold stream.
        rewrite nth_error_app2 by lia. replace (0 + m - length a)%nat with 0%nat by lia. reflexivity.
Qed.

Hypothesis Ha : forall x, approxexp FO x ccs = 0.

Lemma last_zero fb s : length fb = 9%nat -> is_byte s -> exists z, round_of r dss ccs (fb ++ [s; 0]) = Ok (z, true).
Proof.
  clear SE. intros Lf Bs. destruct (round_shape fb s 0 Lf Bs) as (z & Hz & ->). pose proof (Hc z Hz).
  rewrite berexp_byte by lia. rewrite Ha. cbn [bind]. exists (f_of_int FO z). f_equal. f_equal.
  cbn [Z.eqb andb].
  set (n := shift_count FO (cand_exp r dss z)) in *. clearbody n.
  destruct (Z.eqb_spec n 0); [reflexivity|]. destruct (Z.ltb_spec n 8).
  - apply Z.ltb_lt. apply Z.pow_pos_nonneg; lia.
  - destruct (Z.ltb_spec n 64); [reflexivity|lia].
Qed.
Lemma last_255 fb s : length fb = 9%nat -> is_byte s -> exists z, round_of r dss ccs (fb ++ [s; 255]) = Ok (z, false).
Proof.
  clear SE. intros Lf Bs. destruct (round_shape fb s 255 Lf Bs) as (z & Hz & ->). pose proof (Hc z Hz).
  rewrite berexp_byte by lia. rewrite Ha. cbn [bind]. exists (f_of_int FO z). f_equal. f_equal.
  cbn [Z.eqb andb].
  set (n := shift_count FO (cand_exp r dss z)) in *. clearbody n.
  destruct (Z.eqb_spec n 0); [reflexivity|]. destruct (Z.ltb_spec n 8).
  - apply Z.ltb_ge. pose proof (Z.pow_le_mono_r 2 (8 - n) 7 ltac:(lia) ltac:(lia)) as P.
    change (2 ^ 7) with 128 in P. lia.
  - destruct (Z.ltb_spec n 64); [reflexivity|lia].
Qed.

Lemma returns_by s (rb : rand) fuel k j fb b : (forall i, rb i <> None) ->
  rb j = Some (fb ++ [b; 0]) -> length fb = 9%nat -> is_byte b -> (k <= j < k + fuel)%nat ->
  exists v k', sampler_loop FO rb fuel s r dss ccs k = Ok (v, k') /\ (k' <= S j)%nat.
Proof.
  intros Hrb Ej Lf Bs Hk. destruct (last_zero fb b Lf Bs) as [z Ez].
  apply (loop_returns s r dss ccs rb j _ z Ej Ez); auto. intros i l _. apply round_total.
Qed.
Lemma never_returns s (rb : rand) fuel k :
  (forall i, exists fb b, rb i = Some (fb ++ [b; 255]) /\ length fb = 9%nat /\ is_byte b) ->
  sampler_loop FO rb fuel s r dss ccs k = Diverge.
Proof.
  intros Hrb. apply loop_diverges.
  - intros i l _. apply round_total.
  - intros i _ E. destruct (Hrb i) as (fb & b & E' & _). congruence.
  - intros i l _ E. destruct (Hrb i) as (fb & b & E' & Lf & Bs). rewrite E in E'. injection E' as ->.
    apply last_255; assumption.
Qed.
End Round.
End Float.
