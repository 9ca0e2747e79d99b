(** C91: which random bytes are used, and in which order. *)
From Verif Require Import GoBase Util Ntt Params Falcon Float Samplerz Fft Ntrugen Ffsampling KeyGen PropsSamp Binary64.
From Coq Require Import Lia.

(** eleven bytes are cut into nine, one and one, and nothing is lost *)
Theorem C91_split : forall rb k l, rb k = Some l -> length l = 11%nat ->
  exists fb sb tb, generateAndSplitRandBytes rb k = Ok (fb, sb, tb) /\
    length fb = 9%nat /\ length sb = 1%nat /\ length tb = 1%nat /\ l = fb ++ sb ++ tb.
Proof.
  intros rb k l E L. unfold generateAndSplitRandBytes. rewrite E. do 3 eexists. split; [reflexivity|].
  do 12 (destruct l as [|? l]; [try discriminate L|]); try discriminate L. repeat split; reflexivity.
Qed.
Print Assumptions C91_split.
Theorem C91_split_panics : forall rb k, generateAndSplitRandBytes rb k = Panic <-> rb k = None.
Proof. intros rb k. unfold generateAndSplitRandBytes. destruct (rb k); split; intros H; try discriminate; reflexivity. Qed.
Print Assumptions C91_split_panics.

(** [rb'] has at c, c+1, ... what [rb] has at k, k+1, ..., k'-1 *)
Definition same_blocks (rb rb' : rand) (k k' c : nat) : Prop := forall j, (j < k' - k)%nat -> rb' (c + j)%nat = rb (k + j)%nat.
(** A computation that returns a value and the number of the next block has used the
    blocks in between and no others: it can be repeated at any place where the same blocks stand. *)
Definition uses_blocks {A} (m : rand -> nat -> res (A * nat)) : Prop :=
  forall rb k v k', m rb k = Ok (v, k') -> (k <= k')%nat /\
    forall rb' c, same_blocks rb rb' k k' c -> m rb' c = Ok (v, (c + (k' - k))%nat).

Section L.
Context (FO : floats).
Section S1.
Context (s : Z) (r dss ccs : F FO).
Lemma loop_local : forall fuel rb k v k', sampler_loop FO rb fuel s r dss ccs k = Ok (v, k') -> (k < k')%nat /\
  forall rb' c fuel', (fuel <= fuel')%nat -> same_blocks rb rb' k k' c -> sampler_loop FO rb' fuel' s r dss ccs c = Ok (v, (c + (k' - k))%nat).
Proof.
  induction fuel as [|fuel IH]; intros rb k v k' E; cbn [sampler_loop] in E; [discriminate|].
  destruct (generateAndSplitRandBytes rb k) as [[[fb sb] tb]| | |] eqn:G; cbn [bind] in E; try discriminate.
  destruct (sampler_round FO r dss ccs fb sb tb) as [[z acc]| | |] eqn:Rd; cbn [bind fst snd] in E; try discriminate.
  assert (G' : forall rb' c, same_blocks rb rb' k k' c -> (k < k')%nat -> generateAndSplitRandBytes rb' c = Ok (fb, sb, tb)).
  { intros rb' c Sb Hk. specialize (Sb 0%nat ltac:(lia)). rewrite !Nat.add_0_r in Sb. unfold generateAndSplitRandBytes in *. now rewrite Sb. }
  destruct acc.
  - injection E as <- <-. split; [lia|]. intros rb' c [|fuel'] Hf Sb; [lia|]. cbn [sampler_loop]. rewrite (G' _ _ Sb ltac:(lia)). cbn [bind]. rewrite Rd. cbn [bind fst snd].
    do 2 f_equal. lia.
  - destruct (IH _ _ _ _ E) as [Lk R]. split; [lia|]. intros rb' c [|fuel'] Hf Sb; [lia|]. cbn [sampler_loop]. rewrite (G' _ _ Sb ltac:(lia)). cbn [bind]. rewrite Rd. cbn [bind fst snd].
    rewrite (R rb' (S c) fuel' ltac:(lia)).
    + do 2 f_equal. lia.
    + intros j Hj. specialize (Sb (S j) ltac:(lia)). rewrite !Nat.add_succ_r in Sb. exact Sb.
Qed.
Lemma loop_first : forall fuel rb k v k', sampler_loop FO rb fuel s r dss ccs k = Ok (v, k') <->
  exists m, (m < fuel)%nat /\ k' = S (k + m) /\
    (forall j, (j < m)%nat -> sampler_loop FO rb 1 s r dss ccs (k + j) = Diverge) /\ sampler_loop FO rb 1 s r dss ccs (k + m) = Ok (v, k').
Proof.
  induction fuel as [|fuel IH]; intros rb k v k'.
  { split; [discriminate|]. intros (m & Hm & _). lia. }
  cbn [sampler_loop].
  assert (Z0 : (k + 0 = k)%nat) by lia.
  destruct (generateAndSplitRandBytes rb k) as [[[fb sb] tb]|e| |] eqn:G; cbn [bind];
    [|split; [discriminate|]; intros ([|m] & Hm & -> & H1 & H2); [rewrite Z0, G in H2; discriminate|specialize (H1 0%nat ltac:(lia)); rewrite Z0, G in H1; cbn [bind] in H1; try discriminate]..].
  - destruct (sampler_round FO r dss ccs fb sb tb) as [[z acc]|e| |] eqn:Rd; cbn [bind fst snd];
      [|split; [discriminate|]; intros ([|m] & Hm & -> & H1 & H2); [rewrite Z0, G in H2; cbn [bind] in H2; rewrite Rd in H2; discriminate|specialize (H1 0%nat ltac:(lia)); rewrite Z0, G in H1; cbn [bind] in H1; rewrite Rd in H1; cbn [bind] in H1; try discriminate]..].
    + destruct acc.
      * split.
        -- intros E. injection E as <- <-. exists 0%nat. repeat split; [lia|lia|lia|]. rewrite Z0, G. cbn [bind]. rewrite Rd. reflexivity.
        -- intros ([|m] & Hm & -> & H1 & H2).
           ++ rewrite Z0, G in H2. cbn [bind] in H2. rewrite Rd in H2. cbn [bind snd fst] in H2. rewrite H2, Z0. reflexivity.
           ++ specialize (H1 0%nat ltac:(lia)). rewrite Z0, G in H1. cbn [bind] in H1. rewrite Rd in H1. discriminate.
      * rewrite IH. split.
        -- intros (m & Hm & -> & H1 & H2). exists (S m). split; [lia|]. split; [lia|]. split.
           ++ intros [|j] Hj; [rewrite Z0, G; cbn [bind]; rewrite Rd; reflexivity|]. replace (k + S j)%nat with (S k + j)%nat by lia. apply H1. lia.
           ++ replace (k + S m)%nat with (S k + m)%nat by lia. exact H2.
        -- intros ([|m] & Hm & -> & H1 & H2).
           ++ rewrite Z0, G in H2. cbn [bind] in H2. rewrite Rd in H2. discriminate.
           ++ exists m. split; [lia|]. split; [lia|]. split.
              ** intros j Hj. replace (S k + j)%nat with (k + S j)%nat by lia. apply H1. lia.
              ** replace (S k + m)%nat with (k + S m)%nat by lia. exact H2.
    + exfalso. unfold sampler_round, berexp in Rd. destruct (_ <? 0) in Rd; discriminate.
  - exfalso. unfold generateAndSplitRandBytes in G. destruct (rb k); discriminate.
Qed.
End S1.
Lemma local_bind {A B} (m : rand -> nat -> res (A * nat)) (f : rand -> A * nat -> res (B * nat)) :
  uses_blocks m -> (forall a, uses_blocks (fun rb k => f rb (a, k))) -> uses_blocks (fun rb k => x <- m rb k ;; f rb x).
Proof.
  intros M Fm rb k v k'' E. cbn beta in E. destruct (m rb k) as [[a k']| | |] eqn:E1; cbn [bind] in E; try discriminate.
  destruct (M _ _ _ _ E1) as [L1 R1]. destruct (Fm a _ _ _ _ E) as [L2 R2]. split; [lia|].
  intros rb' c Sb. rewrite (R1 rb' c); [cbn [bind]|].
  - rewrite (R2 rb' (c + (k' - k))%nat); [do 2 f_equal; lia|]. intros j Hj. specialize (Sb (k' - k + j)%nat ltac:(lia)).
    replace (c + (k' - k) + j)%nat with (c + (k' - k + j))%nat by lia. rewrite Sb. f_equal. lia.
  - intros j Hj. apply Sb. lia.
Qed.
Lemma local_pure {A B} (m : res A) (f : A -> rand -> nat -> res (B * nat)) :
  (forall a, uses_blocks (f a)) -> uses_blocks (fun rb k => x <- m ;; f x rb k).
Proof. intros Fm rb k v k' E. destruct m as [a| | |]; cbn [bind] in *; try discriminate. exact (Fm a rb k v k' E). Qed.
Lemma local_ret {B} (v : B) : uses_blocks (fun _ k => Ok (v, k)).
Proof. intros rb k v' k' E. injection E as <- <-. split; [lia|]. intros rb' c _. do 2 f_equal. lia. Qed.
Lemma local_fail {B} (m : res (B * nat)) : (forall v, m <> Ok v) -> uses_blocks (fun _ _ => m).
Proof. intros H rb k v k' E. destruct (H _ E). Qed.
Lemma Samplerz_local fuel mu sigma sigmin : uses_blocks (fun rb => Samplerz FO rb fuel mu sigma sigmin).
Proof.
  intros rb k v k' E. destruct (loop_local _ _ _ _ _ _ _ _ _ E) as [L R]. split; [lia|]. intros rb' c Sb. exact (R rb' c fuel (le_n _) Sb).
Qed.
Lemma samples_local fuel : forall m, uses_blocks (fun rb => samples FO rb fuel m).
Proof.
  induction m as [|m IH]; cbn [samples]; [apply local_ret|].
  apply (local_bind (fun rb => Samplerz FO rb fuel _ _ _)); [apply Samplerz_local|]. intros a. cbn [fst snd].
  apply (local_bind (fun rb => samples FO rb fuel m) (fun _ lk => Ok (a :: fst lk, snd lk))); [exact IH|]. intros l. cbn [fst snd]. apply local_ret.
Qed.
Lemma GenPoly_local fuel n : uses_blocks (fun rb => GenPoly FO rb fuel n).
Proof.
  unfold GenPoly. destruct (n >? 4096); [apply local_fail; discriminate|].
  eapply (local_bind (fun rb => samples FO rb fuel 4096)); [apply samples_local|]. intros l. cbn beta iota zeta.
  apply (local_pure _ (fun f _ k => Ok (f, k))). intros f. apply local_ret.
Qed.
Lemma Ff_local sf sigmin T : forall fuel t, uses_blocks (fun rb => FfSamplingFFT FO (roots_dict FO) rb sf sigmin T fuel t).
Proof.
  induction fuel as [|fuel IH]; intros t; cbn [FfSamplingFFT]; [apply local_fail; discriminate|].
  refine (local_pure _ (fun t0 rb c => _) _). intros t0. destruct (Nat.ltb 1 (length t0)).
  - refine (local_pure _ (fun t1 rb c => _) _). intros t1. refine (local_pure _ (fun s1 rb c => _) _). intros s1.
    refine (local_bind (fun rb => FfSamplingFFT FO (roots_dict FO) rb sf sigmin T fuel s1) _ (IH _) _). intros r1. cbn [fst snd].
    refine (local_pure _ (fun z1 rb c => _) _). intros z1. refine (local_pure _ (fun d rb c => _) _). intros d.
    refine (local_pure _ (fun m rb c => _) _). intros m. refine (local_pure _ (fun t0b rb c => _) _). intros t0b.
    refine (local_pure _ (fun s0 rb c => _) _). intros s0.
    refine (local_bind (fun rb => FfSamplingFFT FO (roots_dict FO) rb sf sigmin T fuel s0) (fun _ r0 => z0 <- MergeFFT_list FO (roots_dict FO) (fst r0) ;; Ok ([z0; z1], snd r0)) (IH _) _). intros r0. cbn [fst snd].
    refine (local_pure _ (fun z0 rb c => _) _). intros z0. apply local_ret.
  - destruct (Nat.eqb (length t0) 1); [|apply local_ret].
    refine (local_pure _ (fun a rb c => _) _). intros a. refine (local_pure _ (fun v rb c => _) _). intros v.
    refine (local_bind (fun rb => Samplerz FO rb sf (fst a) (fst v) sigmin) _ (Samplerz_local _ _ _ _) _). intros z0. cbn [fst snd].
    refine (local_pure _ (fun b rb c => _) _). intros b.
    refine (local_bind (fun rb => Samplerz FO rb sf (fst b) (fst v) sigmin) (fun _ s1 => Ok ([[c_real FO (f_of_int FO z0)]; [c_real FO (f_of_int FO (fst s1))]], snd s1)) (Samplerz_local _ _ _ _) _).
    intros z1. cbn [fst snd]. apply local_ret.
Qed.
End L.

(** The value of Samplerz is that of the first accepted block; every block is used for
    one round only. *)
Theorem C91_first_accepted : forall FO rb fuel mu sigma sigmin k v k',
  Samplerz FO rb fuel mu sigma sigmin k = Ok (v, k') <->
  exists m, (m < fuel)%nat /\ k' = S (k + m) /\
    (forall j, (j < m)%nat -> Samplerz FO rb 1 mu sigma sigmin (k + j) = Diverge) /\
    Samplerz FO rb 1 mu sigma sigmin (k + m) = Ok (v, k').
Proof. intros. apply loop_first. Qed.
Print Assumptions C91_first_accepted.
(** more allowed rounds do not change a result *)
Theorem C91_rounds : forall FO rb fuel fuel' mu sigma sigmin k v k', (fuel <= fuel')%nat ->
  Samplerz FO rb fuel mu sigma sigmin k = Ok (v, k') -> Samplerz FO rb fuel' mu sigma sigmin k = Ok (v, k').
Proof.
  intros FO rb fuel fuel' mu sigma sigmin k v k' Hf E. destruct (loop_local _ _ _ _ _ _ _ _ _ _ E) as [L R].
  unfold Samplerz. rewrite (R rb k fuel' Hf ltac:(intros j _; reflexivity)). do 2 f_equal. lia.
Qed.
Print Assumptions C91_rounds.
(** Samplerz, GenPoly and FfSamplingFFT read a segment of consecutive blocks, and the
    result depends on nothing else. *)
Theorem C91_blocks : forall FO sf,
  (forall mu sigma sigmin, uses_blocks (fun rb => Samplerz FO rb sf mu sigma sigmin)) /\
  (forall n, uses_blocks (fun rb => GenPoly FO rb sf n)) /\
  (forall sigmin T fuel t, uses_blocks (fun rb => FfSamplingFFT FO (roots_dict FO) rb sf sigmin T fuel t)).
Proof. intros FO sf. split; [|split]; intros; [apply Samplerz_local|apply GenPoly_local|apply Ff_local]. Qed.
Print Assumptions C91_blocks.
(** the samples of GenPoly are drawn in turn from adjacent segments *)
Fixpoint draws (S : nat -> Z -> nat -> Prop) (c : nat) (zs : list Z) (c' : nat) : Prop :=
  match zs with [] => c' = c | z :: zs' => exists c1, S c z c1 /\ draws S c1 zs' c' end.
Lemma samples_turn FO rb sf : forall m k l k', samples FO rb sf m k = Ok (l, k') <->
  length l = m /\ draws (fun c z c' => Samplerz FO rb sf (f_of_int FO 0) (sigma_gen FO) (sigmin_gen FO) c = Ok (z, c')) k l k'.
Proof.
  induction m as [|m IH]; intros k l k'; cbn [samples].
  - split; [intros E; injection E as <- <-; split; reflexivity|]. intros [L D]. destruct l; [|discriminate]. cbn in D. subst. reflexivity.
  - split.
    + intros E. destruct (Samplerz _ _ _ _ _ _ k) as [[z k1]| | |] eqn:E1; cbn [bind fst snd] in E; try discriminate.
      destruct (samples FO rb sf m k1) as [[l' k2]| | |] eqn:E2; cbn [bind fst snd] in E; try discriminate. injection E as <- <-.
      apply IH in E2. destruct E2 as [L D]. split; [cbn; now rewrite L|]. exists k1. split; [exact E1|exact D].
    + intros [L D]. destruct l as [|z l]; [discriminate|]. destruct D as (k1 & E1 & D). rewrite E1. cbn [bind fst snd].
      rewrite (proj2 (IH k1 l k')); [reflexivity|]. split; [cbn in L; lia|exact D].
Qed.
Theorem C91_genpoly : forall FO rb sf n c f c', GenPoly FO rb sf n c = Ok (f, c') ->
  exists zs, length zs = 4096%nat /\
    draws (fun c z c' => Samplerz FO rb sf (f_of_int FO 0) (sigma_gen FO) (sigmin_gen FO) c = Ok (z, c')) c zs c' /\
    GenPoly FO rb sf n c = (f <- mapM (fun i =>
         ts <- mapM (fun j => idx zs (i * Z.to_nat (4096 / n) + j)) (seq 0 (Z.to_nat (4096 / n))) ;;
         Ok (wrap16 (fold_left (fun sum t => wrap64 (sum + t)) ts 0))) (seq 0 (Z.to_nat n)) ;; Ok (f, c')).
Proof.
  intros FO rb sf n c f c' E. unfold GenPoly in *. destruct (n >? 4096); [discriminate|].
  destruct (samples FO rb sf 4096 c) as [[zs c1]| | |] eqn:Es; cbn [bind] in *; try discriminate.
  apply samples_turn in Es. destruct Es as [L D]. exists zs. split; [exact L|].
  assert (c1 = c') as ->. { destruct (mapM _ _) in E; cbn [bind] in E; try discriminate. injection E as _ <-. reflexivity. }
  split; [exact D|reflexivity].
Qed.
Print Assumptions C91_genpoly.

(** f and g of a key are two results of GenPoly on adjacent segments of the random blocks *)
Theorem C91_key : forall iw FO quo rb sf rf fuel n c f g F G,
  NtruGen iw FO quo rb sf rf fuel n c = Ok (f, g, F, G) ->
  exists c0 c1 c2, (c <= c0 <= c1)%nat /\ (c1 <= c2)%nat /\ GenPoly FO rb sf n c0 = Ok (f, c1) /\ GenPoly FO rb sf n c1 = Ok (g, c2).
Proof.
  intros iw FO quo rb sf rf. induction fuel as [|fuel IH]; intros n c f g F G E; cbn [NtruGen] in E; [discriminate|].
  destruct (GenPoly FO rb sf n c) as [[f' c1]| | |] eqn:E1; cbn [bind] in E; try discriminate.
  destruct (GenPoly FO rb sf n c1) as [[g' c2]| | |] eqn:E2; cbn [bind] in E; try discriminate.
  pose proof (proj1 (GenPoly_local FO sf n _ _ _ _ E1)) as L1. pose proof (proj1 (GenPoly_local FO sf n _ _ _ _ E2)) as L2.
  assert (Again : NtruGen iw FO quo rb sf rf fuel n c2 = Ok (f, g, F, G) -> exists c0 c1 c2, (c <= c0 <= c1)%nat /\ (c1 <= c2)%nat /\ GenPoly FO rb sf n c0 = Ok (f, c1) /\ GenPoly FO rb sf n c1 = Ok (g, c2)).
  { intros E'. destruct (IH _ _ _ _ _ _ E') as (a & b & d & H1 & H2 & H3). exists a, b, d. split; [lia|]. split; [exact H2|exact H3]. }
  destruct (GsNorm _ _ _ _) as [gs| | |]; cbn [bind] in E; try discriminate. destruct (f_ltb FO _ gs); [exact (Again E)|].
  destruct (NTT iw f') as [t| | |]; cbn [bind] in E; try discriminate. destruct (AnyZeroes t); [exact (Again E)|].
  destruct (NtruSolve _ _ _ _) as [[BF BG]| | |]; try discriminate; [|exact (Again E)].
  injection E as <- <- _ _. exists c, c1, c2. split; [lia|]. split; [lia|]. split; assumption.
Qed.
Print Assumptions C91_key.

(** at centre 0 a block of nine bytes 255 and a last byte 0 is accepted at once, with the
    last byte 255 it is rejected *)
Definition rej : rand := fun k => Some (repeat 255 9 ++ [0; if (k <? 2)%nat then 255 else 0])%Z.
Example C91_nonvacuous : forall ci cu, let FO := binary64 ci cu in
  Samplerz FO rej 3 (f_of_int FO 0) (sigma_gen FO) (sigmin_gen FO) 0 = Ok (0, 3%nat) /\
  Samplerz FO rej 2 (f_of_int FO 0) (sigma_gen FO) (sigmin_gen FO) 0 = Diverge /\
  same_blocks rej rej 2 3 7.
Proof.
  intros ci cu FO. split; [vm_compute; reflexivity|]. split; [vm_compute; reflexivity|].
  intros j Hj. assert (j = 0%nat) by lia. subst. reflexivity.
Qed.
