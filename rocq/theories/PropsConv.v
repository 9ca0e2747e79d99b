(** C84: the conversions, the rounding and the norm of src/util/util.go. *)
From Coq Require Import Reals Lra Lia ZArith List.
From Flocq Require Import Core BinarySingleNaN.
From Verif Require Import GoBase Util BaseProofs Spec Float UtilRest Ntrugen Samplerz KeyGen KeyGenProofs Binary64 B64Proofs FloatErr CdivErr GsReduce SqrErr GsAcc.
Local Open Scope Z_scope.

(** the int16 congruent to z *)
Definition is_low16 (z r : Z) : Prop := is_int16 r /\ (exists q, z = r + 65536 * q).
Lemma low16 z : is_low16 z (wrap16 z).
Proof.
  split.
  - unfold is_int16, wrap16, wrap. pose proof (Z.mod_pos_bound (z + 2 ^ (16 - 1)) (2 ^ 16) ltac:(lia)). lia.
  - exists ((z + 32768) / 65536). unfold wrap16, wrap. change (2 ^ (16 - 1)) with 32768. change (2 ^ 16) with 65536.
    pose proof (Z.div_mod (z + 32768) 65536 ltac:(lia)). lia.
Qed.
Lemma wrap16_64 z : wrap16 (wrap64 z) = wrap16 z.
Proof.
  destruct (low16 (wrap64 z)) as [I1 (q1 & E1)]. destruct (low16 z) as [I2 (q2 & E2)]. unfold is_int16 in *.
  assert (E3 : exists q, z = wrap64 z + 2 ^ 64 * q).
  { exists ((z + 2 ^ 63) / 2 ^ 64). unfold wrap64, wrap. pose proof (Z.div_mod (z + 2 ^ 63) (2 ^ 64) ltac:(lia)). change (2 ^ (64 - 1)) with (2 ^ 63). lia. }
  destruct E3 as (q3 & E3). change (2 ^ 64) with (65536 * 281474976710656) in E3. lia.
Qed.
Theorem C84_narrow : forall l,
  Forall2 is_low16 l (IntToInt16 l) /\ Forall2 is_low16 l (BigIntToInt16 l) /\
  (int16s l -> IntToInt16 l = l /\ BigIntToInt16 l = l).
Proof.
  intros l. assert (E : BigIntToInt16 l = IntToInt16 l) by (apply map_ext; intros z; apply wrap16_64). rewrite E.
  assert (A : Forall2 is_low16 l (IntToInt16 l)) by (induction l; cbn [IntToInt16 map]; constructor; [apply low16|apply IHl, map_ext; intros z; apply wrap16_64]).
  split; [exact A|]. split; [exact A|]. intros H. enough (IntToInt16 l = l) by auto.
  clear - H. induction H as [|x l Hx H IH]; [reflexivity|]. unfold IntToInt16 in *. cbn [map]. rewrite IH. f_equal. unfold wrap16. unfold is_int16 in Hx. apply wrap_id; lia.
Qed.
Print Assumptions C84_narrow.
(** Int8ToFloat64 and Int16ToFloat64 (the same definition in the model) lose nothing *)
Theorem C84_to_float : forall ci cu l, int16s l ->
  length (Int16ToFloat64 (binary64 ci cu) l) = length l /\
  Forall2 (fun z (x : b64) => is_finite x = true /\ B2R x = IZR z) l (Int16ToFloat64 (binary64 ci cu) l) /\
  IntsToFloat64 (binary64 ci cu) l = Int16ToFloat64 (binary64 ci cu) l.
Proof.
  intros ci cu l H. split; [apply map_length|]. split; [|reflexivity].
  induction H as [|x l Hx H IH]; [constructor|]. constructor; [|exact IH].
  unfold is_int16 in Hx. destruct (of_int_exact x ltac:(lia)) as [A B]. auto.
Qed.
Print Assumptions C84_to_float.
Theorem C84_min : forall ci cu (a b : b64), is_finite a = true -> is_finite b = true ->
  is_finite (Min (binary64 ci cu) a b) = true /\ B2R (Min (binary64 ci cu) a b) = Rmin (B2R a) (B2R b).
Proof.
  intros ci cu a b Fa Fb. unfold Min. cbn [f_ltb binary64]. rewrite Bltb_correct by assumption.
  destruct (Rlt_bool_spec (B2R a) (B2R b)); split; auto; [rewrite Rmin_left by lra|rewrite Rmin_right by lra]; reflexivity.
Qed.
Print Assumptions C84_min.
(** RoundAll gives the nearest integer, away from zero on a tie *)
Definition rounds_away (x : R) (z : Z) : Prop :=
  (Rabs (x - IZR z) < / 2 \/ (Rabs (x - IZR z) = / 2 /\ Rabs x < Rabs (IZR z)))%R.
Lemma znearest_away x : rounds_away x (Znearest (Zle_bool 0) x).
Proof.
  unfold rounds_away, Znearest. pose proof (Zfloor_lb x) as L. pose proof (Zfloor_ub x) as U.
  set (f := Zfloor x) in *. 
  assert (C : (/ 2 <= x - IZR f -> IZR (Zceil x) = IZR f + 1)%R).
  { intros H. unfold f. rewrite Zceil_floor_neq, plus_IZR; [reflexivity|]. fold f. lra. }
  destruct (Rcompare_spec (x - IZR f) (/ 2)) as [H|H|H].
  - left. rewrite Rabs_pos_eq; lra.
  - right. destruct (Z.leb_spec 0 f) as [P|P].
    + rewrite C by lra. apply IZR_le in P. split; [rewrite Rabs_left1; lra|]. rewrite !Rabs_pos_eq; lra.
    + assert (IZR f <= -1)%R by (apply (IZR_le f (-1)); lia). split; [rewrite Rabs_pos_eq; lra|]. rewrite !Rabs_left1; lra.
  - left. rewrite C by lra. rewrite Rabs_left1; lra.
Qed.
Theorem C84_round_all : forall ci cu l, Forall (fun x : b64 => is_finite x = true /\ (Rabs (B2R x) <= 2 ^ 62)%R) l ->
  Forall2 (fun (x : b64) z => rounds_away (B2R x) z) l (RoundAll (binary64 ci cu) l).
Proof.
  intros ci cu l H. induction H as [|x l [Fx Hx] H IH]; [constructor|]. constructor; [|exact IH]. clear IH H l.
  cbn [f_round f_to_int binary64].
  destruct (Bnearbyint_correct 53 1024 _ mode_NA x) as (E & Fe & _). fold (b_round x) in E, Fe.
  pose proof (znearest_away (B2R x)) as AW. set (z := Znearest (Zle_bool 0) (B2R x)) in *.
  assert (E' : B2R (b_round x) = IZR z).
  { rewrite E. unfold round, scaled_mantissa, F2R, cexp, FIX_exp. cbn [Fnum Fexp]. change (bpow radix2 (- 0)) with 1%R.
    change (bpow radix2 0) with 1%R. rewrite !Rmult_1_r. reflexivity. }
  rewrite Fx in Fe.
  pose proof (Btrunc_correct 53 1024 _ (b_round x)) as T. rewrite round_FIX_IZR, E', Ztrunc_IZR in T. apply eq_IZR in T.
  pose proof (Znearest_half (Zle_bool 0) (B2R x)) as HZ. fold z in HZ.
  assert (Z62 : (- (2 ^ 62 + 1) <= z <= 2 ^ 62 + 1)%Z).
  { apply abs_inv in Hx. apply abs_inv in HZ. split; apply le_IZR; cbn in Hx |- *; lra. }
  unfold b_conv. rewrite Fe, T.
  destruct (Z.leb_spec (- 2 ^ 63) z); [|lia]. destruct (Z.ltb_spec z (2 ^ 63)); [|lia].
  cbn [andb]. unfold wrap64. rewrite wrap_id by lia. exact AW.
Qed.
Print Assumptions C84_round_all.
(** Sqnorm is exact on integers when the sum is below 2^52 *)
Definition sum2 (v : list (list Z)) : Z := fold_right (fun l s => fold_right (fun z s => z * z + s) 0 l + s) 0 v.
Lemma sum2_nonneg v : 0 <= sum2 v.
Proof. induction v as [|l v IH]; cbn [sum2 fold_right]; [lia|]. fold (sum2 v). pose proof (zsq_nonneg l) as A. unfold zsq in A. lia. Qed.
Theorem C84_sqnorm : forall ci cu v, sum2 v < 2 ^ 52 ->
  is_finite (Sqnorm (binary64 ci cu) (map (Int16ToFloat64 (binary64 ci cu)) v) : b64) = true /\
  B2R (Sqnorm (binary64 ci cu) (map (Int16ToFloat64 (binary64 ci cu)) v) : b64) = IZR (sum2 v).
Proof.
  intros ci cu v H.
  assert (A : forall v (acc : b64) a, isval acc (IZR a) -> 0 <= a -> a + sum2 v < 2 ^ 52 ->
    isval (fold_left (fun r elt => fold_left (fun r c => b_add r (b_sqr c)) elt r) (map (map b_of_int) v) acc) (IZR (a + sum2 v))).
  { clear. induction v as [|l v IH]; intros acc a I0 Ha H; cbn [sum2 fold_right map fold_left] in *.
    - now rewrite Z.add_0_r.
    - fold (sum2 v) in *. change (fold_right (fun z s => z * z + s) 0 l) with (zsq l) in *. pose proof (sum2_nonneg v). pose proof (zsq_nonneg l).
      rewrite Z.add_assoc. apply IH; [|lia|lia]. apply fold_int; [exact I0|lia|lia]. }
  exact (A v (b_of_int 0) 0 (conj eq_refl eq_refl) ltac:(lia) H).
Qed.
Print Assumptions C84_sqnorm.
Example C84_nonvacuous : IntToInt16 [70000; -5] = [4464; -5] /\ BigIntToInt16 [2 ^ 70 + 3] = [3] /\
  rounds_away (5 / 2) 3 /\ rounds_away (- 5 / 2) (-3) /\ sum2 [[3; 4]; [-12]] = 169 /\
  RoundAll (binary64 (fun _ => 0) (fun _ => 0)) [b_const 25 1; b_const (-25) 1] = [3; -3].
Proof.
  split; [reflexivity|]. split; [reflexivity|].
  split; [right; split; [rewrite Rabs_left1|rewrite !Rabs_pos_eq]; lra|].
  split; [right; split; [rewrite Rabs_pos_eq|rewrite !Rabs_left1]; lra|]. split; [reflexivity|]. vm_compute. reflexivity.
Qed.
