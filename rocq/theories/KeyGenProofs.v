(** Key generation for every behaviour of the float64 operations: shapes, error
    codes, what the returned key satisfies, and the tree functions. *)
From Verif Require Import GoBase Util Ntt Params Falcon Spec PolyZ PolyEval BaseProofs UtilProofs
  Float Samplerz Fft FftTables FftShape Ntrugen Ffsampling KeyGen NoErr
  NttProofs NttProps NtruProofs3 NtruProps KeyProofs FalconProofs.

Section Shapes.
Context (FO : floats).
Notation roots := (roots_dict FO).
Notation cplx := (cplx FO).

Lemma full k : (k <= 10)%nat -> full_roots FO roots k.
Proof. intros H. exact (full_le FO roots 10 k H (roots_dict_full FO)). Qed.

Ltac len := rewrite ?map_length, ?seq_length; try assumption; try lia.
Ltac fft x := let A := fresh "A" in let L := fresh "L" in
  destruct x as (A & -> & L); [try apply full; try lia; len..|cbn [bind]].

(** the quotient of reduce: always a vector of the right length *)
Lemma reduce_quotient_total k : (1 <= k <= 10)%nat -> quo_total (reduce_quotient FO) k.
Proof.
  intros Hk a b c d La Lb Lc Ld. unfold reduce_quotient, reduce_quotient_at.
  fft (FFT_shape FO roots k (map (f_of_int FO) a)).
  fft (FFT_shape FO roots k (map (f_of_int FO) b)).
  fft (FFT_shape FO roots k (map (f_of_int FO) c)).
  fft (FFT_shape FO roots k (map (f_of_int FO) d)).
  unfold AdjFFT. rewrite !MulFFT_ok by (len; lia). cbn [bind].
  rewrite !AddFFT_ok by (len; lia). cbn [bind].
  rewrite DivFFT_ok by (len; lia). cbn [bind].
  edestruct (IFFT_shape FO roots k) as (R & -> & LR); [apply full; lia|lia| |cbn [bind]].
  { len. } 
  eexists. split; [|reflexivity]. unfold RoundAll. len.
Qed.
Lemma reduce_quotient_noerr k : quo_noerr (reduce_quotient FO) k.
Proof. intros a b c d e _ _ _ _. apply noerr_reduce_quotient. Qed.

Lemma GsNorm_ok k f g q : (1 <= k <= 10)%nat -> length f = (2 ^ k)%nat -> length g = (2 ^ k)%nat ->
  exists v, GsNorm FO f g q = Ok v.
Proof.
  intros Hk Lf Lg. unfold GsNorm, GsNorm_at. cbv zeta.
  fft (Adj_shape FO roots k f). fft (Mul_shape FO roots k f A).
  fft (Adj_shape FO roots k g). fft (Mul_shape FO roots k g A1).
  rewrite Add_ok by lia. cbn [bind].
  fft (Div_shape FO roots k A (map (fun i => f_add FO (nth i A0 (f0 FO)) (nth i A2 (f0 FO))) (seq 0 (length A0)))).
  fft (Div_shape FO roots k A1 (map (fun i => f_add FO (nth i A0 (f0 FO)) (nth i A2 (f0 FO))) (seq 0 (length A0)))).
  unfold BiggestFloat64. cbn [idx nth_error bind]. eexists. reflexivity.
Qed.

(** a 2x2 matrix of vectors of length 2^k *)
Definition mat2x2 {A} (n : nat) (M : list (list (list A))) : Prop :=
  exists a b c d, M = [[a; b]; [c; d]] /\ length a = n /\ length b = n /\ length c = n /\ length d = n.

Lemma Gram_shape k B : (1 <= k <= 10)%nat -> mat2x2 (2 ^ k) B ->
  exists G, Gram FO roots B = Ok G /\ mat2x2 (2 ^ k) G.
Proof.
  intros Hk (a & b & c & d & -> & La & Lb & Lc & Ld). unfold Gram.
  cbn [idx nth_error bind length seq mapM foldM idx2].
  unfold idx2. cbn [idx nth_error bind].
  rewrite La.
  destruct (Adj_shape FO roots k a) as (aa & -> & Laa); [apply full; lia|lia|assumption|].
  destruct (Adj_shape FO roots k b) as (ab & -> & Lab); [apply full; lia|lia|assumption|].
  destruct (Adj_shape FO roots k c) as (ac & -> & Lac); [apply full; lia|lia|assumption|].
  destruct (Adj_shape FO roots k d) as (ad & -> & Lad); [apply full; lia|lia|assumption|].
  cbn [bind].
  assert (M : forall x y, length x = (2 ^ k)%nat -> length y = (2 ^ k)%nat ->
     exists p, Mul FO roots x y = Ok p /\ length p = (2 ^ k)%nat).
  { intros x y Lx Ly. apply Mul_shape; auto; [apply full; lia|lia]. }
  destruct (M a aa) as (p1 & -> & L1); auto. destruct (M b ab) as (p2 & -> & L2); auto.
  destruct (M a ac) as (p3 & -> & L3); auto. destruct (M b ad) as (p4 & -> & L4); auto.
  destruct (M c aa) as (p5 & -> & L5); auto. destruct (M d ab) as (p6 & -> & L6); auto.
  destruct (M c ac) as (p7 & -> & L7); auto. destruct (M d ad) as (p8 & -> & L8); auto.
  cbn [bind].
  rewrite !Add_ok by (rewrite ?repeat_length; len). cbn [bind].
  rewrite !Add_ok by (rewrite ?map_length, ?seq_length, ?repeat_length; len). cbn [bind].
  eexists. split; [reflexivity|]. do 4 eexists. split; [reflexivity|]. rewrite !map_length, !seq_length, !repeat_length. auto.
Qed.

Lemma fft3D_shape k B : (1 <= k <= 10)%nat -> mat2x2 (2 ^ k) B ->
  exists G, fft3D FO B = Ok G /\ mat2x2 (2 ^ k) G.
Proof.
  intros Hk (a & b & c & d & -> & La & Lb & Lc & Ld). unfold fft3D. cbn [mapM].
  fft (FFT_shape FO roots k a). fft (FFT_shape FO roots k b).
  fft (FFT_shape FO roots k c). fft (FFT_shape FO roots k d).
  eexists. split; [reflexivity|]. do 4 eexists. split; [reflexivity|]. auto.
Qed.

(** LdlFFT on such a matrix *)
Definition ldl_l10 (g00 g10 : list cplx) : list cplx :=
  map (fun i => c_div FO (nth i g10 (c0 FO)) (nth i g00 (c0 FO))) (seq 0 (length g10)).
Lemma Ldl_shape n g00 g01 g10 g11 :
  length g00 = n -> length g01 = n -> length g10 = n -> length g11 = n ->
  exists D11 zero one, LdlFFT FO [[g00; g01]; [g10; g11]] =
    Ok ([[one; zero]; [ldl_l10 g00 g10; one]], [[g00; zero]; [zero; D11]]) /\ length D11 = n.
Proof.
  intros L0 L1 L2 L3. unfold LdlFFT, idx2. cbn [idx nth_error bind].
  cbn [length Nat.eqb negb orb].
  rewrite DivFFT_ok by lia. cbn [bind]. fold (ldl_l10 g00 g10).
  assert (LL : length (ldl_l10 g00 g10) = n) by (unfold ldl_l10; len).
  rewrite MulFFT_ok by (unfold AdjFFT; len). cbn [bind].
  rewrite MulFFT_ok by len. cbn [bind].
  rewrite SubFFT_ok by len. cbn [bind]. do 3 eexists. split; [reflexivity|]. len.
Qed.

(** FfldlFFT: what is left in the receiver comes from the last leaf, whatever
    the receiver held before *)
Lemma Ffldl_shape k : (1 <= k <= 10)%nat -> forall fuel G, (k <= fuel)%nat -> mat2x2 (2 ^ k) G ->
  exists T', (forall T, FfldlFFT FO roots fuel T G = Ok T') /\
    length (t_Value FO T') = 2%nat /\ length (t_Leftchild FO T') = 2%nat /\ length (t_Rightchild FO T') = 2%nat.
Proof.
  induction k as [|k IH]; intros Hk fuel G Hf HG; [lia|].
  destruct fuel as [|fuel]; [lia|].
  destruct HG as (a & b & c & d & -> & La & Lb & Lc & Ld). cbn [FfldlFFT].
  unfold idx2 at 1. cbn [idx nth_error bind].
  destruct (Ldl_shape (2 ^ S k) a b c d) as (D & z & o & -> & LD); auto. cbn [bind].
  unfold idx2. cbn [idx nth_error bind]. cbn [t_Value t_Leftchild t_Rightchild].
  rewrite La. destruct k as [|k].
  - change (Nat.eqb (2 ^ 1) 2) with true. cbv iota. eexists. split; [reflexivity|].
    cbn [t_Value t_Leftchild t_Rightchild]. unfold ldl_l10. rewrite map_length, seq_length. auto.
  - destruct (Nat.eqb_spec (2 ^ S (S k)) 2) as [E|_]; [pose proof (pow2_ge1 k); cbn [Nat.pow] in E; lia|].
    assert (R : length (roots (2 ^ S (S k))) = (2 ^ S (S k))%nat) by (apply (roots_dict_full FO); lia).
    rewrite (SplitFFT_ok FO roots a (2 ^ S k)) by (rewrite <- ?pow2_S; lia). cbn [bind].
    rewrite (SplitFFT_ok FO roots D (2 ^ S k)) by (rewrite <- ?pow2_S; lia). cbn [bind fst snd].
    match goal with |- context [FfldlFFT FO roots fuel _ ?g] =>
      destruct (IH ltac:(lia) fuel g) as (T1 & E1 & _); [lia| |] end.
    { do 4 eexists. split; [reflexivity|]. unfold AdjFFT. rewrite !map_length, !seq_length. auto. }
    match goal with |- context [FfldlFFT FO roots fuel _ ?g] =>
      match g with context [D] => destruct (IH ltac:(lia) fuel g) as (T2 & E2 & LT); [lia| |] end end.
    { do 4 eexists. split; [reflexivity|]. unfold AdjFFT. rewrite !map_length, !seq_length. auto. }
    exists T2. split; [|exact LT]. intros T. rewrite E1. cbn [bind]. apply E2.
Qed.

(** the tree left for G is the tree of the right half of its D *)
Lemma Ffldl_right k fuel a b c d : (2 <= k <= 10)%nat -> (k <= fuel)%nat ->
  length a = (2 ^ k)%nat -> length b = (2 ^ k)%nat -> length c = (2 ^ k)%nat -> length d = (2 ^ k)%nat ->
  exists L zero D11 d0 d1, LdlFFT FO [[a; b]; [c; d]] = Ok (L, [[a; zero]; [zero; D11]]) /\
    SplitFFT FO roots D11 = Ok (d0, d1) /\
    forall T T', FfldlFFT FO roots fuel T [[a; b]; [c; d]]
             = FfldlFFT FO roots (pred fuel) T' [[d0; d1]; [AdjFFT FO d1; d0]].
Proof.
  intros Hk Hf La Lb Lc Ld. destruct fuel as [|fuel]; [lia|]. destruct k as [|[|k]]; [lia..|].
  destruct (Ldl_shape (2 ^ S (S k)) a b c d) as (D & z & o & E & LD); auto.
  assert (R : length (roots (2 ^ S (S k))) = (2 ^ S (S k))%nat) by (apply (roots_dict_full FO); lia).
  pose proof (SplitFFT_ok FO roots a (2 ^ S k) ltac:(rewrite <- ?pow2_S; lia) ltac:(rewrite <- ?pow2_S; lia)) as Ea.
  pose proof (SplitFFT_ok FO roots D (2 ^ S k) ltac:(rewrite <- ?pow2_S; lia) ltac:(rewrite <- ?pow2_S; lia)) as Ed.
  do 5 eexists. split; [exact E|]. split; [exact Ed|]. intros T T'. cbn [pred FfldlFFT].
  unfold idx2 at 1. cbn [idx nth_error bind]. rewrite E. cbn [bind].
  unfold idx2. cbn [idx nth_error bind]. rewrite La.
  destruct (Nat.eqb_spec (2 ^ S (S k)) 2) as [E2|_]; [pose proof (pow2_ge1 k); cbn [Nat.pow] in E2; lia|].
  rewrite Ea, Ed. cbn [bind fst snd].
  match goal with |- bind (FfldlFFT FO roots fuel _ ?g) _ = FfldlFFT FO roots fuel _ ?h =>
    destruct (Ffldl_shape (S k) ltac:(lia) fuel g) as (T1 & E1 & _); [lia| |];
    [|destruct (Ffldl_shape (S k) ltac:(lia) fuel h) as (T2 & E3 & _); [lia| |rewrite E1; cbn [bind]; rewrite !E3; reflexivity]] end.
  all: do 4 eexists; split; [reflexivity|]; unfold AdjFFT; rewrite !map_length, !seq_length; auto.
Qed.

(** degree 2: the node of the argument *)
Lemma Ffldl_two fuel a b c d T : (1 <= fuel)%nat ->
  length a = 2%nat -> length b = 2%nat -> length c = 2%nat -> length d = 2%nat ->
  exists D11 zero one, LdlFFT FO [[a; b]; [c; d]] =
    Ok ([[one; zero]; [ldl_l10 a c; one]], [[a; zero]; [zero; D11]]) /\
  FfldlFFT FO roots fuel T [[a; b]; [c; d]] =
    Ok {| t_Value := ldl_l10 a c; t_Leftchild := a; t_Rightchild := D11 |}.
Proof.
  intros Hf La Lb Lc Ld. destruct fuel as [|fuel]; [lia|].
  destruct (Ldl_shape 2 a b c d) as (D & z & o & E & LD); auto.
  exists D, z, o. split; [exact E|]. cbn [FfldlFFT]. unfold idx2 at 1. cbn [idx nth_error bind].
  rewrite E. cbn [bind]. unfold idx2. cbn [idx nth_error bind]. rewrite La. reflexivity.
Qed.

(** FfSamplingFFT reads t_Value at every level, so it returns only when the
    vectors are no longer than it (or have length at most 1). *)
Lemma FfSampling_Ok rb sf sigmin T fuel t c r t0 : FfSamplingFFT FO roots rb sf sigmin T fuel t c = Ok r ->
  idx t 0 = Ok t0 -> (length t0 <= 1 \/ length t0 <= length (t_Value FO T))%nat.
Proof.
  destruct fuel as [|fuel]; [discriminate|]. cbn [FfSamplingFFT]. intros E Et. rewrite Et in E. cbn [bind] in E.
  destruct (Nat.ltb_spec 1 (length t0)) as [H|H]; [right|lia].
  destruct (idx t 1) as [t1| | |]; cbn [bind] in E; try discriminate.
  destruct (Split_list FO roots t1) as [s1| | |]; cbn [bind] in E; try discriminate.
  destruct (FfSamplingFFT FO roots rb sf sigmin T fuel s1 c) as [r1| | |]; cbn [bind] in E; try discriminate.
  destruct (MergeFFT_list FO roots (fst r1)) as [z1| | |]; cbn [bind] in E; try discriminate.
  destruct (SubFFT FO t1 z1) as [dd| | |]; cbn [bind] in E; try discriminate.
  destruct (Nat.le_gt_cases (length dd) (length (t_Value FO T))) as [Hd|Hd].
  - rewrite MulFFT_ok in E by exact Hd. cbn [bind] in E. unfold AddFFT in E.
    rewrite map_length, seq_length in E.
    destruct (Nat.eqb_spec (length t0) (length dd)) as [L|L]; cbn [negb bind] in E; [lia|discriminate].
  - unfold MulFFT in E. rewrite zipM_panic in E by exact Hd. discriminate.
Qed.

(** no error result *)
Lemma FfSampling_noerr rb sf sigmin T fuel : forall t c, noerr (FfSamplingFFT FO roots rb sf sigmin T fuel t c).
Proof.
  induction fuel as [|fuel IH]; intros t c; cbn [FfSamplingFFT]; [ne|].
  unfold Split_list, MergeFFT_list. ne; first [apply noerr_SplitFFT|apply noerr_MergeFFT].
Qed.

(** normalizeTree as NewKeyPair calls it *)
Lemma normalize_two T sigma a b l : t_Leftchild FO T = a :: b :: l ->
  normalizeTree FO (AllChild FO T) sigma =
  Ok [(f_div FO sigma (f_sqrt FO (fst a)), f_of_int FO 0) :: c_real FO (f_of_int FO 0) :: l; t_Rightchild FO T].
Proof. intros E. unfold AllChild, normalizeTree. rewrite E. reflexivity. Qed.
Lemma normalize_short T sigma : (length (t_Leftchild FO T) <= 1)%nat ->
  normalizeTree FO (AllChild FO T) sigma = Panic.
Proof.
  intros E. unfold AllChild, normalizeTree, normalize_leaf.
  destruct (t_Leftchild FO T) as [|a [|b l]]; [reflexivity..|cbn in E; lia].
Qed.
(** a three-element argument *)
Lemma normalize_three (v l r : list cplx) sigma : (2 <= length l)%nat -> (2 <= length r)%nat ->
  normalizeTree FO [v; l; r] sigma =
  Ok [v; (f_div FO sigma (f_sqrt FO (fst (nth 0 l (c0 FO)))), f_of_int FO 0) :: c_real FO (f_of_int FO 0) :: skipn 2 l;
         (f_div FO sigma (f_sqrt FO (fst (nth 0 r (c0 FO)))), f_of_int FO 0) :: c_real FO (f_of_int FO 0) :: skipn 2 r].
Proof.
  intros Hl Hr. destruct l as [|? [|? l]]; cbn in Hl; try lia. destruct r as [|? [|? r]]; cbn in Hr; try lia.
  reflexivity.
Qed.

(** falcon_data: always a value for polynomials of the right length *)
Lemma basis_ok k tf f g F G : (1 <= k <= 10)%nat -> (k <= tf)%nat ->
  length f = (2 ^ k)%nat -> length g = (2 ^ k)%nat -> length F = (2 ^ k)%nat -> length G = (2 ^ k)%nat ->
  exists B T, basisAndMatrix FO tf f g F G = Ok (B, T) /\ length (t_Value FO T) = 2%nat /\
    length (t_Leftchild FO T) = 2%nat /\ length (t_Rightchild FO T) = 2%nat.
Proof.
  intros Hk Ht Lf Lg LF LG. unfold basisAndMatrix. cbv zeta.
  set (B0 := [[_; _]; [_; _]]).
  assert (S0 : mat2x2 (2 ^ k) B0).
  { do 4 eexists. split; [reflexivity|]. unfold Int16ToFloat64, Neg. rewrite !map_length. auto. }
  clearbody B0. destruct (Gram_shape k B0 Hk S0) as (G0 & -> & SG). cbn [bind].
  destruct (fft3D_shape k B0 Hk S0) as (B0F & -> & _). cbn [bind].
  destruct (fft3D_shape k G0 Hk SG) as (G0F & -> & SGF). cbn [bind].
  destruct (Ffldl_shape k Hk tf G0F Ht SGF) as (T & E & L). rewrite E. cbn [bind].
  exists B0F, T. split; [reflexivity|exact L].
Qed.
Context (iw : Z -> Z) (iw_id : forall z, is_int64 z -> iw z = z).

Lemma falcon_data_ok k n tf f g F G : (1 <= k <= 10)%nat -> (k <= tf)%nat ->
  length f = (2 ^ k)%nat -> length g = (2 ^ k)%nat -> length F = (2 ^ k)%nat -> length G = (2 ^ k)%nat ->
  int16s f -> int16s g -> exists d, falcon_data iw FO tf n f g F G = Ok d.
Proof.
  intros Hk Ht Lf Lg LF LG If Ig. unfold falcon_data.
  destruct (basis_ok k tf f g F G) as (B & T & -> & LV & LL & LR); auto. cbn [bind].
  destruct (t_Leftchild FO T) as [|a [|b l]] eqn:EL; try discriminate.
  rewrite (normalize_two T _ a b l EL). cbn [bind idx nth_error].
  destruct (in_dec Z.eq_dec 0 (evalsP k f)) as [I|I].
  - rewrite (DivZq_err_z iw iw_id k) by (auto; intros N; contradiction). eauto.
  - rewrite (DivZq_ok_nz iw iw_id k) by auto. eauto.
Qed.
End Shapes.

(** ** Keys *)
Lemma GenPoly_shape FO rb fuel n c f c' : GenPoly FO rb fuel n c = Ok (f, c') ->
  length f = Z.to_nat n /\ int16s f.
Proof.
  unfold GenPoly. destruct (n >? 4096); [discriminate|].
  destruct (samples FO rb fuel 4096 c) as [[l c1]| | |]; cbn [bind]; try discriminate.
  match goal with |- context [mapM ?h ?s] => destruct (mapM h s) as [r| | |] eqn:E end; cbn [bind]; try discriminate.
  intros H. apply Ok_inj in H. injection H as <- <-. split.
  - apply mapM_length in E. rewrite seq_length in E. congruence.
  - apply mapM_Ok_inv in E. unfold int16s.
    induction E as [|i x l1 l2 Hx _ IH]; constructor; [|exact IH].
    destruct (mapM _ _) as [ts| | |] in Hx; try discriminate Hx. apply Ok_inj in Hx. subst x. apply wrap16_int16.
Qed.

Lemma BigIntToInt16_wrap l : BigIntToInt16 l = map int16_of l.
Proof.
  apply map_ext. intros v. unfold big_Int64, wrap64, wrap16, wrap, int16_of.
  change (2 ^ (16 - 1)) with 32768. change (2 ^ (64 - 1)) with 9223372036854775808.
  change (2 ^ 16) with 65536. f_equal.
  pose proof (Z.div_mod (v + 9223372036854775808) (2 ^ 64) ltac:(lia)) as D.
  replace ((v + 9223372036854775808) mod 2 ^ 64 - 9223372036854775808 + 32768)
    with (v + 32768 + (- (2 ^ 48 * ((v + 9223372036854775808) / 2 ^ 64))) * 65536) by lia.
  apply Z_mod_plus_full.
Qed.

Lemma int16_of_congr v : int16_of v mod 65536 = v mod 65536.
Proof. unfold int16_of. rewrite Zminus_mod, Z.mod_mod, <- Zminus_mod by lia. f_equal. lia. Qed.
Lemma int16_of_id v : is_int16 v -> int16_of v = v.
Proof. unfold is_int16, int16_of. intros H. rewrite Z.mod_small; lia. Qed.
Lemma int16_of_range v : is_int16 (int16_of v).
Proof. unfold is_int16, int16_of. pose proof (Z.mod_pos_bound (v + 32768) 65536). lia. Qed.

(** products modulo m *)
Lemma sumn_mod m n f g : (forall i, (i < n)%nat -> f i mod m = g i mod m) -> sumn n f mod m = sumn n g mod m.
Proof.
  induction n as [|n IH]; intros H; [reflexivity|]. cbn [sumn].
  rewrite Zplus_mod, (Zplus_mod (sumn n g)), IH, H by (intros; try apply H; lia). reflexivity.
Qed.
Lemma negacyc_coef_mod m n f g g' k : m <> 0 -> (forall i, coef g i mod m = coef g' i mod m) ->
  negacyc_coef n f g k mod m = negacyc_coef n f g' k mod m.
Proof.
  intros Hm H. unfold negacyc_coef. apply sumn_mod. intros i _.
  assert (A : forall c x y, x mod m = y mod m -> (c * x) mod m = (c * y) mod m).
  { intros c x y E. rewrite Zmult_mod, E, <- Zmult_mod. reflexivity. }
  destruct (Nat.leb i k); [apply A, H|].
  rewrite !Z.opp_eq_mul_m1, !(Z.mul_comm _ (-1)). apply A, A, H.
Qed.

Section Keys.
Context (iw : Z -> Z) (iw_id : forall z, is_int64 z -> iw z = z).
Context (FO : floats) (quo : quotient) (rb : rand) (sf rf : nat).

(** what a returned quadruple satisfies *)
Lemma NtruGen_ok k fuel : (1 <= k <= 10)%nat -> forall c f g F G,
  NtruGen iw FO quo rb sf rf fuel (Z.of_nat (2 ^ k)) c = Ok (f, g, F, G) ->
  length f = (2 ^ k)%nat /\ length g = (2 ^ k)%nat /\ int16s f /\ int16s g /\
  invertible_mod_q (2 ^ k) f /\
  (exists gs, GsNorm FO (Int16ToFloat64 FO f) (Int16ToFloat64 FO g) (f_of_int FO Q) = Ok gs /\
     f_ltb FO (gs_bound FO) gs = false) /\
  exists BF BG, NtruSolve quo rf f g = Ok (BF, BG) /\ F = map int16_of BF /\ G = map int16_of BG.
Proof.
  intros Hk. induction fuel as [|fuel IH]; intros c f g F G E; cbn [NtruGen] in E; [discriminate|].
  destruct (GenPoly FO rb sf (Z.of_nat (2 ^ k)) c) as [[f1 c1]| | |] eqn:E1; cbn [bind] in E; try discriminate.
  destruct (GenPoly FO rb sf (Z.of_nat (2 ^ k)) c1) as [[g1 c2]| | |] eqn:E2; cbn [bind] in E; try discriminate.
  destruct (GenPoly_shape _ _ _ _ _ _ _ E1) as [L1 I1]. destruct (GenPoly_shape _ _ _ _ _ _ _ E2) as [L2 I2].
  rewrite Nat2Z.id in L1, L2.
  destruct (GsNorm FO (Int16ToFloat64 FO f1) (Int16ToFloat64 FO g1) (f_of_int FO Q)) as [gs| | |] eqn:E3;
    cbn [bind] in E; try discriminate.
  destruct (f_ltb FO (gs_bound FO) gs) eqn:E4; [exact (IH _ _ _ _ _ E)|].
  rewrite (NTT_ok iw iw_id k) in E by assumption. cbn [bind] in E.
  destruct (AnyZeroes (evalsP k f1)) eqn:E5; [exact (IH _ _ _ _ _ E)|].
  unfold Int16ToBigInt in E.
  destruct (NtruSolve quo rf f1 g1) as [[BF BG]|e| |] eqn:E6; try discriminate; [|exact (IH _ _ _ _ _ E)].
  apply Ok_inj in E. injection E as <- <- <- <-.
  repeat (split; [assumption|]). split.
  { apply (evals_nz_invertible iw iw_id k); [assumption..|]. intros I.
    assert (X : AnyZeroes (evalsP k f1) = true) by (apply AnyZeroes_spec, Exists_exists; eauto). congruence. }
  split; [eauto|]. exists BF, BG. rewrite <- !BigIntToInt16_wrap. auto.
Qed.

Lemma Generate_ok fuel n sk : 0 <= n ->
  GeneratePrivateKey iw FO quo rb sf rf fuel n = Ok sk ->
  exists k, (1 <= k <= 10)%nat /\ n = Z.of_nat (2 ^ k) /\ sk_n sk = n /\
    NtruGen iw FO quo rb sf rf fuel n 0 = Ok (sk_f sk, sk_g sk, sk_F sk, sk_G sk).
Proof.
  intros Hn. unfold GeneratePrivateKey. destruct (isValidDegree n) eqn:V; [|discriminate]. cbn [negb].
  apply isValidDegree_spec in V; [|exact Hn]. destruct V as (k & Hk & E).
  destruct (NtruGen iw FO quo rb sf rf fuel n 0) as [[[[f g] F] G]| | |]; try discriminate. cbn [bind].
  intros H. apply Ok_inj in H. subst sk. exists k. cbn. repeat split; auto; lia.
Qed.

(** a generated key, stated on the key alone *)
Lemma Generate_mod fuel n sk : 0 <= n ->
  GeneratePrivateKey iw FO quo rb sf rf fuel n = Ok sk ->
  let m := Z.to_nat n in
  valid_degree m /\ sk_n sk = n /\
  length (sk_f sk) = m /\ length (sk_g sk) = m /\ length (sk_F sk) = m /\ length (sk_G sk) = m /\
  int16s (sk_f sk) /\ int16s (sk_g sk) /\ int16s (sk_F sk) /\ int16s (sk_G sk) /\
  invertible_mod_q m (sk_f sk) /\
  forall i, (i < m)%nat ->
    coef (psub m (negacyc m (sk_f sk) (sk_G sk)) (negacyc m (sk_g sk) (sk_F sk))) i mod 65536
    = coef (pconst m q) i mod 65536.
Proof.
  intros Hn E m. destruct (Generate_ok fuel n sk Hn E) as (k & Hk & En & Esn & EG).
  assert (Em : m = (2 ^ k)%nat) by (unfold m; lia). clearbody m. subst m n.
  destruct (NtruGen_ok k fuel Hk _ _ _ _ _ EG) as (Lf & Lg & If & Ig & Inv & _ & BF & BG & ES & EF & EG').
  destruct (solve_eq quo rf k _ _ _ _ Lf Lg ES) as (_ & _ & d & _ & _ & _ & _ & Hd & LF & LG & Eq).
  assert (IW : forall l, int16s (map int16_of l)).
  { intros l. apply Forall_forall. intros x Hx. apply in_map_iff in Hx. destruct Hx as (y & <- & _). apply int16_of_range. }
  rewrite EF, EG', !map_length.
  split; [exists k; auto|]. repeat (split; [auto|]).
  intros i Hi.
  assert (CM : forall l j, coef (map int16_of l) j mod 65536 = coef l j mod 65536).
  { intros l j. unfold coef. change 0 with (int16_of 0) at 1. rewrite map_nth. apply int16_of_congr. }
  pose proof (f_equal (fun l => coef l i) Eq) as E1. cbv beta in E1.
  unfold psub, coef in E1 |- *. rewrite nth_map_seq in E1 |- * by exact Hi.
  unfold negacyc in E1 |- *. rewrite !nth_map_seq in E1 |- * by exact Hi.
  rewrite Zminus_mod, !(negacyc_coef_mod 65536 _ _ (map int16_of _) _ i ltac:(lia) (CM _)), <- Zminus_mod, E1.
  unfold pconst. rewrite !nth_map_seq by exact Hi. destruct (Nat.eqb i 0); [|reflexivity].
  pose proof (Z.div_mod d (2 ^ 64) ltac:(lia)) as D. rewrite Hd in D.
  replace (q * d) with (q + (q * (2 ^ 48 * (d / 2 ^ 64))) * 65536) by lia. apply Z_mod_plus_full.
Qed.

(** and in terms of the solver's integers *)
Lemma Generate_fits fuel n sk nf ng : 0 <= n ->
  GeneratePrivateKey iw FO quo rb sf rf fuel n = Ok sk ->
  let k := Nat.log2 (Z.to_nat n) in
  is_norm k (sk_f sk) nf -> is_norm k (sk_g sk) ng -> Z.gcd nf ng < 2 ^ 64 - 1 ->
  (forall BF BG, NtruSolve quo rf (sk_f sk) (sk_g sk) = Ok (BF, BG) -> int16s BF /\ int16s BG) ->
  ntru_equation (Z.to_nat n) (sk_f sk) (sk_g sk) (sk_F sk) (sk_G sk).
Proof.
  intros Hn E k0 Nf Ng B Fit. destruct (Generate_ok fuel n sk Hn E) as (k & Hk & En & Esn & EG).
  assert (Em : Z.to_nat n = (2 ^ k)%nat) by lia.
  assert (Ek : k0 = k) by (unfold k0; rewrite Em; apply Nat.log2_pow2; lia). clearbody k0. subst k0 n.
  destruct (NtruGen_ok k fuel Hk _ _ _ _ _ EG) as (Lf & Lg & If & Ig & Inv & _ & BF & BG & ES & EF & EG').
  destruct (Fit _ _ ES) as [IF IG].
  assert (Id : forall l, int16s l -> map int16_of l = l).
  { intros l H. induction H as [|x l Hx H IH]; [reflexivity|]. cbn [map]. rewrite IH, int16_of_id by exact Hx. reflexivity. }
  rewrite EF, EG', !Id, Em by assumption.
  exact (solve_small quo rf k _ _ _ _ nf ng Lf Lg Nf Ng B ES).
Qed.

(** error codes *)
Lemma Generate_degree fuel n : 0 <= n ->
  (GeneratePrivateKey iw FO quo rb sf rf fuel n = Err ErrInvalidDegree <-> ~ valid_degree (Z.to_nat n)) /\
  (forall e, GeneratePrivateKey iw FO quo rb sf rf fuel n = Err e -> e = ErrInvalidDegree).
Proof.
  intros Hn. unfold GeneratePrivateKey. rewrite <- isValidDegree_spec by exact Hn.
  destruct (isValidDegree n); cbn [negb].
  - assert (N : noerr (p <- NtruGen iw FO quo rb sf rf fuel n 0 ;;
      (let '(f, g, F, G) := p in Ok {| sk_n := n; sk_f := f; sk_g := g; sk_F := F; sk_G := G |})))
      by (ne).
    split; [split; [intros E; destruct (N _ E)|intros H; contradiction H; reflexivity]|].
    intros e E. destruct (N _ E).
  - split; [split; [discriminate|reflexivity]|]. intros e E. injection E as <-. reflexivity.
Qed.
Lemma NewKeyPair_degree fuel tf n : 0 <= n ->
  (NewKeyPair iw FO quo rb sf rf fuel tf n = Err ErrInvalidDegree <-> ~ valid_degree (Z.to_nat n)) /\
  (forall e, NewKeyPair iw FO quo rb sf rf fuel tf n = Err e -> e = ErrInvalidDegree).
Proof.
  intros Hn. destruct (Generate_degree fuel n Hn) as [A B]. unfold NewKeyPair.
  destruct (GeneratePrivateKey iw FO quo rb sf rf fuel n) as [sk|e| |] eqn:E; cbn [bind].
  - assert (N : noerr (_ <- falcon_data iw FO tf n (sk_f sk) (sk_g sk) (sk_F sk) (sk_G sk) ;;
      Ok (Some sk, @None PublicKey))) by ne.
    split; [|intros e E'; destruct (N _ E')]. rewrite <- A.
    split; [intros E'; destruct (N _ E')|discriminate].
  - split; [|intros e' E'; injection E' as <-; apply B; reflexivity].
    rewrite <- A. split; intros E'; injection E' as ->; reflexivity.
  - rewrite <- A. split; [split; discriminate|discriminate].
  - rewrite <- A. split; [split; discriminate|discriminate].
Qed.
Lemma FromPrivate_degree tf n f g F G : 0 <= n ->
  (NewKeyPairFromPrivateKey iw FO tf n f g F G = Err ErrInvalidDegree <-> ~ valid_degree (Z.to_nat n)) /\
  (forall e, NewKeyPairFromPrivateKey iw FO tf n f g F G = Err e -> e = ErrInvalidDegree \/ e = ErrInvalidPolysLength).
Proof.
  intros Hn. unfold NewKeyPairFromPrivateKey. rewrite <- isValidDegree_spec by exact Hn.
  destruct (isValidDegree n); cbn [negb].
  - assert (N : noerr (isValidPolysLength n f g F G)) by (unfold isValidPolysLength; ne).
    assert (N2 : noerr (_ <- falcon_data iw FO tf n f g F G ;; Ok (@None PrivateKey, @None PublicKey))) by ne.
    destruct (isValidPolysLength n f g F G) as [b|e| |]; cbn [bind]; [|destruct (N _ eq_refl)| |].
    + destruct b; cbn [negb].
      * split; [split; [intros E; destruct (N2 _ E)|intros H; contradiction H; reflexivity]|].
        intros e E. destruct (N2 _ E).
      * split; [split; [discriminate|intros H; contradiction H; reflexivity]|].
        intros e E. injection E as <-. auto.
    + split; [split; [discriminate|intros H; contradiction H; reflexivity]|discriminate].
    + split; [split; [discriminate|intros H; contradiction H; reflexivity]|discriminate].
  - split; [split; [discriminate|reflexivity]|]. intros e E. injection E as <-. auto.
Qed.

(** the results of the key-pair functions *)
Lemma NewKeyPair_Ok fuel tf n a b : NewKeyPair iw FO quo rb sf rf fuel tf n = Ok (a, b) ->
  b = None /\ exists sk, a = Some sk /\ GeneratePrivateKey iw FO quo rb sf rf fuel n = Ok sk.
Proof.
  unfold NewKeyPair. destruct (GeneratePrivateKey iw FO quo rb sf rf fuel n) as [sk| | |]; cbn [bind]; try discriminate.
  destruct (falcon_data _ _ _ _ _ _ _ _); cbn [bind]; try discriminate.
  intros H. apply Ok_inj in H. injection H as <- <-. eauto.
Qed.
Lemma NewKeyPair_of fuel tf n sk : 0 <= n -> (10 <= tf)%nat ->
  GeneratePrivateKey iw FO quo rb sf rf fuel n = Ok sk ->
  NewKeyPair iw FO quo rb sf rf fuel tf n = Ok (Some sk, None).
Proof.
  intros Hn Ht E. destruct (Generate_ok fuel n sk Hn E) as (k & Hk & En & _ & EG). subst n.
  destruct (NtruGen_ok k fuel Hk _ _ _ _ _ EG) as (Lf & Lg & If & Ig & _ & _ & BF & BG & ES & EF & EG').
  destruct (solve_eq quo rf k _ _ _ _ Lf Lg ES) as (_ & _ & _ & _ & _ & _ & _ & _ & LF & LG & _).
  unfold NewKeyPair. rewrite E. cbn [bind].
  destruct (falcon_data_ok FO iw iw_id k (Z.of_nat (2 ^ k)) tf (sk_f sk) (sk_g sk) (sk_F sk) (sk_G sk))
    as (d & ->); auto; try lia; try (rewrite ?EF, ?EG', map_length; assumption).
Qed.
Lemma FromPrivate_Ok tf n f g F G r : NewKeyPairFromPrivateKey iw FO tf n f g F G = Ok r -> r = (None, None).
Proof.
  unfold NewKeyPairFromPrivateKey. destruct (negb (isValidDegree n)); [discriminate|].
  destruct (isValidPolysLength n f g F G) as [[]| | |]; cbn [bind negb]; try discriminate.
  destruct (falcon_data _ _ _ _ _ _ _ _); cbn [bind]; try discriminate.
  intros H. apply Ok_inj in H. auto.
Qed.
Lemma FromPrivate_total tf n f g F G : valid_degree n -> (10 <= tf)%nat ->
  length f = n -> length g = n -> length F = n -> length G = n -> int16s f -> int16s g ->
  NewKeyPairFromPrivateKey iw FO tf (Z.of_nat n) f g F G = Ok (None, None).
Proof.
  intros V Ht Lf Lg LF LG If Ig. unfold NewKeyPairFromPrivateKey.
  pose proof V as (k & Hk & En).
  assert (VV : isValidDegree (Z.of_nat n) = true) by (apply isValidDegree_spec; [lia|rewrite Nat2Z.id; exact V]).
  rewrite VV. cbn [negb].
  assert (EL : isValidPolysLength (Z.of_nat n) f g F G = Ok true).
  { destruct (four_n (Z.of_nat n)) as [E4 R4]; [lia|rewrite Nat2Z.id; exact V|].
    unfold isValidPolysLength. rewrite Lf, Lg, LF, LG, E4.
    destruct (Z.eqb_spec (4 * Z.of_nat n) 0); [lia|].
    f_equal. apply Z.eqb_eq.
    unfold wrap16u, wrapu. change (2 ^ 16) with 65536. rewrite Z.mod_small by lia.
    replace (Z.of_nat (n + n + n + n)) with (4 * Z.of_nat n) by lia. apply Z.rem_same. lia. }
  rewrite EL. cbn [bind negb].
  destruct (falcon_data_ok FO iw iw_id k (Z.of_nat n) tf f g F G) as (d & ->); auto; try congruence; lia.
Qed.
End Keys.
