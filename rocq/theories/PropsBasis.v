(** C87: the basis and the Gram-Schmidt tree of a key pair (basisAndMatrix,
    fft3D, normalizeTree and the Falcon value of NewKeyPair).  C88: the
    parameter sets. *)
From Coq Require Import Reals Lra Lia ZArith List.
From Flocq Require Import Core BinarySingleNaN.
From Verif Require Import GoBase Util BaseProofs Float Fft FftShape Spec SpecFft ExactReal FftProofs RootsProofs
  Binary64 B64Proofs FloatErr FftErr CdivErr Ntrugen Ffsampling FfExact KeyGen GramErr PropsFloat Params Falcon Ntt NttProofs
  KeyProofs KeyGenProofs Witness NttProps PropsNtt PropsKeys Lattice.
Import ListNotations.
Local Open Scope Z_scope.

(** ** C87: the lattice of the public key *)
(** (u, v) is in the NTRU lattice of h: u + v h = 0 modulo q and x^n+1 *)
Definition ntru_lattice (n : nat) (h u v : list Z) : Prop :=
  pmod q (padd n u (negacyc n v h)) = repeat 0 n.
(** (u, v) = a (g, -f) + b (G, -F), the rows of the matrix of the private key *)
Definition combination (n : nat) (f g F G a b u v : list Z) : Prop :=
  u = padd n (negacyc n a g) (negacyc n b G) /\
  v = psub n (repeat 0 n) (padd n (negacyc n a f) (negacyc n b F)).

(** The public key computed from f and g and the basis held in the private key
    belong together: the rows of the basis generate the lattice of the public
    key, and each element in one way only. *)
Theorem C87_lattice : forall n sk pk, valid_degree n ->
  length (sk_f sk) = n -> length (sk_g sk) = n -> length (sk_F sk) = n -> length (sk_G sk) = n ->
  int16s (sk_f sk) -> int16s (sk_g sk) -> invertible_mod_q n (sk_f sk) ->
  ntru_equation n (sk_f sk) (sk_g sk) (sk_F sk) (sk_G sk) ->
  GetPublicKey wrap64 sk = Ok pk ->
  forall u v, length u = n -> length v = n ->
    (ntru_lattice n (pk_h pk) u v <->
     exists a b, length a = n /\ length b = n /\ combination n (sk_f sk) (sk_g sk) (sk_F sk) (sk_G sk) a b u v) /\
    (forall a b a' b', length a = n -> length b = n -> length a' = n -> length b' = n ->
      combination n (sk_f sk) (sk_g sk) (sk_F sk) (sk_G sk) a b u v ->
      combination n (sk_f sk) (sk_g sk) (sk_F sk) (sk_G sk) a' b' u v -> a = a' /\ b = b').
Proof.
  intros n sk pk D Lf Lg LF LG If Ig Inv EQ E u v Lu Lv.
  destruct (GetPublicKey_ok wrap64 id64 sk n D Lf Lg If Ig Inv) as (h & E1 & Lh & _ & HH & _).
  rewrite E in E1. apply Ok_inj in E1. subst pk. cbn [pk_h].
  assert (Pn : (0 < n)%nat). { destruct D as (k & _ & ->). apply Nat.neq_0_lt_0, Nat.pow_nonzero. discriminate. }
  split.
  - exact (lattice_span n Pn _ _ _ _ h Lf Lg LF LG Lh EQ HH Inv u v Lu Lv).
  - intros a b a' b' La Lb La' Lb' C1 C2. eapply (span_unique n Pn (sk_f sk) (sk_g sk) (sk_F sk) (sk_G sk)); eassumption.
Qed.
Print Assumptions C87_lattice.

(** ** C87: the matrix and the tree, for any floats *)
Theorem C87_data : forall FO tf n f g F G d, falcon_data wrap64 FO tf n f g F G = Ok d ->
  let I16 := Int16ToFloat64 FO in
  let B := [[I16 g; Neg FO (I16 f)]; [I16 G; Neg FO (I16 F)]] in
  exists b00 b01 b10 b11 G0 G0FFT T z0 z1 l,
    (** the transforms of the four polynomials, row by row *)
    FFT FO (roots_dict FO) (I16 g) = Ok b00 /\ FFT FO (roots_dict FO) (Neg FO (I16 f)) = Ok b01 /\
    FFT FO (roots_dict FO) (I16 G) = Ok b10 /\ FFT FO (roots_dict FO) (Neg FO (I16 F)) = Ok b11 /\
    fd_B0FFT FO d = [[b00; b01]; [b10; b11]] /\
    (** the tree of the transformed Gram matrix, the first value of its left
        child replaced by sigma over its root, the second by zero *)
    Gram FO (roots_dict FO) B = Ok G0 /\
    fft3D FO G0 = Ok G0FFT /\
    FfldlFFT FO (roots_dict FO) tf (new_tree FO) G0FFT = Ok T /\
    t_Leftchild FO T = z0 :: z1 :: l /\
    t_Value FO (fd_TFFT FO d) = t_Value FO T /\
    t_Leftchild FO (fd_TFFT FO d) =
      (f_div FO (sigma_of FO n) (f_sqrt FO (fst z0)), f_of_int FO 0) :: (f_of_int FO 0, f_of_int FO 0) :: l /\
    t_Rightchild FO (fd_TFFT FO d) = t_Rightchild FO T /\
    (** the public key *)
    fd_h FO d = DivZq wrap64 g f.
Proof.
  intros FO tf n f g F G d. cbv zeta. unfold falcon_data, basisAndMatrix. cbv zeta.
  set (B0 := [[_; _]; [_; _]]). destruct (Gram FO (roots_dict FO) B0) as [G0| | |] eqn:EG; cbn [bind]; try discriminate.
  destruct (fft3D FO B0) as [BF| | |] eqn:EB; cbn [bind]; try discriminate.
  destruct (fft3D FO G0) as [GF| | |] eqn:EGF; cbn [bind]; try discriminate.
  destruct (FfldlFFT FO (roots_dict FO) tf (new_tree FO) GF) as [T| | |] eqn:ET; cbn [bind]; try discriminate.
  unfold AllChild, normalizeTree, normalize_leaf.
  destruct (t_Leftchild FO T) as [|z0 [|z1 l]] eqn:EL; cbn [bind idx nth_error]; try discriminate.
  intros H.
  assert (X : Ok d = match DivZq wrap64 g f with
    | Panic => Panic | Diverge => Diverge
    | h => Ok {| fd_B0FFT := BF; fd_TFFT := {| t_Value := t_Value FO T;
        t_Leftchild := (f_div FO (sigma_of FO n) (f_sqrt FO (fst z0)), f_of_int FO 0) :: c_real FO (f_of_int FO 0) :: skipn 2 (z0 :: z1 :: l);
        t_Rightchild := t_Rightchild FO T |}; fd_h := h |} end) by (symmetry; exact H). clear H.
  unfold B0 in EB. unfold fft3D in EB. cbn [mapM] in EB.
  destruct (FFT FO (roots_dict FO) (Int16ToFloat64 FO g)) as [b00| | |]; cbn [bind] in EB; try discriminate.
  destruct (FFT FO (roots_dict FO) (Neg FO (Int16ToFloat64 FO f))) as [b01| | |]; cbn [bind] in EB; try discriminate.
  destruct (FFT FO (roots_dict FO) (Int16ToFloat64 FO G)) as [b10| | |]; cbn [bind] in EB; try discriminate.
  destruct (FFT FO (roots_dict FO) (Neg FO (Int16ToFloat64 FO F))) as [b11| | |]; cbn [bind] in EB; try discriminate.
  apply Ok_inj in EB. exists b00, b01, b10, b11, G0, GF, T, z0, z1, l.
  do 4 (split; [reflexivity|]).
  destruct (DivZq wrap64 g f) as [h|e| |]; try discriminate; apply Ok_inj in X; subst d; cbn [fd_B0FFT fd_TFFT fd_h t_Value t_Leftchild t_Rightchild].
  - split; [symmetry; exact EB|]. do 3 (split; [reflexivity || assumption|]). split; [exact EL|]. repeat split; reflexivity.
  - split; [symmetry; exact EB|]. do 3 (split; [reflexivity || assumption|]). split; [exact EL|]. repeat split; reflexivity.
Qed.
Print Assumptions C87_data.

(** ** C87: the matrix in binary64 *)
(** v holds the values of the integer polynomial p at the roots of x^(2^k)+1, up
    to 20 k 2^k 2^15 2^-53 *)
Definition transform_of (k : nat) (p : list Z) (v : list (b64 * b64)) : Prop :=
  length v = (2 ^ k)%nat /\
  forall i, (i < 2 ^ k)%nat ->
    let z := nth i v (zero, zero) in
    is_finite (fst z) = true /\ is_finite (snd z) = true /\
    cdist_le (cval z) (ceval (map IZR p) (nth i (exact_roots (2 ^ k)) C0)) (20 * INR k * 2 ^ k * 32768 * u)%R.
Lemma int16_bounded f : int16s f ->
  bounded 32768 (map b_of_int f) /\ map B2R (map b_of_int f) = map IZR f /\
  bounded 32768 (map (f_neg (binary64 (fun _ => 0) (fun _ => 0))) (map b_of_int f)) /\
  map B2R (map (f_neg (binary64 (fun _ => 0) (fun _ => 0))) (map b_of_int f)) = map IZR (map Z.opp f).
Proof.
  unfold int16s, bounded. induction 1 as [|z f Hz _ (IH1 & IH2 & IH3 & IH4)]; [repeat split; constructor|].
  unfold is_int16 in Hz. destruct (of_int_exact z ltac:(lia)) as [E Fz].
  assert (A : (Rabs (IZR z) <= 32768)%R) by (rewrite <- abs_IZR; apply IZR_le; lia).
  cbn [map]. repeat split.
  - constructor; [|exact IH1]. rewrite E. auto.
  - rewrite E, IH2. reflexivity.
  - constructor; [|exact IH3]. cbn [f_neg binary64]. rewrite is_finite_Bopp, B2R_Bopp, E, Rabs_Ropp. auto.
  - rewrite IH4. f_equal. cbn [f_neg binary64]. rewrite B2R_Bopp, E, opp_IZR. reflexivity.
Qed.
Theorem C87_basis : forall ci cu k tf n f g F G, (1 <= k <= 10)%nat -> (k <= tf)%nat ->
  length f = (2 ^ k)%nat -> length g = (2 ^ k)%nat -> length F = (2 ^ k)%nat -> length G = (2 ^ k)%nat ->
  int16s f -> int16s g -> int16s F -> int16s G ->
  exists d b00 b01 b10 b11,
    falcon_data wrap64 (binary64 ci cu) tf n f g F G = Ok d /\
    fd_B0FFT _ d = [[b00; b01]; [b10; b11]] /\
    transform_of k g b00 /\ transform_of k (map Z.opp f) b01 /\
    transform_of k G b10 /\ transform_of k (map Z.opp F) b11.
Proof.
  intros ci cu k tf n f g F G Hk Ht Lf Lg LF LG If Ig IF IG.
  destruct (falcon_data_ok (binary64 ci cu) wrap64 id64 k n tf f g F G Hk Ht Lf Lg LF LG If Ig) as (d & E).
  destruct (C87_data _ _ _ _ _ _ _ _ E) as (b00 & b01 & b10 & b11 & G0 & GF & T & z0 & z1 & l & E0 & E1 & E2 & E3 & EB & _).
  exists d, b00, b01, b10, b11. split; [exact E|]. split; [exact EB|].
  assert (HB : (1 <= 32768 <= 2 ^ 100)%R) by (rewrite pow_IZR; split; apply IZR_le; discriminate).
  assert (K : forall fs p v, length fs = (2 ^ k)%nat -> bounded 32768 fs -> map B2R fs = map IZR p ->
    FFT (binary64 ci cu) (roots_dict (binary64 ci cu)) fs = Ok v -> transform_of k p v).
  { intros fs p v L Bd M Ev. destruct (C71_fft ci cu k 32768%R fs Hk HB L Bd) as (v' & E' & L' & N).
    rewrite Ev in E'. apply Ok_inj in E'. subst v'. split; [exact L'|]. intros i Hi. rewrite <- M. exact (N i Hi). }
  destruct (int16_bounded f If) as (F1 & F2 & F3 & F4). destruct (int16_bounded g Ig) as (G1 & G2 & G3 & G4).
  destruct (int16_bounded F IF) as (H1 & H2 & H3 & H4). destruct (int16_bounded G IG) as (J1 & J2 & J3 & J4).
  split; [eapply K; [|exact G1|exact G2|exact E0]|split; [eapply K; [|exact F3|exact F4|exact E1]|
    split; [eapply K; [|exact J1|exact J2|exact E2]|eapply K; [|exact H3|exact H4|exact E3]]]]; rewrite ?map_length; assumption.
Qed.
Print Assumptions C87_basis.
Definition C87_sk := {| sk_n := 4; sk_f := [1; 2; 0; 1]; sk_g := [3; 0; 1; 1];
  sk_F := [-2141; 642; 772; 170]; sk_G := [769; -683; -129; -1500] |}.
(** a key that meets the hypotheses of C87_lattice and C87_basis, and an element
    of its lattice that is not a multiple of q *)
Example C87_nonvacuous : valid_degree 4 /\ int16s (sk_f C87_sk) /\ int16s (sk_g C87_sk) /\ int16s (sk_F C87_sk) /\
  int16s (sk_G C87_sk) /\ invertible_mod_q 4 (sk_f C87_sk) /\
  ntru_equation 4 (sk_f C87_sk) (sk_g C87_sk) (sk_F C87_sk) (sk_G C87_sk) /\
  exists pk, GetPublicKey wrap64 C87_sk = Ok pk /\ ntru_lattice 4 (pk_h pk) [772; -683; -128; -1499] [2140; -644; -772; -171].
Proof.
  assert (D : valid_degree 4) by (exists 2%nat; split; [lia|reflexivity]).
  split; [exact D|]. do 4 (split; [apply int16s_dec; reflexivity|]). split.
  - destruct (invertible_mod_q_dec 4 (sk_f C87_sk) D eq_refl) as [H|H]; [exact H|exfalso].
    pose proof (DivZq64_err 4 [1; 2; 3; 4] (sk_f C87_sk) D eq_refl eq_refl ltac:(apply int16s_dec; reflexivity) ltac:(apply int16s_dec; reflexivity) H) as E.
    vm_compute in E. discriminate.
  - split; [vm_compute; reflexivity|]. eexists. split; vm_compute; reflexivity.
Qed.

(** ** C88: the parameter sets *)
(** The literals of falcon_constants.go, in units of 10^-14 and 10^-16. *)
Definition literals : list (Z * (Z * Z)) :=
  [(2, (14481253976308423, 11165085072329104)); (4, (14683798833523608, 11321247692325274));
   (8, (14883587593064718, 11475285353733670)); (16, (15178340713845503, 11702540788534830));
   (32, (15467477946027610, 11925466358390344)); (64, (15751308555044122, 12144300507766141));
   (128, (16030114421975344, 12359260567719810)); (256, (16304153322607107, 12570545284063217));
   (512, (16573661718297760, 12778336969128337)); (1024, (16838857144654395, 12982803343442920))].
(** the nearest float64 with 53 bits: |m 2^e - z / 10^d| is at most half of 2^e *)
Definition nearest (me : Z * Z) (z d : Z) : Prop :=
  2 ^ 52 <= fst me < 2 ^ 53 /\ snd me <= 0 /\ 2 * Z.abs (fst me * 10 ^ d - z * 2 ^ (- snd me)) <= 10 ^ d.
Definition nearestb (me : Z * Z) (z d : Z) : bool :=
  (2 ^ 52 <=? fst me) && (fst me <? 2 ^ 53) && (snd me <=? 0) && (2 * Z.abs (fst me * 10 ^ d - z * 2 ^ (- snd me)) <=? 10 ^ d).
Lemma nearestb_ok me z d : nearestb me z d = true -> nearest me z d.
Proof. unfold nearestb, nearest. rewrite !Bool.andb_true_iff, !Z.leb_le, Z.ltb_lt. tauto. Qed.
(** the value of m 2^e *)
Definition dyadic (me : Z * Z) : R := (IZR (fst me) / IZR (2 ^ (- snd me)))%R.

Lemma params_cases (P : Z -> PublicParameters -> Prop) :
  P 2 params_2 -> P 4 params_4 -> P 8 params_8 -> P 16 params_16 -> P 32 params_32 -> P 64 params_64 ->
  P 128 params_128 -> P 256 params_256 -> P 512 params_512 -> P 1024 params_1024 ->
  forall n p, ParamSets n = Some p -> P n p.
Proof.
  intros. unfold ParamSets in *.
  repeat match goal with H : context [if n =? ?c then _ else _] |- _ => destruct (Z.eqb_spec n c); [subst n; injection H as <-; assumption|] end.
  discriminate.
Qed.

(** sigma and sigmin are the float64 of the literals. *)
Theorem C88_literals : forall n p, ParamSets n = Some p ->
  exists s m, In (n, (s, m)) literals /\ nearest (p_sigma p) s 14 /\ nearest (p_sigmin p) m 16.
Proof.
  apply params_cases; (eexists _, _; split; [cbn [literals In]; tauto|]); (split; apply nearestb_ok; vm_compute; reflexivity).
Qed.
Print Assumptions C88_literals.
(** In binary64 sigma_of is that number exactly: sigma over a power of two. *)
Theorem C88_sigma : forall ci cu n p, ParamSets n = Some p ->
  is_finite (sigma_of (binary64 ci cu) n) = true /\ B2R (sigma_of (binary64 ci cu) n) = dyadic (p_sigma p).
Proof.
  intros ci cu n p H.
  assert (A : 2 ^ 52 <= fst (p_sigma p) < 2 ^ 53 /\ snd (p_sigma p) = -45).
  { revert n p H. apply params_cases; cbn [p_sigma fst snd params_2 params_4 params_8 params_16 params_32 params_64 params_128 params_256 params_512 params_1024]; lia. }
  unfold sigma_of. rewrite H. unfold dyadic. destruct (p_sigma p) as [m e]. cbn [fst snd] in *. destruct A as [A ->].
  change (f_div (binary64 ci cu) (f_of_int (binary64 ci cu) m) (f_of_int (binary64 ci cu) (2 ^ (- (-45))))) with (b_div (b_of_int m) (b_of_int (2 ^ (- (-45))))).
  destruct (of_int_exact m ltac:(lia)) as [E1 F1]. destruct (of_int_exact (2 ^ (- (-45))) ltac:(lia)) as [E2 F2].
  assert (NZ : B2R (b_of_int (2 ^ (- (-45)))) <> 0%R) by (rewrite E2; apply IZR_neq; discriminate).
  pose proof (Bdiv_correct 53 1024 _ _ mode_NE (b_of_int m) (b_of_int (2 ^ (- (-45)))) NZ) as A0.
  assert (G : generic_format radix2 fexp64 (IZR m / IZR (2 ^ (- (-45))))%R).
  { apply (format_scaled m (-45)); lia. }
  change (round radix2 fexp64 (round_mode mode_NE) (B2R (b_of_int m) / B2R (b_of_int (2 ^ (- (-45))))))%R with (rnd (B2R (b_of_int m) / B2R (b_of_int (2 ^ (- (-45)))))%R) in A0.
  rewrite E1, E2, (rnd_id _ G) in A0.
  rewrite Rlt_bool_true in A0.
  - destruct A0 as (V & Fn & _). unfold b_div. rewrite V, Fn. split; [exact F1|reflexivity].
  - apply Rle_lt_trans with (IZR (2 ^ 53)); [|change (2 ^ 53)%Z with (Zpower radix2 53); rewrite IZR_Zpower by lia; now apply bpow_lt].
    unfold Rdiv. rewrite Rabs_mult, <- abs_IZR. apply Rle_trans with (IZR (Z.abs m) * 1)%R.
    + apply Rmult_le_compat_l; [apply IZR_le; lia|]. rewrite Rabs_pos_eq by (apply Rlt_le, Rinv_0_lt_compat, IZR_lt; reflexivity).
      rewrite <- Rinv_1. apply Rinv_le_contravar; [lra|]. apply IZR_le. discriminate.
    + rewrite Rmult_1_r. apply IZR_le. lia.
Qed.
Print Assumptions C88_sigma.
(** The bound on signatures is floor(2n (1.1 sigma)^2). *)
Theorem C88_sigbound : forall n p, ParamSets n = Some p ->
  (IZR (p_sigbound p) <= 2 * IZR n * (11 / 10 * dyadic (p_sigma p)) ^ 2 < IZR (p_sigbound p) + 1)%R.
Proof.
  assert (K : forall n p, ParamSets n = Some p -> snd (p_sigma p) = -45 /\
    p_sigbound p * (100 * 2 ^ 90) <= 242 * n * fst (p_sigma p) ^ 2 < (p_sigbound p + 1) * (100 * 2 ^ 90)).
  { apply params_cases; (split; [reflexivity|split; vm_compute; [discriminate|reflexivity]]). }
  intros n p H. destruct (K n p H) as (E & A & B). unfold dyadic. rewrite E.
  replace (2 * IZR n * (11 / 10 * (IZR (fst (p_sigma p)) / IZR (2 ^ (- -45)))) ^ 2)%R
    with (IZR (242 * n * fst (p_sigma p) ^ 2) / IZR (100 * 2 ^ 90))%R.
  - assert (P : (0 < IZR (100 * 2 ^ 90))%R) by (apply IZR_lt; reflexivity).
    apply IZR_le in A. apply IZR_lt in B. rewrite (mult_IZR (p_sigbound p)) in A. rewrite (mult_IZR (p_sigbound p + 1)), plus_IZR in B. set (D := IZR (100 * 2 ^ 90)) in *. split.
    + apply Rmult_le_reg_r with D; [exact P|]. unfold Rdiv. rewrite Rmult_assoc, Rinv_l, Rmult_1_r by lra. exact A.
    + apply Rmult_lt_reg_r with D; [exact P|]. unfold Rdiv. rewrite Rmult_assoc, Rinv_l, Rmult_1_r by lra. exact B.
  - rewrite Z.pow_2_r, !mult_IZR. change (2 ^ 90) with (2 ^ 45 * 2 ^ 45). rewrite mult_IZR. change (- -45) with 45.
    assert (NZ : IZR (2 ^ 45) <> 0%R) by (apply IZR_neq; discriminate). field. exact NZ.
Qed.
Print Assumptions C88_sigbound.
(** sigma is 1.17 sqrt(q) sigmin, up to one unit in the last place. *)
Theorem C88_ratio : forall n p, ParamSets n = Some p ->
  (Rabs (dyadic (p_sigma p) - 117 / 100 * sqrt (IZR q) * dyadic (p_sigmin p)) <= / 2 ^ 45)%R.
Proof.
  assert (K : forall n p, ParamSets n = Some p -> snd (p_sigma p) = -45 /\ snd (p_sigmin p) = -52 /\ 0 < fst (p_sigma p) /\ 0 < fst (p_sigmin p) /\
    Z.abs (fst (p_sigma p) ^ 2 * (2 ^ 14 * 10 ^ 4) - 13689 * 12289 * fst (p_sigmin p) ^ 2) <= 10 ^ 4 * 2 ^ 14 * fst (p_sigma p)).
  { apply params_cases; (split; [reflexivity|split; [reflexivity|split; [reflexivity|split; [reflexivity|vm_compute; discriminate]]]]). }
  intros n p H. destruct (K n p H) as (E1 & E2 & P1 & P2 & A). unfold dyadic. rewrite E1, E2.
  change (- -45) with 45. change (- -52) with 52. change q with 12289.
  set (s := IZR (fst (p_sigma p))). set (m := IZR (fst (p_sigmin p))).
  assert (S0 : (0 < s)%R) by (apply IZR_lt; exact P1). assert (M0 : (0 < m)%R) by (apply IZR_lt; exact P2).
  apply IZR_le in A. rewrite abs_IZR, minus_IZR, !Z.pow_2_r, !mult_IZR in A. fold s m in A.
  set (t := IZR (2 ^ 45)). assert (T0 : t = IZR 35184372088832) by reflexivity.
  set (x := (s / t)%R). set (y := (117 / 100 * sqrt 12289 * (m / IZR (2 ^ 52)))%R).
  assert (Q0 : (sqrt 12289 * sqrt 12289 = 12289)%R) by (apply sqrt_sqrt; lra).
  assert (Q1 : (0 < sqrt 12289)%R) by (apply sqrt_lt_R0; lra).
  assert (TP : (0 < t)%R) by (rewrite T0; lra).
  assert (X0 : (0 < x)%R) by (unfold x; apply Rdiv_lt_0_compat; assumption).
  assert (Y0 : (0 < y)%R).
  { unfold y. apply Rmult_lt_0_compat; [lra|]. apply Rdiv_lt_0_compat; [exact M0|]. apply IZR_lt. reflexivity. }
  assert (SQ : (Rabs (x * x - y * y) <= / t * x)%R).
  { replace (x * x - y * y)%R with ((s * s * (IZR (2 ^ 14) * IZR (10 ^ 4)) - 13689 * 12289 * (m * m)) * / (t * t * (IZR (2 ^ 14) * IZR (10 ^ 4))))%R.
    - assert (D : (0 < / (t * t * (IZR (2 ^ 14) * IZR (10 ^ 4))))%R).
      { apply Rinv_0_lt_compat. change (IZR (2 ^ 14)) with 16384%R. change (IZR (10 ^ 4)) with 10000%R. nra. }
      rewrite Rabs_mult, (Rabs_pos_eq (/ _)) by lra.
      eapply Rle_trans; [apply Rmult_le_compat_r; [lra|exact A]|].
      apply Req_le. unfold x. change (IZR (2 ^ 14)) with 16384%R. change (IZR (10 ^ 4)) with 10000%R. field. lra.
    - unfold x, y. change (IZR (2 ^ 52)) with (IZR (2 ^ 45 * 128)). rewrite mult_IZR. fold t.
      change (IZR (2 ^ 14)) with 16384%R. change (IZR (10 ^ 4)) with 10000%R.
      transitivity (s / t * (s / t) - 13689 / 10000 * 12289 * (m * m) / (t * t * 16384))%R; [field; lra|].
      rewrite <- Q0 at 1. field. lra. }
  replace (/ 2 ^ 45)%R with (/ t)%R.
  - replace (x * x - y * y)%R with ((x - y) * (x + y))%R in SQ by ring. rewrite Rabs_mult, (Rabs_pos_eq (x + y)) in SQ by lra.
    assert (IT : (0 < / t)%R) by (apply Rinv_0_lt_compat, TP). pose proof (Rabs_pos (x - y)) as AP.
    destruct (Rle_lt_dec (Rabs (x - y)) (/ t)) as [L|L]; [exact L|exfalso]. nra.
  - f_equal. unfold t. rewrite pow_IZR. reflexivity.
Qed.
Print Assumptions C88_ratio.
Example C88_nonvacuous : ParamSets 512 = Some params_512 /\ ParamSets 1000 = None /\ p_sigbound params_512 = 34034726.
Proof. repeat split. Qed.
