(** Property theorems about key generation and the LDL tree functions
    (C22, C25, C26, C34, C36, C41, C47, C48, C50).  [FO] is any behaviour of the
    float64 operations; [binary64 ci cu] is IEEE binary64 with [ci], [cu] the
    results of out-of-range conversions. *)
From Verif Require Import GoBase Util Ntt Params Falcon Spec PolyZ Float Samplerz Fft Ntrugen Ffsampling KeyGen
  Binary64 FftShape NtruProofs3 NtruProps KeyProofs FalconProofs VerifyProofs2 BaseProofs Witness KeyGenProofs KeyWitness.

(** C22, the generating functions: the error code, exactly when *)
Theorem C22_generate : forall FO quo rb sf rf fuel n, 0 <= n ->
  (GeneratePrivateKey wrap64 FO quo rb sf rf fuel n = Err ErrInvalidDegree <-> ~ valid_degree (Z.to_nat n)) /\
  (forall e, GeneratePrivateKey wrap64 FO quo rb sf rf fuel n = Err e -> e = ErrInvalidDegree).
Proof. exact (fun FO quo rb sf rf => Generate_degree wrap64 FO quo rb sf rf). Qed.
Print Assumptions C22_generate.
Theorem C22_new_key_pair : forall FO quo rb sf rf fuel tf n, 0 <= n ->
  (NewKeyPair wrap64 FO quo rb sf rf fuel tf n = Err ErrInvalidDegree <-> ~ valid_degree (Z.to_nat n)) /\
  (forall e, NewKeyPair wrap64 FO quo rb sf rf fuel tf n = Err e -> e = ErrInvalidDegree).
Proof. exact (fun FO quo rb sf rf => NewKeyPair_degree wrap64 FO quo rb sf rf). Qed.
Print Assumptions C22_new_key_pair.
Theorem C22_from_private : forall FO tf n f g F G, 0 <= n ->
  (NewKeyPairFromPrivateKey wrap64 FO tf n f g F G = Err ErrInvalidDegree <-> ~ valid_degree (Z.to_nat n)) /\
  (forall e, NewKeyPairFromPrivateKey wrap64 FO tf n f g F G = Err e ->
     e = ErrInvalidDegree \/ e = ErrInvalidPolysLength).
Proof. exact (fun FO => FromPrivate_degree wrap64 FO). Qed.
Print Assumptions C22_from_private.

(** C25.  Full statement: NewKeyPair n = Ok (a, b) -> a and b are non-nil and
    match.  False: the public key is always nil. *)
Theorem C25_key_pair_refuted : forall ci cu, exists rb sf rf fuel tf n sk,
  let FO := binary64 ci cu in
  NewKeyPair wrap64 FO (reduce_quotient FO) rb sf rf fuel tf n = Ok (Some sk, None).
Proof.
  intros ci cu. exists (stream wit_bit), 1%nat, 1%nat, 1%nat, 10%nat, 16. eexists. cbv zeta.
  apply (NewKeyPair_of wrap64 id64); [lia|lia|]. exact (wit_Generate ci cu 0 0 0).
Qed.
Print Assumptions C25_key_pair_refuted.
(** what is returned, always *)
Theorem C25_returned_partial : forall FO quo rb sf rf fuel tf n a b,
  NewKeyPair wrap64 FO quo rb sf rf fuel tf n = Ok (a, b) ->
  b = None /\ exists sk, a = Some sk /\ GeneratePrivateKey wrap64 FO quo rb sf rf fuel n = Ok sk.
Proof. exact (fun FO quo rb sf rf => NewKeyPair_Ok wrap64 FO quo rb sf rf). Qed.
Print Assumptions C25_returned_partial.
(** whenever the private key is found, the pair is (key, nil) *)
Theorem C25_total : forall FO quo rb sf rf fuel tf n sk, 0 <= n -> (10 <= tf)%nat ->
  GeneratePrivateKey wrap64 FO quo rb sf rf fuel n = Ok sk ->
  NewKeyPair wrap64 FO quo rb sf rf fuel tf n = Ok (Some sk, None).
Proof. exact (fun FO quo rb sf rf => NewKeyPair_of wrap64 id64 FO quo rb sf rf). Qed.
Print Assumptions C25_total.

(** C26.  Full statement: NewKeyPairFromPrivateKey n f g F G = Ok (a, b) -> a
    holds the four polynomials and b is its public key.  False for every
    degree and every polynomials: both results are nil. *)
Theorem C26_from_private_refuted : forall FO tf n f g F G, valid_degree n -> (10 <= tf)%nat ->
  length f = n -> length g = n -> length F = n -> length G = n -> int16s f -> int16s g ->
  NewKeyPairFromPrivateKey wrap64 FO tf (Z.of_nat n) f g F G = Ok (None, None).
Proof. exact (fun FO => FromPrivate_total wrap64 id64 FO). Qed.
Print Assumptions C26_from_private_refuted.
Theorem C26_always_nil : forall FO tf n f g F G r,
  NewKeyPairFromPrivateKey wrap64 FO tf n f g F G = Ok r -> r = (None, None).
Proof. exact (fun FO => FromPrivate_Ok wrap64 FO). Qed.
Print Assumptions C26_always_nil.
Example C26_nonvacuous : valid_degree 4 /\ int16s [1; 2; 0; -1].
Proof. split; [exists 2%nat; split; [lia|reflexivity]|]. repeat constructor; unfold is_int16; lia. Qed.

(** C34 with the quotient the code computes, whatever the rounding *)
Theorem C34_code_error : forall FO rf k f g nf ng, (S k <= 10)%nat ->
  length f = (2 ^ S k)%nat -> length g = (2 ^ S k)%nat ->
  is_norm (S k) f nf -> is_norm (S k) g ng ->
  (NtruSolve (reduce_quotient FO) rf f g = Err ErrEquation <-> Z.gcd nf ng mod 2 ^ 64 <> 1) /\
  (forall e, NtruSolve (reduce_quotient FO) rf f g = Err e -> e = ErrEquation).
Proof.
  exact (fun FO rf k f g nf ng _ => solve_err_iff (reduce_quotient FO) rf k f g nf ng
    (fun j _ => reduce_quotient_noerr FO j)).
Qed.
Print Assumptions C34_code_error.
Theorem C34_code_no_panic : forall FO rf k f g, (k <= 10)%nat ->
  length f = (2 ^ k)%nat -> length g = (2 ^ k)%nat ->
  NtruSolve (reduce_quotient FO) rf f g <> Panic.
Proof.
  intros FO rf k f g Hk. apply solve_no_panic. intros j Hj. apply reduce_quotient_total. lia.
Qed.
Print Assumptions C34_code_no_panic.

(** C36.  Full statement: a generated key satisfies f*G - g*F = q.  False: there
    is a random stream for which it does not. *)
Theorem C36_equation_refuted : forall ci cu, exists rb sf rf fuel n sk,
  let FO := binary64 ci cu in
  valid_degree (Z.to_nat n) /\
  GeneratePrivateKey wrap64 FO (reduce_quotient FO) rb sf rf fuel n = Ok sk /\
  ~ ntru_equation (Z.to_nat n) (sk_f sk) (sk_g sk) (sk_F sk) (sk_G sk).
Proof.
  intros ci cu. exists (stream wit_bit), 1%nat, 1%nat, 1%nat, 16. eexists. cbv zeta.
  split; [exists 4%nat; split; [lia|reflexivity]|].
  split; [exact (wit_Generate ci cu 0 0 0)|]. exact wit_wrong.
Qed.
Print Assumptions C36_equation_refuted.
(** what always holds: sizes, invertibility of f, the equation modulo 2^16 *)
Theorem C36_generated_partial : forall FO quo rb sf rf fuel n sk, 0 <= n ->
  GeneratePrivateKey wrap64 FO quo rb sf rf fuel n = Ok sk ->
  let m := Z.to_nat n in
  valid_degree m /\ sk_n sk = n /\
  length (sk_f sk) = m /\ length (sk_g sk) = m /\ length (sk_F sk) = m /\ length (sk_G sk) = m /\
  int16s (sk_f sk) /\ int16s (sk_g sk) /\ int16s (sk_F sk) /\ int16s (sk_G sk) /\
  invertible_mod_q m (sk_f sk) /\
  forall i, (i < m)%nat ->
    coef (psub m (negacyc m (sk_f sk) (sk_G sk)) (negacyc m (sk_g sk) (sk_F sk))) i mod 65536
    = coef (pconst m q) i mod 65536.
Proof. exact (fun FO quo rb sf rf => Generate_mod wrap64 id64 FO quo rb sf rf). Qed.
Print Assumptions C36_generated_partial.
(** so the equation holds exactly when no coefficient is off by 2^16 or more *)
Theorem C36_criterion : forall FO quo rb sf rf fuel n sk, 0 <= n ->
  GeneratePrivateKey wrap64 FO quo rb sf rf fuel n = Ok sk ->
  let m := Z.to_nat n in
  ntru_equation m (sk_f sk) (sk_g sk) (sk_F sk) (sk_G sk) <->
  forall i, (i < m)%nat ->
    Z.abs (coef (psub m (negacyc m (sk_f sk) (sk_G sk)) (negacyc m (sk_g sk) (sk_F sk))) i
           - coef (pconst m q) i) < 65536.
Proof.
  intros FO quo rb sf rf fuel n sk Hn E m.
  destruct (Generate_mod wrap64 id64 FO quo rb sf rf fuel n sk Hn E) as (_ & _ & _ & _ & _ & _ & _ & _ & _ & _ & _ & M).
  fold m in M. unfold ntru_equation. split.
  - intros Eq i Hi. rewrite Eq, Z.sub_diag. reflexivity.
  - intros B. apply nth_ext with (d := 0) (d' := 0);
      unfold psub at 1, pconst at 1; rewrite !map_length, !seq_length; [reflexivity|].
    intros i Hi. specialize (M i Hi). specialize (B i Hi). unfold coef in M, B.
    fold (pconst m q).
    set (x := nth i (psub _ _ _) 0) in *. set (y := nth i (pconst _ _) 0) in *. clearbody x y.
    pose proof (Z.div_mod x 65536 ltac:(lia)). pose proof (Z.div_mod y 65536 ltac:(lia)).
    assert (x / 65536 = y / 65536) by lia. lia.
Qed.
Print Assumptions C36_criterion.
(** sufficient: the solver's integers fit int16 and the gcd of the norms is not
    one of the values the int64 test confuses with 1 *)
Theorem C36_fits_partial : forall FO quo rb sf rf fuel n sk nf ng, 0 <= n ->
  GeneratePrivateKey wrap64 FO quo rb sf rf fuel n = Ok sk ->
  let k := Nat.log2 (Z.to_nat n) in
  is_norm k (sk_f sk) nf -> is_norm k (sk_g sk) ng -> Z.gcd nf ng < 2 ^ 64 - 1 ->
  (forall BF BG, NtruSolve quo rf (sk_f sk) (sk_g sk) = Ok (BF, BG) -> int16s BF /\ int16s BG) ->
  ntru_equation (Z.to_nat n) (sk_f sk) (sk_g sk) (sk_F sk) (sk_G sk).
Proof. exact (fun FO quo rb sf rf => Generate_fits wrap64 id64 FO quo rb sf rf). Qed.
Print Assumptions C36_fits_partial.
(** the norm condition of line 314 was checked on the returned f and g *)
Theorem C36_norm_checked : forall FO quo rb sf rf fuel n sk, 0 <= n ->
  GeneratePrivateKey wrap64 FO quo rb sf rf fuel n = Ok sk ->
  exists gs, GsNorm FO (Int16ToFloat64 FO (sk_f sk)) (Int16ToFloat64 FO (sk_g sk)) (f_of_int FO Q) = Ok gs /\
    f_ltb FO (gs_bound FO) gs = false.
Proof.
  intros FO quo rb sf rf fuel n sk Hn E.
  destruct (Generate_ok wrap64 id64 FO quo rb sf rf fuel n sk Hn E) as (k & Hk & -> & _ & EG).
  destruct (NtruGen_ok wrap64 id64 FO quo rb sf rf k fuel Hk _ _ _ _ _ EG) as (_ & _ & _ & _ & _ & H & _).
  exact H.
Qed.
Print Assumptions C36_norm_checked.

(** C41: GenPoly does return, on a stream *)
Example C41_nonvacuous : forall ci cu,
  GenPoly (binary64 ci cu) (stream wit_bit) 1 16 0 = Ok (wit_f, 4096%nat).
Proof. exact (fun ci cu => wit_GenPoly_f ci cu 0). Qed.

(** C47.  Full statement: after T.FfldlFFT(G) the Value is the L10 of G, of
    length n.  False at every degree n >= 4, for every matrix and every
    rounding: the Value has length 2. *)
Theorem C47_tree_refuted : forall FO k fuel T G, (2 <= k <= 10)%nat -> (k <= fuel)%nat -> mat2x2 (2 ^ k) G ->
  exists T', FfldlFFT FO (roots_dict FO) fuel T G = Ok T' /\
    length (t_Value FO T') = 2%nat /\ length (t_Value FO T') <> (2 ^ k)%nat.
Proof.
  intros FO k fuel T G Hk Hf HG.
  destruct (Ffldl_shape FO k ltac:(lia) fuel G Hf HG) as (T' & E & L & _). exists T'.
  split; [apply E|]. split; [exact L|]. rewrite L. destruct k as [|[|k]]; try lia.
  rewrite !pow2_S. pose proof (pow2_ge1 k). lia.
Qed.
Print Assumptions C47_tree_refuted.
(** what is left in the tree: the tree of the right half of D, and nothing of
    the left half, of L10 or of the previous contents *)
Theorem C47_right_half : forall FO k fuel a b c d, (2 <= k <= 10)%nat -> (k <= fuel)%nat ->
  length a = (2 ^ k)%nat -> length b = (2 ^ k)%nat -> length c = (2 ^ k)%nat -> length d = (2 ^ k)%nat ->
  exists L zero D11 d0 d1, LdlFFT FO [[a; b]; [c; d]] = Ok (L, [[a; zero]; [zero; D11]]) /\
    SplitFFT FO (roots_dict FO) D11 = Ok (d0, d1) /\
    forall T T', FfldlFFT FO (roots_dict FO) fuel T [[a; b]; [c; d]]
             = FfldlFFT FO (roots_dict FO) (pred fuel) T' [[d0; d1]; [AdjFFT FO d1; d0]].
Proof. exact Ffldl_right. Qed.
Print Assumptions C47_right_half.
(** degree 2: the node is right.  Missing from the full statement: n >= 4. *)
Theorem C47_two_partial : forall FO fuel a b c d T, (1 <= fuel)%nat ->
  length a = 2%nat -> length b = 2%nat -> length c = 2%nat -> length d = 2%nat ->
  exists D11 zero one, LdlFFT FO [[a; b]; [c; d]] =
    Ok ([[one; zero]; [ldl_l10 FO a c; one]], [[a; zero]; [zero; D11]]) /\
  FfldlFFT FO (roots_dict FO) fuel T [[a; b]; [c; d]] =
    Ok {| t_Value := ldl_l10 FO a c; t_Leftchild := a; t_Rightchild := D11 |}.
Proof. exact Ffldl_two. Qed.
Print Assumptions C47_two_partial.
Definition cz {FO} (m : Z) : cplx FO := c_real FO (f_of_int FO m).
(** a self-adjoint matrix of degree 4: [[1, 0], [0, 2 + ...]] *)
Definition C47_G (FO : floats) : list (list (list (cplx FO))) :=
  [[repeat (cz 1) 4; repeat (cz 0) 4]; [repeat (cz 0) 4; [cz 3; cz 1; cz 3; cz 1]]].
Example C47_nonvacuous : forall FO, mat2x2 (2 ^ 2) (C47_G FO).
Proof. intros FO. do 4 eexists. split; [reflexivity|]. repeat split. Qed.

(** C48.  Full statement: sampling with the tree FfldlFFT computed does not
    panic.  False: at every degree n >= 4 no call returns. *)
Theorem C48_sampling_refuted : forall FO k tf T G T', (2 <= k <= 10)%nat -> (k <= tf)%nat -> mat2x2 (2 ^ k) G ->
  FfldlFFT FO (roots_dict FO) tf T G = Ok T' ->
  forall rb sf sigmin fuel t t0 c, idx t 0 = Ok t0 -> length t0 = (2 ^ k)%nat ->
  FfSamplingFFT FO (roots_dict FO) rb sf sigmin T' fuel t c = Panic \/
  FfSamplingFFT FO (roots_dict FO) rb sf sigmin T' fuel t c = Diverge.
Proof.
  intros FO k tf T G T' Hk Hf HG E rb sf sigmin fuel t t0 c Et L.
  destruct (C47_tree_refuted FO k tf T G Hk Hf HG) as (T2 & E2 & L2 & L3). rewrite E in E2.
  apply Ok_inj in E2. subst T2.
  pose proof (FfSampling_noerr FO rb sf sigmin T' fuel t c) as N.
  destruct (FfSamplingFFT FO (roots_dict FO) rb sf sigmin T' fuel t c) as [r|e| |] eqn:ES; auto.
  - destruct (FfSampling_Ok FO rb sf sigmin T' fuel t c r t0 ES Et) as [H|H].
    + exfalso. rewrite L in H. destruct k as [|[|k]]; try lia. rewrite !pow2_S in H. pose proof (pow2_ge1 k). lia.
    + exfalso. rewrite L2, L in H. destruct k as [|[|k]]; try lia. rewrite !pow2_S in H. pose proof (pow2_ge1 k). lia.
  - destruct (N e). reflexivity.
Qed.
Print Assumptions C48_sampling_refuted.
Definition is_panic {A} (r : res A) : bool := match r with Panic => true | _ => false end.
(** a panic, in binary64, at degree 4 *)
Theorem C48_panic_refuted : forall ci cu, exists T rb t,
  let FO := binary64 ci cu in
  FfldlFFT FO (roots_dict FO) 2 (new_tree FO) (C47_G FO) = Ok T /\
  map (@length _) t = [4; 4]%nat /\
  FfSamplingFFT FO (roots_dict FO) rb 1 (b_const 3 1) T 3 t 0 = Panic.
Proof.
  intros ci cu. set (t := [repeat (@cz (binary64 ci cu) 0) 4; repeat (cz 0) 4]).
  destruct (C47_tree_refuted (binary64 ci cu) 2 2 (new_tree _) (C47_G _) ltac:(lia) ltac:(lia) (C47_nonvacuous _))
    as (T & E & _). exists T, (stream (fun _ => false)), t. cbv zeta.
  split; [exact E|]. split; [reflexivity|].
  assert (P : is_panic (T <- FfldlFFT (binary64 ci cu) (roots_dict _) 2 (new_tree _) (C47_G _) ;;
    FfSamplingFFT (binary64 ci cu) (roots_dict _) (stream (fun _ => false)) 1 (b_const 3 1) T 3 t 0) = true)
    by (vm_compute; reflexivity).
  rewrite E in P. cbn [bind] in P.
  destruct (FfSamplingFFT _ _ _ _ _ T 3 t 0); try discriminate. reflexivity.
Qed.
Print Assumptions C48_panic_refuted.
(** any tree and any degree: sampling returns only if no vector is longer than
    the one Value of the tree.  Missing from the full statement: longer vectors. *)
Theorem C48_short_partial : forall FO rb sf sigmin T fuel t c r t0,
  FfSamplingFFT FO (roots_dict FO) rb sf sigmin T fuel t c = Ok r ->
  idx t 0 = Ok t0 -> (length t0 <= 1 \/ length t0 <= length (t_Value FO T))%nat.
Proof. exact FfSampling_Ok. Qed.
Print Assumptions C48_short_partial.

(** C50.  Full statement: both leaves of the tree are replaced.  False: the right
    leaf is never written. *)
Theorem C50_right_leaf : forall FO T sigma a b l, t_Leftchild FO T = a :: b :: l ->
  normalizeTree FO (AllChild FO T) sigma =
  Ok [(f_div FO sigma (f_sqrt FO (fst a)), f_of_int FO 0) :: c_real FO (f_of_int FO 0) :: l; t_Rightchild FO T].
Proof. exact normalize_two. Qed.
Print Assumptions C50_right_leaf.
Theorem C50_normalize_refuted : forall ci cu, exists T sigma l r,
  let FO := binary64 ci cu in
  normalizeTree FO (AllChild FO T) sigma = Ok [l; r] /\
  fst (nth 0 r (c0 FO)) <> f_div FO sigma (f_sqrt FO (fst (nth 0 (t_Rightchild FO T) (c0 FO)))).
Proof.
  intros ci cu. exists {| t_Value := []; t_Leftchild := [cz 4; cz 4]; t_Rightchild := [cz 9; cz 9] |}, (b_of_int 1).
  eexists _, _. cbv zeta. split; [eapply C50_right_leaf; reflexivity|]. cbn [nth t_Rightchild]. intros H.
  apply (f_equal (fun x => f_ltb (binary64 ci cu) x (b_of_int 8))) in H. vm_compute in H. discriminate.
Qed.
Print Assumptions C50_normalize_refuted.
(** a three-element argument would be normalised; AllChild has two elements.
    Missing from the full statement: the two-element argument NewKeyPair passes. *)
Theorem C50_three_partial : forall FO (v l r : list (cplx FO)) sigma, (2 <= length l)%nat -> (2 <= length r)%nat ->
  normalizeTree FO [v; l; r] sigma =
  Ok [v; (f_div FO sigma (f_sqrt FO (fst (nth 0 l (c0 FO)))), f_of_int FO 0) :: c_real FO (f_of_int FO 0) :: skipn 2 l;
         (f_div FO sigma (f_sqrt FO (fst (nth 0 r (c0 FO)))), f_of_int FO 0) :: c_real FO (f_of_int FO 0) :: skipn 2 r].
Proof. exact normalize_three. Qed.
Print Assumptions C50_three_partial.
Theorem C50_short_leaf : forall FO T sigma, (length (t_Leftchild FO T) <= 1)%nat ->
  normalizeTree FO (AllChild FO T) sigma = Panic.
Proof. exact normalize_short. Qed.
Print Assumptions C50_short_leaf.
