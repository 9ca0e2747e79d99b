(** C92: signatures are the lattice points near the hash point.  What Verify
    accepts, in terms of the private basis; and the nearest plane algorithm of
    ffsampling.go, in exact arithmetic, always finds such a point for a key that
    passes the norm test of key generation. *)
From Coq Require Import Reals Lra Lia ZArith List.
From Verif Require Import GoBase Util BaseProofs PolyZ PolyEval Spec SpecHash Xof Float Fft FftShape SpecFft SpecBabai ExactReal FftProofs RootsProofs FftErr
  Ntt Ntrugen Ffsampling FfExact Samplerz KeyGen Babai PropsFft PropsBabai GsExact GsReduce NearPlane
  Encoding EncodingProofs Params Falcon FalconProofs KeyProofs Witness Examples NttProps PropsNtt PropsKeys PropsVerify PropsEncoding PropsBasis.
Import ListNotations.
Local Open Scope Z_scope.
Notation sqnorm := Spec.sqnorm.

(** A private key with its basis, and its public key. *)
Definition key_pair (n : nat) (sk : PrivateKey) (pk : PublicKey) : Prop :=
  length (sk_f sk) = n /\ length (sk_g sk) = n /\ length (sk_F sk) = n /\ length (sk_G sk) = n /\
  int16s (sk_f sk) /\ int16s (sk_g sk) /\ invertible_mod_q n (sk_f sk) /\
  ntru_equation n (sk_f sk) (sk_g sk) (sk_F sk) (sk_G sk) /\ GetPublicKey wrap64 sk = Ok pk.
(** (u, v) is the combination a (g, -f) + b (G, -F) of the rows of the basis *)
Definition lattice_point (n : nat) (sk : PrivateKey) (a b u v : list Z) : Prop :=
  length a = n /\ length b = n /\ combination n (sk_f sk) (sk_g sk) (sk_F sk) (sk_G sk) a b u v.

Lemma sqnorm_le : forall l1 l2, length l1 = length l2 -> (forall i, Z.abs (coef l1 i) <= Z.abs (coef l2 i)) -> sqnorm l1 <= sqnorm l2.
Proof.
  induction l1 as [|a l1 IH]; intros [|b l2] L H; try discriminate L; [apply Z.le_refl|].
  cbn [sqnorm fold_right]. pose proof (H O) as H0. unfold coef in H0. cbn [nth] in H0.
  specialize (IH l2 ltac:(now injection L) (fun i => H (S i))). unfold sqnorm in IH.
  assert (a * a <= b * b); [|lia]. nia.
Qed.
Lemma sqnorm_opp l : sqnorm (map Z.opp l) = sqnorm l.
Proof. induction l as [|a l IH]; [reflexivity|]. cbn [sqnorm fold_right map]. unfold sqnorm in IH. rewrite IH. ring. Qed.
Lemma sqnorm_pos l : 0 <= sqnorm l.
Proof. induction l as [|a l IH]; [apply Z.le_refl|]. cbn [sqnorm fold_right]. unfold sqnorm in IH. pose proof (Z.square_nonneg a). lia. Qed.
Lemma sqnorm_in l x : In x l -> x * x <= sqnorm l.
Proof.
  induction l as [|a l IH]; intros []; cbn [sqnorm fold_right].
  - subst. pose proof (sqnorm_pos l). unfold sqnorm in *. lia.
  - specialize (IH H). unfold sqnorm in IH. pose proof (Z.square_nonneg a). lia.
Qed.
Lemma centred_least x y : cong q x y -> Z.abs (centred x) <= Z.abs y.
Proof.
  intros H. pose proof (centred_range x) as R. pose proof (centred_cong x) as C.
  assert (D : cong q (centred x) y) by (unfold cong in *; rewrite <- H; exact C).
  apply cong_divide in D; [|discriminate]. destruct D as [z D]. unfold q in D.
  destruct (Z.eq_dec z 0) as [->|N]; [lia|]. nia.
Qed.
Lemma negacyc_opp n v h i : (i < n)%nat -> coef (negacyc n (map Z.opp v) h) i = - coef (negacyc n v h) i.
Proof.
  intros Hi. unfold negacyc, coef at 1 2. rewrite !nth_map_seq by exact Hi. unfold negacyc_coef.
  assert (N : forall j, coef (map Z.opp v) j = - coef v j) by (intros j; unfold coef; exact (map_nth Z.opp v 0 j)).
  generalize n at 1 3. intros m. induction m as [|m IH]; [reflexivity|]. cbn [sumn]. rewrite IH, N. destruct (Nat.leb m i); ring.
Qed.
Lemma coef_map_seq (fn : nat -> Z) n i : (i < n)%nat -> coef (map fn (seq 0 n)) i = fn i.
Proof. intros Hi. unfold coef. now rewrite nth_map_seq. Qed.
Lemma coef_beyond l i : (length l <= i)%nat -> coef l i = 0.
Proof. apply nth_overflow. Qed.
Lemma lattice_at n h u v i : ntru_lattice n h u v -> (i < n)%nat -> cong q (coef u i + coef (negacyc n v h) i) 0.
Proof.
  intros H Hi. apply (f_equal (fun l => nth i l 0)) in H. unfold pmod in H.
  rewrite (nth_indep _ 0 (0 mod q)) in H by (unfold padd; rewrite !map_length, seq_length; exact Hi).
  rewrite (map_nth (fun c => c mod q)) in H. unfold padd in H. rewrite nth_map_seq in H by exact Hi. rewrite nth_repeat in H. exact H.
Qed.
Lemma at_lattice n h u v : (forall i, (i < n)%nat -> cong q (coef u i + coef (negacyc n v h) i) 0) -> ntru_lattice n h u v.
Proof.
  intros H. unfold ntru_lattice. apply nth_ext with (d := 0) (d' := 0).
  { unfold pmod, padd. rewrite !map_length, seq_length, repeat_length. reflexivity. }
  intros i Hi. unfold pmod, padd in Hi. rewrite !map_length, seq_length in Hi. rewrite nth_repeat. unfold pmod.
  rewrite (nth_indep _ 0 (0 mod q)) by (unfold padd; rewrite !map_length, seq_length; exact Hi).
  rewrite (map_nth (fun c => c mod q)). unfold padd. rewrite nth_map_seq by exact Hi. exact (H i Hi).
Qed.

Lemma s0_at n h c s i : (i < n)%nat -> coef (falcon_s0 n h c s) i = centred (coef c i - coef (negacyc n s h) i).
Proof.
  intros Hi. unfold falcon_s0, psub. rewrite map_map. rewrite coef_map_seq by exact Hi. reflexivity.
Qed.
(** the verification equation finds at most the distance to any lattice point over -v *)
Lemma s0_norm n h c u v : ntru_lattice n h u v -> sqnorm (falcon_s0 n h c (map Z.opp v)) <= sqnorm (psub n c u).
Proof.
  intros H. apply sqnorm_le; [unfold falcon_s0, psub; now rewrite !map_length|]. intros i.
  destruct (Nat.lt_ge_cases i n) as [Hi|Hi].
  2:{ rewrite coef_beyond; [lia|unfold falcon_s0, psub; rewrite !map_length, seq_length; exact Hi]. }
  rewrite s0_at by exact Hi. rewrite negacyc_opp by exact Hi. unfold psub at 1. rewrite coef_map_seq by exact Hi.
  apply centred_least. pose proof (lattice_at n h u v i H Hi) as A. apply cong_divide in A; [|discriminate]. destruct A as [z A].
  apply cong_divide; [discriminate|]. exists z. lia.
Qed.

Lemma key_h n sk pk : valid_degree n -> key_pair n sk pk -> length (pk_h pk) = n /\ int16s (pk_h pk).
Proof.
  intros D (Lf & Lg & LF & LG & If & Ig & Inv & EQ & E).
  destruct (GetPublicKey_ok wrap64 id64 sk n D Lf Lg If Ig Inv) as (h & E1 & Lh & Bh & _).
  rewrite E in E1. apply Ok_inj in E1. subst pk. cbn [pk_h]. split; [exact Lh|].
  unfold int16s, is_int16. eapply Forall_impl; [|exact Bh]. unfold q. intros; lia.
Qed.
Lemma valid512 : valid_degree 512.
Proof. exists 9%nat. split; [lia|reflexivity]. Qed.

(** C92.  A point (u, v) of the lattice close enough to (c, 0) is a signature:
    its second half, negated, encodes to a string Verify accepts. *)
Theorem C92_complete : forall X fuel sk pk msg hdr salt c a b u v enc,
  key_pair 512 sk pk -> length salt = 40%nat -> hashToPoint X fuel msg salt = Ok c ->
  lattice_point 512 sk a b u v -> sqnorm (psub 512 c u) + sqnorm v <= beta2_512 ->
  Compress (map Z.opp v) 625 = Ok enc ->
  Verify wrap64 X fuel (pk_h pk) msg (hdr :: salt ++ enc) = Ok true.
Proof.
  intros X fuel sk pk msg hdr salt c a b u v enc K Ls Hh (La & Lb & C) N E.
  destruct (key_h 512 sk pk valid512 K) as [Lh Ih]. destruct K as (Lf & Lg & LF & LG & If & Ig & Inv & EQ & EK).
  assert (Lu : length u = 512%nat) by (destruct C as [-> _]; unfold padd; now rewrite map_length, seq_length).
  assert (Lv : length v = 512%nat) by (destruct C as [_ ->]; unfold psub; now rewrite map_length, seq_length).
  assert (HL : ntru_lattice 512 (pk_h pk) u v).
  { apply (proj1 (C87_lattice 512 sk pk valid512 Lf Lg LF LG If Ig Inv EQ EK u v Lu Lv)). exists a, b. auto. }
  apply (C01_verify_complete X fuel (pk_h pk) msg hdr salt (map Z.opp v) c enc); auto.
  - rewrite map_length. exact Lv.
  - unfold int16s, is_int16. apply Forall_forall. intros x Hx.
    rewrite <- (sqnorm_opp v) in N. pose proof (sqnorm_in _ _ Hx). pose proof (sqnorm_pos (psub 512 c u)). unfold beta2_512 in N. assert (x * x <= 34034726) by lia. clear - H1. split; nia.
  - pose proof (s0_norm 512 (pk_h pk) c u v HL). rewrite sqnorm_opp. lia.
Qed.
Print Assumptions C92_complete.

(** Conversely an accepted string names a point of the lattice, in one way only:
    its second half is the decoded polynomial, negated, and its distance to
    (c, 0) is within the bound modulo 2^32 (C02: the sum wraps). *)
Theorem C92_sound : forall X fuel sk pk msg sig,
  key_pair 512 sk pk -> bytes sig -> Verify wrap64 X fuel (pk_h pk) msg sig = Ok true ->
  exists ss1 c a b u v, decodes (skipn 41 sig) 625 512 ss1 /\ hash_point X 512 msg (firstn 40 (skipn 1 sig)) c /\
    lattice_point 512 sk a b u v /\ v = map Z.opp (map int16_of ss1) /\
    (sqnorm (psub 512 c u) + sqnorm v) mod 2 ^ 32 <= beta2_512 /\
    forall a' b', lattice_point 512 sk a' b' u v -> a' = a /\ b' = b.
Proof.
  intros X fuel sk pk msg sig K Hb V. destruct (key_h 512 sk pk valid512 K) as [Lh Ih].
  destruct K as (Lf & Lg & LF & LG & If & Ig & Inv & EQ & EK).
  destruct (proj1 (C03_verify_decides X fuel (pk_h pk) msg sig true Ih Hb V) eq_refl) as (ss1 & c & Hd & Hh & N).
  cbv zeta in N. rewrite firstn_all2 in N by lia. set (s1 := map int16_of ss1) in *. set (h := pk_h pk) in *.
  set (s0 := falcon_s0 512 h c s1) in *. assert (L0 : length s0 = 512%nat) by (unfold s0, falcon_s0, psub; now rewrite !map_length, seq_length).
  assert (L1 : length s1 = 512%nat) by (destruct Hd as (_ & Ld & _); unfold s1; rewrite map_length; lia).
  set (u := psub 512 c s0). assert (Lu : length u = 512%nat) by (unfold u, psub; now rewrite map_length, seq_length).
  assert (Lv : length (map Z.opp s1) = 512%nat) by (now rewrite map_length).
  assert (HL : ntru_lattice 512 h u (map Z.opp s1)).
  { apply at_lattice. intros i Hi. rewrite negacyc_opp by exact Hi. unfold u, psub. rewrite coef_map_seq by exact Hi.
    unfold s0. rewrite s0_at by exact Hi. set (x := coef c i). set (y := coef (negacyc 512 s1 h) i).
    pose proof (centred_cong (x - y)) as A. apply cong_divide in A; [|discriminate]. destruct A as [z A].
    apply cong_divide; [discriminate|]. exists (- z). unfold GoBase.Q in A. unfold q. lia. }
  destruct (C87_lattice 512 sk pk valid512 Lf Lg LF LG If Ig Inv EQ EK u (map Z.opp s1) Lu Lv) as [[S1 _] S2].
  destruct (S1 HL) as (a & b & La & Lb & C). exists ss1, c, a, b, u, (map Z.opp s1).
  split; [exact Hd|]. split; [exact Hh|]. split; [split; auto|]. split; [reflexivity|]. split.
  - rewrite sqnorm_opp. replace (psub 512 c u) with s0; [exact N|].
    apply nth_ext with (d := 0) (d' := 0); [unfold psub; now rewrite map_length, seq_length|].
    intros i Hi. rewrite L0 in Hi. unfold psub. rewrite nth_map_seq by exact Hi. unfold u, psub. rewrite coef_map_seq by exact Hi. unfold coef. lia.
  - intros a' b' (La' & Lb' & C'). destruct (S2 a' b' a b La' Lb' La Lb C' C). auto.
Qed.
Print Assumptions C92_sound.

(** ** The nearest plane algorithm *)
Local Open Scope R_scope.
(** (t0, t1) are the coordinates of (c, 0) in the basis: t0 (g, -f) + t1 (G, -F) = (c, 0) *)
Definition coordinates (n : nat) (sk : PrivateKey) (c : list Z) (t0 t1 : list R) : Prop :=
  length t0 = n /\ length t1 = n /\
  radd n (rmul n t0 (map IZR (sk_g sk))) (rmul n t1 (map IZR (sk_G sk))) = map IZR c /\
  radd n (rmul n t0 (map IZR (map Z.opp (sk_f sk)))) (rmul n t1 (map IZR (map Z.opp (sk_F sk)))) = rconst n 0.
(** T is the tree of the Gram matrix of the basis *)
Definition key_tree (k : nat) (sk : PrivateKey) (T : ltree) : Prop :=
  let n := (2 ^ k)%nat in let g := map IZR (sk_g sk) in let f := map IZR (map Z.opp (sk_f sk)) in
  let G := map IZR (sk_G sk) in let F := map IZR (map Z.opp (sk_F sk)) in
  ldl_tree k (gram2 n g f g f) (gram2 n G F g f) (gram2 n G F G F) T.
Definition key_leaves (k : nat) (sk : PrivateKey) (T : ltree) : R :=
  let n := (2 ^ k)%nat in let g := map IZR (sk_g sk) in let f := map IZR (map Z.opp (sk_f sk)) in
  let G := map IZR (sk_G sk) in let F := map IZR (map Z.opp (sk_F sk)) in
  leaf_sum k (gram2 n g f g f) (gram2 n G F G F) T.
Notation exact_GsNorm f g := (GsNorm_at exactR exact_roots (map IZR f) (map IZR g) 12289).

Lemma kp_lengths n sk pk : key_pair n sk pk -> length (sk_f sk) = n /\ length (sk_g sk) = n /\ length (sk_F sk) = n /\ length (sk_G sk) = n /\
  ntru_equation n (sk_f sk) (sk_g sk) (sk_F sk) (sk_G sk).
Proof. unfold key_pair. tauto. Qed.

(** Both exist for every key and hash point. *)
Theorem C92_inputs : forall k sk pk c, (1 <= k)%nat -> key_pair (2 ^ k) sk pk -> length c = (2 ^ k)%nat ->
  (exists t0 t1, coordinates (2 ^ k) sk c t0 t1) /\ exists T V, key_tree k sk T /\ go_tree k T V.
Proof.
  intros k sk pk c Hk K Lc. destruct (kp_lengths _ _ _ K) as (Lf & Lg & LF & LG & EQ). split.
  - exact (target_exists k Hk (sk_f sk) (sk_g sk) (sk_F sk) (sk_G sk) Lf Lg LF LG EQ c Lc).
  - apply (C68_tree_exists k); [exact Hk|repeat constructor; rewrite !map_length; assumption|].
    intros z Hz. rewrite !ceval_opp.
    assert (X : Csub (Cmul (ceval (map IZR (sk_f sk)) z) (ceval (map IZR (sk_G sk)) z)) (Cmul (ceval (map IZR (sk_g sk)) z) (ceval (map IZR (sk_F sk)) z)) = RtoC 12289).
    { rewrite <- !(ceval_rmul (2 ^ k)) by (rewrite ?map_length; assumption). rewrite <- (ceval_rsub (2 ^ k)) by apply rmul_length.
      rewrite (ntru_real k (sk_f sk) (sk_g sk) (sk_F sk) (sk_G sk)) by assumption. apply ceval_rconst. apply pow2_ge1. }
    intros Y. destruct (ceval (map IZR (sk_f sk)) z) as [a a'], (ceval (map IZR (sk_g sk)) z) as [b b'], (ceval (map IZR (sk_F sk)) z) as [x x'], (ceval (map IZR (sk_G sk)) z) as [y y'].
    unfold Csub, Cmul, Copp, RtoC, C0 in *. cbn [fst snd] in *. injection X as X1 X2. injection Y as Y1 Y2. lra.
Qed.
Print Assumptions C92_inputs.

(** The leaves of the tree sum to at most 2n times what the norm test measures. *)
Theorem C92_leaves : forall k sk pk T v, (1 <= k)%nat -> key_pair (2 ^ k) sk pk -> key_tree k sk T ->
  exact_GsNorm (sk_f sk) (sk_g sk) = Ok v -> key_leaves k sk T <= 2 * INR (2 ^ k) * v.
Proof.
  intros k sk pk T v Hk K HT EV. destruct (kp_lengths _ _ _ K) as (Lf & Lg & LF & LG & EQ).
  exact (leaf_bound k Hk (sk_f sk) (sk_g sk) (sk_F sk) (sk_G sk) Lf Lg LF LG EQ T v HT EV).
Qed.
Print Assumptions C92_leaves.

(** The point found is a lattice point within n/2 times the norm. *)
Theorem C92_distance : forall k sk pk c t0 t1 T V v0 v1 v fuel, (1 <= k)%nat -> key_pair (2 ^ k) sk pk -> length c = (2 ^ k)%nat ->
  coordinates (2 ^ k) sk c t0 t1 -> key_tree k sk T -> go_tree k T V ->
  FFT exactR exact_roots t0 = Ok v0 -> FFT exactR exact_roots t1 = Ok v1 -> (k < fuel)%nat ->
  exact_GsNorm (sk_f sk) (sk_g sk) = Ok v ->
  exists z0 z1 w0 w1 u w, FfnpFFT exactR exact_roots fuel [v0; v1] V = Ok [w0; w1] /\
    FFT exactR exact_roots (map IZR z0) = Ok w0 /\ FFT exactR exact_roots (map IZR z1) = Ok w1 /\
    lattice_point (2 ^ k) sk z0 z1 u w /\
    IZR (sqnorm (psub (2 ^ k) c u) + sqnorm w) <= INR (2 ^ k) / 2 * v.
Proof.
  intros k sk pk c t0 t1 T V v0 v1 v fuel Hk K Lc HC HT HV E0 E1 Hf EV.
  pose proof (C92_leaves k sk pk T v Hk K HT EV) as LB. unfold key_leaves in LB.
  destruct (kp_lengths _ _ _ K) as (Lf & Lg & LF & LG & EQ).
  pose proof HC as (Lt0 & Lt1 & _).
  destruct (C68_nearest_plane k (map IZR (sk_g sk)) (map IZR (map Z.opp (sk_f sk))) (map IZR (sk_G sk)) (map IZR (map Z.opp (sk_F sk)))
    t0 t1 T V v0 v1 fuel Hk ltac:(repeat constructor; rewrite ?map_length; assumption) HT HV E0 E1 Hf)
    as (z0 & z1 & w0 & w1 & Lz0 & Lz1 & E & Z0 & Z1 & D).
  eexists z0, z1, w0, w1, _, _. split; [exact E|]. split; [exact Z0|]. split; [exact Z1|].
  split; [split; [exact Lz0|split; [exact Lz1|split; reflexivity]]|].
  rewrite <- (dist_norm k Hk (sk_f sk) (sk_g sk) (sk_F sk) (sk_G sk) Lf Lg LF LG c t0 t1 z0 z1 _ _ Lc HC Lz0 Lz1 eq_refl eq_refl).
  lra.
Qed.
Print Assumptions C92_distance.

Local Open Scope Z_scope.
Lemma code_short v : length v = 512%nat -> sqnorm v <= 4306537 -> code_len v <= 8 * 625.
Proof.
  intros L N. assert (A : 23552 * code_len v <= Z.of_nat (length v) * 220432 + sqnorm v).
  { clear. induction v as [|a v IH]; [cbn; lia|]. cbn [code_len sqnorm fold_right length].
    unfold code_len, sqnorm in IH. rewrite Nat2Z.inj_succ.
    pose proof (Z.mul_div_le (Z.abs a) 128 ltac:(lia)). pose proof (Z.square_nonneg (Z.abs a - 92)). pose proof (Z.abs_square a). lia. }
  rewrite L in A. lia.
Qed.
Local Open Scope R_scope.
(** For a key that passes the norm test and degree 512, what the nearest plane
    algorithm returns always fits the 625 bytes of a signature and is accepted:
    in exact arithmetic no signing attempt with it fails. *)
Theorem C92_nearest_plane_signs : forall X xfuel sk pk msg hdr salt c t0 t1 T V v0 v1 v fuel,
  key_pair 512 sk pk -> length salt = 40%nat -> hashToPoint X xfuel msg salt = Ok c ->
  coordinates 512 sk c t0 t1 -> key_tree 9 sk T -> go_tree 9 T V ->
  FFT exactR exact_roots t0 = Ok v0 -> FFT exactR exact_roots t1 = Ok v1 -> (9 < fuel)%nat ->
  exact_GsNorm (sk_f sk) (sk_g sk) = Ok v -> v <= (117 / 100) ^ 2 * 12289 ->
  exists z0 z1 w0 w1 u w enc, FfnpFFT exactR exact_roots fuel [v0; v1] V = Ok [w0; w1] /\
    FFT exactR exact_roots (map IZR z0) = Ok w0 /\ FFT exactR exact_roots (map IZR z1) = Ok w1 /\
    lattice_point 512 sk z0 z1 u w /\ Compress (map Z.opp w) 625 = Ok enc /\
    Verify wrap64 X xfuel (pk_h pk) msg (hdr :: salt ++ enc) = Ok true.
Proof.
  intros X xfuel sk pk msg hdr salt c t0 t1 T V v0 v1 v fuel K Ls Hh HC HT HV E0 E1 Hf EV Hv.
  pose proof (proj1 (hashToPoint_ok _ _ _ _ _ Hh)) as Lc.
  destruct (C92_distance 9 sk pk c t0 t1 T V v0 v1 v fuel ltac:(lia) K Lc HC HT HV E0 E1 Hf EV)
    as (z0 & z1 & w0 & w1 & u & w & E & Z0 & Z1 & LP & D).
  assert (HN : (sqnorm (psub 512 c u) + sqnorm w <= 4306537)%Z).
  { change (2 ^ 9)%nat with 512%nat in D. apply Z.lt_succ_r. apply lt_IZR. eapply Rle_lt_trans; [exact D|].
    replace (INR 512) with 512 by (rewrite INR_IZR_INZ; reflexivity). change (IZR (Z.succ 4306537)) with 4306538. lra. }
  pose proof (sqnorm_pos (psub 512 c u)) as P0. pose proof (sqnorm_pos w) as P1.
  assert (Lw : length w = 512%nat).
  { destruct LP as (_ & _ & _ & ->). unfold psub. now rewrite map_length, seq_length. }
  destruct (C07_compress_exact (map Z.opp w) 625 ltac:(unfold fits64, is_int64; lia)) as [[A _]|[_ (enc & EC & _)]].
  - exfalso. pose proof (code_short (map Z.opp w) ltac:(now rewrite map_length) ltac:(rewrite sqnorm_opp; lia)). lia.
  - exists z0, z1, w0, w1, u, w, enc. do 5 (split; [assumption|]).
    eapply C92_complete; [exact K|exact Ls|exact Hh|exact LP| |exact EC]. unfold beta2_512. lia.
Qed.
Print Assumptions C92_nearest_plane_signs.

(** a key of degree 512 that meets every hypothesis: f = 100, g = 1, F = 11, G = 123 *)
Local Open Scope Z_scope.
Definition C92_sk := {| sk_n := 512; sk_f := pconst 512 100; sk_g := pconst 512 1; sk_F := pconst 512 11; sk_G := pconst 512 123 |}.
Lemma const_mul a b : negacyc 512 (pconst 512 a) (pconst 512 b) = pconst 512 (a * b).
Proof.
  rewrite VerifyProofs.negacyc_const by (unfold pconst; now rewrite map_length, seq_length).
  unfold pconst. rewrite map_map. apply map_ext. intros i. destruct (Nat.eqb i 0); ring.
Qed.
Lemma const_len a : length (pconst 512 a) = 512%nat. Proof. unfold pconst. now rewrite map_length, seq_length. Qed.
Lemma const_int16 a : is_int16 a -> int16s (pconst 512 a).
Proof.
  intros H. unfold int16s, pconst. apply Forall_forall. intros x Hx. apply in_map_iff in Hx. destruct Hx as (i & <- & _).
  destruct (Nat.eqb i 0); [exact H|unfold is_int16; lia].
Qed.
Lemma C92_key : exists pk, key_pair 512 C92_sk pk.
Proof.
  assert (Inv : invertible_mod_q 512 (sk_f C92_sk)).
  { exists (pconst 512 11183). split; [apply const_len|]. cbn [sk_f C92_sk]. rewrite const_mul. unfold pmod, pconst. rewrite map_map. apply map_ext.
    intros i. destruct (Nat.eqb i 0); reflexivity. }
  destruct (GetPublicKey_ok wrap64 id64 C92_sk 512 valid512 (const_len _) (const_len _) (const_int16 100 ltac:(unfold is_int16; lia)) (const_int16 1 ltac:(unfold is_int16; lia)) Inv) as (h & E & _).
  eexists. unfold key_pair. cbn [sk_f sk_g sk_F sk_G C92_sk] in *.
  do 4 (split; [apply const_len|]). do 2 (split; [apply const_int16; unfold is_int16; lia|]). split; [exact Inv|]. split; [|exact E].
  unfold ntru_equation. rewrite !const_mul. unfold psub, pconst. apply map_ext_in. intros i Hi. apply in_seq in Hi.
  rewrite !coef_map_seq by lia. destruct (Nat.eqb i 0); reflexivity.
Qed.
Local Open Scope R_scope.
Lemma C92_const_norm : exists v, exact_GsNorm (sk_f C92_sk) (sk_g C92_sk) = Ok v /\ v <= (117 / 100) ^ 2 * 12289.
Proof.
  cbn [sk_f sk_g C92_sk].
  assert (E : forall a, map IZR (pconst 512 a) = rconst 512 (IZR a)).
  { intros a. unfold pconst, rconst. rewrite map_map. apply map_ext. intros [|i]; reflexivity. }
  rewrite !E.
  assert (CE : forall a i, ceval (rconst (2 ^ 9) a) (NearPlane.P 9 i) = RtoC a) by (intros a i; apply ceval_rconst; apply pow2_ge1).
  destruct (gram_inv 9 ltac:(lia) 12289 (rconst (2 ^ 9) (IZR 100)) (rconst (2 ^ 9) (IZR 1)) (rconst (2 ^ 9) (IZR 11)) (rconst (2 ^ 9) (IZR 123))) as (h & Lh & Inv);
    try apply rconst_length; [lra| |].
  { destruct C92_key as (pk & K). destruct (kp_lengths _ _ _ K) as (Lf & Lg & LF & LG & EQ).
    pose proof (ntru_real 9 _ _ _ _ Lf Lg LF LG EQ) as H. cbn [sk_f sk_g sk_F sk_G C92_sk] in H. rewrite !E in H. exact H. }
  pose proof (GsNorm_exact exact_roots exact_good 9 ltac:(lia) (rconst (2 ^ 9) (IZR 100)) (rconst (2 ^ 9) (IZR 1)) (rconst_length _ _) (rconst_length _ _) h Lh Inv 12289) as H.
  eexists. split; [exact H|]. clear H Inv Lh h E.
  assert (A : forall x, Babai.avg 9 (fun _ => x) = x).
  { intros x. unfold Babai.avg. assert (S : forall m, rsum m (fun _ => x) = INR m * x).
    { induction m as [|m IH]; [cbn; ring|]. cbn [rsum]. rewrite IH, S_INR. ring. }
    rewrite S. field. apply not_0_INR. apply Nat.pow_nonzero. discriminate. }
  apply Rmax_lub.
  - rewrite <- !(parseval exact_roots exact_good 9) by apply rconst_length.
    rewrite (avg_ext 9 _ (fun _ => 10000)) by (intros i Hi; rewrite CE; unfold Csqnorm, RtoC; cbn [fst snd]; ring).
    rewrite (avg_ext 9 (fun i => Csqnorm (ceval (rconst (2 ^ 9) (IZR 1)) _)) (fun _ => 1)) by (intros i Hi; rewrite CE; unfold Csqnorm, RtoC; cbn [fst snd]; ring).
    rewrite !A. lra.
  - unfold gs2. rewrite (avg_ext 9 _ (fun _ => / 10001)).
    + rewrite A. lra.
    + intros i Hi. unfold lam. rewrite !CE. unfold Csqnorm, RtoC. cbn [fst snd]. f_equal. ring.
Qed.
Example C92_nonvacuous : exists pk v t0 t1 T V v0 v1, key_pair 512 C92_sk pk /\
  exact_GsNorm (sk_f C92_sk) (sk_g C92_sk) = Ok v /\ v <= (117 / 100) ^ 2 * 12289 /\
  hashToPoint toyXOF 700 ex_msg ex_salt = Ok toy_c /\ length toy_c = 512%nat /\
  coordinates 512 C92_sk toy_c t0 t1 /\ key_tree 9 C92_sk T /\ go_tree 9 T V /\
  FFT exactR exact_roots t0 = Ok v0 /\ FFT exactR exact_roots t1 = Ok v1.
Proof.
  destruct C92_key as (pk & K). destruct C92_const_norm as (v & E & B).
  destruct (C92_inputs 9 C92_sk pk toy_c ltac:(lia) K toy_c_len) as ((t0 & t1 & HC) & T & V & HT & HV).
  pose proof HC as (L0 & L1 & _).
  eexists pk, v, t0, t1, T, V, _, _. repeat (split; [first [exact K|exact E|exact B|exact toy_c_ok|exact toy_c_len|exact HC|exact HT|exact HV]|]).
  split; apply (C43_fft 9); try lia; assumption.
Qed.
(** ... and so a signature of it *)
Example C92_signed : exists pk u w enc z0 z1, key_pair 512 C92_sk pk /\ lattice_point 512 C92_sk z0 z1 u w /\
  Compress (map Z.opp w) 625 = Ok enc /\ Verify wrap64 toyXOF 700 (pk_h pk) ex_msg (57%Z :: ex_salt ++ enc) = Ok true.
Proof.
  destruct C92_nonvacuous as (pk & v & t0 & t1 & T & V & v0 & v1 & K & E & B & H & L & HC & HT & HV & E0 & E1).
  destruct (C92_nearest_plane_signs toyXOF 700 C92_sk pk ex_msg 57 ex_salt toy_c t0 t1 T V v0 v1 v 10 K ex_salt_len H HC HT HV E0 E1 ltac:(lia) E B)
    as (z0 & z1 & w0 & w1 & u & w & enc & _ & _ & _ & LP & EC & EV).
  exists pk, u, w, enc, z0, z1. auto.
Qed.
