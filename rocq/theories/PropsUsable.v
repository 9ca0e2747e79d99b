(** C95: a key that key generation returns can sign every message, if the gcd of
    its norms is below 2^64 - 1 (otherwise it may not: C109).  The
    lattice of the key has a point within the norm bound of every hash point, and
    its encoding fits the signature.  (The signer of falcon.go does not find it:
    C42, C47.) *)
From Coq Require Import Reals Lra Lia ZArith List.
From Verif Require Import GoBase Util BaseProofs PolyZ PolyEval Spec SpecHash Xof Float Fft FftShape SpecFft SpecBabai ExactReal FftProofs RootsProofs FftErr
  Ntt Ntrugen NtruProofs NtruProps Ffsampling FfExact Samplerz KeyGen KeyWitness Babai PropsFft PropsBabai GsExact GsReduce NearPlane Binary64
  Encoding EncodingProofs Params Falcon FalconProofs KeyProofs Witness Examples NttProps PropsNtt PropsKeys PropsVerify PropsEncoding PropsBasis
  PropsKeyGen PropsGs PropsReduce PropsGsFloat PropsSign.
Import ListNotations.
Local Open Scope R_scope.

(** ** A point of the lattice near every target *)
Lemma near_point k sk pk c v : (1 <= k)%nat -> key_pair (2 ^ k) sk pk -> length c = (2 ^ k)%nat ->
  exact_GsNorm (sk_f sk) (sk_g sk) = Ok v ->
  exists a b u w, lattice_point (2 ^ k) sk a b u w /\ IZR (sqnorm (psub (2 ^ k) c u) + sqnorm w) <= INR (2 ^ k) / 2 * v.
Proof.
  intros Hk K Lc EV. destruct (C92_inputs k sk pk c Hk K Lc) as ((t0 & t1 & HC) & T & V & HT & HV).
  pose proof HC as (L0 & L1 & _).
  destruct (C92_distance k sk pk c t0 t1 T V _ _ v (S k) Hk K Lc HC HT HV (C43_fft k t0 Hk L0) (C43_fft k t1 Hk L1) ltac:(lia) EV)
    as (z0 & z1 & w0 & w1 & u & w & _ & _ & _ & LP & D).
  exists z0, z1, u, w. auto.
Qed.

Local Open Scope Z_scope.
(** 184 |x| <= x^2 + 92^2, so the code of a vector of this size fits *)
Lemma code_fits v : length v = 512%nat -> sqnorm v <= 4352000 -> code_len v <= 8 * 625.
Proof.
  intros L N. assert (A : 23552 * code_len v <= Z.of_nat (length v) * 220432 + sqnorm v).
  { clear. induction v as [|a v IH]; [cbn; lia|]. cbn [code_len sqnorm fold_right length].
    unfold code_len, sqnorm in IH. rewrite Nat2Z.inj_succ.
    pose proof (Z.mul_div_le (Z.abs a) 128 ltac:(lia)). pose proof (Z.square_nonneg (Z.abs a - 92)). pose proof (Z.abs_square a). lia. }
  rewrite L in A. lia.
Qed.

(** C95.  A degree-512 key with Gram-Schmidt norm at most 17000 (squared; the test of
    key generation lets through at most 16891, C81) signs every message under
    every salt the hash function maps to a point. *)
Theorem C95_signs_everything : forall sk pk v, key_pair 512 sk pk ->
  exact_GsNorm (sk_f sk) (sk_g sk) = Ok v -> (v <= 17000)%R ->
  forall X fuel msg hdr salt c, length salt = 40%nat -> hashToPoint X fuel msg salt = Ok c ->
  exists s enc, length s = 512%nat /\ sqnorm (falcon_s0 512 (pk_h pk) c s) + sqnorm s <= 4352000 /\
    Compress s 625 = Ok enc /\ Verify wrap64 X fuel (pk_h pk) msg (hdr :: salt ++ enc) = Ok true.
Proof.
  intros sk pk v K EV Hv X fuel msg hdr salt c Ls Hh.
  pose proof (proj1 (hashToPoint_ok _ _ _ _ _ Hh)) as Lc.
  destruct (near_point 9 sk pk c v ltac:(lia) K Lc EV) as (a & b & u & w & LP & D).
  change (2 ^ 9)%nat with 512%nat in *.
  assert (HN : sqnorm (psub 512 c u) + sqnorm w <= 4352000).
  { apply le_IZR. eapply Rle_trans; [exact D|]. replace (INR 512) with 512%R by (rewrite INR_IZR_INZ; reflexivity). lra. }
  pose proof (sqnorm_pos (psub 512 c u)) as P0. pose proof (sqnorm_pos w) as P1.
  assert (Lw : length w = 512%nat) by (destruct LP as (_ & _ & _ & ->); unfold psub; now rewrite map_length, seq_length).
  destruct (C07_compress_exact (map Z.opp w) 625 ltac:(unfold fits64, is_int64; lia)) as [[A _]|[_ (enc & EC & _)]].
  - exfalso. pose proof (code_fits (map Z.opp w) ltac:(now rewrite map_length) ltac:(rewrite sqnorm_opp; lia)). lia.
  - exists (map Z.opp w), enc. split; [now rewrite map_length|]. split; [|split; [exact EC|]].
    + rewrite sqnorm_opp. enough (ntru_lattice 512 (pk_h pk) u w) as HL by (pose proof (s0_norm 512 (pk_h pk) c u w HL); lia).
      destruct K as (Lf & Lg & LF & LG & If & Ig & Inv & EQ & EK). destruct LP as (La & Lb & C).
      assert (Lu : length u = 512%nat) by (destruct C as [-> _]; unfold padd; now rewrite map_length, seq_length).
      apply (proj1 (C87_lattice 512 sk pk valid512 Lf Lg LF LG If Ig Inv EQ EK u w Lu Lw)). exists a, b. auto.
    + eapply C92_complete; [exact K|exact Ls|exact Hh|exact LP| |exact EC]. unfold beta2_512. lia.
Qed.
Print Assumptions C95_signs_everything.
(** the key f = 100, g = 1, F = 11, G = 123 of degree 512, a message and a salt *)
Example C95_nonvacuous : exists pk v, key_pair 512 C92_sk pk /\ exact_GsNorm (sk_f C92_sk) (sk_g C92_sk) = Ok v /\ (v <= 17000)%R /\
  length ex_salt = 40%nat /\ hashToPoint toyXOF 700 ex_msg ex_salt = Ok toy_c.
Proof.
  destruct C92_key as (pk & K). destruct C92_const_norm as (v & E & B). exists pk, v.
  split; [exact K|]. split; [exact E|]. split; [lra|]. split; [exact ex_salt_len|exact toy_c_ok].
Qed.

(** The keys that GeneratePrivateKey returns in binary64 arithmetic, with the
    hypotheses of C81 (the gcd that d.Int64() does not truncate, C33; a norm that
    is not beyond all proportion). *)
Theorem C95_generated : forall ci cu rb sf rf fuel n sk nf ng v, 0 <= n ->
  let FO := binary64 ci cu in
  GeneratePrivateKey wrap64 FO (reduce_quotient FO) rb sf rf fuel n = Ok sk ->
  let k := Nat.log2 (Z.to_nat n) in
  is_norm k (sk_f sk) nf -> is_norm k (sk_g sk) ng -> Z.gcd nf ng < 2 ^ 64 - 1 ->
  exact_GsNorm (sk_f sk) (sk_g sk) = Ok v -> (v <= 1000000)%R ->
  exists pk, GetPublicKey wrap64 sk = Ok pk /\ key_pair (Z.to_nat n) sk pk /\
  (forall c, length c = Z.to_nat n -> exists a b u w, lattice_point (Z.to_nat n) sk a b u w /\
     2 * (sqnorm (psub (Z.to_nat n) c u) + sqnorm w) <= 16891 * n) /\
  (n = 512 -> forall X xfuel msg hdr salt c, length salt = 40%nat -> hashToPoint X xfuel msg salt = Ok c ->
     exists enc, length enc = 625%nat /\ Verify wrap64 X xfuel (pk_h pk) msg (hdr :: salt ++ enc) = Ok true).
Proof.
  intros ci cu rb sf rf fuel n sk nf ng v Hn FO E k Nf Ng GC EV Hv.
  destruct (C81_keys ci cu rb sf rf fuel n sk nf ng v Hn E Nf Ng GC EV Hv) as (V & NE & _).
  destruct (C36_generated_partial FO _ rb sf rf fuel n sk Hn E) as (VD & En & Lf & Lg & LF & LG & If & Ig & _ & _ & Inv & _).
  destruct (C20_public_key sk (Z.to_nat n) VD Lf Lg If Ig Inv) as (h & EK & _).
  exists {| pk_n := sk_n sk; pk_h := h |}. split; [exact EK|].
  assert (K : key_pair (Z.to_nat n) sk {| pk_n := sk_n sk; pk_h := h |}) by (unfold key_pair; auto 10).
  split; [exact K|]. destruct VD as (j & Hj & Ej). split.
  - intros c Lc. rewrite Ej in K, Lc |- *. destruct (near_point j sk _ c v ltac:(lia) K Lc EV) as (a & b & u & w & LP & D).
    exists a, b, u, w. split; [exact LP|]. apply le_IZR. rewrite !mult_IZR.
    replace (IZR n) with (INR (2 ^ j)) by (rewrite <- Ej, INR_IZR_INZ, Z2Nat.id by exact Hn; reflexivity).
    pose proof (pos_INR (2 ^ j)). nra.
  - intros -> X xfuel msg hdr salt c Ls Hh. change (Z.to_nat 512) with 512%nat in K.
    destruct (C95_signs_everything sk _ v K EV ltac:(lra) X xfuel msg hdr salt c Ls Hh) as (s & enc & Lsn & _ & EC & HV).
    exists enc. split; [|exact HV].
    destruct (C07_compress_exact s 625 ltac:(unfold fits64, is_int64; lia)) as [[_ A]|[_ (enc' & EC' & Len & _)]]; [congruence|].
    rewrite EC in EC'. injection EC' as <-. lia.
Qed.
Print Assumptions C95_generated.

(** ** A random stream for which key generation succeeds: degree 2, f = 100 + 20 x, g = 30 + x *)
Definition ok_bit (k : nat) : bool :=
  Nat.ltb k 100 || (Nat.leb 2048 k && Nat.ltb k 2068) || (Nat.leb 4096 k && Nat.ltb k 4126) || Nat.eqb k (3 * 2048).
Lemma count_two b a m1 m2 v1 v2 : (forall i, (a <= i < a + m1)%nat -> b i = v1) -> (forall i, (a + m1 <= i < a + m1 + m2)%nat -> b i = v2) ->
  count b (seq a (m1 + m2)) = (if v1 then Z.of_nat m1 else 0) + (if v2 then Z.of_nat m2 else 0).
Proof. intros H1 H2. rewrite seq_app, count_app, (count_all b a m1 v1 H1), (count_all b (a + m1) m2 v2 H2). reflexivity. Qed.
Ltac bits := intros i Hi; unfold ok_bit;
  repeat match goal with |- context [Nat.ltb ?x ?y] => destruct (Nat.ltb_spec x y); try lia
         | |- context [Nat.leb ?x ?y] => destruct (Nat.leb_spec x y); try lia
         | |- context [Nat.eqb ?x ?y] => destruct (Nat.eqb_spec x y); try lia end; reflexivity.
Lemma ok_block0 : count ok_bit (seq 0 2048) = 100.
Proof. replace 2048%nat with (100 + 1948)%nat by reflexivity. rewrite (count_two _ _ _ _ true false); [reflexivity|bits|bits]. Qed.
Lemma ok_block1 : count ok_bit (seq 2048 2048) = 20.
Proof. replace (seq 2048 2048) with (seq 2048 (20 + 2028)) by reflexivity. rewrite (count_two _ _ _ _ true false); [reflexivity|bits|bits]. Qed.
Lemma ok_block2 : count ok_bit (seq 4096 2048) = 30.
Proof. replace (seq 4096 2048) with (seq 4096 (30 + 2018)) by reflexivity. rewrite (count_two _ _ _ _ true false); [reflexivity|bits|bits]. Qed.
Lemma ok_block3 : count ok_bit (seq (3 * 2048) 2048) = 1.
Proof. replace (seq (3 * 2048) 2048) with (seq (3 * 2048) (1 + 2047)) by reflexivity. rewrite (count_two _ _ _ _ true false); [reflexivity|bits|bits]. Qed.

Section G.
Context (ci cu : b64 -> Z).
Notation FO := (binary64 ci cu).
Lemma ok_GenPoly_f fuel : GenPoly FO (stream ok_bit) (S fuel) 2 0 = Ok (red_f, 4096%nat).
Proof.
  rewrite stream_GenPoly by lia. change (Z.to_nat (4096 / 2)) with 2048%nat. change (Z.to_nat 2) with 2%nat.
  change (0 + 4096)%nat with 4096%nat. change (seq 0 2) with [0%nat; 1%nat]. cbn [map].
  change (0 + 0 * 2048)%nat with 0%nat. change (0 + 1 * 2048)%nat with 2048%nat. rewrite ok_block0, ok_block1. reflexivity.
Qed.
Lemma ok_GenPoly_g fuel : GenPoly FO (stream ok_bit) (S fuel) 2 4096 = Ok (red_g, (4096 + 4096)%nat).
Proof.
  rewrite stream_GenPoly by lia. change (Z.to_nat (4096 / 2)) with 2048%nat. change (Z.to_nat 2) with 2%nat.
  change (seq 0 2) with [0%nat; 1%nat]. cbn [map].
  replace (4096 + 0 * 2048)%nat with 4096%nat by lia. replace (4096 + 1 * 2048)%nat with (3 * 2048)%nat by lia. rewrite ok_block2, ok_block3. reflexivity.
Qed.
Lemma ok_gs : exists gs, GsNorm FO (Int16ToFloat64 FO red_f) (Int16ToFloat64 FO red_g) (f_of_int FO GoBase.Q) = Ok gs /\
  f_ltb FO (gs_bound FO) gs = false.
Proof.
  assert (E : match GsNorm FO (Int16ToFloat64 FO red_f) (Int16ToFloat64 FO red_g) (f_of_int FO GoBase.Q) with
              | Ok gs => f_ltb FO (gs_bound FO) gs | _ => true end = false) by (vm_compute; reflexivity).
  destruct (GsNorm FO _ _ _) as [gs| | |]; try discriminate. eauto.
Qed.
Lemma ok_solve rf : exists BF BG, NtruSolve (reduce_quotient FO) (10 + rf) red_f red_g = Ok (BF, BG) /\
  BigIntToInt16 BF = [-50; 49] /\ BigIntToInt16 BG = [106; -7].
Proof. eexists _, _. split; [vm_compute; reflexivity|]. split; vm_compute; reflexivity. Qed.
Lemma ok_ntt : exists v, NTT wrap64 red_f = Ok v /\ AnyZeroes v = false.
Proof. eexists. split; vm_compute; reflexivity. Qed.
Lemma ok_Generate fuel sf rf :
  GeneratePrivateKey wrap64 FO (reduce_quotient FO) (stream ok_bit) (S sf) (10 + rf) (S fuel) 2
  = Ok {| sk_n := 2; sk_f := red_f; sk_g := red_g; sk_F := [-50; 49]; sk_G := [106; -7] |}.
Proof.
  unfold GeneratePrivateKey. change (isValidDegree 2) with true. cbn [negb].
  cbn [NtruGen]. rewrite ok_GenPoly_f. cbn [bind]. rewrite ok_GenPoly_g. cbn [bind].
  destruct ok_gs as (gs & -> & E). cbn [bind]. rewrite E.
  destruct ok_ntt as (v & -> & E2). cbn [bind]. rewrite E2.
  unfold Int16ToBigInt. destruct (ok_solve rf) as (BF & BG & -> & -> & ->). reflexivity.
Qed.
End G.
Example C95_generated_nonvacuous : forall ci cu, exists rb sf rf fuel sk nf ng v,
  let FO := binary64 ci cu in
  GeneratePrivateKey wrap64 FO (reduce_quotient FO) rb sf rf fuel 2 = Ok sk /\ sk_F sk = [-50; 49] /\
  is_norm (Nat.log2 (Z.to_nat 2)) (sk_f sk) nf /\ is_norm (Nat.log2 (Z.to_nat 2)) (sk_g sk) ng /\ Z.gcd nf ng < 2 ^ 64 - 1 /\
  exact_GsNorm (sk_f sk) (sk_g sk) = Ok v /\ (v <= 1000000)%R.
Proof.
  intros ci cu. destruct red_norm as (v & E & B). destruct (C77_nonvacuous ci cu) as (_ & _ & _ & _ & Nf & Ng & GC & _).
  eexists (stream ok_bit), 1%nat, 10%nat, 1%nat, _, 10400, 901, v. cbv zeta.
  split; [exact (ok_Generate ci cu 0 0 0)|]. split; [reflexivity|]. cbn [sk_f sk_g]. split; [exact Nf|]. split; [exact Ng|].
  split; [rewrite GC; reflexivity|]. split; [exact E|lra].
Qed.
