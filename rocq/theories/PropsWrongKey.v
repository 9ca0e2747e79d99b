(** C108: at every degree from 16 on, key generation can return a private key that
    does not satisfy the NTRU equation, with g = F = 0 and public key 0. *)
From Coq Require Import Lia ZArith List Znumtheory.
From Verif Require Import GoBase Util Ntt Params Falcon Spec PolyRing PolyZ PolyEval BaseProofs UtilProofs Float Samplerz SamplerProofs Fft
  Ntrugen NtruProofs NtruProofs2 NtruProofs3 NtruProps KeyGen KeyGenProofs Binary64 B64Proofs Hang PropsNtt PropsKeys PropsSampler PropsKeyGen PropsGs AnyKeys BadAlg BadGs
  PropsAnyDegree Xof SpecHash PropsVerify WrongLin WrongTop.
Local Open Scope Z_scope.
Import ListNotations.

(** the polynomial f drawn: 1 + 112 x, and 1 + 76 x + 76 x^513 at degree 1024,
    where no coefficient exceeds 76 *)
Definition wrong_f (k : nat) : list Z := if (k =? 10)%nat then f10 else lin k 112.
Lemma wrong_cases k : (4 <= k <= 10)%nat -> (k = 10%nat /\ wrong_f k = f10) \/ ((4 <= k <= 9)%nat /\ wrong_f k = lin k 112).
Proof. intros Hk. unfold wrong_f. destruct (Nat.eqb_spec k 10); [left|right]; split; auto; lia. Qed.
Lemma wrong_length k : (4 <= k <= 10)%nat -> length (wrong_f k) = (2 ^ k)%nat.
Proof. intros Hk. destruct (wrong_cases k Hk) as [[-> ->]|[_ ->]]; [exact f10_length|apply lin_length]. Qed.
Lemma wrong_drawable k : (4 <= k <= 10)%nat -> Forall (drawable (Z.of_nat (2 ^ k))) (wrong_f k).
Proof.
  intros Hk. destruct (wrong_cases k Hk) as [[-> ->]|[K ->]]; unfold drawable; rewrite div_4096 by lia.
  - change (Z.of_nat (2 ^ (12 - 10))) with 4. eapply Forall_impl; [|exact f10_range]. unfold is_int16. cbv beta. intros; lia.
  - assert (2 ^ 3 <= 2 ^ (12 - k))%nat by (apply Nat.pow_le_mono_r; lia). change (2 ^ 3)%nat with 8%nat in *.
    destruct k as [|k]; [lia|]. unfold lin, is_int16. constructor; [lia|]. constructor; [lia|].
    apply Forall_forall. intros x Hx. apply repeat_spec in Hx. subst. lia.
Qed.
Lemma zeros_drawable k : (1 <= k <= 10)%nat -> Forall (drawable (Z.of_nat (2 ^ k))) (repeat 0 (2 ^ k)).
Proof.
  intros Hk. unfold drawable. rewrite div_4096 by lia. apply Forall_forall. intros x Hx. apply repeat_spec in Hx. subst. unfold is_int16. lia.
Qed.

(** f is invertible modulo q *)
Lemma lin_nonzero k c w : (w ^ Z.of_nat (2 ^ S k) + 1) mod q = 0 -> powq c (S k) <> q - 1 -> (1 + c * w) mod q <> 0.
Proof.
  intros Hw Hp E. apply Hp. rewrite powq_spec.
  assert (A : cong q (c * w) (-1)).
  { apply (cong_sub q _ 0 1 1) in E; [|reflexivity]. replace (1 + c * w - 1) with (c * w) in E by ring. exact E. }
  assert (B : cong q (c ^ Z.of_nat (2 ^ S k) * w ^ Z.of_nat (2 ^ S k)) 1).
  { rewrite <- Z.pow_mul_l. unfold cong in *. rewrite Zpow_facts.Zpower_mod, A, <- Zpow_facts.Zpower_mod by reflexivity.
    replace (-1) with (- (1)) by reflexivity. rewrite Z.pow_opp_even by (exists (Z.of_nat (2 ^ k)); cbn [Nat.pow]; lia).
    rewrite Z.pow_1_l by lia. reflexivity. }
  assert (D : cong q (w ^ Z.of_nat (2 ^ S k)) (-1)).
  { apply (cong_sub q _ 0 1 1) in Hw; [|reflexivity]. replace (w ^ Z.of_nat (2 ^ S k) + 1 - 1) with (w ^ Z.of_nat (2 ^ S k)) in Hw by ring. exact Hw. }
  pose proof (cong_mul q _ _ _ _ (eq_refl : cong q (c ^ Z.of_nat (2 ^ S k)) _) D) as M.
  assert (N : cong q (c ^ Z.of_nat (2 ^ S k) * -1) 1) by (unfold cong in *; rewrite <- M; exact B).
  apply (cong_mul q _ _ (-1) (-1)) in N; [|reflexivity]. unfold cong in N.
  replace (c ^ Z.of_nat (2 ^ S k) * -1 * -1) with (c ^ Z.of_nat (2 ^ S k)) in N by ring. rewrite N. reflexivity.
Qed.
Lemma prod_zero a b c M w : (M mod q = 0 -> w = M -> cong w (a * b) c -> a mod q = 0 -> c mod q = 0)%Z.
Proof.
  intros HM -> H Ha. apply Z.mod_divide in HM; [|discriminate]. destruct HM as (d & HM).
  apply Z.mod_divide in Ha; [|discriminate]. destruct Ha as (t & ->). unfold cong in H.
  destruct (Z.eq_dec d 0) as [->|Hd].
  - rewrite HM in H. change (0 * q) with 0 in H. rewrite !Zmod_0_r in H. rewrite <- H. replace (t * q * b) with (t * b * q) by ring. apply Z_mod_mult.
  - pose proof (Z.div_mod c M ltac:(rewrite HM; unfold q; lia)) as E. rewrite <- H in E.
    pose proof (Z.div_mod (t * q * b) M ltac:(rewrite HM; unfold q; lia)) as E2.
    replace c with ((M / q * (c / M) + t * b - M / q * (t * q * b / M)) * q); [apply Z_mod_mult|].
    assert (MQ : M / q * q = M) by (rewrite HM, Z.div_mul; [ring|discriminate]). nia.
Qed.
Lemma wrong_ntt k : (4 <= k <= 10)%nat -> exists v, NTT wrap64 (wrong_f k) = Ok v /\ AnyZeroes v = false.
Proof.
  intros Hk. destruct (wrong_cases k Hk) as [[-> ->]|[K ->]].
  - apply (ntt_nonzero (2 ^ 10)); [apply valid_pow; lia|exact f10_length| |].
    + unfold int16s. eapply Forall_impl; [|exact f10_range]. unfold is_int16. cbv beta. intros; lia.
    + intros w Hw E. change (Z.of_nat (2 ^ 10)) with 1024 in Hw.
      pose proof (prod_zero _ _ _ _ _ Hw eq_refl (f10_prod w) E) as E2. rewrite <- f9_eval in E2.
      assert (H9 : ((w * w) ^ 512 + 1) mod q = 0) by (rewrite (sq_pow w 512 1024) by lia; exact Hw).
      pose proof (prod_zero _ _ _ _ _ H9 eq_refl (f9_prod (w * w)) E2) as E3.
      revert E3. apply (lin_nonzero 7); [|vm_compute; discriminate].
      change (Z.of_nat (2 ^ 8)) with 256. rewrite (sq_pow (w * w) 256 512) by lia. exact H9.
  - apply lin_ntt; [lia|unfold is_int16; lia|]. do 10 (destruct k as [|k]; [try lia; vm_compute; discriminate|]). lia.
Qed.
(** the norm test *)
Lemma wrong_gs ci cu k : (4 <= k <= 10)%nat -> let FO := binary64 ci cu in
  exists gs, GsNorm FO (Int16ToFloat64 FO (wrong_f k)) (Int16ToFloat64 FO (repeat 0 (2 ^ k))) (f_of_int FO Q) = Ok gs /\ f_ltb FO (gs_bound FO) gs = false.
Proof.
  intros Hk FO. apply (gs_pass ci cu k); [lia|apply wrong_length, Hk|apply repeat_length| |].
  - rewrite zsum2_zeros. destruct (wrong_cases k Hk) as [[-> ->]|[K ->]]; [vm_compute; discriminate|].
    destruct k as [|k]; [lia|]. rewrite zsum2_lin. lia.
  - intros j Hj. destruct (wrong_cases k Hk) as [[-> ->]|[K ->]]; [exact (f10_lam j Hj)|].
    destruct k as [|k]; [lia|]. apply lin_lam; [exact Hj|lia].
Qed.
Lemma wrong_solve ci cu rf k : (4 <= k <= 10)%nat -> exists G, length G = (2 ^ k)%nat /\
  NtruSolve (reduce_quotient (binary64 ci cu)) (S rf) (wrong_f k) (repeat 0 (2 ^ k)) = Ok (repeat 0 (2 ^ k), G).
Proof.
  intros Hk. destruct (wrong_cases k Hk) as [[-> ->]|[K ->]]; [apply solve_f10|apply solve_112, Hk].
Qed.
(** no F and G go with f and g = 0: the norm of f divides no power of q *)
Lemma no_equation_norm k f N F G : is_norm k f N -> 1 < N -> Z.gcd N q = 1 -> length F = (2 ^ k)%nat -> length G = (2 ^ k)%nat ->
  ~ ntru_equation (2 ^ k) f (repeat 0 (2 ^ k)) F G.
Proof.
  intros HN N1 Nq LF LG E. unfold ntru_equation in E. rewrite nega_zero_l in E by exact LF.
  assert (E2 : negacyc (2 ^ k) f G = pconst (2 ^ k) q).
  { rewrite <- E. pose proof (Nat.pow_nonzero 2 k ltac:(lia)). apply (poly_eq (2 ^ k)); [apply negacyc_length|apply psub_length|]. intros x _.
    rewrite (eval_psub (2 ^ k)), eval_zeros by (apply negacyc_length || apply repeat_length). rewrite Z.sub_0_r. reflexivity. }
  destruct (is_norm_exists k G LG) as (m & Hm). pose proof (is_norm_mul k _ _ _ _ HN Hm) as M. rewrite E2 in M.
  pose proof (is_norm_fun k _ _ _ M (norm_const k q)) as ME.
  assert (RP : rel_prime N (q ^ Z.of_nat (2 ^ k))).
  { apply Zpow_facts.rel_prime_Zpower_r; [lia|]. apply Zgcd_1_rel_prime, Nq. }
  destruct RP as [_ _ RP]. specialize (RP N (Z.divide_refl N)).
  assert (D : (N | 1)) by (apply RP; exists m; rewrite <- ME; ring). apply Z.divide_1_r_nonneg in D; lia.
Qed.
Lemma wrong_norm k : (4 <= k <= 10)%nat -> exists N, is_norm k (wrong_f k) N /\ 1 < N /\ Z.gcd N q = 1.
Proof.
  intros Hk. assert (G : forall j c, 0 < c -> Z.gcd ((1 + powq c j) mod q) q = 1 -> 1 < 1 + c ^ Z.of_nat (2 ^ j) /\ Z.gcd (1 + c ^ Z.of_nat (2 ^ j)) q = 1).
  { intros j c Hc Hp. split; [pose proof (Z.pow_pos_nonneg c (Z.of_nat (2 ^ j))); lia|]. rewrite powq_spec, Zplus_mod_idemp_r in Hp.
    rewrite Z.gcd_comm, <- Z.gcd_mod by discriminate. exact Hp. }
  destruct (wrong_cases k Hk) as [[-> ->]|[K ->]].
  - exists (1 + 133448704 ^ Z.of_nat (2 ^ 8)). split; [|apply G; [reflexivity|vm_compute; reflexivity]].
    exact (norm_half 9 f10 f9 _ f10_length f9_length f10_half (norm_half 8 f9 _ _ f9_length (lin_length 8 _) f9_half (norm_lin 7 133448704))).
  - exists (1 + 112 ^ Z.of_nat (2 ^ k)). split; [destruct k as [|k]; [lia|apply norm_lin]|].
    apply G; [reflexivity|]. clear G Hk. do 10 (destruct k as [|k]; [try lia; vm_compute; reflexivity|]). lia.
Qed.

(** the bound [S rf] on the rounds of reduce and the bounds [S sf], [S fuel] on
    the other loops say that one round of each is enough *)
Theorem C108_wrong_key : forall k, (4 <= k <= 10)%nat -> exists rb, byte_blocks rb /\
  forall ci cu sf rf fuel, let FO := binary64 ci cu in exists sk,
  GeneratePrivateKey wrap64 FO (reduce_quotient FO) rb (S sf) (S rf) (S fuel) (Z.of_nat (2 ^ k)) = Ok sk /\
  sk_g sk = repeat 0 (2 ^ k) /\ sk_F sk = repeat 0 (2 ^ k) /\
  (forall F G, length F = (2 ^ k)%nat -> length G = (2 ^ k)%nat -> ~ ntru_equation (2 ^ k) (sk_f sk) (sk_g sk) F G) /\
  ~ ntru_equation (2 ^ k) (sk_f sk) (sk_g sk) (sk_F sk) (sk_G sk) /\
  GetPublicKey wrap64 sk = Ok {| pk_n := Z.of_nat (2 ^ k); pk_h := repeat 0 (2 ^ k) |}.
Proof.
  intros k Hk. pose proof (wrong_drawable k Hk) as D. apply (drawable_split k _ ltac:(lia)) in D. destruct D as [I R].
  pose proof (zeros_drawable k ltac:(lia)) as D. apply (drawable_split k _ ltac:(lia)) in D. destruct D as [I0 R0].
  pose proof (wrong_length k Hk) as L. pose proof (repeat_length 0 (2 ^ k)) as L0.
  exists (streamZ (tape_for (2 ^ k) (wrong_f k) (repeat 0 (2 ^ k)))). split; [exact (tape_bytes k _ _ ltac:(lia) R R0)|].
  cbv zeta. intros ci cu sf rf fuel.
  destruct (any_pair ci cu k _ _ sf ltac:(lia) L L0 I I0 R R0) as [E1 E2]. destruct (wrong_gs ci cu k Hk) as (gs & E3 & E4).
  destruct (wrong_ntt k Hk) as (v & E5 & E6). destruct (wrong_solve ci cu rf k Hk) as (G & LG & ES).
  destruct (run_key (binary64 ci cu) (reduce_quotient (binary64 ci cu)) k _ _ _ (S sf) (S rf) fuel gs v ltac:(lia) E1 E2 E3 E4 E5 E6) as (rest & E).
  rewrite ES in E. eexists. split; [exact E|].
  destruct (C36_generated_partial _ _ _ _ _ _ _ _ (Nat2Z.is_nonneg (2 ^ k)) E) as (V & _ & Lf & Lg & LF & LG' & If & Ig & _ & _ & Inv & _).
  rewrite Nat2Z.id in V, Lf, Lg, LF, LG', Inv.
  assert (EF : BigIntToInt16 (repeat 0 (2 ^ k)) = repeat 0 (2 ^ k)).
  { unfold BigIntToInt16. clear. induction (2 ^ k)%nat as [|m IH]; [reflexivity|]. cbn [repeat map]. rewrite IH. reflexivity. }
  destruct (C20_public_key _ (2 ^ k) V Lf Lg If Ig Inv) as (h & Eh & Lh & Rh & Hh & U).
  destruct (wrong_norm k Hk) as (N & HN & N1 & Nq).
  cbn [sk_n sk_f sk_g sk_F sk_G] in *.
  split; [reflexivity|]. split; [exact EF|].
  assert (NO : forall F G, length F = (2 ^ k)%nat -> length G = (2 ^ k)%nat -> ~ ntru_equation (2 ^ k) (wrong_f k) (repeat 0 (2 ^ k)) F G)
    by (intros F0 G0 X Y; exact (no_equation_norm k _ N F0 G0 HN N1 Nq X Y)).
  split; [exact NO|]. split; [apply NO; assumption|].
  rewrite Eh. do 2 f_equal. symmetry. apply U; [exact L0| |].
  - apply Forall_forall. intros x Hx. apply repeat_spec in Hx. subst. unfold q. lia.
  - rewrite nega_zero_l by exact L. reflexivity.
Qed.
Print Assumptions C108_wrong_key.

(** under the public key 0 the secret part of a signature does not help: the hash
    point itself has to be short *)
Theorem C108_zero_key : forall X fuel msg sig b, bytes sig -> Verify wrap64 X fuel (repeat 0 512) msg sig = Ok b ->
  (b = true <-> exists ss1 c, decodes (skipn 41 sig) 625 512 ss1 /\ hash_point X 512 msg (firstn 40 (skipn 1 sig)) c /\
     (sqnorm (map centred c) + sqnorm (map int16_of ss1)) mod 2 ^ 32 <= beta2_512).
Proof.
  intros X fuel msg sig b Hs E.
  assert (I : int16s (repeat 0 512)) by (apply Forall_forall; intros x Hx; apply repeat_spec in Hx; subst; unfold is_int16; lia).
  rewrite (C03_verify_decides X fuel _ msg sig b I Hs E). unfold verify_accepts. change (firstn 512 (repeat 0 512)) with (repeat 0 512).
  assert (S0 : forall c s1, length c = 512%nat -> falcon_s0 512 (repeat 0 512) c s1 = map centred c)
    by (intros c s1 L; unfold falcon_s0; rewrite psub_zero_mul by exact L; reflexivity).
  split; intros (ss1 & c & D & H & N); exists ss1, c; (split; [exact D|]); (split; [exact H|]); cbv zeta in *;
    [rewrite S0 in N by apply H; exact N|rewrite S0 by apply H; exact N].
Qed.
Print Assumptions C108_zero_key.

(** the three polynomials are the ones whose norms are 1 + 112^16, ..., 1 + 11552^512 *)
Example C108_nonvacuous : wrong_f 4 = [1; 112; 0; 0; 0; 0; 0; 0; 0; 0; 0; 0; 0; 0; 0; 0] /\ is_norm 4 (wrong_f 4) (1 + 112 ^ 16) /\
  (1 + 112 ^ 16) mod 2 ^ 64 = 1 /\ is_norm 10 (wrong_f 10) (1 + 11552 ^ 512).
Proof.
  split; [reflexivity|]. split; [exact (norm_lin 3 112)|]. split; [reflexivity|].
  change (11552 ^ 512) with (11552 ^ (2 * 256)). rewrite Z.pow_mul_r by lia. change (11552 ^ 2) with 133448704.
  exact (norm_half 9 f10 f9 _ f10_length f9_length f10_half (norm_half 8 f9 _ _ f9_length (lin_length 8 _) f9_half (norm_lin 7 133448704))).
Qed.
