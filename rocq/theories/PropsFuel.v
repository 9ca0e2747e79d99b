(** C105: the fuels that bound the loops of the model do not change a result.
    C106: the private keys that key generation can return. *)
From Coq Require Import Lia ZArith List.
From Verif Require Import GoBase Util Ntt Params Xof Encoding Falcon Spec PolyZ PolyEval BaseProofs UtilProofs Float Samplerz SamplerProofs Fft
  Ntrugen Ffsampling KeyGen KeyGenProofs Binary64 Hang PropsKeyGen PropsRand AnyKeys PropsAnyDegree.
Local Open Scope Z_scope.
Import ListNotations.

(** [a] is [b], or has not ended *)
Definition upto {A} (a b : res A) : Prop := a = Diverge \/ a = b.
Lemma upto_refl {A} (a : res A) : upto a a.
Proof. right. reflexivity. Qed.
Lemma upto_bind {A B} (a b : res A) (f g : A -> res B) : upto a b -> (forall x, upto (f x) (g x)) -> upto (bind a f) (bind b g).
Proof. intros [-> | ->] H; [left; reflexivity|]. destruct b; cbn [bind]; [apply H|right; reflexivity ..]. Qed.
Lemma upto_bind2 {A B} (a : res A) (f g : A -> res B) : (forall x, upto (f x) (g x)) -> upto (bind a f) (bind a g).
Proof. apply upto_bind, upto_refl. Qed.
Lemma upto_end {A} (a b : res A) : upto a b -> a <> Diverge -> b = a.
Proof. intros [E|E] H; [contradiction|now symmetry]. Qed.
Ltac up := repeat first [apply upto_refl | apply upto_bind2; intros ].

Lemma hash_upto X n fuel : forall fuel' s acc, (fuel <= fuel')%nat -> upto (hash_loop X fuel n s acc) (hash_loop X fuel' n s acc).
Proof.
  induction fuel as [|fuel IH]; intros fuel' s acc H.
  - destruct fuel'; cbn [hash_loop]; destruct (Nat.ltb _ _); try apply upto_refl; left; reflexivity.
  - destruct fuel' as [|fuel']; [lia|]. cbn [hash_loop]. destruct (Nat.ltb _ _); [|apply upto_refl].
    destruct (xread2 X s) as [[b0 b1] s']. destruct (_ <? _); apply IH; lia.
Qed.
Lemma priv_hash_upto X n fuel : forall fuel' s acc, (fuel <= fuel')%nat -> upto (priv_hash_loop X fuel n s acc) (priv_hash_loop X fuel' n s acc).
Proof.
  induction fuel as [|fuel IH]; intros fuel' s acc H.
  - destruct fuel'; cbn [priv_hash_loop]; destruct (Nat.ltb _ _); try apply upto_refl; left; reflexivity.
  - destruct fuel' as [|fuel']; [lia|]. cbn [priv_hash_loop]. destruct (Nat.ltb _ _); [|apply upto_refl].
    destruct (xread2 X s) as [[b0 b1] s']. destruct (_ <? _); apply IH; lia.
Qed.
Lemma Verify_upto X iw fuel fuel' h msg sig : (fuel <= fuel')%nat -> upto (Verify iw X fuel h msg sig) (Verify iw X fuel' h msg sig).
Proof.
  intros H. unfold Verify. up. destruct (Decompress _ _ _); up. apply upto_bind; [apply hash_upto, H|]. intros. up.
Qed.
Lemma VerifyBytes_upto X iw fuel fuel' bs : (fuel <= fuel')%nat -> upto (VerifyBytes iw X fuel bs) (VerifyBytes iw X fuel' bs).
Proof.
  intros H. unfold VerifyBytes. up. destruct (Decompress _ _ _); up. apply upto_bind; [apply hash_upto, H|]. intros. up.
Qed.

Section F.
Context (FO : floats) (rb : rand).
Lemma sampler_upto s r dss ccs fuel : forall fuel' k, (fuel <= fuel')%nat ->
  upto (sampler_loop FO rb fuel s r dss ccs k) (sampler_loop FO rb fuel' s r dss ccs k).
Proof.
  induction fuel as [|fuel IH]; intros fuel' k H; [left; reflexivity|]. destruct fuel' as [|fuel']; [lia|]. cbn [sampler_loop].
  apply upto_bind2. intros [[fb sb] tb]. apply upto_bind2. intros za. destruct (snd za); [apply upto_refl|]. apply IH. lia.
Qed.
Lemma Samplerz_upto sf sf' mu sigma sigmin k : (sf <= sf')%nat -> upto (Samplerz FO rb sf mu sigma sigmin k) (Samplerz FO rb sf' mu sigma sigmin k).
Proof. intros H. apply sampler_upto, H. Qed.
Lemma samples_upto sf sf' m : forall k, (sf <= sf')%nat -> upto (samples FO rb sf m k) (samples FO rb sf' m k).
Proof.
  induction m as [|m IH]; intros k H; [apply upto_refl|]. cbn [samples].
  apply upto_bind; [apply Samplerz_upto, H|]. intros vk. apply upto_bind; [apply IH, H|]. intros. up.
Qed.
Lemma GenPoly_upto sf sf' n c : (sf <= sf')%nat -> upto (GenPoly FO rb sf n c) (GenPoly FO rb sf' n c).
Proof.
  intros H. unfold GenPoly. destruct (n >? 4096); [apply upto_refl|]. apply upto_bind; [apply samples_upto, H|]. intros. up.
Qed.
Lemma reduce_upto quo f g size fuel : forall fuel' F G, (fuel <= fuel')%nat ->
  upto (reduce_loop quo fuel f g size F G) (reduce_loop quo fuel' f g size F G).
Proof.
  induction fuel as [|fuel IH]; intros fuel' F G H; [left; reflexivity|]. destruct fuel' as [|fuel']; [lia|]. cbn [reduce_loop].
  apply upto_bind2. intros S. destruct (_ <? _); [apply upto_refl|]. apply upto_bind2. intros k. destruct (AllZeroes k); [apply upto_refl|].
  do 4 (apply upto_bind2; intros). apply IH. lia.
Qed.
Lemma solve_upto quo rf rf' depth : forall f g, (rf <= rf')%nat -> upto (NtruSolve_depth quo rf depth f g) (NtruSolve_depth quo rf' depth f g).
Proof.
  induction depth as [|depth IH]; intros f g H; [left; reflexivity|]. cbn [NtruSolve_depth]. destruct (Nat.eqb _ _); [apply upto_refl|].
  do 2 (apply upto_bind2; intros). apply upto_bind; [apply IH, H|]. intros [Fp Gp]. do 4 (apply upto_bind2; intros).
  unfold reduce. apply upto_bind2. intros. apply reduce_upto, H.
Qed.
Lemma NtruSolve_upto quo rf rf' f g : (rf <= rf')%nat -> upto (NtruSolve quo rf f g) (NtruSolve quo rf' f g).
Proof. intros H. apply solve_upto, H. Qed.
Lemma NtruGen_upto iw quo sf sf' rf rf' fuel : forall fuel' n c, (sf <= sf')%nat -> (rf <= rf')%nat -> (fuel <= fuel')%nat ->
  upto (NtruGen iw FO quo rb sf rf fuel n c) (NtruGen iw FO quo rb sf' rf' fuel' n c).
Proof.
  induction fuel as [|fuel IH]; intros fuel' n c H1 H2 H3; [left; reflexivity|]. destruct fuel' as [|fuel']; [lia|]. cbn [NtruGen].
  apply upto_bind; [apply GenPoly_upto, H1|]. intros [f c1]. apply upto_bind; [apply GenPoly_upto, H1|]. intros [g c2].
  apply upto_bind2. intros gs. destruct (f_ltb FO _ gs); [apply IH; lia|]. apply upto_bind2. intros t. destruct (AnyZeroes t); [apply IH; lia|].
  destruct (NtruSolve_upto quo rf rf' (Int16ToBigInt f) (Int16ToBigInt g) H2) as [-> | ->]; [left; reflexivity|].
  destruct (NtruSolve _ _ _ _) as [[F G]|e| |]; try apply upto_refl. apply IH; lia.
Qed.
Lemma Generate_upto iw quo sf sf' rf rf' fuel fuel' n : (sf <= sf')%nat -> (rf <= rf')%nat -> (fuel <= fuel')%nat ->
  upto (GeneratePrivateKey iw FO quo rb sf rf fuel n) (GeneratePrivateKey iw FO quo rb sf' rf' fuel' n).
Proof.
  intros H1 H2 H3. unfold GeneratePrivateKey. destruct (negb _); [apply upto_refl|]. apply upto_bind; [apply NtruGen_upto; assumption|].
  intros [[[f g] F] G]. apply upto_refl.
Qed.
Context (roots : nat -> list (cplx FO)).
Lemma ldl_upto fuel : forall fuel' T G, (fuel <= fuel')%nat -> upto (FfldlFFT FO roots fuel T G) (FfldlFFT FO roots fuel' T G).
Proof.
  induction fuel as [|fuel IH]; intros fuel' T G H; [left; reflexivity|]. destruct fuel' as [|fuel']; [lia|]. cbn [FfldlFFT].
  do 2 (apply upto_bind2; intros). destruct x0 as [L D]. do 3 (apply upto_bind2; intros). destruct (Nat.eqb _ _); [apply upto_refl|].
  do 2 (apply upto_bind2; intros). apply upto_bind; [apply IH; lia|]. intros. apply IH. lia.
Qed.
Lemma np_upto fuel : forall fuel' t T, (fuel <= fuel')%nat -> upto (FfnpFFT FO roots fuel t T) (FfnpFFT FO roots fuel' t T).
Proof.
  induction fuel as [|fuel IH]; intros fuel' t T H; [left; reflexivity|]. destruct fuel' as [|fuel']; [lia|]. cbn [FfnpFFT].
  apply upto_bind2; intros. destruct (Nat.ltb _ _); [|apply upto_refl]. do 8 (apply upto_bind2; intros).
  apply upto_bind; [apply IH; lia|]. intros. do 5 (apply upto_bind2; intros). apply upto_bind; [apply IH; lia|]. intros. up.
Qed.
Lemma ff_upto sf sf' sigmin T fuel : forall fuel' t c, (sf <= sf')%nat -> (fuel <= fuel')%nat ->
  upto (FfSamplingFFT FO roots rb sf sigmin T fuel t c) (FfSamplingFFT FO roots rb sf' sigmin T fuel' t c).
Proof.
  induction fuel as [|fuel IH]; intros fuel' t c H1 H2; [left; reflexivity|]. destruct fuel' as [|fuel']; [lia|]. cbn [FfSamplingFFT].
  apply upto_bind2; intros. destruct (Nat.ltb _ _).
  - do 2 (apply upto_bind2; intros). apply upto_bind; [apply IH; lia|]. intros. do 5 (apply upto_bind2; intros).
    apply upto_bind; [apply IH; lia|]. intros. up.
  - destruct (Nat.eqb _ _); [|apply upto_refl]. do 2 (apply upto_bind2; intros). apply upto_bind; [apply Samplerz_upto, H1|]. intros.
    apply upto_bind2; intros. apply upto_bind; [apply Samplerz_upto, H1|]. intros. up.
Qed.
End F.

(** ** C105: a run that has ended is not changed by more fuel *)
Notation stable a b := (a <> Diverge -> b = a) (only parsing).
Theorem C105_verify : forall iw X fuel fuel' h msg sig bs sk salt, (fuel <= fuel')%nat ->
  stable (Verify iw X fuel h msg sig) (Verify iw X fuel' h msg sig) /\
  stable (VerifyBytes iw X fuel bs) (VerifyBytes iw X fuel' bs) /\
  stable (hashToPoint X fuel msg salt) (hashToPoint X fuel' msg salt) /\
  stable (priv_hashToPoint X fuel sk msg salt) (priv_hashToPoint X fuel' sk msg salt).
Proof.
  intros iw X fuel fuel' h msg sig bs sk salt H. repeat split; apply upto_end.
  - apply Verify_upto, H.
  - apply VerifyBytes_upto, H.
  - apply hash_upto, H.
  - apply priv_hash_upto, H.
Qed.
Print Assumptions C105_verify.
Theorem C105_sampling : forall FO roots rb sf sf' fuel fuel' mu sigma sigmin k n T t, (sf <= sf')%nat -> (fuel <= fuel')%nat ->
  stable (Samplerz FO rb sf mu sigma sigmin k) (Samplerz FO rb sf' mu sigma sigmin k) /\
  stable (GenPoly FO rb sf n k) (GenPoly FO rb sf' n k) /\
  stable (FfSamplingFFT FO roots rb sf sigmin T fuel t k) (FfSamplingFFT FO roots rb sf' sigmin T fuel' t k).
Proof.
  intros FO roots rb sf sf' fuel fuel' mu sigma sigmin k n T t H1 H2. repeat split; apply upto_end.
  - apply Samplerz_upto, H1.
  - apply GenPoly_upto, H1.
  - apply ff_upto; assumption.
Qed.
Print Assumptions C105_sampling.
Lemma data_upto iw FO tf tf' n f g F G : (tf <= tf')%nat -> upto (falcon_data iw FO tf n f g F G) (falcon_data iw FO tf' n f g F G).
Proof.
  intros H. unfold falcon_data, basisAndMatrix. apply upto_bind.
  - do 3 (apply upto_bind2; intros). apply upto_bind; [apply ldl_upto, H|]. intros. up.
  - intros [B T]. up.
Qed.
Theorem C105_keygen : forall iw FO roots quo rb sf sf' rf rf' fuel fuel' tf tf' n f g F G G0 T t l,
  (sf <= sf')%nat -> (rf <= rf')%nat -> (fuel <= fuel')%nat -> (tf <= tf')%nat ->
  stable (NtruSolve quo rf f g) (NtruSolve quo rf' f g) /\
  stable (GeneratePrivateKey iw FO quo rb sf rf fuel n) (GeneratePrivateKey iw FO quo rb sf' rf' fuel' n) /\
  stable (FfldlFFT FO roots tf T G0) (FfldlFFT FO roots tf' T G0) /\ stable (FfnpFFT FO roots tf t l) (FfnpFFT FO roots tf' t l) /\
  stable (falcon_data iw FO tf n f g F G) (falcon_data iw FO tf' n f g F G) /\
  stable (NewKeyPair iw FO quo rb sf rf fuel tf n) (NewKeyPair iw FO quo rb sf' rf' fuel' tf' n).
Proof.
  intros iw FO roots quo rb sf sf' rf rf' fuel fuel' tf tf' n f g F G G0 T t l H1 H2 H3 H4. repeat split; apply upto_end.
  - apply NtruSolve_upto, H2.
  - apply Generate_upto; assumption.
  - apply ldl_upto, H4.
  - apply np_upto, H4.
  - apply data_upto, H4.
  - unfold NewKeyPair. apply upto_bind; [apply Generate_upto; assumption|]. intros sk. apply upto_bind; [apply data_upto, H4|]. intros. apply upto_refl.
Qed.
Print Assumptions C105_keygen.
(** so two runs of key generation on the same bytes that both end, end alike *)
Theorem C105_deterministic : forall iw FO quo rb sf sf' rf rf' fuel fuel' n,
  let r := GeneratePrivateKey iw FO quo rb sf rf fuel n in let r' := GeneratePrivateKey iw FO quo rb sf' rf' fuel' n in
  r <> Diverge -> r' <> Diverge -> r = r'.
Proof.
  cbv zeta. intros iw FO quo rb sf sf' rf rf' fuel fuel' n H H'.
  rewrite <- (upto_end _ _ (Generate_upto FO rb iw quo sf (sf + sf') rf (rf + rf') fuel (fuel + fuel') n ltac:(lia) ltac:(lia) ltac:(lia)) H).
  exact (upto_end _ _ (Generate_upto FO rb iw quo sf' (sf + sf') rf' (rf + rf') fuel' (fuel + fuel') n ltac:(lia) ltac:(lia) ltac:(lia)) H').
Qed.
Print Assumptions C105_deterministic.
Example C105_nonvacuous : forall ci cu, GeneratePrivateKey wrap64 (binary64 ci cu) (reduce_quotient (binary64 ci cu)) (KeyWitness.stream KeyWitness.wit_bit) 1 1 1 16 <> Diverge /\
  GeneratePrivateKey wrap64 (binary64 ci cu) (reduce_quotient (binary64 ci cu)) (KeyWitness.stream KeyWitness.wit_bit) 1 1 0 16 = Diverge.
Proof. intros ci cu. split; [rewrite (KeyWitness.wit_Generate ci cu 0 0 0); discriminate|reflexivity]. Qed.

(** ** C106: the private keys *)
Lemma invertible_ntt n f : valid_degree n -> length f = n -> int16s f -> invertible_mod_q n f -> exists v, NTT wrap64 f = Ok v /\ AnyZeroes v = false.
Proof.
  intros V Lf I (u & Lu & E). apply (ntt_nonzero n f V Lf I). intros w Hw Z0.
  assert (Hn : (0 < n)%nat) by (destruct V as (k & _ & ->); pose proof (Nat.pow_nonzero 2 k); lia).
  pose proof (q_divides w n _ _ Hw (nega_eval n f u w Lf Lu)) as C.
  assert (P : forall h x, cong q (eval (pmod q h) x) (eval h x)).
  { clear. intros h x. unfold cong. induction h as [|c h IH]; [reflexivity|]. unfold pmod in *. cbn [map]. rewrite !PolyEval.eval_cons.
    rewrite Z.add_mod, Z.mul_mod, IH, <- Z.mul_mod, Z.mod_mod, <- Z.add_mod by discriminate. reflexivity. }
  pose proof (P (negacyc n f u) w) as C'. rewrite E, PolyEval.eval_pconst in C' by exact Hn.
  unfold cong in C, C'. rewrite Zmult_mod, Z0 in C. rewrite C in C'. discriminate C'.
Qed.
Theorem C106_keys : forall ci cu k f g F G, (1 <= k <= 10)%nat -> let FO := binary64 ci cu in let n := Z.of_nat (2 ^ k) in
  (exists rb sf rf fuel, byte_blocks rb /\ GeneratePrivateKey wrap64 FO (reduce_quotient FO) rb sf rf fuel n =
     Ok {| sk_n := n; sk_f := f; sk_g := g; sk_F := F; sk_G := G |}) <->
  length f = (2 ^ k)%nat /\ length g = (2 ^ k)%nat /\ Forall (drawable n) f /\ Forall (drawable n) g /\
  invertible_mod_q (2 ^ k) f /\
  (exists gs, GsNorm FO (Int16ToFloat64 FO f) (Int16ToFloat64 FO g) (f_of_int FO Q) = Ok gs /\ f_ltb FO (gs_bound FO) gs = false) /\
  exists rf BF BG, NtruSolve (reduce_quotient FO) rf f g = Ok (BF, BG) /\ F = map int16_of BF /\ G = map int16_of BG.
Proof.
  cbv zeta. intros ci cu k f g F G Hk. split.
  - intros (rb & sf & rf & fuel & _ & E).
    destruct (Generate_ok wrap64 Witness.id64 _ _ rb sf rf fuel _ _ (Nat2Z.is_nonneg _) E) as (k' & Hk' & Ek & _ & EG). cbn [sk_f sk_g sk_F sk_G] in EG.
    assert (k' = k) as ->. { apply Nat2Z.inj in Ek. apply (Nat.pow_inj_r 2); [lia|now symmetry]. }
    destruct (NtruGen_ok wrap64 Witness.id64 _ _ rb sf rf k fuel Hk _ _ _ _ _ EG) as (Lf & Lg & _ & _ & Inv & Gs & BF & BG & ES & EF & EG').
    destruct (C91_key _ _ _ _ _ _ _ _ _ _ _ _ _ EG) as (c0 & c1 & c2 & _ & _ & E1 & E2).
    split; [exact Lf|]. split; [exact Lg|].
    split; [apply (C104_outputs ci cu k f Hk); eauto|]. split; [apply (C104_outputs ci cu k g Hk); eauto|].
    split; [exact Inv|]. split; [exact Gs|]. exists rf, BF, BG. auto.
  - intros (Lf & Lg & Df & Dg & Inv & (gs & E3 & E4) & rf & BF & BG & ES & EF & EG).
    pose proof (proj1 (drawable_split k f Hk) Df) as [If Rf]. pose proof (proj1 (drawable_split k g Hk) Dg) as [Ig Rg].
    exists (streamZ (tape_for (2 ^ k) f g)), 1%nat, rf, 1%nat. split; [exact (tape_bytes k f g Hk Rf Rg)|].
    destruct (any_pair ci cu k f g 0 Hk Lf Lg If Ig Rf Rg) as [E1 E2].
    destruct (invertible_ntt (2 ^ k) f (valid_pow k Hk) Lf If Inv) as (v & E5 & E6).
    destruct (run_key (binary64 ci cu) (reduce_quotient (binary64 ci cu)) k f g _ 1 rf 0 gs v Hk E1 E2 E3 E4 E5 E6) as (rest & E).
    rewrite E, ES, !BigIntToInt16_wrap, <- EF, <- EG. reflexivity.
Qed.
Print Assumptions C106_keys.
(** F and G are a function of f and g: two keys with the same f and g, from any random bytes, are equal *)
Theorem C106_determined : forall ci cu n rb rb' sf sf' rf rf' fuel fuel' sk sk', 0 <= n -> let FO := binary64 ci cu in
  GeneratePrivateKey wrap64 FO (reduce_quotient FO) rb sf rf fuel n = Ok sk ->
  GeneratePrivateKey wrap64 FO (reduce_quotient FO) rb' sf' rf' fuel' n = Ok sk' ->
  sk_f sk = sk_f sk' -> sk_g sk = sk_g sk' -> sk = sk'.
Proof.
  cbv zeta. intros ci cu n rb rb' sf sf' rf rf' fuel fuel' sk sk' Hn E E' Hf Hg. generalize dependent (binary64 ci cu). intros FO E E'.
  destruct (Generate_ok wrap64 Witness.id64 _ _ _ _ _ _ _ _ Hn E) as (k & Hk & En & N1 & EG).
  destruct (Generate_ok wrap64 Witness.id64 _ _ _ _ _ _ _ _ Hn E') as (k' & Hk' & En' & N2 & EG'). subst n.
  assert (k' = k) as ->. { apply Nat2Z.inj in En'. apply (Nat.pow_inj_r 2); [lia|now symmetry]. }
  destruct (NtruGen_ok wrap64 Witness.id64 _ _ _ _ _ k _ Hk _ _ _ _ _ EG) as (_ & _ & _ & _ & _ & _ & BF & BG & ES & EF & EGG).
  destruct (NtruGen_ok wrap64 Witness.id64 _ _ _ _ _ k _ Hk _ _ _ _ _ EG') as (_ & _ & _ & _ & _ & _ & BF' & BG' & ES' & EF' & EGG').
  rewrite <- Hf, <- Hg in ES'.
  pose proof (upto_end _ _ (NtruSolve_upto (reduce_quotient FO) rf (rf + rf') (sk_f sk) (sk_g sk) ltac:(lia)) ltac:(rewrite ES; discriminate)) as U.
  pose proof (upto_end _ _ (NtruSolve_upto (reduce_quotient FO) rf' (rf + rf') (sk_f sk) (sk_g sk) ltac:(lia)) ltac:(rewrite ES'; discriminate)) as U'.
  rewrite U, ES, ES' in U'. apply Ok_inj in U'. injection U' as -> ->.
  destruct sk as [a b c d e], sk' as [a' b' c' d' e']. cbn [sk_n sk_f sk_g sk_F sk_G] in *. subst. reflexivity.
Qed.
Print Assumptions C106_determined.
(** the key of KeyWitness.v is one *)
Example C106_nonvacuous : forall ci cu, let FO := binary64 ci cu in exists rb sf rf fuel, byte_blocks rb /\
  GeneratePrivateKey wrap64 FO (reduce_quotient FO) rb sf rf fuel 16 =
  Ok {| sk_n := 16; sk_f := KeyWitness.wit_f; sk_g := KeyWitness.wit_g; sk_F := repeat 0 16; sk_G := KeyWitness.wit_G |}.
Proof.
  cbv zeta. intros ci cu. exists (KeyWitness.stream KeyWitness.wit_bit), 1%nat, 1%nat, 1%nat. split; [|exact (KeyWitness.wit_Generate ci cu 0 0 0)].
  intros i. eexists. split; [reflexivity|]. destruct (KeyWitness.wit_bit i); (split; [reflexivity|]); repeat constructor; lia.
Qed.
