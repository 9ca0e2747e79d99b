(** C104: the polynomials GenPoly can return, and the two ways key generation
    goes wrong, at every degree. *)
From Coq Require Import Lia ZArith List.
From Verif Require Import GoBase Util Ntt Params Falcon Spec PolyRing PolyZ PolyEval BaseProofs UtilProofs Float Samplerz SamplerProofs Fft
  Ntrugen NtruProofs NtruProofs2 NtruProofs3 NtruProps KeyGen KeyGenProofs Binary64 B64Proofs Hang PropsNtt PropsSampler PropsKeyGen PropsGs AnyKeys BadAlg BadGs.
From Verif Require PropsGsFloat.
Local Open Scope Z_scope.
Import ListNotations.

(** ** What GenPoly can return *)
(** the coefficients are the int16 values from -18 to 19 times the number 4096/n of samples added *)
Definition drawable (n : Z) (c : Z) : Prop := is_int16 c /\ -18 * (4096 / n) <= c <= 19 * (4096 / n).
Lemma div_4096 k : (1 <= k <= 10)%nat -> 4096 / Z.of_nat (2 ^ k) = Z.of_nat (2 ^ (12 - k)).
Proof.
  intros Hk. assert (X : (2 ^ (12 - k) * 2 ^ k = 4096)%nat) by (rewrite <- Nat.pow_add_r; replace (12 - k + k)%nat with 12%nat by lia; reflexivity).
  change 4096 with (Z.of_nat 4096). rewrite <- X, Nat2Z.inj_mul, Z.div_mul; [reflexivity|]. pose proof (Nat.pow_nonzero 2 k). lia.
Qed.
Lemma drawable_split k f : (1 <= k <= 10)%nat -> Forall (drawable (Z.of_nat (2 ^ k))) f <-> int16s f /\ Forall (reach (2 ^ (12 - k))) f.
Proof.
  intros Hk. unfold drawable, reach, int16s. rewrite div_4096 by exact Hk. split; [apply Forall_and_inv|intros [A B]; apply Forall_and; assumption].
Qed.

Theorem C104_any_pair : forall ci cu k f g, (1 <= k <= 10)%nat -> length f = (2 ^ k)%nat -> length g = (2 ^ k)%nat ->
  let n := Z.of_nat (2 ^ k) in Forall (drawable n) f -> Forall (drawable n) g ->
  exists rb, byte_blocks rb /\ forall sf,
    GenPoly (binary64 ci cu) rb (S sf) n 0 = Ok (f, 4096%nat) /\
    GenPoly (binary64 ci cu) rb (S sf) n 4096 = Ok (g, (4096 + 4096)%nat).
Proof.
  cbv zeta. intros ci cu k f g Hk Lf Lg Df Dg. apply (drawable_split k f Hk) in Df. apply (drawable_split k g Hk) in Dg.
  destruct Df as [If Rf]. destruct Dg as [Ig Rg]. exists (streamZ (tape_for (2 ^ k) f g)). split; [exact (tape_bytes k f g Hk Rf Rg)|].
  intros sf. exact (any_pair ci cu k f g sf Hk Lf Lg If Ig Rf Rg).
Qed.
Print Assumptions C104_any_pair.

(** GenPoly returns exactly these *)
Theorem C104_outputs : forall ci cu k f, (1 <= k <= 10)%nat -> let n := Z.of_nat (2 ^ k) in
  (exists rb sf c c', GenPoly (binary64 ci cu) rb sf n c = Ok (f, c')) <->
  length f = (2 ^ k)%nat /\ Forall (drawable n) f.
Proof.
  cbv zeta. intros ci cu k f Hk. split.
  - intros (rb & sf & c & c' & E). pose proof (Nat.pow_nonzero 2 k ltac:(lia)) as NZ.
    destruct (C41_wrapped_sums ci cu rb sf (Z.of_nat (2 ^ k)) c f c' ltac:(lia) E) as (_ & l & _ & Ll & A & ->).
    rewrite Nat2Z.id, div_4096, Nat2Z.id by exact Hk. split; [rewrite map_length, seq_length; reflexivity|].
    apply Forall_forall. intros x Hx. apply in_map_iff in Hx. destruct Hx as (i & <- & Hi). apply in_seq in Hi.
    unfold drawable. rewrite div_4096 by exact Hk. pose proof (wrap16_int16 (sum_list (block l (2 ^ (12 - k)) i))) as W.
    split; [exact W|].
    pose proof (sum_list_bound _ (-18) 19 (block_all _ _ (2 ^ (12 - k)) i A)) as B.
    assert (X : (2 ^ k * 2 ^ (12 - k) = 4096)%nat) by (rewrite <- Nat.pow_add_r; replace (k + (12 - k))%nat with 12%nat by lia; reflexivity).
    rewrite (block_length l _ i (2 ^ k) Ll (Nat.eq_le_incl _ _ X) (proj2 Hi)) in B.
    destruct (Nat.eq_dec k 1) as [->|K1].
    + change (Z.of_nat (2 ^ (12 - 1))) with 2048 in *. unfold is_int16 in W. lia.
    + assert (U : (2 ^ (12 - k) <= 2 ^ 10)%nat) by (apply Nat.pow_le_mono_r; lia). change (2 ^ 10)%nat with 1024%nat in U.
      rewrite wrap16_id; [exact B|]. unfold is_int16. lia.
  - intros (Lf & Df). destruct (C104_any_pair ci cu k f f Hk Lf Lf Df Df) as (rb & _ & H). exists rb, 1%nat, 0%nat, 4096%nat. exact (proj1 (H 0%nat)).
Qed.
Print Assumptions C104_outputs.

(** ** One round of key generation *)
Lemma run_key (FO : floats) quo k f g rb sf rf fuel gs v : (1 <= k <= 10)%nat -> let n := Z.of_nat (2 ^ k) in
  GenPoly FO rb sf n 0 = Ok (f, 4096%nat) -> GenPoly FO rb sf n 4096 = Ok (g, (4096 + 4096)%nat) ->
  GsNorm FO (Int16ToFloat64 FO f) (Int16ToFloat64 FO g) (f_of_int FO Q) = Ok gs -> f_ltb FO (gs_bound FO) gs = false ->
  NTT wrap64 f = Ok v -> AnyZeroes v = false ->
  exists rest, GeneratePrivateKey wrap64 FO quo rb sf rf (S fuel) n =
    match NtruSolve quo rf f g with
    | Ok (F, G) => Ok {| sk_n := n; sk_f := f; sk_g := g; sk_F := BigIntToInt16 F; sk_G := BigIntToInt16 G |}
    | Err _ => rest | Panic => Panic | Diverge => Diverge
    end.
Proof.
  cbv zeta. intros Hk E1 E2 E3 E4 E5 E6.
  unfold GeneratePrivateKey. assert (V : isValidDegree (Z.of_nat (2 ^ k)) = true).
  { do 11 (destruct k as [|k]; [try lia; reflexivity|]). lia. }
  rewrite V. cbn [negb NtruGen]. rewrite E1. cbn [bind]. rewrite E2. cbn [bind]. rewrite E3. cbn [bind]. rewrite E4, E5. cbn [bind]. rewrite E6.
  unfold Int16ToBigInt. set (r := NtruSolve quo rf f g). clearbody r. destruct r as [[F G]|e| |]; cbn [bind]; [exists Diverge| |exists Diverge|exists Diverge]; [reflexivity| |reflexivity|reflexivity]. eexists. reflexivity.
Qed.

Lemma q_divides (w : Z) n a b : (w ^ Z.of_nat n + 1) mod q = 0 -> cong (w ^ Z.of_nat n + 1) a b -> cong q a b.
Proof.
  intros D H. apply Z.mod_divide in D; [|discriminate]. destruct D as (d & D). unfold cong in *. rewrite D in H.
  destruct (Z.eq_dec d 0) as [->|Hd]; [rewrite !Zmod_0_r in H; now rewrite H|].
  rewrite (Z.div_mod a (d * q)), (Z.div_mod b (d * q)), H by (unfold q; lia).
  replace (d * q * (a / (d * q)) + b mod (d * q)) with (b mod (d * q) + (d * (a / (d * q))) * q) by ring.
  replace (d * q * (b / (d * q)) + b mod (d * q)) with (b mod (d * q) + (d * (b / (d * q))) * q) by ring.
  rewrite !Z_mod_plus_full. reflexivity.
Qed.
Lemma ntt_nonzero n f : valid_degree n -> length f = n -> int16s f ->
  (forall w, (w ^ Z.of_nat n + 1) mod q = 0 -> eval f w mod q <> 0) -> exists v, NTT wrap64 f = Ok v /\ AnyZeroes v = false.
Proof.
  intros V L I H. destruct (C14_ntt_evaluates n V) as (ws & _ & _ & R & E). exists (map (fun w => eval f w mod q) ws).
  split; [exact (E f L I)|]. destruct (AnyZeroes _) eqn:A; [|reflexivity]. exfalso. apply AnyZeroes_spec, Exists_exists in A.
  destruct A as (x & Hx & X0). apply in_map_iff in Hx. destruct Hx as (w & <- & Hw). rewrite Forall_forall in R. exact (H w (proj2 (R w Hw)) X0).
Qed.
Lemma valid_pow k : (1 <= k <= 10)%nat -> valid_degree (2 ^ k).
Proof. intros H. exists k. auto. Qed.

(** ** Wrong keys: f = g = 1 + c x *)
Fixpoint powq (c : Z) (k : nat) : Z := match k with O => c mod q | S k => let x := powq c k in (x * x) mod q end.
Lemma powq_spec c k : powq c k = c ^ Z.of_nat (2 ^ k) mod q.
Proof.
  induction k as [|k IH]; [cbn [powq]; change (Z.of_nat (2 ^ 0)) with 1; rewrite Z.pow_1_r; reflexivity|].
  cbn [powq]. rewrite IH, <- Zmult_mod. f_equal. rewrite <- Z.pow_add_r by lia. f_equal. cbn [Nat.pow]. lia.
Qed.
Lemma lin_ntt k c : (1 <= k <= 10)%nat -> is_int16 c -> powq c k <> q - 1 -> exists v, NTT wrap64 (lin k c) = Ok v /\ AnyZeroes v = false.
Proof.
  intros Hk Ic Hp. destruct k as [|k]; [lia|]. apply (ntt_nonzero (2 ^ S k)); [apply valid_pow, Hk|apply lin_length| |].
  - unfold lin, int16s. constructor; [unfold is_int16; lia|]. constructor; [exact Ic|]. apply Forall_forall. intros x Hx. apply repeat_spec in Hx. subst. unfold is_int16. lia.
  - intros w Hw E. rewrite eval_lin_S in E. apply Hp. rewrite powq_spec.
    assert (EV : Z.even (Z.of_nat (2 ^ S k)) = true) by (apply Z.even_spec; exists (Z.of_nat (2 ^ k)); cbn [Nat.pow]; lia).
    assert (A : cong q (c * w) (-1)).
    { apply (cong_sub q _ 0 1 1) in E; [|reflexivity]. replace (1 + c * w - 1) with (c * w) in E by ring. exact E. }
    assert (B : cong q (c ^ Z.of_nat (2 ^ S k) * w ^ Z.of_nat (2 ^ S k)) 1).
    { rewrite <- Z.pow_mul_l. unfold cong in *. rewrite Zpow_facts.Zpower_mod, A, <- Zpow_facts.Zpower_mod by reflexivity.
      replace (-1) with (- (1)) by reflexivity. rewrite Z.pow_opp_even by (apply Z.even_spec, EV). rewrite Z.pow_1_l by lia. reflexivity. }
    assert (D : cong q (w ^ Z.of_nat (2 ^ S k)) (-1)).
    { apply (cong_sub q _ 0 1 1) in Hw; [|reflexivity]. replace (w ^ Z.of_nat (2 ^ S k) + 1 - 1) with (w ^ Z.of_nat (2 ^ S k)) in Hw by ring. exact Hw. }
    pose proof (cong_mul q _ _ _ _ (eq_refl : cong q (c ^ Z.of_nat (2 ^ S k)) _) D) as M.
    assert (N : cong q (c ^ Z.of_nat (2 ^ S k) * -1) 1) by (unfold cong in *; rewrite <- M; exact B).
    apply (cong_mul q _ _ (-1) (-1)) in N; [|reflexivity]. unfold cong in N.
    replace (c ^ Z.of_nat (2 ^ S k) * -1 * -1) with (c ^ Z.of_nat (2 ^ S k)) in N by ring. rewrite N. reflexivity.
Qed.
(** the value of c used: a multiple of 4, of 16 below degree 1024 *)
Definition bad_c (k : nat) : Z := if (k =? 10)%nat then 76 else 80.
Lemma bad_c_range k : bad_c k = 76 \/ bad_c k = 80.
Proof. unfold bad_c. destruct (k =? 10)%nat; auto. Qed.
Lemma bad_pow k : (4 <= k <= 10)%nat -> (bad_c k ^ Z.of_nat (2 ^ k)) mod 2 ^ 64 = 0.
Proof.
  intros Hk. apply Z.mod_divide; [discriminate|]. unfold bad_c. destruct (Nat.eqb_spec k 10) as [->|K].
  - change 76 with (2 ^ 2 * 19). rewrite Z.pow_mul_l, <- Z.pow_mul_r by lia. apply Z.divide_mul_l.
    change (2 * Z.of_nat (2 ^ 10)) with (64 + 1984). rewrite Z.pow_add_r by lia. apply Z.divide_factor_l.
  - change 80 with (2 ^ 4 * 5). rewrite Z.pow_mul_l, <- Z.pow_mul_r by lia. apply Z.divide_mul_l.
    assert (16 <= 2 ^ k)%nat by (apply (Nat.pow_le_mono_r 2 4); lia).
    replace (4 * Z.of_nat (2 ^ k)) with (64 + (4 * Z.of_nat (2 ^ k) - 64)) by lia. rewrite Z.pow_add_r by lia. apply Z.divide_factor_l.
Qed.
Definition bad (k : nat) : list Z := lin k (bad_c k).
Lemma bad_drawable k : (4 <= k <= 10)%nat -> Forall (drawable (Z.of_nat (2 ^ k))) (bad k).
Proof.
  intros Hk. assert (B : 4 <= 4096 / Z.of_nat (2 ^ k) /\ bad_c k <= 19 * (4096 / Z.of_nat (2 ^ k))).
  { rewrite div_4096 by lia. unfold bad_c. destruct (Nat.eqb_spec k 10) as [->|K]; [vm_compute; split; discriminate|].
    assert (2 ^ 3 <= 2 ^ (12 - k))%nat by (apply Nat.pow_le_mono_r; lia). change (2 ^ 3)%nat with 8%nat in *. lia. }
  pose proof (bad_c_range k) as R. unfold bad. destruct k as [|k]; [lia|]. unfold lin, drawable, is_int16.
  constructor; [lia|]. constructor; [lia|]. apply Forall_forall. intros x Hx. apply repeat_spec in Hx. subst. lia.
Qed.
Lemma bad_ntt k : (4 <= k <= 10)%nat -> exists v, NTT wrap64 (bad k) = Ok v /\ AnyZeroes v = false.
Proof.
  intros Hk. apply lin_ntt; [lia|pose proof (bad_c_range k); unfold is_int16; lia|].
  do 11 (destruct k as [|k]; [try lia; vm_compute; discriminate|]). lia.
Qed.
Lemma bad_gs ci cu k : (4 <= k <= 10)%nat -> let FO := binary64 ci cu in
  exists gs, GsNorm FO (Int16ToFloat64 FO (bad k)) (Int16ToFloat64 FO (bad k)) (f_of_int FO Q) = Ok gs /\ f_ltb FO (gs_bound FO) gs = false.
Proof.
  intros Hk FO. pose proof (bad_c_range k) as R. unfold bad. destruct k as [|k]; [lia|].
  apply (gs_pass ci cu (S k)); [lia|apply lin_length|apply lin_length| |].
  - rewrite zsum2_lin. destruct R as [-> | ->]; lia.
  - intros j Hj. apply lin_pass; [exact Hj|lia].
Qed.
Lemma bad_no_err ci cu k rf e : (4 <= k <= 10)%nat -> NtruSolve (reduce_quotient (binary64 ci cu)) rf (bad k) (bad k) <> Err e.
Proof.
  intros Hk ES. pose proof (bad_pow k Hk) as BP. destruct k as [|k]; [lia|]. unfold bad in *. set (c := bad_c (S k)) in *.
  pose proof (norm_lin k c) as N. set (m := c ^ Z.of_nat (2 ^ S k)) in *.
  destruct (C34_code_error (binary64 ci cu) rf k _ _ _ _ ltac:(lia) (lin_length _ _) (lin_length _ _) N N) as [H1 H2].
  pose proof (H2 e ES) as ->. apply H1 in ES. apply ES. rewrite Z.gcd_diag, Z.abs_eq.
  - rewrite Zplus_mod, BP. reflexivity.
  - pose proof (is_norm_nonneg _ _ _ N). lia.
Qed.
Theorem C104_wrong : forall k, (4 <= k <= 10)%nat -> exists rb, byte_blocks rb /\
  forall ci cu sf rf fuel, let FO := binary64 ci cu in
  let r := GeneratePrivateKey wrap64 FO (reduce_quotient FO) rb (S sf) rf fuel (Z.of_nat (2 ^ k)) in
  r = Diverge \/ exists sk, r = Ok sk /\ ~ ntru_equation (2 ^ k) (sk_f sk) (sk_g sk) (sk_F sk) (sk_G sk).
Proof.
  intros k Hk. pose proof (bad_drawable k Hk) as D. apply (drawable_split k _ ltac:(lia)) in D. destruct D as [I R].
  assert (L : length (bad k) = (2 ^ k)%nat) by apply lin_length.
  exists (streamZ (tape_for (2 ^ k) (bad k) (bad k))). split; [exact (tape_bytes k _ _ ltac:(lia) R R)|].
  cbv zeta. intros ci cu sf rf [|fuel].
  { left. unfold GeneratePrivateKey. destruct (isValidDegree _) eqn:V; [reflexivity|exfalso].
    do 11 (destruct k as [|k]; [try lia; discriminate V|]). lia. }
  destruct (any_pair ci cu k _ _ sf ltac:(lia) L L I I R R) as [E1 E2]. destruct (bad_gs ci cu k Hk) as (gs & E3 & E4).
  destruct (bad_ntt k Hk) as (v & E5 & E6).
  destruct (run_key (binary64 ci cu) (reduce_quotient (binary64 ci cu)) k _ _ _ (S sf) rf fuel gs v ltac:(lia) E1 E2 E3 E4 E5 E6) as (rest & E).
  destruct (GeneratePrivateKey _ _ _ _ _ _ _ _) as [sk| | |] eqn:K; [right|..].
  - exists sk. split; [reflexivity|].
    destruct (C36_generated_partial _ _ _ _ _ _ _ sk (Nat2Z.is_nonneg (2 ^ k)) K) as (_ & _ & _ & _ & LF & LG & _). rewrite Nat2Z.id in LF, LG.
    destruct (NtruSolve _ _ _ _) as [[F G]|e| |] eqn:ES; try discriminate E.
    + apply Ok_inj in E. subst sk. cbn [sk_f sk_g sk_F sk_G] in *. destruct k as [|k]; [lia|]. unfold bad in *.
      pose proof (bad_c_range (S k)) as RC.
      apply (lin_no_equation k); [lia| |exact LF|exact LG].
      apply Z.lt_le_trans with (76 ^ 4); [reflexivity|]. apply Z.le_trans with (bad_c (S k) ^ 4); [apply Z.pow_le_mono_l; lia|].
      apply Z.pow_le_mono_r; [lia|]. assert (2 ^ 2 <= 2 ^ S k)%nat by (apply Nat.pow_le_mono_r; lia). change (2 ^ 2)%nat with 4%nat in *. lia.
    + exfalso. exact (bad_no_err ci cu k rf e Hk ES).
  - destruct (NtruSolve _ _ _ _) as [[F G]|e'| |] eqn:ES; try discriminate E. exfalso. exact (bad_no_err ci cu k rf e' Hk ES).
  - destruct (NtruSolve _ _ _ _) as [[F G]|e'| |] eqn:ES; try discriminate E.
    + exfalso. exact (bad_no_err ci cu k rf e' Hk ES).
    + exfalso. exact (C34_code_no_panic _ rf k _ _ ltac:(lia) L L ES).
  - left. reflexivity.
Qed.
Print Assumptions C104_wrong.

(** ** Keys never returned: units *)
Fixpoint lifts (j : nat) (f : list Z) : list Z := match j with O => f | S j => plift (lifts j f) end.
Lemma lifts_length j f : length f = 8%nat -> length (lifts j f) = (2 ^ (3 + j))%nat.
Proof. intros L. induction j as [|j IH]; [exact L|]. cbn [lifts]. rewrite plift_length, IH. reflexivity. Qed.
Lemma lifts_norm j f : is_norm 3 f 1 -> is_norm (3 + j) (lifts j f) 1.
Proof. intros N. induction j as [|j IH]; [exact N|]. exact (is_norm_plift (3 + j) _ 1 IH). Qed.
Lemma lifts_inv j f u : length f = 8%nat -> length u = 8%nat -> negacyc 8 f u = pconst 8 1 ->
  negacyc (2 ^ (3 + j)) (lifts j f) (lifts j u) = pconst (2 ^ (3 + j)) 1.
Proof.
  intros Lf Lu E. induction j as [|j IH]; [exact E|].
  exact (inv_plift (3 + j) _ _ (lifts_length j f Lf) (lifts_length j u Lu) IH).
Qed.
Lemma lifts_Forall (Q0 : Z -> Prop) j f : Q0 0 -> Forall Q0 f -> Forall Q0 (lifts j f).
Proof.
  intros H0 H. induction j as [|j IH]; [exact H|]. cbn [lifts]. induction IH as [|a l Ha Hl IH2]; [constructor|].
  rewrite plift_cons. constructor; [exact Ha|]. constructor; [exact H0|exact IH2].
Qed.
Lemma lifts_sum j f : fold_right (fun z s => z * z + s) 0 (lifts j f) = fold_right (fun z s => z * z + s) 0 f.
Proof. induction j as [|j IH]; [reflexivity|]. cbn [lifts]. rewrite zsum2_plift. exact IH. Qed.
Lemma unit_ntt_any n f u : valid_degree n -> length f = n -> length u = n -> int16s f -> negacyc n f u = pconst n 1 ->
  exists v, NTT wrap64 f = Ok v /\ AnyZeroes v = false.
Proof.
  intros V Lf Lu I E. apply (ntt_nonzero n f V Lf I). intros w Hw Z0.
  assert (Hn : (0 < n)%nat) by (destruct V as (k & _ & ->); pose proof (Nat.pow_nonzero 2 k); lia).
  pose proof (q_divides w n _ _ Hw (nega_eval n f u w Lf Lu)) as C. rewrite E, eval_pconst in C by exact Hn.
  unfold cong in C. rewrite Zmult_mod, Z0 in C. discriminate C.
Qed.
Lemma u_norms : is_norm 3 u_f 1 /\ is_norm 3 u_g 1.
Proof. split; apply norm_by_steps; vm_compute; reflexivity. Qed.
Definition hang_f (k : nat) : list Z := lifts (k - 3) u_f.
Definition hang_g (k : nat) : list Z := lifts (k - 3) u_g.
Lemma hang_small k f : (3 <= k <= 10)%nat -> Forall (fun c => -72 <= c <= 76) f -> Forall (drawable (Z.of_nat (2 ^ k))) (lifts (k - 3) f).
Proof.
  intros Hk H. assert (B : 4 <= 4096 / Z.of_nat (2 ^ k)).
  { rewrite div_4096 by lia. assert (2 ^ 2 <= 2 ^ (12 - k))%nat by (apply Nat.pow_le_mono_r; lia). change (2 ^ 2)%nat with 4%nat in *. lia. }
  apply lifts_Forall; [unfold drawable, is_int16; lia|]. eapply Forall_impl; [|exact H]. cbv beta. intros c Hc. unfold drawable, is_int16. lia.
Qed.
Lemma hang_drawable k : (3 <= k <= 10)%nat -> Forall (drawable (Z.of_nat (2 ^ k))) (hang_f k) /\ Forall (drawable (Z.of_nat (2 ^ k))) (hang_g k).
Proof. intros Hk. split; apply (hang_small k _ Hk); unfold u_f, u_g; repeat constructor; lia. Qed.
Lemma hang_length k : (3 <= k)%nat -> length (hang_f k) = (2 ^ k)%nat /\ length (hang_g k) = (2 ^ k)%nat.
Proof.
  intros Hk. unfold hang_f, hang_g. rewrite !lifts_length by reflexivity. replace (3 + (k - 3))%nat with k by lia. auto.
Qed.
Lemma hang_gs ci cu k : (3 <= k <= 10)%nat -> let FO := binary64 ci cu in
  exists gs, GsNorm FO (Int16ToFloat64 FO (hang_f k)) (Int16ToFloat64 FO (hang_g k)) (f_of_int FO Q) = Ok gs /\ f_ltb FO (gs_bound FO) gs = false.
Proof.
  intros Hk FO. destruct (hang_length k ltac:(lia)) as [Lf Lg]. apply (gs_pass ci cu k); [lia|exact Lf|exact Lg| |].
  - unfold hang_f, hang_g. rewrite !lifts_sum. vm_compute. discriminate.
  - assert (A : forall i j, (j < 2 ^ (3 + i))%nat ->
      Rdefinitions.Rle (Rdefinitions.IZR 9500) (GsExact.lam (map Rdefinitions.IZR (lifts i u_f)) (map Rdefinitions.IZR (lifts i u_g)) (Babai.P SpecFft.exact_roots (3 + i) j))).
    { induction i as [|i IH]; [exact lam_u|]. exact (lam_plift (3 + i) _ _ _ IH). }
    specialize (A (k - 3)%nat). replace (3 + (k - 3))%nat with k in A by lia. exact A.
Qed.
Lemma hang_solve ci cu k rf : (3 <= k <= 10)%nat -> NtruSolve (reduce_quotient (binary64 ci cu)) rf (hang_f k) (hang_g k) = Diverge.
Proof.
  intros Hk. destruct u_norms as [A B]. apply (C76_units_diverge ci cu rf k); [lia|apply hang_length; lia| |].
  - unfold hang_f. pose proof (lifts_norm (k - 3) _ A) as N. replace (3 + (k - 3))%nat with k in N by lia. exact N.
  - unfold hang_g. pose proof (lifts_norm (k - 3) _ B) as N. replace (3 + (k - 3))%nat with k in N by lia. exact N.
Qed.
Lemma hang_ntt k : (3 <= k <= 10)%nat -> exists v, NTT wrap64 (hang_f k) = Ok v /\ AnyZeroes v = false.
Proof.
  intros Hk. destruct (hang_drawable k Hk) as [D _]. apply (drawable_split k _ ltac:(lia)) in D.
  apply (unit_ntt_any (2 ^ k) _ (lifts (k - 3) u_inv)); [apply valid_pow; lia|apply hang_length; lia| |apply D|].
  - rewrite lifts_length by reflexivity. f_equal. lia.
  - unfold hang_f. pose proof (lifts_inv (k - 3) u_f u_inv eq_refl eq_refl u_inverse) as N. replace (3 + (k - 3))%nat with k in N by lia. exact N.
Qed.
Theorem C104_hang : forall k, (3 <= k <= 10)%nat -> exists rb, byte_blocks rb /\
  forall ci cu, let FO := binary64 ci cu in
  (forall sf, exists f g, GenPoly FO rb (S sf) (Z.of_nat (2 ^ k)) 0 = Ok (f, 4096%nat) /\ GenPoly FO rb (S sf) (Z.of_nat (2 ^ k)) 4096 = Ok (g, (4096 + 4096)%nat)) /\
  forall sf rf fuel, GeneratePrivateKey wrap64 FO (reduce_quotient FO) rb (S sf) rf fuel (Z.of_nat (2 ^ k)) = Diverge.
Proof.
  intros k Hk. destruct (hang_drawable k Hk) as [Df Dg]. apply (drawable_split k _ ltac:(lia)) in Df. apply (drawable_split k _ ltac:(lia)) in Dg.
  destruct Df as [If Rf]. destruct Dg as [Ig Rg]. destruct (hang_length k ltac:(lia)) as [Lf Lg].
  exists (streamZ (tape_for (2 ^ k) (hang_f k) (hang_g k))). split; [exact (tape_bytes k _ _ ltac:(lia) Rf Rg)|].
  cbv zeta. intros ci cu. assert (AP := fun sf => any_pair ci cu k _ _ sf ltac:(lia) Lf Lg If Ig Rf Rg). cbv zeta in AP. split; [intros sf; eauto|].
  intros sf rf [|fuel].
  { unfold GeneratePrivateKey. destruct (isValidDegree _) eqn:V; [reflexivity|exfalso]. do 11 (destruct k as [|k]; [try lia; discriminate V|]). lia. }
  destruct (AP sf) as [E1 E2]. destruct (hang_gs ci cu k Hk) as (gs & E3 & E4). destruct (hang_ntt k Hk) as (v & E5 & E6).
  destruct (run_key (binary64 ci cu) (reduce_quotient (binary64 ci cu)) k _ _ _ (S sf) rf fuel gs v ltac:(lia) E1 E2 E3 E4 E5 E6) as (rest & E).
  rewrite E, hang_solve by exact Hk. reflexivity.
Qed.
Print Assumptions C104_hang.

(** the polynomials of the largest degree, and a coefficient that cannot be drawn there *)
Example C104_nonvacuous :
  firstn 2 (bad 10) = [1; 76] /\ length (bad 10) = 1024%nat /\ firstn 3 (hang_f 4) = [-1; 0; 41] /\
  drawable 1024 76 /\ ~ drawable 1024 77 /\ drawable 512 77 /\ drawable 2 (-32768).
Proof.
  split; [reflexivity|]. split; [apply lin_length|]. split; [reflexivity|]. unfold drawable, is_int16.
  change (4096 / 1024) with 4. change (4096 / 512) with 8. change (4096 / 2) with 2048. lia.
Qed.
