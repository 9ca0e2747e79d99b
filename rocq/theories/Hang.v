(** NtruSolve (ntrugen.go:246-274) on two units of Z[x]/(x^n+1): at degree 2 the
    quotient in reduce is a half-integer, math.Round moves it away from zero
    both ways, and the loop alternates between two states. *)
From Verif Require Import GoBase Util Ntt Params Falcon Spec PolyRing PolyZ PolyEval BaseProofs Float Samplerz SamplerProofs Fft
  Ntrugen NtruProofs NtruProofs2 NtruProofs3 Ffsampling KeyGen Binary64.

(** ** One round of reduce *)
Definition one_round (quo : quotient) (f g : list Z) (size : Z) (F G : list Z) : res (option (list Z * list Z)) :=
  SIZE <- max_bitsize F G ;;
  if SIZE <? size then Ok None else
  k <- quo (adjust size f) (adjust size g) (adjust SIZE F) (adjust SIZE G) ;;
  if AllZeroes k then Ok None else
  fk <- karamul f (IntToBigInt k) ;;
  gk <- karamul g (IntToBigInt k) ;;
  F <- sub_shifted (length f) F fk (SIZE - size) ;;
  G <- sub_shifted (length f) G gk (SIZE - size) ;;
  Ok (Some (F, G)).
Lemma one_round_loop quo fuel f g size F G F1 G1 : one_round quo f g size F G = Ok (Some (F1, G1)) ->
  reduce_loop quo (S fuel) f g size F G = reduce_loop quo fuel f g size F1 G1.
Proof.
  unfold one_round. cbn [reduce_loop]. destruct (max_bitsize F G) as [s| | |]; cbn [bind]; try discriminate.
  destruct (s <? size); [discriminate|]. destruct (quo _ _ _ _) as [k| | |]; cbn [bind]; try discriminate.
  destruct (AllZeroes k); [discriminate|]. destruct (karamul f _) as [fk| | |]; cbn [bind]; try discriminate.
  destruct (karamul g _) as [gk| | |]; cbn [bind]; try discriminate.
  destruct (sub_shifted _ F _ _) as [a| | |]; cbn [bind]; try discriminate.
  destruct (sub_shifted _ G _ _) as [b| | |]; cbn [bind]; try discriminate.
  intros E. apply Ok_inj in E. injection E as -> ->. reflexivity.
Qed.
Definition eqlist (a b : list Z) : bool := if list_eq_dec Z.eq_dec a b then true else false.
(** the third round undoes the second *)
Definition cycles (quo : quotient) (f g F G : list Z) : bool :=
  match one_round quo f g 53 F G with
  | Ok (Some (F1, G1)) =>
      match one_round quo f g 53 F1 G1 with
      | Ok (Some (F2, G2)) =>
          match one_round quo f g 53 F2 G2 with
          | Ok (Some (F3, G3)) => eqlist F3 F1 && eqlist G3 G1
          | _ => false
          end
      | _ => false
      end
  | _ => false
  end.
Lemma cycles_diverge quo f g F G : cycles quo f g F G = true -> forall fuel, reduce_loop quo fuel f g 53 F G = Diverge.
Proof.
  unfold cycles. destruct (one_round quo f g 53 F G) as [[[F1 G1]|]| | |] eqn:E0; try discriminate.
  destruct (one_round quo f g 53 F1 G1) as [[[F2 G2]|]| | |] eqn:E1; try discriminate.
  destruct (one_round quo f g 53 F2 G2) as [[[F3 G3]|]| | |] eqn:E2; try discriminate.
  unfold eqlist. destruct (list_eq_dec Z.eq_dec F3 F1) as [->|]; [|discriminate].
  destruct (list_eq_dec Z.eq_dec G3 G1) as [->|]; [|discriminate]. intros _.
  assert (H : forall fuel, reduce_loop quo fuel f g 53 F1 G1 = Diverge /\ reduce_loop quo fuel f g 53 F2 G2 = Diverge).
  { induction fuel as [|fuel [I1 I2]]; [split; reflexivity|]. split.
    - rewrite (one_round_loop _ _ _ _ _ _ _ _ _ E1). exact I2.
    - rewrite (one_round_loop _ _ _ _ _ _ _ _ _ E2). exact I1. }
  intros [|fuel]; [reflexivity|]. rewrite (one_round_loop _ _ _ _ _ _ _ _ _ E0). apply H.
Qed.

Lemma unit2 a b : a * a + b * b = 1 -> (a = 1 /\ b = 0) \/ (a = -1 /\ b = 0) \/ (a = 0 /\ b = 1) \/ (a = 0 /\ b = -1).
Proof.
  intros H. assert (-1 <= a <= 1) by nia. assert (-1 <= b <= 1) by nia.
  assert (a = -1 \/ a = 0 \/ a = 1) as [->|[->| ->]] by lia; assert (b = -1 \/ b = 0 \/ b = 1) as [->|[->| ->]] by lia; lia.
Qed.
(** the norm of the next level *)
Lemma fieldNorm_unit k f : is_norm (S k) f 1 -> exists r, fieldNorm f = Ok r /\ is_norm k r 1.
Proof.
  intros H. inversion H as [|k' f' r m Lf Lr E N]; subst. destruct (fieldNorm_ok k f Lf) as (r' & E' & Lr' & P).
  exists r'. split; [exact E'|]. assert (r' = r) by (apply plift_inj; congruence). subst r'. exact N.
Qed.
Lemma norm2 f : is_norm 1 f 1 -> exists a b, f = [a; b] /\ a * a + b * b = 1.
Proof.
  intros H. inversion H as [|k' f' r m Lf Lr E N]; subst. inversion N; subst. destruct f as [|a [|b [|]]]; try discriminate.
  exists a, b. split; [reflexivity|]. apply (f_equal (fun l => coef l 0)) in E. cbn in E. destruct a, b; nia.
Qed.

Section Hang.
Context (ci cu : b64 -> Z).
Notation FO := (binary64 ci cu).
Notation quo := (reduce_quotient FO).

Definition units2 : list (list Z) := [[1; 0]; [-1; 0]; [0; 1]; [0; -1]].
Definition start (f g : list Z) : res (list Z * list Z) :=
  cg <- galoisConjugate g ;; F <- karamul (lift [-12289]) cg ;;
  cf <- galoisConjugate f ;; G <- karamul (lift [0]) cf ;; Ok (F, G).
Definition hangs (f g : list Z) : bool :=
  match max_bitsize f g, start f g with
  | Ok 53, Ok (F, G) => cycles quo f g F G
  | _, _ => false
  end.
Lemma all_hang : forallb (fun f => forallb (hangs f) units2) units2 = true.
Proof. vm_compute. reflexivity. Qed.

Lemma hang2 fuel d f g : In f units2 -> In g units2 -> NtruSolve_depth quo fuel (S (S d)) f g = Diverge.
Proof.
  intros Hf Hg. pose proof all_hang as A. rewrite forallb_forall in A. specialize (A f Hf).
  rewrite forallb_forall in A. specialize (A g Hg). unfold hangs in A.
  assert (E : NtruSolve_depth quo fuel (S (S d)) f g = FG <- start f g ;; let '(F, G) := FG in reduce quo fuel f g F G).
  { clear A. generalize quo. intros qq. 
    repeat (destruct Hf as [<-|Hf]; [repeat (destruct Hg as [<-|Hg]; [reflexivity|]); destruct Hg|]). destruct Hf. }
  rewrite E. unfold reduce. destruct (max_bitsize f g) as [s| | |]; try discriminate A.
  destruct (start f g) as [[F G]| | |]; [|destruct s; try discriminate A; repeat (destruct p; try discriminate A) ..]. 
  cbn [bind].
  assert (s = 53) as -> by (destruct s as [|p|p]; try discriminate A; repeat (destruct p as [p|p|]; try discriminate A); reflexivity).
  apply cycles_diverge, A.
Qed.

Theorem units_hang fuel k : forall depth f g, (S k < depth)%nat -> is_norm (S k) f 1 -> is_norm (S k) g 1 ->
  NtruSolve_depth quo fuel depth f g = Diverge.
Proof.
  induction k as [|k IH]; intros depth f g Hd Nf Ng.
  - destruct depth as [|[|d]]; try lia. apply hang2.
    + destruct (norm2 f Nf) as (a & b & -> & H). apply unit2 in H. unfold units2.
      destruct H as [[-> ->]|[[-> ->]|[[-> ->]|[-> ->]]]]; cbn; auto.
    + destruct (norm2 g Ng) as (a & b & -> & H). apply unit2 in H. unfold units2.
      destruct H as [[-> ->]|[[-> ->]|[[-> ->]|[-> ->]]]]; cbn; auto.
  - destruct depth as [|d]; [lia|]. pose proof (is_norm_length _ _ _ Nf) as Lf.
    destruct (fieldNorm_unit _ _ Nf) as (fp & Ef & Nfp). destruct (fieldNorm_unit _ _ Ng) as (gp & Eg & Ngp).
    cbn [NtruSolve_depth]. rewrite Lf. destruct (Nat.eqb_spec (2 ^ S (S k)) 1) as [X|X].
    { exfalso. pose proof (pow2_pos k). cbn [Nat.pow] in X. lia. }
    rewrite Ef, Eg. cbn [bind]. rewrite (IH d fp gp ltac:(lia) Nfp Ngp). reflexivity.
Qed.
End Hang.

(** ** Streams that make Samplerz return -1, 0 or 1 in its first round *)
Definition stream3 (t : nat -> Z) : rand :=
  fun k => Some (if t k =? 1 then repeat 255 9 ++ [1; 0] else if t k =? 0 then repeat 255 9 ++ [0; 0] else repeat 96 9 ++ [0; 0]).
Section Stream.
Context (ci cu : b64 -> Z).
Notation FO := (binary64 ci cu).
Context (t : nat -> Z) (Ht : forall i, t i = 1 \/ t i = 0 \/ t i = -1).
Lemma stream3_sample fuel k :
  Samplerz FO (stream3 t) (S fuel) (f_of_int FO 0) (sigma_gen FO) (sigmin_gen FO) k = Ok (t k, S k).
Proof.
  unfold Samplerz. cbn [sampler_loop]. unfold generateAndSplitRandBytes, stream3.
  destruct (Ht k) as [->|[->| ->]]; vm_compute; reflexivity.
Qed.
Lemma stream3_samples fuel m : forall k,
  samples FO (stream3 t) (S fuel) m k = Ok (map t (seq k m), (k + m)%nat).
Proof.
  induction m as [|m IH]; intros k; [cbn; rewrite Nat.add_0_r; reflexivity|].
  cbn [samples]. rewrite stream3_sample. cbn [bind fst snd]. rewrite IH. cbn [bind fst snd seq map].
  rewrite Nat.add_succ_r. reflexivity.
Qed.
Lemma stream3_block k m j i : (i * m + m <= j)%nat -> block (map t (seq k j)) m i = map t (seq (k + i * m) m).
Proof.
  intros H. unfold block. rewrite skipn_map, firstn_map. f_equal.
  replace j with (i * m + (m + (j - i * m - m)))%nat by lia.
  rewrite seq_app, skipn_app, skipn_all2 by (rewrite seq_length; lia).
  rewrite seq_length, Nat.sub_diag. cbn [skipn app].
  rewrite seq_app, firstn_app, firstn_all2 by (rewrite seq_length; lia).
  rewrite seq_length, Nat.sub_diag. cbn [firstn]. apply app_nil_r.
Qed.
Lemma stream3_GenPoly fuel n c : 1 <= n <= 4096 ->
  let m := Z.to_nat (4096 / n) in
  GenPoly FO (stream3 t) (S fuel) n c =
  Ok (map (fun i => sum_list (map t (seq (c + i * m) m))) (seq 0 (Z.to_nat n)), (c + 4096)%nat).
Proof.
  intros Hn m. unfold GenPoly. rewrite Z.gtb_ltb. destruct (Z.ltb_spec 4096 n); [lia|].
  rewrite stream3_samples. cbn [bind]. fold m.
  set (l := map t (seq c 4096)).
  assert (L : length l = 4096%nat) by (unfold l; rewrite map_length, seq_length; reflexivity).
  assert (Hm : (Z.to_nat n * m <= 4096)%nat).
  { unfold m. pose proof (Z.mul_div_le 4096 n ltac:(lia)). pose proof (Z.div_pos 4096 n). nia. }
  rewrite (mapM_Ok _ (fun i => sum_list (map t (seq (c + i * m) m)))); [reflexivity|].
  intros i Hi. apply in_seq in Hi.
  rewrite mapM_idx_seq by nia. cbn [bind]. f_equal.
  change (firstn m (skipn (i * m) l)) with (block l m i).
  unfold l. rewrite stream3_block by nia.
  assert (F : Forall (fun v => -1 <= v <= 1) (map t (seq (c + i * m) m))).
  { apply Forall_forall. intros x Hx. apply in_map_iff in Hx. destruct Hx as (y & <- & _). pose proof (Ht y). lia. }
  rewrite (fold_sum_exact _ 1); [|lia|exact F|rewrite map_length, seq_length; nia].
  rewrite Z.add_0_l. apply wrap16_id. unfold is_int16.
  pose proof (sum_list_bound _ (-1) 1 F) as B. rewrite map_length, seq_length in B. nia.
Qed.
End Stream.

(** ** The witness, of degree 8 *)
Definition unit_f : list Z := [39; 1; 9; -70; 0; 70; -9; -1].
Definition unit_g : list Z := [21; 22; 15; 9; 0; -9; -15; -22].
(** the first |c| samples of a block of 512 are the sign of the coefficient c *)
Definition unit_t (k : nat) : Z :=
  let c := nth (Nat.div k 512) (unit_f ++ unit_g) 0 in
  if (Z.of_nat (Nat.modulo k 512) <? Z.abs c) then Z.sgn c else 0.
Lemma unit_t_range i : unit_t i = 1 \/ unit_t i = 0 \/ unit_t i = -1.
Proof.
  unfold unit_t. set (c := nth _ _ _). destruct (_ <? _); [|auto]. destruct c; cbn; auto.
Qed.
Lemma sum_first (c : Z) m : forall s t, (forall i, (i < m)%nat -> t (s + i)%nat = if Z.of_nat i <? Z.abs c then Z.sgn c else 0) ->
  sum_list (map t (seq s m)) = Z.sgn c * Z.min (Z.abs c) (Z.of_nat m).
Proof.
  induction m as [|m IH]; intros s t H; [cbn; lia|].
  assert (E : sum_list (map t (seq s (S m))) = sum_list (map t (seq s m)) + t (s + m)%nat).
  { rewrite seq_S, map_app. cbn [map]. clear. induction (map t (seq s m)) as [|x l IH]; [cbn; lia|]. cbn [app].
    change (sum_list (x :: ?l)) with (x + sum_list l). rewrite IH. lia. }
  rewrite E, (IH s t) by (intros; apply H; lia). rewrite H by lia. destruct (Z.ltb_spec (Z.of_nat m) (Z.abs c)); nia.
Qed.
Lemma unit_block b : (b < 16)%nat -> sum_list (map unit_t (seq (b * 512) 512)) = nth b (unit_f ++ unit_g) 0.
Proof.
  intros Hb. set (c := nth b (unit_f ++ unit_g) 0).
  assert (Hc : Z.abs c <= 512). { unfold c. do 16 (destruct b as [|b]; [cbn; lia|]). lia. }
  rewrite (sum_first c). { change (Z.of_nat 512) with 512. rewrite Z.min_l by exact Hc. destruct c; cbn; lia. }
  intros i Hi. unfold unit_t.
  assert (D : Nat.div (b * 512 + i) 512 = b) by (symmetry; apply (Nat.div_unique _ 512 b i); lia).
  assert (M : Nat.modulo (b * 512 + i) 512 = i) by (symmetry; apply (Nat.mod_unique _ 512 b i); lia).
  rewrite D, M. reflexivity.
Qed.

Lemma match_Ok {A} (r : res A) (b : A -> bool) :
  match r with Ok x => b x | _ => true end = false -> exists x, r = Ok x /\ b x = false.
Proof. destruct r; try discriminate. eauto. Qed.
Section Gen.
Context (ci cu : b64 -> Z).
Notation FO := (binary64 ci cu).
Lemma unit_GenPoly_f fuel : GenPoly FO (stream3 unit_t) (S fuel) 8 0 = Ok (unit_f, 4096%nat).
Proof.
  rewrite (stream3_GenPoly ci cu unit_t unit_t_range) by lia. change (Z.to_nat (4096 / 8)) with 512%nat. change (Z.to_nat 8) with 8%nat.
  rewrite Nat.add_0_l. match goal with |- Ok (?a, _) = Ok (?b, _) => enough (E : a = b) by (rewrite E; reflexivity) end.
  transitivity (map (fun i => nth i (unit_f ++ unit_g) 0) (seq 0 8)); [|reflexivity].
  apply map_ext_in. intros i Hi. apply in_seq in Hi. rewrite Nat.add_0_l. apply unit_block. lia.
Qed.
Lemma unit_GenPoly_g fuel : GenPoly FO (stream3 unit_t) (S fuel) 8 4096 = Ok (unit_g, (4096 + 4096)%nat).
Proof.
  rewrite (stream3_GenPoly ci cu unit_t unit_t_range) by lia. change (Z.to_nat (4096 / 8)) with 512%nat. change (Z.to_nat 8) with 8%nat.
  match goal with |- Ok (?a, _) = Ok (?b, _) => enough (E : a = b) by (rewrite E; reflexivity) end.
  transitivity (map (fun i => nth (8 + i) (unit_f ++ unit_g) 0) (seq 0 8)); [|reflexivity].
  apply map_ext_in. intros i Hi. apply in_seq in Hi. replace (4096 + i * 512)%nat with ((8 + i) * 512)%nat by lia. apply unit_block. lia.
Qed.
Lemma unit_gs : exists gs, GsNorm FO (Int16ToFloat64 FO unit_f) (Int16ToFloat64 FO unit_g) (f_of_int FO Q) = Ok gs /\
  f_ltb FO (gs_bound FO) gs = false.
Proof. apply (match_Ok _ (f_ltb FO (gs_bound FO))). vm_compute. reflexivity. Qed.
Lemma unit_ntt : exists v, NTT wrap64 unit_f = Ok v /\ AnyZeroes v = false.
Proof. eexists. split; vm_compute; reflexivity. Qed.
Definition norm_steps (f : list Z) : res Z :=
  a <- fieldNorm f ;; b <- fieldNorm a ;; c <- fieldNorm b ;; idx c 0.
Lemma norm_by_steps f : length f = 8%nat -> norm_steps f = Ok 1 -> is_norm 3 f 1.
Proof.
  intros Lf E. unfold norm_steps in E.
  destruct (fieldNorm_ok 2 f Lf) as (a & Ea & La & Pa). rewrite Ea in E. cbn [bind] in E.
  destruct (fieldNorm_ok 1 a La) as (b & Eb & Lb & Pb). rewrite Eb in E. cbn [bind] in E.
  destruct (fieldNorm_ok 0 b Lb) as (c & Ec & Lc & Pc). rewrite Ec in E. cbn [bind] in E.
  destruct c as [|c0 [|]]; try discriminate. cbn in E. apply Ok_inj in E. subst c0.
  exact (norm_half 2 f a 1 Lf La Pa (norm_half 1 a b 1 La Lb Pb (norm_half 0 b [1] 1 Lb Lc Pc (norm_Z 1)))).
Qed.
Lemma unit_norm : is_norm 3 unit_f 1 /\ is_norm 3 unit_g 1.
Proof. split; apply norm_by_steps; vm_compute; reflexivity. Qed.
Lemma unit_solve fuel : NtruSolve (reduce_quotient FO) fuel unit_f unit_g = Diverge.
Proof. destruct unit_norm as [A B]. apply (units_hang ci cu fuel 2); [cbn; lia|exact A|exact B]. Qed.
Lemma unit_NtruGen fuel sf rf : NtruGen wrap64 FO (reduce_quotient FO) (stream3 unit_t) (S sf) rf (S fuel) 8 0 = Diverge.
Proof.
  cbn [NtruGen]. rewrite unit_GenPoly_f. cbn [bind]. rewrite unit_GenPoly_g. cbn [bind].
  generalize (unit_solve rf). generalize (reduce_quotient FO). intros qq HS.
  destruct unit_gs as (gs & EG & E). rewrite EG. cbn [bind]. rewrite E.
  destruct unit_ntt as (v & EN & E2). rewrite EN. cbn [bind]. rewrite E2.
  unfold Int16ToBigInt. rewrite HS. reflexivity.
Qed.
Lemma unit_Generate fuel sf rf :
  GeneratePrivateKey wrap64 FO (reduce_quotient FO) (stream3 unit_t) (S sf) rf fuel 8 = Diverge.
Proof.
  unfold GeneratePrivateKey. change (isValidDegree 8) with true. cbn [negb]. destruct fuel as [|fuel]; [reflexivity|].
  rewrite unit_NtruGen. reflexivity.
Qed.
End Gen.
