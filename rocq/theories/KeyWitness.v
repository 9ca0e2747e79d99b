(** A random stream on which key generation returns a key that does not satisfy
    the NTRU equation (degree 16, binary64). *)
From Verif Require Import GoBase Util Ntt Params Falcon Spec BaseProofs Float Samplerz SamplerProofs Fft
  Ntrugen Ffsampling KeyGen Binary64.

(** ** Streams that make Samplerz return 0 or 1 in its first round *)
Definition stream (b : nat -> bool) : rand :=
  fun k => Some (repeat 255 9 ++ [if b k then 1 else 0; 0]).

Section W.
Context (ci cu : b64 -> Z).
Notation FO := (binary64 ci cu).

Lemma stream_sample b fuel k : 
  Samplerz FO (stream b) (S fuel) (f_of_int FO 0) (sigma_gen FO) (sigmin_gen FO) k
  = Ok (if b k then 1 else 0, S k).
Proof.
  unfold Samplerz. cbn [sampler_loop]. unfold generateAndSplitRandBytes, stream.
  destruct (b k); vm_compute; reflexivity.
Qed.

Lemma stream_samples b fuel m : forall k,
  samples FO (stream b) (S fuel) m k = Ok (map (fun i => if b i then 1 else 0) (seq k m), (k + m)%nat).
Proof.
  induction m as [|m IH]; intros k; [cbn; rewrite Nat.add_0_r; reflexivity|].
  cbn [samples]. rewrite stream_sample. cbn [bind fst snd]. rewrite IH. cbn [bind fst snd seq map].
  rewrite Nat.add_succ_r. reflexivity.
Qed.

Definition count (b : nat -> bool) (l : list nat) : Z := sum_list (map (fun i => if b i then 1 else 0) l).
Lemma count_cons b i l : count b (i :: l) = (if b i then 1 else 0) + count b l.
Proof. reflexivity. Qed.
Lemma count_app b l l' : count b (l ++ l') = count b l + count b l'.
Proof. induction l as [|i l IH]; [reflexivity|]. cbn [app]. rewrite !count_cons, IH. lia. Qed.
Lemma count_all b a m v : (forall i, (a <= i < a + m)%nat -> b i = v) ->
  count b (seq a m) = if v then Z.of_nat m else 0.
Proof.
  revert a. induction m as [|m IH]; intros a H; [destruct v; reflexivity|].
  cbn [seq]. rewrite count_cons, IH by (intros; apply H; lia). rewrite H by lia. destruct v; lia.
Qed.

Lemma stream_block (b : nat -> bool) k m j i : (i * m + m <= j)%nat ->
  block (map (fun i => if b i then 1 else 0) (seq k j)) m i
  = map (fun i => if b i then 1 else 0) (seq (k + i * m) m).
Proof.
  intros H. unfold block. rewrite skipn_map, firstn_map. f_equal.
  replace j with (i * m + (m + (j - i * m - m)))%nat by lia.
  rewrite seq_app, skipn_app, skipn_all2 by (rewrite seq_length; lia).
  rewrite seq_length, Nat.sub_diag. cbn [skipn app].
  rewrite seq_app, firstn_app, firstn_all2 by (rewrite seq_length; lia).
  rewrite seq_length, Nat.sub_diag. cbn [firstn]. apply app_nil_r.
Qed.

Lemma stream_GenPoly b fuel n c : 1 <= n <= 4096 ->
  let m := Z.to_nat (4096 / n) in
  GenPoly FO (stream b) (S fuel) n c =
  Ok (map (fun i => count b (seq (c + i * m) m)) (seq 0 (Z.to_nat n)), (c + 4096)%nat).
Proof.
  intros Hn m. unfold GenPoly. rewrite Z.gtb_ltb. destruct (Z.ltb_spec 4096 n); [lia|].
  rewrite stream_samples. cbn [bind]. fold m.
  set (l := map (fun i => if b i then 1 else 0) (seq c 4096)).
  assert (L : length l = 4096%nat) by (unfold l; rewrite map_length, seq_length; reflexivity).
  assert (Hm : (Z.to_nat n * m <= 4096)%nat).
  { unfold m. pose proof (Z.mul_div_le 4096 n ltac:(lia)). pose proof (Z.div_pos 4096 n). nia. }
  rewrite (mapM_Ok _ (fun i => count b (seq (c + i * m) m))); [reflexivity|].
  intros i Hi. apply in_seq in Hi.
  rewrite mapM_idx_seq by nia. cbn [bind]. f_equal.
  change (firstn m (skipn (i * m) l)) with (block l m i).
  unfold l. rewrite stream_block by nia.
  assert (F : Forall (fun v => 0 <= v <= 1) (map (fun i => if b i then 1 else 0) (seq (c + i * m) m))).
  { apply Forall_forall. intros x Hx. apply in_map_iff in Hx. destruct Hx as (y & <- & _). destruct (b y); lia. }
  rewrite (fold_sum_exact _ 1); [|lia|eapply Forall_impl; [|exact F]; cbn; lia|rewrite map_length, seq_length; nia].
  rewrite Z.add_0_l. fold (count b (seq (c + i * m) m)).
  apply wrap16_id. unfold is_int16.
  pose proof (sum_list_bound _ 0 1 F) as B. rewrite map_length, seq_length in B.
  unfold count. nia.
Qed.

(** ** The witness: f = 1 + 112 x, g = 0 *)
Definition wit_bit (k : nat) : bool := Nat.eqb k 0 || (Nat.leb 256 k && Nat.ltb k 368).
Definition wit_f : list Z := [1; 112] ++ repeat 0 14.
Definition wit_g : list Z := repeat 0 16.
Definition wit_G : list Z := [12289; -112; 12544; -28672] ++ repeat 0 12.

Lemma wit_false a m : (368 <= a)%nat -> count wit_bit (seq a m) = 0.
Proof.
  intros H. rewrite (count_all wit_bit a m false); [reflexivity|]. intros i Hi. unfold wit_bit.
  destruct (Nat.eqb_spec i 0); [lia|]. destruct (Nat.ltb_spec i 368); [lia|]. rewrite andb_false_r. reflexivity.
Qed.

Lemma wit_block c i : (c + i * 256 >= 368)%nat -> count wit_bit (seq (c + i * 256) 256) = 0.
Proof. apply wit_false. Qed.
Lemma wit_block0 : count wit_bit (seq (0 + 0 * 256) 256) = 1.
Proof.
  change (0 + 0 * 256)%nat with 0%nat. replace 256%nat with (1 + 255)%nat by reflexivity. rewrite seq_app, count_app.
  rewrite (count_all wit_bit (0 + 1) 255 false); [reflexivity|].
  intros i Hi. unfold wit_bit. destruct (Nat.eqb_spec i 0); [lia|]. destruct (Nat.leb_spec 256 i); [lia|]. reflexivity.
Qed.
Lemma wit_block1 : count wit_bit (seq (0 + 1 * 256) 256) = 112.
Proof.
  replace (seq (0 + 1 * 256) 256) with (seq 256 (112 + 144)) by reflexivity.
  rewrite seq_app, count_app, (wit_false (256 + 112) 144) by lia.
  rewrite (count_all wit_bit 256 112 true); [reflexivity|].
  intros i Hi. unfold wit_bit. destruct (Nat.leb_spec 256 i); [|lia]. destruct (Nat.ltb_spec i 368); [|lia].
  apply orb_true_r.
Qed.

Lemma wit_GenPoly_f fuel : GenPoly FO (stream wit_bit) (S fuel) 16 0 = Ok (wit_f, 4096%nat).
Proof.
  rewrite stream_GenPoly by lia. change (Z.to_nat (4096 / 16)) with 256%nat. change (Z.to_nat 16) with 16%nat.
  change (0 + 4096)%nat with 4096%nat.
  match goal with |- Ok (?a, _) = Ok (?b, _) => enough (E : a = b) by (rewrite E; reflexivity) end.
  replace (seq 0 16) with (0%nat :: 1%nat :: seq 2 14) by reflexivity.
  cbn [map]. rewrite wit_block0, wit_block1.
  unfold wit_f. cbn [app]. do 2 apply f_equal.
  rewrite (map_ext_in _ (fun _ => 0)); [reflexivity|]. intros i Hi. apply in_seq in Hi. apply wit_block. lia.
Qed.
Lemma wit_GenPoly_g fuel : GenPoly FO (stream wit_bit) (S fuel) 16 4096 = Ok (wit_g, (4096 + 4096)%nat).
Proof.
  rewrite stream_GenPoly by lia. change (Z.to_nat (4096 / 16)) with 256%nat. change (Z.to_nat 16) with 16%nat.
  match goal with |- Ok (?a, _) = Ok (?b, _) => enough (E : a = b) by (rewrite E; reflexivity) end.
  rewrite (map_ext_in _ (fun _ => 0)); [reflexivity|]. intros i Hi. apply in_seq in Hi. apply wit_block. lia.
Qed.

Lemma wit_gs : exists gs, GsNorm FO (Int16ToFloat64 FO wit_f) (Int16ToFloat64 FO wit_g) (f_of_int FO Q) = Ok gs /\
  f_ltb FO (gs_bound FO) gs = false.
Proof.
  assert (E : match GsNorm FO (Int16ToFloat64 FO wit_f) (Int16ToFloat64 FO wit_g) (f_of_int FO Q) with
              | Ok gs => f_ltb FO (gs_bound FO) gs | _ => true end = false) by (vm_compute; reflexivity).
  destruct (GsNorm FO _ _ _) as [gs| | |]; try discriminate. eauto.
Qed.
Lemma wit_ntt : exists v, NTT wrap64 wit_f = Ok v /\ AnyZeroes v = false.
Proof. eexists. split; vm_compute; reflexivity. Qed.
Lemma wit_solve fuel : exists BF BG, NtruSolve (reduce_quotient FO) (S fuel) wit_f wit_g = Ok (BF, BG) /\
  BigIntToInt16 BF = repeat 0 16 /\ BigIntToInt16 BG = wit_G.
Proof. eexists _, _. split; [vm_compute; reflexivity|]. split; vm_compute; reflexivity. Qed.

Lemma wit_NtruGen fuel sf rf :
  NtruGen wrap64 FO (reduce_quotient FO) (stream wit_bit) (S sf) (S rf) (S fuel) 16 0
  = Ok (wit_f, wit_g, repeat 0 16, wit_G).
Proof.
  cbn [NtruGen]. rewrite wit_GenPoly_f. cbn [bind]. rewrite wit_GenPoly_g. cbn [bind].
  destruct wit_gs as (gs & -> & E). cbn [bind]. rewrite E.
  destruct wit_ntt as (v & -> & E2). cbn [bind]. rewrite E2.
  unfold Int16ToBigInt. destruct (wit_solve rf) as (BF & BG & -> & -> & ->). reflexivity.
Qed.

Lemma wit_Generate fuel sf rf :
  GeneratePrivateKey wrap64 FO (reduce_quotient FO) (stream wit_bit) (S sf) (S rf) (S fuel) 16
  = Ok {| sk_n := 16; sk_f := wit_f; sk_g := wit_g; sk_F := repeat 0 16; sk_G := wit_G |}.
Proof. unfold GeneratePrivateKey. change (isValidDegree 16) with true. cbn [negb]. rewrite wit_NtruGen. reflexivity. Qed.
End W.

Lemma wit_wrong : ~ ntru_equation 16 wit_f wit_g (repeat 0 16) wit_G.
Proof. intros H. vm_compute in H. discriminate H. Qed.
