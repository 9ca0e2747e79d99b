(** Statements about Verify in terms of the specification's hash point, and
    the malleability witnesses. *)
From Verif Require Import GoBase Util Ntt Encoding Params Xof Falcon Spec SpecHash PolyZ BaseProofs
  NttProofs NttLen EncodingProofs FalconProofs VerifyProofs BytesProofs Examples.

Section V2.
Variable iw : Z -> Z.
Hypothesis iw_id : forall z, is_int64 z -> iw z = z.
Variable X : XOF.

Lemma decodes_fun x v v' : decodes x 625 512 v -> decodes x 625 512 v' -> v = v'.
Proof.
  intros (_ & L & r & E) (_ & L' & r' & E'). rewrite E in E'.
  apply (code_inj_prefix v v' r r'); [exact E'|lia].
Qed.

Lemma Verify_returns fuel h msg sig b : int16s h -> bytes sig ->
  Verify iw X fuel h msg sig = Ok b -> (b = true <-> verify_accepts X h msg sig).
Proof.
  intros Ih Hb H. pose proof (bytes_skipn 41 sig Hb) as Hbs. split.
  - intros ->. apply (Verify_true iw iw_id) in H; [|assumption|assumption].
    destruct H as (_ & _ & ss1 & c & D & Ec & N). exists ss1, c. split; [exact D|]. split; [|exact N].
    apply hashToPoint_point. exists fuel. exact Ec.
  - intros (ss1 & c & D & Hc & N). rewrite (Verify_gen iw iw_id) in H by assumption.
    destruct (Nat.ltb (length sig) 41); [discriminate|]. unfold body_of, salt_of in H.
    apply decodes_Decompress in D; [|assumption]. rewrite D in H.
    destruct (hashToPoint_cases X fuel msg (firstn 40 (skipn 1 sig))) as [[c' Ec]|Ec]; rewrite Ec in H; cbn [bind] in H; [|discriminate].
    assert (c' = c) as ->.
    { apply (hash_point_fun X 512 msg (firstn 40 (skipn 1 sig))); [|exact Hc]. apply hashToPoint_point. exists fuel. exact Ec. }
    destruct (good_len_dec h); [|discriminate]. apply Ok_inj in H. rewrite <- H. apply Z.leb_le. exact N.
Qed.

(** given a long enough XOF output Verify returns: no other source of divergence *)
Lemma Verify_terminates h msg sig c : int16s h -> bytes sig ->
  hash_point X 512 msg (firstn 40 (skipn 1 sig)) c ->
  exists fuel0, forall fuel, (fuel0 <= fuel)%nat -> Verify iw X fuel h msg sig <> Diverge.
Proof.
  intros Ih Hb Hc. apply hashToPoint_point in Hc. destruct Hc as [fuel0 Ec]. exists fuel0. intros fuel L.
  rewrite (Verify_gen iw iw_id) by assumption. unfold body_of, salt_of.
  destruct (Nat.ltb (length sig) 41); [discriminate|].
  destruct (Decompress (skipn 41 sig) 625 512) eqn:D; try discriminate.
  - unfold hashToPoint in *. rewrite (hash_loop_mono X _ _ _ _ _ fuel Ec L). cbn [bind]. destruct (good_len_dec h); discriminate.
  - exfalso. apply (Decompress_no_diverge (skipn 41 sig) 625 512); [apply bytes_skipn; assumption|exact D].
Qed.

Lemma accepted_norm fuel h msg sig : int16s h -> bytes sig ->
  Verify iw X fuel h msg sig = Ok true ->
  exists ss1 c, decodes (skipn 41 sig) 625 512 ss1 /\
    hashToPoint X fuel msg (firstn 40 (skipn 1 sig)) = Ok c /\
    let s1 := map int16_of ss1 in
    let N := sqnorm (falcon_s0 512 (firstn 512 h) c s1) + sqnorm s1 in
    N mod 2 ^ 32 <= beta2_512 /\ (N < 2 ^ 32 -> N <= beta2_512).
Proof.
  intros Ih Hb H. apply (Verify_true iw iw_id) in H; [|assumption|assumption].
  destruct H as (_ & _ & ss1 & c & D & Ec & N). exists ss1, c. split; [exact D|]. split; [exact Ec|].
  cbv zeta in *. split; [exact N|]. intros L. rewrite Z.mod_small in N; [exact N|].
  split; [|exact L]. apply Z.add_nonneg_nonneg; apply sqnorm_nonneg.
Qed.

Lemma verify_panics fuel h msg : Verify iw X fuel h msg [] = Panic /\
  (length h = 512%nat -> int16s h -> Verify iw X fuel h msg (57 :: ex_salt ++ [0]) = Panic).
Proof.
  split; [reflexivity|]. intros L Ih. rewrite (Verify_gen iw iw_id) by assumption. reflexivity.
Qed.

Lemma Verify_bad_key fuel h msg sig : int16s h -> ~ (512 <= length h <= 767)%nat ->
  Verify iw X fuel h msg sig = Panic \/ Verify iw X fuel h msg sig = Ok false \/
  Verify iw X fuel h msg sig = Diverge.
Proof.
  intros Ih L. rewrite (Verify_gen iw iw_id) by assumption.
  destruct (Nat.ltb (length sig) 41); [left; reflexivity|].
  destruct (Decompress _ _ _); [|right; left; reflexivity|left; reflexivity|right; right; reflexivity].
  destruct (hashToPoint_cases X fuel msg (salt_of sig)) as [[c Ec]|Ec]; rewrite Ec; cbn [bind]; [|right; right; reflexivity].
  destruct (good_len_dec h); [contradiction|left; reflexivity].
Qed.

Lemma VerifyBytes_panic fuel b : bytes b -> 55104 <= Z.of_nat (length b) ->
  VerifyBytes iw X fuel b = Panic <-> Decompress (skipn 41 (read_bytes b 1056 666)) 625 512 = Panic.
Proof.
  intros Hb L. rewrite VerifyBytes_long by exact L.
  assert (Lk : length (read_key b) = 512%nat) by (unfold read_key; rewrite map_length, seq_length; reflexivity).
  assert (Ik : int16s (read_key b)).
  { apply Forall_forall. intros x Hx. unfold read_key in Hx. apply in_map_iff in Hx.
    destruct Hx as [j [<- _]]. rewrite int16_of_wrap. apply wrap16_int16. }
  assert (Ls : length (read_bytes b 1056 666) = 666%nat) by (unfold read_bytes; rewrite map_length, seq_length; reflexivity).
  assert (Bs : bytes (read_bytes b 1056 666)).
  { apply Forall_forall. intros x Hx. unfold read_bytes in Hx. apply in_map_iff in Hx.
    destruct Hx as [j [<- _]]. unfold is_byte.
    set (t := word_total b (1056 + j)). clearbody t. clear - t. pose proof (Z.mod_pos_bound t 256). lia. }
  rewrite (Verify_panic iw iw_id) by assumption. rewrite Ls, Lk. split.
  - intros [H|[H|[H _]]]; [lia|exact H|lia].
  - intros H. right. left. exact H.
Qed.

(** two full-length, zero-padded signatures with the same header and salt and
    the same decoded polynomial are equal *)
Lemma sig_split (sig : list Z) : (41 <= length sig)%nat -> sig = firstn 1 sig ++ firstn 40 (skipn 1 sig) ++ skipn 41 sig.
Proof.
  intros H. rewrite <- (firstn_skipn 1 sig) at 1. f_equal.
  rewrite <- (firstn_skipn 40 (skipn 1 sig)) at 1. f_equal. rewrite skipn_skipn. reflexivity.
Qed.

Lemma sig_unique sig sig' v z z' : bytes sig -> bytes sig' ->
  length sig = 666%nat -> length sig' = 666%nat ->
  firstn 41 sig = firstn 41 sig' ->
  bits_of (skipn 41 sig) = code v ++ repeat false z ->
  bits_of (skipn 41 sig') = code v ++ repeat false z' -> sig = sig'.
Proof.
  intros B B' L L' E E1 E2.
  rewrite <- (firstn_skipn 41 sig), <- (firstn_skipn 41 sig'), E. f_equal.
  assert (Lz : z = z').
  { assert (length (bits_of (skipn 41 sig)) = length (bits_of (skipn 41 sig'))).
    { rewrite !bits_of_length, !skipn_length, L, L'. reflexivity. }
    rewrite E1, E2, !app_length, !repeat_length in H. lia. }
  subst z'. apply bits_of_inj; [apply bytes_skipn; assumption|apply bytes_skipn; assumption|].
  rewrite E1, E2. reflexivity.
Qed.

(** ** uniformity of the reduction: every residue has exactly five preimages *)
End V2.

Lemma accepted_preimages w r : 0 <= w < 65536 -> 0 <= r < q ->
  accepted [w] = [r] <-> exists j, 0 <= j < 5 /\ w = r + j * q.
Proof.
  intros Hw Hr. unfold accepted. cbn [filter]. unfold q in *. destruct (Z.ltb_spec w (5 * 12289)) as [L|L]; cbn [map].
  - split.
    + intros H. injection H as H. exists (w / 12289). lia.
    + intros [j [Hj ->]]. rewrite Z.mod_add by lia. rewrite Z.mod_small by lia. reflexivity.
  - split; [discriminate|]. intros [j [Hj ->]]. exfalso. nia.
Qed.

Lemma accepted_none w : 0 <= w < 65536 -> accepted [w] = [] <-> 61445 <= w.
Proof.
  intros Hw. unfold accepted. cbn [filter]. unfold q. destruct (Z.ltb_spec w (5 * 12289)) as [L|L]; cbn [map].
  - split; [discriminate|lia].
  - split; [lia|reflexivity].
Qed.


Lemma priv_hash_eq X fuel sk msg salt : sk_n sk = 512 ->
  priv_hashToPoint X fuel sk msg salt = hashToPoint X fuel msg salt.
Proof.
  intros E. unfold priv_hashToPoint, hashToPoint. rewrite E. change (Z.to_nat 512) with 512%nat.
  apply priv_hash_loop_eq.
Qed.

(** ** the table of roots *)
Fixpoint distinctb (l : list Z) : bool :=
  match l with [] => true | a :: l => negb (existsb (Z.eqb a) l) && distinctb l end.
Lemma distinctb_NoDup l : distinctb l = true -> NoDup l.
Proof.
  induction l as [|a l IH]; intros H; [constructor|]. cbn [distinctb] in H. apply andb_prop in H. destruct H as [H1 H2].
  constructor; [|apply IH; assumption]. intros Hin. apply negb_true_iff in H1.
  assert (existsb (Z.eqb a) l = true) by (apply existsb_exists; exists a; split; [assumption|apply Z.eqb_refl]). congruence.
Qed.
Lemma W_distinct_all : forallb (fun k => distinctb (W k)) (seq 1 10) = true.
Proof. vm_compute. reflexivity. Qed.
Lemma W_NoDup k : (1 <= k <= 10)%nat -> NoDup (W k).
Proof.
  intros Hk. apply distinctb_NoDup. pose proof W_distinct_all as H. rewrite forallb_forall in H.
  apply H. apply in_seq. lia.
Qed.

Lemma NTT_spec n : valid_degree n -> exists ws, length ws = n /\ NoDup ws /\
  Forall (fun w => 0 < w < q /\ (w ^ Z.of_nat n + 1) mod q = 0) ws /\
  forall iw, (forall z, is_int64 z -> iw z = z) -> forall f, length f = n -> int16s f ->
    NTT iw f = Ok (map (fun w => eval f w mod q) ws).
Proof.
  intros [k [Hk ->]]. exists (W k). split; [apply W_length; assumption|]. split; [apply W_NoDup; assumption|].
  split.
  - apply Forall_forall. intros w Hw. apply (In_nth _ _ 0) in Hw. destruct Hw as [i [Hi <-]].
    rewrite W_length in Hi by assumption. split.
    + pose proof (Forall_nth_d _ _ i 0 (W_range k Hk)) as R. cbv beta in R. apply R. rewrite W_length by assumption. assumption.
    + pose proof (W_root (fun z => z) (fun z _ => eq_refl) k Hk i Hi) as R. change q with Q.
      assert (E : cong Q (nth i (W k) 0 ^ Z.of_nat (2 ^ k) + 1) (-1 + 1)).
      { apply cong_add; [exact R|apply cong_refl]. }
      exact E.
  - intros iw iw_id f Hf If. apply (NTT_ok iw iw_id k); assumption.
Qed.
