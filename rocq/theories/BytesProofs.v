(** VerifyBytes. *)
From Verif Require Import GoBase Util Ntt Encoding Params Xof Falcon Spec PolyZ BaseProofs NttProofs FalconProofs.

Lemma bytes_nth b i : bytes b -> is_byte (coef b i).
Proof.
  intros H. unfold coef. destruct (Nat.lt_ge_cases i (length b)) as [L|L].
  - apply (Forall_nth_d is_byte b i 0 H L).
  - rewrite nth_overflow by assumption. unfold is_byte. lia.
Qed.

Section WS.
Variable wr : Z -> Z.
Hypothesis wr_add : forall a b, wr (wr a + b) = wr (a + b).

Lemma word_sum_fold b w : forall n s t, (forall k, (k < n)%nat -> (w * 32 + (s + k) < length b)%nat) ->
  fold_left (fun acc k => t <- acc ;; x <- idx b (w * 32 + k) ;; Ok (wr (t + x))) (seq s (S n)) (Ok t) =
  match idx b (w * 32 + (s + n)) with
  | Ok x => Ok (wr (t + sumn n (fun k => coef b (w * 32 + (s + k))) + x))
  | _ => Panic
  end.
Proof.
  induction n as [|n IH]; intros s t H.
  - cbn [seq fold_left bind sumn]. rewrite Nat.add_0_r, Z.add_0_r.
    unfold idx. destruct (nth_error b (w * 32 + s)); reflexivity.
  - rewrite seq_S, fold_left_app. rewrite IH by (intros; apply H; lia).
    rewrite (idx_nth b (w * 32 + (s + n)) 0) by (apply H; lia). cbn [fold_left bind].
    fold (coef b (w * 32 + (s + n))).
    unfold idx. destruct (nth_error b (w * 32 + (s + S n))); [|reflexivity]. cbn [bind].
    rewrite wr_add. cbn [sumn]. f_equal. f_equal. lia.
Qed.

Lemma word_sum_ok b w t : (w * 32 + 31 < length b)%nat ->
  word_sum wr b w t = Ok (wr (t + word_total b w)).
Proof.
  intros H. unfold word_sum. rewrite word_sum_fold by (intros; lia).
  rewrite (idx_nth b (w * 32 + (0 + 31)) 0) by lia. unfold word_total.
  cbn [sumn Nat.add]. unfold coef. f_equal. f_equal. lia.
Qed.

Lemma fold_panic b w : forall l,
  fold_left (fun acc k => t <- acc ;; x <- idx b (w * 32 + k) ;; Ok (wr (t + x))) l Panic = Panic.
Proof. induction l as [|k l IH]; [reflexivity|]. cbn [fold_left bind]. exact IH. Qed.

Lemma word_sum_short b w t : (length b <= w * 32 + 31)%nat -> word_sum wr b w t = Panic.
Proof.
  intros H. unfold word_sum.
  set (m := (length b - w * 32)%nat).
  replace (seq 0 32) with (seq 0 (S m) ++ seq (S m) (31 - m)).
  2:{ rewrite <- seq_app. f_equal. unfold m. lia. }
  rewrite fold_left_app, word_sum_fold by (intros; unfold m in *; lia).
  rewrite idx_out by (unfold m; lia). apply fold_panic.
Qed.
End WS.

Lemma wrap16_add a b : wrap16 (wrap16 a + b) = wrap16 (a + b).
Proof. unfold wrap16, wrap. change (2 ^ (16 - 1)) with 32768. change (2 ^ 16) with 65536. lia. Qed.
Lemma wrap8u_add a b : wrap8u (wrap8u a + b) = wrap8u (a + b).
Proof. unfold wrap8u, wrapu. change (2 ^ 8) with 256. lia. Qed.

Definition layout_len : Z := 32 * (1024 + 32 + 666).

Section VB.
Variable iw : Z -> Z.
Variable X : XOF.

Lemma key_word b j : (2 * j + 1 < 1722)%nat -> layout_len <= Z.of_nat (length b) ->
  (temp <- word_sum wrap16 b (2 * j) 0 ;;
   let temp := wrap16 (Z.shiftl temp 8) in
   word_sum wrap16 b (2 * j + 1) temp)
  = Ok (int16_of (256 * word_total b (2 * j) + word_total b (2 * j + 1))).
Proof.
  intros Hj H. unfold layout_len in H. rewrite word_sum_ok by (apply wrap16_add || lia). cbn [bind].
  rewrite word_sum_ok by (apply wrap16_add || lia). f_equal.
  rewrite Z.shiftl_mul_pow2 by lia. rewrite wrap16_add. unfold int16_of, wrap16, wrap.
  change (2 ^ (16 - 1)) with 32768. change (2 ^ 16) with 65536. change (2 ^ 8) with 256. lia.
Qed.

Definition read3 {R} (b : list Z) (K : list Z -> list Z -> list Z -> res R) : res R :=
  h <- mapM (fun j =>
         let i := (2 * j)%nat in
         temp <- word_sum wrap16 b i 0 ;;
         let temp := wrap16 (Z.shiftl temp 8) in
         word_sum wrap16 b (i + 1) temp) (seq 0 512) ;;
  message <- mapM (fun i => word_sum wrap8u b (i + 1024) 0) (seq 0 32) ;;
  signature <- mapM (fun i => word_sum wrap8u b (i + (1024 + 32)) 0) (seq 0 666) ;;
  K h message signature.

Lemma VerifyBytes_read fuel b : VerifyBytes iw X fuel b = read3 b (Verify iw X fuel).
Proof. reflexivity. Qed.

Lemma read3_long {R} b (K : list Z -> list Z -> list Z -> res R) : layout_len <= Z.of_nat (length b) ->
  read3 b K = K (read_key b) (read_bytes b 1024 32) (read_bytes b 1056 666).
Proof.
  intros H. unfold read3.
  assert (E1 : mapM (fun j => let i := (2 * j)%nat in
         temp <- word_sum wrap16 b i 0 ;;
         let temp := wrap16 (Z.shiftl temp 8) in
         word_sum wrap16 b (i + 1) temp) (seq 0 512) = Ok (read_key b)).
  { apply mapM_Ok. intros j Hj. apply in_seq in Hj. apply (key_word b j); [lia|assumption]. }
  assert (E2 : forall from n, (from + n <= 1722)%nat ->
     mapM (fun i => word_sum wrap8u b (i + from) 0) (seq 0 n) = Ok (read_bytes b from n)).
  { intros from n L. apply mapM_Ok. intros i Hi. apply in_seq in Hi. unfold layout_len in H.
    rewrite word_sum_ok by (apply wrap8u_add || lia). rewrite (Nat.add_comm i). reflexivity. }
  cbv zeta in E1. rewrite E1. cbn [bind]. rewrite E2 by lia. cbn [bind]. rewrite E2 by lia. reflexivity.
Qed.

Lemma VerifyBytes_long fuel b : layout_len <= Z.of_nat (length b) ->
  VerifyBytes iw X fuel b = Verify iw X fuel (read_key b) (read_bytes b 1024 32) (read_bytes b 1056 666).
Proof. intros H. rewrite VerifyBytes_read. apply read3_long. exact H. Qed.

Lemma mapM_first_panic {A} (f : nat -> res A) n m :
  (forall i, (i < m)%nat -> exists b, f i = Ok b) -> (m < n)%nat -> f m = Panic -> mapM f (seq 0 n) = Panic.
Proof.
  intros H L P. replace (seq 0 n) with (seq 0 m ++ m :: seq (S m) (n - S m)).
  - apply mapM_panic_at; [|assumption]. intros x Hx. apply in_seq in Hx. apply H. lia.
  - change (m :: seq (S m) (n - S m)) with (seq (0 + m) (S (n - S m))). rewrite <- seq_app. f_equal. lia.
Qed.

Lemma read3_short {R} b (K : list Z -> list Z -> list Z -> res R) : Z.of_nat (length b) < layout_len -> read3 b K = Panic.
Proof.
  intros H. unfold layout_len in H. unfold read3. cbv zeta.
  set (m := Nat.div (length b) 32).
  assert (Hm : (32 * m <= length b < 32 * m + 32)%nat).
  { unfold m. pose proof (Nat.div_mod (length b) 32 ltac:(lia)). pose proof (Nat.mod_upper_bound (length b) 32 ltac:(lia)). lia. }
  clearbody m.
  destruct (Nat.lt_ge_cases m 1024) as [L|L].
  - rewrite (mapM_first_panic _ 512 (Nat.div m 2)); [reflexivity| | |].
    + intros i Hi. eexists.
      rewrite word_sum_ok by (apply wrap16_add || (pose proof (Nat.div_mod m 2); lia)). cbn [bind].
      rewrite word_sum_ok by (apply wrap16_add || (pose proof (Nat.div_mod m 2); lia)). reflexivity.
    + apply Nat.div_lt_upper_bound; lia.
    + pose proof (Nat.div_mod m 2 ltac:(lia)) as E. pose proof (Nat.mod_upper_bound m 2 ltac:(lia)).
      destruct (Nat.eq_dec (m mod 2) 0) as [E0|E0].
      * rewrite word_sum_short by (apply wrap16_add || lia). reflexivity.
      * rewrite word_sum_ok by (apply wrap16_add || lia). cbn [bind].
        apply word_sum_short; [apply wrap16_add|lia].
  - rewrite (mapM_Ok _ (fun j => wrap16 (wrap16 (Z.shiftl (wrap16 (0 + word_total b (2 * j))) 8) + word_total b (2 * j + 1)))).
    2:{ intros j Hj. apply in_seq in Hj. rewrite word_sum_ok by (apply wrap16_add || lia). cbn [bind].
        rewrite word_sum_ok by (apply wrap16_add || lia). reflexivity. }
    cbn [bind].
    destruct (Nat.lt_ge_cases m 1056) as [L2|L2].
    + rewrite (mapM_first_panic _ 32 (m - 1024)); [reflexivity| | |].
      * intros i Hi. eexists. apply word_sum_ok; [apply wrap8u_add|lia].
      * lia.
      * apply word_sum_short; [apply wrap8u_add|lia].
    + rewrite (mapM_Ok _ (fun i => wrap8u (0 + word_total b (i + 1024)))).
      2:{ intros i Hi. apply in_seq in Hi. apply word_sum_ok; [apply wrap8u_add|lia]. }
      cbn [bind].
      rewrite (mapM_first_panic _ 666 (m - 1056)); [reflexivity| | |].
      * intros i Hi. eexists. apply word_sum_ok; [apply wrap8u_add|lia].
      * lia.
      * apply word_sum_short; [apply wrap8u_add|lia].
Qed.

Lemma VerifyBytes_short fuel b : Z.of_nat (length b) < layout_len -> VerifyBytes iw X fuel b = Panic.
Proof. intros H. rewrite VerifyBytes_read. apply read3_short. exact H. Qed.

(** ** reading back a packed input *)
Lemma pack_words_length vs : length (pack_words vs) = (32 * length vs)%nat.
Proof.
  unfold pack_words. induction vs as [|v vs IH]; [reflexivity|].
  cbn [map concat length]. rewrite app_length, IH. unfold be_word. rewrite app_length, repeat_length. cbn [length]. lia.
Qed.

Lemma word_total_app_r a b w : length a = 32%nat -> word_total (a ++ b) (S w) = word_total b w.
Proof.
  intros H. unfold word_total. apply sumn_ext. intros k Hk. unfold coef.
  rewrite app_nth2 by lia. f_equal. lia.
Qed.

Lemma word_total_word v r : word_total (be_word v ++ r) 0 = v.
Proof. unfold word_total, coef, be_word. cbn [repeat app sumn nth Nat.mul Nat.add]. lia. Qed.

Lemma word_total_pack vs : forall rest w, (w < length vs)%nat ->
  word_total (pack_words vs ++ rest) w = nth w vs 0.
Proof.
  induction vs as [|v vs IH]; intros rest w H; [cbn in H; lia|].
  unfold pack_words. cbn [map concat]. fold (pack_words vs). rewrite <- app_assoc.
  destruct w as [|w].
  - rewrite word_total_word. reflexivity.
  - rewrite word_total_app_r by reflexivity. cbn [nth]. apply IH. cbn [length] in H. lia.
Qed.

Lemma key_bytes_length h : length (key_bytes h) = (2 * length h)%nat.
Proof. unfold key_bytes. induction h as [|c h IH]; [reflexivity|]. cbn [map concat length app] in *. rewrite IH. lia. Qed.

Lemma key_bytes_nth h : forall j, (j < length h)%nat ->
  nth (2 * j) (key_bytes h) 0 = (nth j h 0 mod 65536) / 256 /\ nth (2 * j + 1) (key_bytes h) 0 = nth j h 0 mod 256.
Proof.
  induction h as [|c h IH]; intros j H; [cbn in H; lia|].
  unfold key_bytes. cbn [map concat]. fold (key_bytes h).
  destruct j as [|j]; [split; reflexivity|].
  replace (2 * S j)%nat with (S (S (2 * j))) by lia. replace (S (S (2 * j)) + 1)%nat with (S (S (2 * j + 1))) by lia.
  cbn [app nth]. apply IH. cbn [length] in H. lia.
Qed.

Lemma read_bytes_pack vs from n rest l : (length l = n) ->
  (forall i, (i < n)%nat -> nth (from + i) vs 0 = nth i l 0) -> (from + n <= length vs)%nat -> bytes l ->
  read_bytes (pack_words vs ++ rest) from n = l.
Proof.
  intros Hl H L Hb. transitivity (map (fun i => nth i l 0) (seq 0 (length l))); [|apply map_seq_nth].
  unfold read_bytes. rewrite Hl.
  apply map_seq_ext. intros i Hi. rewrite word_total_pack by lia. rewrite H by assumption.
  pose proof (bytes_nth l i Hb) as B. unfold coef, is_byte in B. apply Z.mod_small. lia.
Qed.

Theorem VerifyBytes_packed fuel h msg sig rest : length h = 512%nat -> int16s h ->
  length msg = 32%nat -> bytes msg -> length sig = 666%nat -> bytes sig ->
  VerifyBytes iw X fuel (pack_words (key_bytes h ++ msg ++ sig) ++ rest) = Verify iw X fuel h msg sig.
Proof.
  intros Lh Ih Lm Bm Ls Bs.
  pose proof (key_bytes_length h) as Lk. rewrite Lh in Lk. change (2 * 512)%nat with 1024%nat in Lk.
  assert (Lv : length (key_bytes h ++ msg ++ sig) = 1722%nat) by (rewrite !app_length; lia).
  rewrite VerifyBytes_long by (rewrite app_length, pack_words_length, Lv; unfold layout_len; lia).
  f_equal.
  - transitivity (map (fun i => nth i h 0) (seq 0 (length h))); [|apply map_seq_nth].
    unfold read_key. rewrite Lh. apply map_seq_ext. intros j Hj.
    rewrite !word_total_pack by lia.
    rewrite !app_nth1 by lia. destruct (key_bytes_nth h j ltac:(lia)) as [-> ->].
    pose proof (Forall_nth_d is_int16 h j 0 Ih ltac:(lia)) as R. unfold is_int16 in R.
    unfold int16_of. set (c := nth j h 0) in *. clearbody c. lia.
  - apply read_bytes_pack; try assumption; [|lia]. intros i Hi.
    rewrite app_nth2 by lia. rewrite app_nth1 by lia. f_equal. lia.
  - apply read_bytes_pack; try assumption; [|lia]. intros i Hi.
    rewrite app_nth2 by lia. rewrite app_nth2 by lia. f_equal. lia.
Qed.

End VB.
