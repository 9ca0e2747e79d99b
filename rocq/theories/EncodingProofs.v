(** Correctness of Compress and Decompress. *)
From Verif Require Import GoBase Encoding Spec BaseProofs.

Lemma all_below (N : nat) (P : Z -> bool) :
  forallb (fun i => P (Z.of_nat i)) (seq 0 N) = true ->
  forall z, 0 <= z < Z.of_nat N -> P z = true.
Proof.
  intros H z Hz. rewrite forallb_forall in H.
  specialize (H (Z.to_nat z)). rewrite Z2Nat.id in H by lia. apply H.
  apply in_seq. lia.
Qed.

Definition beqb (a b : list bool) : bool :=
  if list_eq_dec bool_dec a b then true else false.
Lemma beqb_eq a b : beqb a b = true -> a = b.
Proof. unfold beqb. destruct (list_eq_dec bool_dec a b); [trivial|discriminate]. Qed.

(** complete checks over the 128 / 256 possible arguments *)
Lemma sprintf_7 x : 0 <= x < 128 -> skipn 2 (sprintf_09b x) = bit_be 7 x.
Proof.
  intros H. apply beqb_eq.
  exact (all_below 128 (fun x => beqb (skipn 2 (sprintf_09b x)) (bit_be 7 x)) eq_refl x H).
Qed.
Lemma format_8 x : 0 <= x < 256 -> skipn 1 (format_bin (Z.lxor 256 x)) = bit_be 8 x.
Proof.
  intros H. apply beqb_eq.
  exact (all_below 256 (fun x => beqb (skipn 1 (format_bin (Z.lxor 256 x))) (bit_be 8 x)) eq_refl x H).
Qed.
Lemma parse_7 x : 0 <= x < 128 -> parse_bin (bit_be 7 x) = x.
Proof.
  intros H. apply Z.eqb_eq.
  exact (all_below 128 (fun x => parse_bin (bit_be 7 x) =? x) eq_refl x H).
Qed.
Lemma parse_8 x : 0 <= x < 256 -> parse_bin (bit_be 8 x) = x.
Proof.
  intros H. apply Z.eqb_eq.
  exact (all_below 256 (fun x => parse_bin (bit_be 8 x) =? x) eq_refl x H).
Qed.

Lemma bit_be_length w z : length (bit_be w z) = w.
Proof. unfold bit_be. rewrite map_length, seq_length. reflexivity. Qed.

Lemma parse_bin_app a b : parse_bin (a ++ [b]) = 2 * parse_bin a + (if b then 1 else 0).
Proof. unfold parse_bin. rewrite fold_left_app. reflexivity. Qed.

Lemma parse_bin_range s : 0 <= parse_bin s < 2 ^ Z.of_nat (length s).
Proof.
  induction s as [|b s IH] using rev_ind; [cbn; lia|].
  rewrite parse_bin_app, app_length. cbn [length].
  rewrite Nat.add_1_r, Nat2Z.inj_succ, Z.pow_succ_r by lia. destruct b; lia.
Qed.

Lemma bit_be_S w z : bit_be (S w) z = bit_be w (z / 2) ++ [Z.odd z].
Proof.
  unfold bit_be. rewrite seq_S, map_app. cbn [map]. f_equal.
  - apply map_ext_in. intros i Hi. apply in_seq in Hi.
    rewrite <- Z.div2_div, Z.div2_spec, Z.shiftr_spec by lia. f_equal. lia.
  - replace (Z.of_nat (S w - 1 - (0 + w))) with 0 by lia. rewrite Z.bit0_odd. reflexivity.
Qed.

Lemma bit_be_parse s : bit_be (length s) (parse_bin s) = s.
Proof.
  induction s as [|b s IH] using rev_ind; [reflexivity|].
  rewrite app_length. cbn [length]. rewrite Nat.add_1_r, bit_be_S, parse_bin_app.
  replace ((2 * parse_bin s + (if b then 1 else 0)) / 2) with (parse_bin s).
  - rewrite IH. f_equal. f_equal. rewrite Z.add_comm, Z.odd_add_mul_2. destruct b; reflexivity.
  - symmetry. rewrite Z.add_comm, Z.mul_comm, Z.div_add by lia. destruct b; cbn; lia.
Qed.

Lemma parse_bit_be w : forall z, 0 <= z < 2 ^ Z.of_nat w -> parse_bin (bit_be w z) = z.
Proof.
  induction w as [|w IH]; intros z Hz; [cbn in *; lia|].
  rewrite bit_be_S, parse_bin_app.
  rewrite Nat2Z.inj_succ, Z.pow_succ_r in Hz by lia.
  rewrite IH by (split; [apply Z.div_pos; lia|apply Z.div_lt_upper_bound; lia]).
  pose proof (Z.div_mod z 2 ltac:(lia)). rewrite Zmod_odd in H. destruct (Z.odd z); lia.
Qed.

Lemma encode_coef_code c : encode_coef c = code_coef c.
Proof.
  unfold encode_coef, code_coef.
  rewrite sprintf_7 by (apply Z.mod_pos_bound; lia).
  destruct (Z.leb_spec 0 c), (Z.ltb_spec c 0); try lia; reflexivity.
Qed.

Lemma fold_left_concat {A B} (f : A -> list B) l : forall acc,
  fold_left (fun u a => u ++ f a) l acc = acc ++ concat (map f l).
Proof.
  induction l as [|a l IH]; intros acc; cbn [fold_left map concat].
  - rewrite app_nil_r. reflexivity.
  - rewrite IH, app_assoc. reflexivity.
Qed.

Lemma compress_code v : fold_left (fun u coef => u ++ encode_coef coef) v [] = code v.
Proof.
  rewrite fold_left_concat. cbn [app]. unfold code. f_equal. apply map_ext. apply encode_coef_code.
Qed.

Lemma decompress_bits x : bytes x ->
  fold_left (fun u elt => u ++ skipn 1 (format_bin (Z.lxor 256 elt))) x [] = bits_of x.
Proof.
  intros H. rewrite fold_left_concat. cbn [app]. unfold bits_of. f_equal.
  apply map_ext_in. intros b Hb. unfold bytes in H. rewrite Forall_forall in H. specialize (H b Hb). unfold is_byte in H.
  apply format_8. lia.
Qed.

Lemma code_coef_length c : Z.of_nat (length (code_coef c)) = 9 + Z.abs c / 128.
Proof.
  unfold code_coef. cbn [length]. rewrite !app_length, bit_be_length, repeat_length. cbn [length].
  pose proof (Z.div_pos (Z.abs c) 128 ltac:(lia) ltac:(lia)). lia.
Qed.

Lemma code_length v : Z.of_nat (length (code v)) = code_len v.
Proof.
  unfold code, code_len. induction v as [|c v IH]; [reflexivity|].
  cbn [map concat fold_right]. rewrite app_length, Nat2Z.inj_add, IH, code_coef_length. lia.
Qed.

Lemma code_len_nonneg v : 0 <= code_len v.
Proof. rewrite <- code_length. lia. Qed.

(** ** Splitting a bit string of length 8m into bytes *)
Definition pack (u : list bool) (m : nat) : list Z :=
  map (fun i => parse_bin (firstn 8 (skipn (8 * i) u))) (seq 0 m).

Lemma slice_ok {A} (u : list A) lo hi : (lo <= hi)%nat -> (hi <= length u)%nat ->
  slice u lo hi = Ok (firstn (hi - lo) (skipn lo u)).
Proof.
  intros H1 H2. unfold slice.
  apply Nat.leb_le in H1, H2. rewrite H1, H2. reflexivity.
Qed.

Lemma pack_ok u m : length u = (8 * m)%nat ->
  mapM (fun i => s <- slice u (8 * i) (8 * i + 8) ;; Ok (wrap8u (parse_bin s))) (seq 0 m)
  = Ok (pack u m).
Proof.
  intros Hu. apply mapM_Ok. intros i Hi. apply in_seq in Hi.
  rewrite slice_ok by lia. cbn [bind]. replace (8 * i + 8 - 8 * i)%nat with 8%nat by lia.
  f_equal. unfold wrap8u, wrapu. apply Z.mod_small.
  pose proof (parse_bin_range (firstn 8 (skipn (8 * i) u))) as H.
  rewrite firstn_length_le in H by (rewrite skipn_length; lia). exact H.
Qed.

Lemma pack_bytes u m : length u = (8 * m)%nat -> bytes (pack u m).
Proof.
  intros Hu. apply Forall_forall. intros x Hx. apply in_map_iff in Hx. destruct Hx as [i [<- Hi]].
  apply in_seq in Hi.
  pose proof (parse_bin_range (firstn 8 (skipn (8 * i) u))) as H.
  rewrite firstn_length_le in H by (rewrite skipn_length; lia).
  unfold is_byte. change (2 ^ Z.of_nat 8) with 256 in H. lia.
Qed.

Lemma skipn_skipn {A} a : forall b (l : list A), skipn a (skipn b l) = skipn (b + a) l.
Proof.
  intros b. induction b as [|b IH]; intros l; [reflexivity|].
  destruct l as [|x l]; cbn [skipn Nat.add]; [destruct a; reflexivity|]. apply IH.
Qed.

Lemma firstn_app_l {A} (a b : list A) n : length a = n -> firstn n (a ++ b) = a.
Proof. intros <-. rewrite firstn_app, Nat.sub_diag, firstn_all, firstn_O. apply app_nil_r. Qed.
Lemma skipn_app_l {A} (a b : list A) n : length a = n -> skipn n (a ++ b) = b.
Proof. intros <-. rewrite skipn_app, Nat.sub_diag, skipn_all. reflexivity. Qed.

Lemma pack_bits u m : length u = (8 * m)%nat -> bits_of (pack u m) = u.
Proof.
  revert u. induction m as [|m IH]; intros u Hu.
  - destruct u; [reflexivity|discriminate].
  - unfold pack, bits_of. cbn [seq map concat].
    replace (8 * 0)%nat with 0%nat by lia. cbn [skipn].
    transitivity (firstn 8 u ++ skipn 8 u); [|apply firstn_skipn]. f_equal.
    + rewrite <- (bit_be_parse (firstn 8 u)) at 2. f_equal.
      rewrite firstn_length_le by lia. reflexivity.
    + rewrite <- (IH (skipn 8 u)) at 1 by (rewrite skipn_length; lia).
      unfold bits_of, pack. rewrite <- seq_shift, !map_map. f_equal. apply map_ext.
      intros i. f_equal. f_equal. f_equal.
      rewrite skipn_skipn. f_equal. lia.
Qed.

Lemma bits_of_length x : length (bits_of x) = (8 * length x)%nat.
Proof.
  unfold bits_of. induction x as [|b x IH]; [reflexivity|].
  cbn [map concat length]. rewrite app_length, IH, bit_be_length. lia.
Qed.

Lemma pack_bits_of x : bytes x -> pack (bits_of x) (length x) = x.
Proof.
  intros H. induction H as [|b x Hb Hx IH]; [reflexivity|].
  unfold pack. cbn [length seq map].
  assert (E8 : forall z u, firstn 8 (bit_be 8 z ++ u) = bit_be 8 z).
  { intros z u. apply firstn_app_l, bit_be_length. }
  f_equal.
  - replace (8 * 0)%nat with 0%nat by lia. cbn [skipn].
    unfold bits_of. cbn [map concat]. rewrite E8. apply parse_8. unfold is_byte in Hb. lia.
  - rewrite <- IH at 2. unfold pack. rewrite <- seq_shift, map_map. apply map_ext. intros i.
    f_equal. f_equal. unfold bits_of. cbn [map concat].
    replace (8 * S i)%nat with (8 + 8 * i)%nat by lia.
    rewrite <- skipn_skipn. rewrite (skipn_app_l (bit_be 8 b)) by apply bit_be_length. reflexivity.
Qed.

Lemma bits_of_inj x y : bytes x -> bytes y -> bits_of x = bits_of y -> x = y.
Proof.
  intros Hx Hy E. assert (L : length x = length y).
  { pose proof (bits_of_length x). pose proof (bits_of_length y). rewrite E in H. lia. }
  rewrite <- (pack_bits_of x Hx), <- (pack_bits_of y Hy), E, L. reflexivity.
Qed.

(** ** Compress *)
Definition fits64 (slen : Z) : Prop := is_int64 (8 * slen).

Lemma Compress_eq v slen : fits64 slen ->
  Compress v slen =
  if code_len v >? 8 * slen then Err ErrEncodingTooLong
  else Ok (pack (code v ++ repeat false (Z.to_nat (8 * slen - code_len v))) (Z.to_nat slen)).
Proof.
  intros Hf. unfold Compress. rewrite compress_code, code_length, wrap64_id by exact Hf.
  destruct (Z.gtb_spec (code_len v) (8 * slen)); [reflexivity|].
  pose proof (code_len_nonneg v).
  assert (L : length (code v ++ repeat false (Z.to_nat (8 * slen - code_len v))) = (8 * Z.to_nat slen)%nat).
  { rewrite app_length, repeat_length. pose proof (code_length v). lia. }
  rewrite L. replace (8 * Z.to_nat slen / 8)%nat with (Z.to_nat slen) by (rewrite Nat.mul_comm, Nat.div_mul; lia).
  apply pack_ok. exact L.
Qed.

Lemma Compress_ok_inv v slen x : fits64 slen -> Compress v slen = Ok x ->
  0 <= slen /\ bytes x /\ Z.of_nat (length x) = slen /\
  exists z, bits_of x = code v ++ repeat false z.
Proof.
  intros Hf H. rewrite Compress_eq in H by assumption.
  destruct (Z.gtb_spec (code_len v) (8 * slen)); [discriminate|]. injection H as <-.
  pose proof (code_len_nonneg v).
  assert (L : length (code v ++ repeat false (Z.to_nat (8 * slen - code_len v))) = (8 * Z.to_nat slen)%nat).
  { rewrite app_length, repeat_length. pose proof (code_length v). lia. }
  split; [lia|]. split; [apply pack_bytes; exact L|]. split.
  - unfold pack. rewrite map_length, seq_length. lia.
  - exists (Z.to_nat (8 * slen - code_len v)). apply pack_bits. exact L.
Qed.

(** and conversely *)
Lemma Compress_intro v x z : fits64 (Z.of_nat (length x)) -> bytes x ->
  bits_of x = code v ++ repeat false z -> Compress v (Z.of_nat (length x)) = Ok x.
Proof.
  intros Hf Hx E. rewrite Compress_eq by assumption.
  assert (L : Z.of_nat (length (bits_of x)) = code_len v + Z.of_nat z).
  { rewrite E, app_length, repeat_length, <- code_length. lia. }
  rewrite bits_of_length in L.
  destruct (Z.gtb_spec (code_len v) (8 * Z.of_nat (length x))); [lia|].
  f_equal. replace (Z.to_nat (8 * Z.of_nat (length x) - code_len v)) with z by lia.
  rewrite <- E, Nat2Z.id. apply pack_bits_of. assumption.
Qed.

(** ** Trailing zeros *)
Lemma strip_rev_zeros k u : strip_rev (repeat false k ++ u) = strip_rev u.
Proof. induction k; cbn; auto. Qed.
Lemma rev_repeat {A} (a : A) k : rev (repeat a k) = repeat a k.
Proof.
  induction k as [|k IH]; [reflexivity|]. cbn [repeat rev]. rewrite IH.
  symmetry. apply repeat_cons.
Qed.

Lemma trim_ok t k : trim ((t ++ [true]) ++ repeat false k) = Ok (t ++ [true]).
Proof.
  unfold trim. rewrite rev_app_distr, rev_repeat, strip_rev_zeros, rev_app_distr.
  cbn [rev app strip_rev bind]. rewrite rev_involutive. reflexivity.
Qed.
Lemma trim_zero k : trim (repeat false k) = Panic.
Proof. unfold trim. rewrite rev_repeat. rewrite <- (app_nil_r (repeat false k)), strip_rev_zeros. reflexivity. Qed.

Lemma bits_cases (u : list bool) :
  (exists k, u = repeat false k) \/ (exists t k, u = (t ++ [true]) ++ repeat false k).
Proof.
  induction u as [|b u IH] using rev_ind.
  - left. exists 0%nat. reflexivity.
  - destruct b.
    + right. exists u, 0%nat. cbn [repeat]. rewrite app_nil_r. reflexivity.
    + destruct IH as [[k ->]|[t [k ->]]].
      * left. exists (S k). rewrite <- repeat_cons. reflexivity.
      * right. exists t, (S k). rewrite <- app_assoc. f_equal. rewrite <- repeat_cons. reflexivity.
Qed.

Lemma zeros_no_true k : ~ In true (repeat false k).
Proof. intros H. apply repeat_spec in H. discriminate. Qed.

(** ** The decoding loop *)
Lemma scan_high_ok k rest h : scan_high h (repeat false k ++ true :: rest) = Ok (h + Z.of_nat k, rest).
Proof.
  revert h. induction k as [|k IH]; intros h; cbn [repeat app scan_high].
  - f_equal. f_equal. lia.
  - rewrite IH. f_equal. f_equal. lia.
Qed.

Lemma scan_high_panic k h : scan_high h (repeat false k) = Panic.
Proof. revert h. induction k as [|k IH]; intros h; cbn [repeat scan_high]; auto. Qed.

Lemma code_coef_decode c rest :
  code_coef c ++ rest = (c <? 0) :: bit_be 7 (Z.abs c mod 128)
    ++ repeat false (Z.to_nat (Z.abs c / 128)) ++ true :: rest.
Proof. unfold code_coef. cbn [app]. rewrite <- !app_assoc. reflexivity. Qed.

Lemma decode_step fuel n c rest v :
  Z.of_nat (length v) < n ->
  decode_loop (S fuel) n (code_coef c ++ rest) v = decode_loop fuel n rest (v ++ [c]).
Proof.
  intros Hn. rewrite code_coef_decode. cbn [decode_loop].
  destruct (Z.ltb_spec (Z.of_nat (length v)) n); [|lia].
  set (m := Z.abs c mod 128). set (hh := Z.to_nat (Z.abs c / 128)).
  assert (Hm : 0 <= m < 128) by (apply Z.mod_pos_bound; lia).
  assert (Hlen : (8 <= length ((c <? 0)%Z :: bit_be 7 m ++ repeat false hh ++ true :: rest))%nat).
  { cbn [length]. rewrite app_length, bit_be_length. lia. }
  rewrite slice_ok by lia. cbn [bind]. change (8 - 1)%nat with 7%nat.
  rewrite !skipn_cons, skipn_O.
  rewrite firstn_app_l by apply bit_be_length.
  rewrite parse_7 by assumption.
  rewrite skipn_app_l by apply bit_be_length.
  rewrite scan_high_ok. cbn [bind fst snd].
  pose proof (Z.div_mod (Z.abs c) 128 ltac:(lia)) as Hd. fold m in Hd.
  pose proof (Z.div_pos (Z.abs c) 128 ltac:(lia) ltac:(lia)).
  replace (0 + Z.of_nat hh) with (Z.abs c / 128) by lia.
  replace (m + Z.abs c / 128 * 128) with (Z.abs c) by lia.
  destruct (Z.ltb_spec c 0).
  - replace (-1 * Z.abs c) with c by lia.
    destruct (Z.eqb_spec c 0); [lia|]. reflexivity.
  - replace (1 * Z.abs c) with c by lia. rewrite andb_false_r. reflexivity.
Qed.

Lemma code_app v w : code (v ++ w) = code v ++ code w.
Proof. unfold code. rewrite map_app, concat_app. reflexivity. Qed.
Lemma code_cons c v : code (c :: v) = code_coef c ++ code v.
Proof. reflexivity. Qed.

Lemma code_coef_nonempty c : (9 <= length (code_coef c))%nat.
Proof. pose proof (code_coef_length c). pose proof (Z.div_pos (Z.abs c) 128). lia. Qed.

Lemma code_length_ge v : (9 * length v <= length (code v))%nat.
Proof.
  induction v as [|c v IH]; [cbn; lia|]. rewrite code_cons, app_length.
  pose proof (code_coef_nonempty c). cbn [length]. lia.
Qed.

Lemma decode_many w : forall fuel n rest v,
  Z.of_nat (length v + length w) <= n ->
  decode_loop (length w + fuel) n (code w ++ rest) v = decode_loop fuel n rest (v ++ w).
Proof.
  induction w as [|c w IH]; intros fuel n rest v H.
  - cbn. rewrite app_nil_r. reflexivity.
  - cbn [length] in *. rewrite code_cons, <- app_assoc. cbn [Nat.add].
    rewrite decode_step by lia. rewrite IH by (rewrite app_length; cbn [length]; lia).
    rewrite <- app_assoc. reflexivity.
Qed.

(** decode_loop in general: it consumes the code of some w, then stops. *)
Inductive stop (n : Z) : list bool -> list Z -> res (list Z) -> Prop :=
| stop_nil v : stop n [] v (Ok v)
| stop_full u v : u <> [] -> n <= Z.of_nat (length v) -> stop n u v (Ok v)
| stop_short u v : u <> [] -> Z.of_nat (length v) < n -> (length u <= 8)%nat -> stop n u v Panic
| stop_noend u v : (9 <= length u)%nat -> Z.of_nat (length v) < n ->
    skipn 8 u = repeat false (length u - 8) -> stop n u v Panic
| stop_mzero rest v : Z.of_nat (length v) < n ->
    stop n (true :: repeat false 7 ++ true :: rest) v (Err ErrInvalidEncoding).

Lemma first_true (u : list bool) :
  u = repeat false (length u) \/ exists k rest, u = repeat false k ++ true :: rest.
Proof.
  induction u as [|[] u IH]; [left; reflexivity| |].
  - right. exists 0%nat, u. reflexivity.
  - destruct IH as [IH|[k [rest IH]]].
    + left. cbn. f_equal. exact IH.
    + right. exists (S k), rest. rewrite IH. reflexivity.
Qed.

Lemma list7 (l : list bool) : length l = 7%nat -> l = bit_be 7 (parse_bin l) /\ 0 <= parse_bin l < 128.
Proof.
  intros H. split.
  - rewrite <- H at 1. symmetry. apply bit_be_parse.
  - pose proof (parse_bin_range l) as R. rewrite H in R. exact R.
Qed.

(** a string with at least 9 characters and a one at position >= 8 starts with
    the code of a coefficient, or with that of minus zero *)
Lemma front_cases c l k rest : length l = 7%nat ->
  let u := c :: l ++ repeat false k ++ true :: rest in
  let a := parse_bin l + Z.of_nat k * 128 in
  let coef := if c : bool then - a else a in
  (a = 0 /\ c = true /\ u = true :: repeat false 7 ++ true :: rest) \/
  (~ (a = 0 /\ c = true) /\ u = code_coef coef ++ rest).
Proof.
  intros Hl u a coef. destruct (list7 l Hl) as [El Rl].
  assert (Ha : 0 <= a) by (unfold a; lia).
  destruct (Z.eq_dec a 0) as [E|E], c.
  - left. split; [assumption|]. split; [reflexivity|].
    unfold u. assert (Hp : parse_bin l = 0) by (unfold a in E; lia). assert (k = 0%nat) by (unfold a in E; lia). subst k.
    rewrite El, Hp. reflexivity.
  - right. split; [intuition discriminate|]. unfold coef. rewrite code_coef_decode.
    unfold u. destruct (Z.ltb_spec a 0); [lia|]. f_equal.
    assert (Hp : parse_bin l = 0) by (unfold a in E; lia). assert (k = 0%nat) by (unfold a in E; lia). subst k.
    rewrite E. cbn [Z.abs]. rewrite El, Hp. reflexivity.
  - right. split; [intuition|]. unfold coef. rewrite code_coef_decode. unfold u.
    destruct (Z.ltb_spec (- a) 0); [|lia]. f_equal. rewrite Z.abs_opp, Z.abs_eq by lia.
    unfold a. rewrite Z.mod_add, Z.mod_small by lia. rewrite Z.div_add, Z.div_small by lia.
    cbn [Z.add]. rewrite Nat2Z.id, <- El. reflexivity.
  - right. split; [intuition discriminate|]. unfold coef. rewrite code_coef_decode. unfold u.
    destruct (Z.ltb_spec a 0); [lia|]. f_equal. rewrite Z.abs_eq by lia.
    unfold a. rewrite Z.mod_add, Z.mod_small by lia. rewrite Z.div_add, Z.div_small by lia.
    cbn [Z.add]. rewrite Nat2Z.id, <- El. reflexivity.
Qed.

Lemma list_split9 (u : list bool) : (8 <= length u)%nat ->
  exists c l r, u = c :: l ++ r /\ length l = 7%nat.
Proof.
  intros H. destruct u as [|c u]; [cbn in H; lia|]. exists c, (firstn 7 u), (skipn 7 u).
  rewrite firstn_skipn. split; [reflexivity|]. cbn [length] in H. apply firstn_length_le. lia.
Qed.

Lemma skipn8 c l r : length l = 7%nat -> skipn 8 ((c : bool) :: l ++ r) = r.
Proof.
  intros Hl. rewrite skipn_cons. apply skipn_app_l. exact Hl.
Qed.

Lemma stop_sound n u v r fuel : stop n u v r -> decode_loop (S fuel) n u v = r.
Proof.
  intros H. destruct H as [v|u v H1 H2|u v H1 H2 H3|u v H1 H2 H3|rest v H1]; cbn [decode_loop].
  - reflexivity.
  - destruct u; [contradiction|]. destruct (Z.ltb_spec (Z.of_nat (length v)) n); [lia|]. reflexivity.
  - destruct u as [|c u]; [contradiction|].
    destruct (Z.ltb_spec (Z.of_nat (length v)) n); [|lia].
    destruct (Nat.eq_dec (length (c :: u)) 8) as [E|E].
    + rewrite slice_ok by lia. cbn [bind]. rewrite skipn_all2 by lia. reflexivity.
    + unfold slice. destruct (Nat.leb_spec 8 (length (c :: u))); [lia|].
      rewrite andb_false_r. reflexivity.
  - destruct u as [|c u]; [cbn in H1; lia|].
    destruct (Z.ltb_spec (Z.of_nat (length v)) n); [|lia].
    rewrite slice_ok by lia. cbn [bind]. rewrite H3, scan_high_panic. reflexivity.
  - destruct (Z.ltb_spec (Z.of_nat (length v)) n); [|lia].
    change (slice (true :: repeat false 7 ++ true :: rest) 1 8) with (@Ok (list bool) (repeat false 7)).
    cbn [bind]. change (skipn 8 (true :: repeat false 7 ++ true :: rest)) with (true :: rest).
    cbn [scan_high bind fst snd]. reflexivity.
Qed.

Lemma decode_total : forall len u v n, (length u <= len)%nat ->
  exists w rest r, u = code w ++ rest /\ Z.of_nat (length (v ++ w)) <= Z.max n (Z.of_nat (length v)) /\ stop n rest (v ++ w) r.
Proof.
  induction len as [len IH] using lt_wf_ind. intros u v n Hlen.
  destruct u as [|c0 u0] eqn:Eu.
  { exists [], [], (Ok v). rewrite (app_nil_r v). split; [reflexivity|]. split; [lia|constructor]. }
  rewrite <- Eu in *. assert (Hne : u <> []) by (rewrite Eu; discriminate).
  destruct (Z.le_gt_cases n (Z.of_nat (length v))) as [Hn|Hn].
  { exists [], u, (Ok v). rewrite (app_nil_r v). split; [reflexivity|]. split; [lia|]. constructor; assumption. }
  destruct (Nat.le_gt_cases (length u) 8) as [H8|H8].
  { exists [], u, Panic. rewrite (app_nil_r v). split; [reflexivity|]. split; [lia|]. constructor; assumption. }
  destruct (list_split9 u ltac:(lia)) as [c [l [r [E Hl]]]].
  destruct (first_true r) as [Er|[k [rest Er]]].
  { exists [], u, Panic. rewrite (app_nil_r v). split; [reflexivity|]. split; [lia|].
    apply stop_noend; try lia. rewrite E, skipn8 by assumption. rewrite Er at 1. f_equal.
    cbn [length]. rewrite app_length. lia. }
  rewrite Er in E.
  destruct (front_cases c l k rest Hl) as [[_ [_ Ez]]|[_ Ec]].
  - exists [], u, (Err ErrInvalidEncoding). rewrite (app_nil_r v). split; [reflexivity|]. split; [lia|].
    rewrite E, Ez. apply stop_mzero. assumption.
  - set (a := parse_bin l + Z.of_nat k * 128) in *. set (coef := if c then - a else a) in *.
    rewrite Ec in E.
    pose proof (code_coef_nonempty coef) as Hcl.
    assert (Hlr : (length rest < length u)%nat) by (rewrite E, app_length; lia).
    destruct (IH (length rest) ltac:(lia) rest (v ++ [coef]) n (le_n _)) as [w [rest' [res [E1 [E2 E3]]]]].
    exists (coef :: w), rest', res. rewrite code_cons, <- app_assoc, <- E1. split; [assumption|].
    rewrite <- app_assoc in E2, E3. cbn [app] in E2, E3. split; [|assumption].
    rewrite !app_length in *. cbn [length] in *. lia.
Qed.

(** what Decompress does on a string with at least one one-bit *)
Lemma Decompress_eval x slen n t k w rest r : bytes x ->
  Z.of_nat (length x) <= slen ->
  bits_of x = (t ++ [true]) ++ repeat false k ->
  t ++ [true] = code w ++ rest -> Z.of_nat (length w) <= Z.max n 0 -> stop n rest w r ->
  Decompress x slen n =
  (v <- r ;; if negb (Z.of_nat (length v) =? n) then Err ErrInvalidEncoding else Ok v).
Proof.
  intros Hx Hs Hb Ht Hw Hst. unfold Decompress.
  destruct (Z.gtb_spec (Z.of_nat (length x)) slen); [lia|].
  rewrite decompress_bits by assumption. rewrite Hb, trim_ok. cbn [bind].
  assert (E : decode_loop (S (length (t ++ [true]))) n (t ++ [true]) [] = r).
  { rewrite Ht. pose proof (code_length_ge w).
    replace (S (length (code w ++ rest))) with (length w + S (length (code w ++ rest) - length w))%nat
      by (rewrite app_length; lia).
    destruct w as [|c w].
    - cbn [length Nat.add code map concat app]. apply stop_sound. exact Hst.
    - rewrite decode_many by (cbn [length] in *; lia). cbn [app]. apply stop_sound. exact Hst. }
  rewrite E. reflexivity.
Qed.

Lemma In_true_cases u : In true u -> exists t k, u = (t ++ [true]) ++ repeat false k.
Proof.
  intros H. destruct (bits_cases u) as [[k ->]|E]; [|exact E].
  exfalso. exact (zeros_no_true k H).
Qed.

Lemma code_last w : w <> [] -> exists t, code w = t ++ [true].
Proof.
  intros H. destruct (exists_last H) as [w' [c ->]]. rewrite code_app.
  unfold code at 2. cbn [map concat]. rewrite app_nil_r. unfold code_coef.
  eexists. rewrite !app_comm_cons, !app_assoc. f_equal.
Qed.

Lemma app_split_l {A} (a b c d : list A) : a ++ b = c ++ d -> (length a <= length c)%nat ->
  exists e, c = a ++ e /\ b = e ++ d.
Proof.
  revert c. induction a as [|x a IH]; intros c E L.
  - exists c. split; [reflexivity|exact E].
  - destruct c as [|y c]; [cbn in L; lia|]. cbn in E. injection E as -> E.
    destruct (IH c E ltac:(cbn in L; lia)) as [e [-> ->]]. exists e. split; reflexivity.
Qed.

Lemma last_true_zeros (t s : list bool) k rest :
  (t ++ [true]) ++ repeat false k = (s ++ [true]) ++ rest -> exists r, t ++ [true] = (s ++ [true]) ++ r /\ rest = r ++ repeat false k.
Proof.
  intros E. destruct (Nat.le_gt_cases (length (s ++ [true])) (length (t ++ [true]))) as [L|L].
  - symmetry in E. destruct (app_split_l _ _ _ _ E L) as [e [E1 E2]]. exists e. split; assumption.
  - destruct (app_split_l _ _ _ _ E ltac:(lia)) as [e [E1 E2]]. exfalso.
    assert (Hi : In true e).
    { destruct e as [|b e] using rev_ind.
      - rewrite app_nil_r in E1. rewrite E1 in L. lia.
      - rewrite app_assoc in E1. apply app_inj_tail in E1. destruct E1 as [_ <-]. apply in_or_app. right. left. reflexivity. }
    apply (zeros_no_true k). rewrite E2. apply in_or_app. left. exact Hi.
Qed.

(** ** Decompress succeeds exactly on ... *)
Theorem Decompress_iff x slen n v : bytes x ->
  Decompress x slen n = Ok v <->
  Z.of_nat (length x) <= slen /\ Z.of_nat (length v) = n /\ In true (bits_of x) /\
  exists rest, bits_of x = code v ++ rest.
Proof.
  intros Hx. split.
  - intros H.
    assert (Hs : Z.of_nat (length x) <= slen).
    { unfold Decompress in H. destruct (Z.gtb_spec (Z.of_nat (length x)) slen); [discriminate|lia]. }
    destruct (bits_cases (bits_of x)) as [[k E]|[t [k E]]].
    { exfalso. unfold Decompress in H. destruct (Z.gtb_spec (Z.of_nat (length x)) slen); [lia|].
      rewrite decompress_bits, E, trim_zero in H by assumption. discriminate. }
    destruct (decode_total (length (t ++ [true])) (t ++ [true]) [] n (le_n _)) as [w [rest [r [E1 [E2 E3]]]]].
    cbn [app length] in E2, E3.
    rewrite (Decompress_eval x slen n t k w rest r Hx Hs E E1 ltac:(lia) E3) in H.
    split; [assumption|].
    assert (Ew : v = w /\ Z.of_nat (length v) = n).
    { destruct E3 as [w|u w F1 F2|u w F1 F2 F3|u w F1 F2 F3|rest w F1]; cbn [bind] in H; try discriminate;
      (destruct (Z.eqb_spec (Z.of_nat (length w)) n); cbn [negb] in H; [|discriminate]);
      injection H as <-; split; (reflexivity || assumption). }
    destruct Ew as [-> Hn]. split; [assumption|]. split.
    + rewrite E. apply in_or_app. left. apply in_or_app. right. left. reflexivity.
    + exists (rest ++ repeat false k). rewrite E, E1, <- app_assoc. reflexivity.
  - intros [Hs [Hn [Ht [rest E]]]].
    destruct (In_true_cases _ Ht) as [t [k Eb]].
    assert (Hr : exists r, t ++ [true] = code v ++ r).
    { destruct v as [|c v].
      - exists (t ++ [true]). reflexivity.
      - destruct (code_last (c :: v)) as [s Es]; [discriminate|].
        rewrite Eb, Es in E. destruct (last_true_zeros _ _ _ _ E) as [r [Er _]].
        exists r. rewrite Es. exact Er. }
    destruct Hr as [r Er].
    assert (Hst : stop n r v (Ok v)).
    { destruct r as [|b r]; [constructor|]. apply stop_full; [discriminate|lia]. }
    rewrite (Decompress_eval x slen n t k v r (Ok v) Hx Hs Eb Er ltac:(lia) Hst).
    cbn [bind]. rewrite (proj2 (Z.eqb_eq _ _) Hn). reflexivity.
Qed.

(** Decompress panics exactly on ... *)
Theorem Decompress_panic_iff x slen n : bytes x ->
  Decompress x slen n = Panic <->
  Z.of_nat (length x) <= slen /\
  ((exists k, bits_of x = repeat false k) \/
   (exists w r k, bits_of x = code w ++ (r ++ [true]) ++ repeat false k /\
      (length r <= 7)%nat /\ Z.of_nat (length w) < n)).
Proof.
  intros Hx. split.
  - intros H.
    assert (Hs : Z.of_nat (length x) <= slen).
    { unfold Decompress in H. destruct (Z.gtb_spec (Z.of_nat (length x)) slen); [discriminate|lia]. }
    split; [assumption|].
    destruct (bits_cases (bits_of x)) as [[k E]|[t [k E]]]; [left; exists k; assumption|]. right.
    destruct (decode_total (length (t ++ [true])) (t ++ [true]) [] n (le_n _)) as [w [rest [r [E1 [E2 E3]]]]].
    cbn [app length] in E2, E3.
    rewrite (Decompress_eval x slen n t k w rest r Hx Hs E E1 ltac:(lia) E3) in H.
    assert (Hlast : rest <> [] -> exists r', rest = r' ++ [true]).
    { intros Hne. destruct (exists_last Hne) as [r' [b ->]]. exists r'.
      rewrite app_assoc in E1. apply app_inj_tail in E1. destruct E1 as [_ <-]. reflexivity. }
    destruct E3 as [w|u w F1 F2|u w F1 F2 F3|u w F1 F2 F3|rest w F1]; cbn [bind] in H; try discriminate.
    + destruct (negb _) in H; discriminate.
    + destruct (negb _) in H; discriminate.
    + destruct (Hlast F1) as [r' ->]. exists w, r', k. rewrite E, E1, <- app_assoc.
      split; [reflexivity|]. rewrite app_length in F3. cbn [length] in F3. split; [lia|assumption].
    + exfalso. destruct (Hlast ltac:(intros ->; cbn in F1; lia)) as [r' ->].
      rewrite app_length in F1, F3. cbn [length] in F1, F3.
      rewrite skipn_app in F3.
      replace (8 - length r')%nat with 0%nat in F3 by lia. rewrite skipn_O in F3.
      assert (Hi : In true (skipn 8 r' ++ [true])) by (apply in_or_app; right; left; reflexivity).
      rewrite F3 in Hi. apply zeros_no_true in Hi. assumption.
  - intros [Hs [[k E]|[w [r [k [E [Hr Hn]]]]]]].
    + unfold Decompress. destruct (Z.gtb_spec (Z.of_nat (length x)) slen); [lia|].
      rewrite decompress_bits, E, trim_zero by assumption. reflexivity.
    + assert (Hst : stop n (r ++ [true]) w Panic).
      { apply stop_short; [destruct r; discriminate|assumption|].
        rewrite app_length. cbn [length]. lia. }
      rewrite (Decompress_eval x slen n (code w ++ r) k w (r ++ [true]) Panic Hx Hs); trivial.
      * rewrite E, !app_assoc. reflexivity.
      * rewrite <- app_assoc. reflexivity.
      * lia.
Qed.

Lemma Decompress_no_diverge x slen n : bytes x -> Decompress x slen n <> Diverge.
Proof.
  intros Hx H.
  assert (Hs : Z.of_nat (length x) <= slen).
  { unfold Decompress in H. destruct (Z.gtb_spec (Z.of_nat (length x)) slen); [discriminate|lia]. }
  destruct (bits_cases (bits_of x)) as [[k E]|[t [k E]]].
  { unfold Decompress in H. destruct (Z.gtb_spec (Z.of_nat (length x)) slen); [lia|].
    rewrite decompress_bits, E, trim_zero in H by assumption. discriminate. }
  destruct (decode_total (length (t ++ [true])) (t ++ [true]) [] n (le_n _)) as [w [rest [r [E1 [E2 E3]]]]].
  cbn [app length] in E2, E3.
  rewrite (Decompress_eval x slen n t k w rest r Hx Hs E E1 ltac:(lia) E3) in H.
  destruct E3; cbn [bind] in H; try discriminate; destruct (negb _) in H; discriminate.
Qed.

(** the only error is ErrInvalidEncoding *)
Lemma Decompress_err x slen n e : bytes x -> Decompress x slen n = Err e -> e = ErrInvalidEncoding.
Proof.
  intros Hx H. unfold Decompress in H.
  destruct (Z.gtb_spec (Z.of_nat (length x)) slen) as [|Hs]; [congruence|].
  destruct (bits_cases (bits_of x)) as [[k E]|[t [k E]]].
  { rewrite decompress_bits, E, trim_zero in H by assumption. discriminate. }
  destruct (decode_total (length (t ++ [true])) (t ++ [true]) [] n (le_n _)) as [w [rest [r [E1 [E2 E3]]]]].
  cbn [app length] in E2, E3.
  pose proof (Decompress_eval x slen n t k w rest r Hx ltac:(lia) E E1 ltac:(lia) E3) as H'.
  unfold Decompress in H'. destruct (Z.gtb_spec (Z.of_nat (length x)) slen); [lia|].
  rewrite H' in H.
  destruct E3; cbn [bind] in H; try discriminate; try (destruct (negb _) in H; congruence). congruence.
Qed.

(** ** Round trip, injectivity *)
Lemma code_inj_prefix v : forall v' r r', code v ++ r = code v' ++ r' -> length v = length v' -> v = v'.
Proof.
  assert (Hone : forall c c' r r', code_coef c ++ r = code_coef c' ++ r' -> c = c' /\ r = r').
  { intros c c' r r' E.
    pose proof (decode_step 1 1 c r [] ltac:(cbn; lia)) as D.
    pose proof (decode_step 1 1 c' r' [] ltac:(cbn; lia)) as D'.
    rewrite E, D' in D. cbn [decode_loop app length Z.of_nat] in D.
    assert (Ec : c = c').
    { destruct r, r'; cbn in D; injection D; congruence. }
    split; [assumption|]. subst c'. apply app_inv_head in E. exact E. }
  induction v as [|c v IH]; intros v' r r' E L; destruct v' as [|c' v']; try discriminate; [reflexivity|].
  rewrite !code_cons, <- !app_assoc in E. apply Hone in E. destruct E as [-> E].
  f_equal. apply (IH v' r r' E). injection L as L. exact L.
Qed.

Theorem Decompress_Compress v slen x : fits64 slen -> v <> [] ->
  Compress v slen = Ok x -> Decompress x slen (Z.of_nat (length v)) = Ok v.
Proof.
  intros Hf Hv H. destruct (Compress_ok_inv v slen x Hf H) as [H0 [Hx [Hl [z E]]]].
  apply Decompress_iff; [assumption|]. split; [lia|]. split; [reflexivity|]. split.
  - destruct (code_last v Hv) as [t Et]. rewrite E, Et. apply in_or_app. left. apply in_or_app. right. left. reflexivity.
  - exists (repeat false z). exact E.
Qed.

Lemma code_zeros_inj v v' z z' : code v ++ repeat false z = code v' ++ repeat false z' -> code v = code v'.
Proof.
  destruct v as [|c v], v' as [|c' v']; intros E; try reflexivity.
  - destruct (code_last (c' :: v') ltac:(discriminate)) as [t Et]. exfalso. apply (zeros_no_true z).
    change (repeat false z = code (c' :: v') ++ repeat false z') in E. rewrite E, Et. apply in_or_app. left. apply in_or_app. right. left. reflexivity.
  - destruct (code_last (c :: v) ltac:(discriminate)) as [t Et]. exfalso. apply (zeros_no_true z').
    symmetry in E. change (repeat false z' = code (c :: v) ++ repeat false z) in E. rewrite E, Et. apply in_or_app. left. apply in_or_app. right. left. reflexivity.
  - destruct (code_last (c :: v) ltac:(discriminate)) as [t Et].
    destruct (code_last (c' :: v') ltac:(discriminate)) as [t' Et'].
    rewrite Et, Et' in *.
    destruct (last_true_zeros t t' z _ E) as [r [Er Ez]].
    destruct r as [|b r] using rev_ind; [rewrite app_nil_r in Er; exact Er|].
    exfalso. rewrite app_assoc in Er. apply app_inj_tail in Er. destruct Er as [_ <-].
    apply (zeros_no_true z'). rewrite Ez. apply in_or_app. left. apply in_or_app. right. left. reflexivity.
Qed.

Lemma code_inj v v' : code v = code v' -> v = v'.
Proof.
  revert v'. induction v as [|c v IH]; intros v' E.
  - destruct v' as [|c' v']; [reflexivity|]. rewrite code_cons in E. pose proof (code_coef_nonempty c').
    assert (L : length (code []) = length (code_coef c' ++ code v')) by (f_equal; exact E).
    rewrite app_length in L. cbn [code map concat length] in L. lia.
  - destruct v' as [|c' v'].
    + rewrite code_cons in E. pose proof (code_coef_nonempty c).
      assert (L : length (code []) = length (code_coef c ++ code v)) by (f_equal; symmetry; exact E).
      rewrite app_length in L. cbn [code map concat length] in L. lia.
    + assert (Hc : [c] = [c']).
      { apply (code_inj_prefix [c] [c'] (code v) (code v')); [|reflexivity].
        rewrite !code_cons in E. cbn [code map concat]. rewrite !app_nil_r. exact E. }
      injection Hc as <-. f_equal. apply IH. rewrite !code_cons in E. apply app_inv_head in E. exact E.
Qed.

Theorem Compress_injective v v' slen x : fits64 slen ->
  Compress v slen = Ok x -> Compress v' slen = Ok x -> v = v'.
Proof.
  intros Hf H H'.
  destruct (Compress_ok_inv v slen x Hf H) as [_ [_ [_ [z E]]]].
  destruct (Compress_ok_inv v' slen x Hf H') as [_ [_ [_ [z' E']]]].
  rewrite E in E'. apply code_zeros_inj in E'. apply code_inj. exact E'.
Qed.

(** ** Further laws used by the property statements *)
Lemma Compress_wrap v slen :
  Compress v slen = Compress v (wrap64 (8 * slen) / 8) /\ fits64 (wrap64 (8 * slen) / 8).
Proof.
  assert (F : is_int64 (wrap64 (8 * slen)) /\ exists k, wrap64 (8 * slen) = 8 * k).
  { unfold wrap64, wrap, is_int64. change (2 ^ 64) with (8 * 2305843009213693952). change (2 ^ (64 - 1)) with (8 * 1152921504606846976).
    rewrite <- Z.mul_add_distr_l, Z.mul_mod_distr_l by lia. rewrite <- Z.mul_sub_distr_l.
    pose proof (Z.mod_pos_bound (slen + 1152921504606846976) 2305843009213693952 ltac:(lia)).
    split; [lia|eexists; reflexivity]. }
  destruct F as [F [k Ek]].
  assert (E : 8 * (wrap64 (8 * slen) / 8) = wrap64 (8 * slen)).
  { rewrite Ek. rewrite (Z.mul_comm 8 k), Z.div_mul by lia. lia. }
  split.
  - unfold Compress. rewrite E. rewrite (wrap64_id (wrap64 (8 * slen))) by exact F. reflexivity.
  - unfold fits64. rewrite E. exact F.
Qed.

Lemma sumn_shift n f : sumn (S n) f = f 0%nat + sumn n (fun i => f (S i)).
Proof. induction n as [|n IH]; [cbn; lia|]. cbn [sumn] in *. rewrite IH. lia. Qed.
Lemma code_len_sum v :
  code_len v = Z.of_nat (length (code v)) /\
  code_len v = sumn (length v) (fun i => 9 + Z.abs (coef v i) / 128).
Proof.
  split; [symmetry; apply code_length|].
  induction v as [|c v IH]; [reflexivity|]. cbn [length]. rewrite sumn_shift.
  change (code_len (c :: v)) with (9 + Z.abs c / 128 + code_len v). rewrite IH. reflexivity.
Qed.

Lemma Compress_exact v slen : fits64 slen ->
  (code_len v > 8 * slen /\ Compress v slen = Err ErrEncodingTooLong) \/
  (code_len v <= 8 * slen /\ exists x, Compress v slen = Ok x /\ Z.of_nat (length x) = slen /\ bytes x /\
     exists z, bits_of x = code v ++ repeat false z).
Proof.
  intros Hf. pose proof (Compress_eq v slen Hf) as E. destruct (Z.gtb_spec (code_len v) (8 * slen)) as [H|H].
  - left. split; [lia|exact E].
  - right. split; [lia|]. destruct (Compress_ok_inv _ _ _ Hf E) as [A [B [C D]]]. eexists. split; [exact E|].
    split; [exact C|]. split; [exact B|exact D].
Qed.

Lemma Decompress_canonical x slen n v : bytes x -> fits64 slen -> Decompress x slen n = Ok v ->
  Compress v slen = Ok x <->
  Z.of_nat (length x) = slen /\ exists z, bits_of x = code v ++ repeat false z.
Proof.
  intros Hx Hf H. split.
  - intros E. destruct (Compress_ok_inv _ _ _ Hf E) as [A [B [C D]]]. split; assumption.
  - intros [<- [z E]]. apply (Compress_intro v x z); assumption.
Qed.
