(** C94: two signatures of one salt, message and key differ by a short vector of
    the public lattice, and adding such a vector to a signature gives another:
    what Verify accepts is one class of the lattice, cut by the norm bound. *)
From Coq Require Import Lia ZArith List.
From Verif Require Import GoBase Util BaseProofs PolyZ NttProps Spec SpecHash Xof Ntt Encoding EncodingProofs Params Falcon FalconProofs VerifyProofs
  Witness Examples PropsVerify PropsBasis PropsSign.
Import ListNotations.
Local Open Scope Z_scope.

Lemma negacyc_add_at n a b h i : (i < n)%nat ->
  coef (negacyc n (padd n a b) h) i = coef (negacyc n a h) i + coef (negacyc n b h) i.
Proof.
  intros Hi. unfold negacyc. rewrite !coef_map_seq by exact Hi. unfold negacyc_coef.
  enough (E : forall m, (m <= n)%nat -> forall F, sumn m (fun j => F j (coef (padd n a b) j)) =
     sumn m (fun j => F j (coef a j + coef b j))).
  { rewrite (E n (le_n n) (fun j x => if Nat.leb j i then x * coef h (i - j) else - (x * coef h (n + i - j)))).
    generalize n at 1 3 5. intros m. induction m as [|m IH]; [reflexivity|]. cbn [sumn]. rewrite IH. destruct (Nat.leb m i); ring. }
  induction m as [|m IH]; intros Hm F; [reflexivity|]. cbn [sumn]. rewrite IH by lia.
  unfold padd at 1. rewrite coef_map_seq by lia. reflexivity.
Qed.
Lemma negacyc_sub_at n a b h i : (i < n)%nat ->
  coef (negacyc n (psub n a b) h) i = coef (negacyc n a h) i - coef (negacyc n b h) i.
Proof.
  intros Hi. unfold negacyc. rewrite !coef_map_seq by exact Hi. unfold negacyc_coef.
  enough (E : forall m, (m <= n)%nat -> forall F, sumn m (fun j => F j (coef (psub n a b) j)) =
     sumn m (fun j => F j (coef a j - coef b j))).
  { rewrite (E n (le_n n) (fun j x => if Nat.leb j i then x * coef h (i - j) else - (x * coef h (n + i - j)))).
    generalize n at 1 3 5. intros m. induction m as [|m IH]; [reflexivity|]. cbn [sumn]. rewrite IH. destruct (Nat.leb m i); ring. }
  induction m as [|m IH]; intros Hm F; [reflexivity|]. cbn [sumn]. rewrite IH by lia.
  unfold psub at 1. rewrite coef_map_seq by lia. reflexivity.
Qed.
Lemma psub_len n a b : length (psub n a b) = n.
Proof. unfold psub. now rewrite map_length, seq_length. Qed.
Lemma padd_len n a b : length (padd n a b) = n.
Proof. unfold padd. now rewrite map_length, seq_length. Qed.
Lemma s0_len n h c s : length (falcon_s0 n h c s) = n.
Proof. unfold falcon_s0, psub. now rewrite !map_length, seq_length. Qed.

Lemma sqnorm_cons a l : sqnorm (a :: l) = a * a + sqnorm l.
Proof. reflexivity. Qed.
(** |a - b|^2 <= 2 |a|^2 + 2 |b|^2 *)
Lemma sqnorm_diff : forall n a b, length a = n -> length b = n -> sqnorm (psub n a b) <= 2 * sqnorm a + 2 * sqnorm b.
Proof.
  induction n as [|n IH]; intros [|x a] [|y b] La Lb; try discriminate.
  assert (E : psub (S n) (x :: a) (y :: b) = (x - y) :: psub n a b).
  { unfold psub. cbn [seq map]. f_equal. rewrite <- seq_shift, map_map. reflexivity. }
  rewrite E, !sqnorm_cons. specialize (IH a b ltac:(now injection La) ltac:(now injection Lb)).
  pose proof (Z.square_nonneg (x + y)). nia.
Qed.
Lemma coef_ext n a b : length a = n -> length b = n -> (forall i, (i < n)%nat -> coef a i = coef b i) -> a = b.
Proof. intros La Lb H. apply nth_ext with (d := 0) (d' := 0); [congruence|]. intros i Hi. apply H. lia. Qed.

(** the difference of two solutions of the verification equation is in the lattice *)
Lemma diff_lattice n h c s s' :
  ntru_lattice n h (psub n (falcon_s0 n h c s) (falcon_s0 n h c s')) (psub n s s').
Proof.
  apply at_lattice. intros i Hi. rewrite negacyc_sub_at by exact Hi. unfold psub at 1. rewrite coef_map_seq by exact Hi.
  rewrite !s0_at by exact Hi. set (x := coef c i). set (y := coef (negacyc n s h) i). set (y' := coef (negacyc n s' h) i).
  pose proof (centred_cong (x - y)) as A. pose proof (centred_cong (x - y')) as B.
  apply cong_divide in A; [|discriminate]. apply cong_divide in B; [|discriminate]. destruct A as [z A]. destruct B as [w B].
  apply cong_divide; [discriminate|]. exists (z - w). unfold GoBase.Q in A, B. unfold q. lia.
Qed.
(** moving along the lattice gives at most the moved vector *)
Lemma moved_norm n h c s u v : ntru_lattice n h u v ->
  sqnorm (falcon_s0 n h c (padd n s v)) <= sqnorm (padd n (falcon_s0 n h c s) u).
Proof.
  intros H. apply sqnorm_le; [rewrite s0_len, padd_len; reflexivity|]. intros i.
  destruct (Nat.lt_ge_cases i n) as [Hi|Hi].
  2:{ rewrite coef_beyond; [lia|rewrite s0_len; exact Hi]. }
  rewrite s0_at by exact Hi. rewrite negacyc_add_at by exact Hi. unfold padd at 1. rewrite coef_map_seq by exact Hi.
  rewrite s0_at by exact Hi. apply centred_least. pose proof (lattice_at n h u v i H Hi) as A.
  pose proof (centred_cong (coef c i - coef (negacyc n s h) i)) as B.
  apply cong_divide in A; [|discriminate]. apply cong_divide in B; [|discriminate]. destruct A as [z A]. destruct B as [w B].
  apply cong_divide; [discriminate|]. exists (- w - z). unfold GoBase.Q in B. unfold q in *. lia.
Qed.

(** C94.  Two accepted strings with the same salt either name the same s1 or give
    a non-zero vector of the public lattice, of squared norm at most 4 times the
    bound when the two norms did not wrap around (C02). *)
Theorem C94_short_vector : forall X fuel h msg sig sig',
  int16s h -> bytes sig -> bytes sig' -> firstn 40 (skipn 1 sig) = firstn 40 (skipn 1 sig') ->
  Verify wrap64 X fuel h msg sig = Ok true -> Verify wrap64 X fuel h msg sig' = Ok true ->
  exists ss ss' c, decodes (skipn 41 sig) 625 512 ss /\ decodes (skipn 41 sig') 625 512 ss' /\
    hashToPoint X fuel msg (firstn 40 (skipn 1 sig)) = Ok c /\
    let s1 := map int16_of ss in let s1' := map int16_of ss' in
    let s0 := falcon_s0 512 (firstn 512 h) c s1 in let s0' := falcon_s0 512 (firstn 512 h) c s1' in
    let u := psub 512 s0 s0' in let v := psub 512 s1 s1' in
    (s1 = s1' \/ v <> repeat 0 512) /\ ntru_lattice 512 (firstn 512 h) u v /\
    (sqnorm s0 + sqnorm s1 < 2 ^ 32 -> sqnorm s0' + sqnorm s1' < 2 ^ 32 -> sqnorm u + sqnorm v <= 4 * beta2_512).
Proof.
  intros X fuel h msg sig sig' Ih Hb Hb' ES V V'.
  destruct (C02_norm_bound_partial X fuel h msg sig Ih Hb V) as (ss & c & D & Hc & _ & N).
  destruct (C02_norm_bound_partial X fuel h msg sig' Ih Hb' V') as (ss' & c' & D' & Hc' & _ & N').
  rewrite <- ES, Hc in Hc'. injection Hc' as <-. exists ss, ss', c. split; [exact D|]. split; [exact D'|]. split; [exact Hc|].
  cbv zeta in *. set (s1 := map int16_of ss) in *. set (s1' := map int16_of ss') in *.
  assert (L : length s1 = 512%nat) by (destruct D as (_ & Ld & _); unfold s1; rewrite map_length; lia).
  assert (L' : length s1' = 512%nat) by (destruct D' as (_ & Ld & _); unfold s1'; rewrite map_length; lia).
  split; [|split; [apply diff_lattice|]].
  - destruct (list_eq_dec Z.eq_dec (psub 512 s1 s1') (repeat 0 512)) as [E|NE]; [left|right; exact NE].
    apply (coef_ext 512); [exact L|exact L'|]. intros i Hi. apply (f_equal (fun l => coef l i)) in E.
    unfold psub in E. rewrite coef_map_seq in E by exact Hi. unfold coef at 3 in E. rewrite nth_repeat in E. lia.
  - intros B B'. specialize (N B). specialize (N' B').
    pose proof (sqnorm_diff 512 _ _ L L').
    pose proof (sqnorm_diff 512 _ _ (s0_len 512 (firstn 512 h) c s1) (s0_len 512 (firstn 512 h) c s1')). lia.
Qed.
Print Assumptions C94_short_vector.

(** Conversely a vector of the lattice added to a signature gives a signature as
    long as the sum stays within the bound (and its encoding fits). *)
Theorem C94_another_signature : forall X fuel h msg hdr salt c s u v enc,
  length h = 512%nat -> int16s h -> length salt = 40%nat -> hashToPoint X fuel msg salt = Ok c ->
  ntru_lattice 512 h u v ->
  sqnorm (padd 512 (falcon_s0 512 h c s) u) + sqnorm (padd 512 s v) <= beta2_512 ->
  Compress (padd 512 s v) 625 = Ok enc ->
  Verify wrap64 X fuel h msg (hdr :: salt ++ enc) = Ok true.
Proof.
  intros X fuel h msg hdr salt c s u v enc Lh Ih Ls Hc HL N E.
  apply (C01_verify_complete X fuel h msg hdr salt (padd 512 s v) c enc); try assumption.
  - apply padd_len.
  - unfold int16s, is_int16. apply Forall_forall. intros x Hx. pose proof (sqnorm_in _ _ Hx).
    pose proof (sqnorm_pos (padd 512 (falcon_s0 512 h c s) u)). unfold beta2_512 in N. assert (B : x * x <= 34034726) by lia. clear - B. split; nia.
  - pose proof (moved_norm 512 h c s u v HL). lia.
Qed.
Print Assumptions C94_another_signature.

(** With the private basis every such vector is a combination of its rows (C87),
    and the shortest ones at hand are the rows (g, -f) themselves: from one
    signature the holder of the key, or whoever finds (f, g), gets others. *)
Theorem C94_with_the_key : forall X fuel sk pk msg hdr salt c s a b u v enc,
  key_pair 512 sk pk -> length salt = 40%nat -> hashToPoint X fuel msg salt = Ok c ->
  lattice_point 512 sk a b u v ->
  sqnorm (padd 512 (falcon_s0 512 (pk_h pk) c s) u) + sqnorm (padd 512 s v) <= beta2_512 ->
  Compress (padd 512 s v) 625 = Ok enc ->
  Verify wrap64 X fuel (pk_h pk) msg (hdr :: salt ++ enc) = Ok true.
Proof.
  intros X fuel sk pk msg hdr salt c s a b u v enc K Ls Hc (La & Lb & C) N E.
  destruct (key_h 512 sk pk valid512 K) as [Lh Ih]. destruct K as (Lf & Lg & LF & LG & If & Ig & Inv & EQ & EK).
  assert (Lu : length u = 512%nat) by (destruct C as [-> _]; unfold padd; now rewrite map_length, seq_length).
  assert (Lv : length v = 512%nat) by (destruct C as [_ ->]; unfold psub; now rewrite map_length, seq_length).
  apply (C94_another_signature X fuel (pk_h pk) msg hdr salt c s u v enc); auto.
  apply (proj1 (C87_lattice 512 sk pk valid512 Lf Lg LF LG If Ig Inv EQ EK u v Lu Lv)). exists a, b. auto.
Qed.
Print Assumptions C94_with_the_key.

(** For the key 44 x^256 and the hash point 0, both s1 = 0 and s1 = 1 are
    signatures; their difference is the vector (-44 x^256, 1). *)
Example C94_nonvacuous :
  int16s (mono256 44) /\ bytes (57 :: ex_salt ++ enc_zero) /\ bytes sig_a /\
  firstn 40 (skipn 1 sig_a) = firstn 40 (skipn 1 (57 :: ex_salt ++ enc_zero)) /\
  Verify wrap64 zeroXOF 600 (mono256 44) ex_msg sig_a = Ok true /\
  Verify wrap64 zeroXOF 600 (mono256 44) ex_msg (57 :: ex_salt ++ enc_zero) = Ok true /\
  ntru_lattice 512 (mono256 44) (mono256 (-44)) one512 /\
  sqnorm (padd 512 (falcon_s0 512 (mono256 44) (repeat 0 512) zero512) (mono256 (-44))) + sqnorm (padd 512 zero512 one512) = 1937 /\
  Compress (padd 512 zero512 one512) 625 = Ok enc_one.
Proof.
  assert (I : int16s (mono256 44)) by (apply mono_int16; unfold is_int16; lia).
  assert (Z0 : falcon_s0 512 (mono256 44) (repeat 0 512) zero512 = repeat 0 512).
  { unfold falcon_s0, zero512. rewrite VerifyProofs.negacyc_const by reflexivity. vm_compute. reflexivity. }
  split; [exact I|]. split; [apply bytes_dec; vm_compute; reflexivity|]. split; [apply bytes_dec; vm_compute; reflexivity|].
  split; [vm_compute; reflexivity|]. split; [exact (proj1 word_size)|]. split.
  { refine (C01_verify_complete zeroXOF 600 (mono256 44) ex_msg 57 ex_salt zero512 (repeat 0 512) enc_zero eq_refl I ex_salt_len
      zero512_len _ enc_zero_ok zero_hash _).
    - apply int16s_dec. vm_compute. reflexivity.
    - rewrite Z0. vm_compute. discriminate. }
  split.
  { unfold ntru_lattice. unfold one512. rewrite VerifyProofs.negacyc_const by reflexivity. vm_compute. reflexivity. }
  rewrite Z0. split; [vm_compute; reflexivity|].
  replace (padd 512 zero512 one512) with one512 by (vm_compute; reflexivity). exact enc_one_ok.
Qed.
