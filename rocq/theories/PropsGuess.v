(** How often a fixed signature body is accepted, over all hash points (C97). *)
From Verif Require Import GoBase Util Encoding Params Xof Falcon Spec SpecHash NttProofs EncodingProofs
  FalconProofs VerifyProofs WordSize Examples Witness PolyZ Counting Levels GuessLevels GuessRare.

(** the long vector: as long as 625 bytes can encode *)
Definition guess : list Z := [32767; 17663] ++ repeat 127 510.
Definition guess_enc : list Z :=
  [127] ++ repeat 0 31 ++ [1; 127] ++ repeat 0 17 ++ [95] ++
  concat (repeat [239; 247; 251; 253; 254; 255; 127; 191; 223] 63) ++ [239; 247; 251; 253; 254; 255].

Lemma guess_len : length guess = 512%nat. Proof. reflexivity. Qed.
Lemma guess_int16 : int16s guess. Proof. apply int16s_dec. vm_compute. reflexivity. Qed.
Lemma guess_norm : sqnorm guess = 1393883648. Proof. vm_compute. reflexivity. Qed.
Lemma guess_enc_len : length guess_enc = 625%nat. Proof. reflexivity. Qed.
Lemma guess_enc_bytes : bytes guess_enc. Proof. apply byte_list_dec. vm_compute. reflexivity. Qed.
Lemma guess_enc_bits : bits_of guess_enc = code guess ++ repeat false 0.
Proof. vm_compute. reflexivity. Qed.
Lemma guess_enc_ok : Compress guess 625 = Ok guess_enc.
Proof. exact (Compress_intro guess guess_enc 0 (fits625 _ guess_enc_len) guess_enc_bytes guess_enc_bits). Qed.

#[local] Opaque guess guess_enc total points Z.pow Compress.

(** s0 is the hash point minus a fixed vector, reduced and centred *)
Lemma centred_mod x : centred (x mod q) = centred x.
Proof. unfold centred. rewrite Zplus_mod_idemp_l. reflexivity. Qed.
Lemma centred_shift : forall n a c, length a = n -> length c = n ->
  map centred (map (fun i => coef c i - coef a i) (seq 0 n)) = map centred (shift a c).
Proof.
  induction n as [|n IH]; intros [|y a] [|x c] La Lc; try discriminate; [reflexivity|].
  injection La as La. injection Lc as Lc. cbn [seq map shift]. rewrite centred_mod. f_equal.
  rewrite <- (IH a c La Lc), <- seq_shift, !map_map. reflexivity.
Qed.
Lemma s0_shift h c s : length c = 512%nat ->
  sqnorm (falcon_s0 512 h c s) = norm (shift (negacyc 512 s h) c).
Proof.
  intros Lc. unfold falcon_s0, psub, norm. rewrite centred_shift; [reflexivity|apply negacyc_length|exact Lc].
Qed.

Lemma window_accepts N : window N = true -> (N + 1393883648) mod 2 ^ 32 <= beta2_512 /\ 2 ^ 33 <= N + 1393883648.
Proof.
  unfold window, low, beta2_512. change (2 ^ 33) with 8589934592. change (2 ^ 32) with 4294967296. intros H.
  apply andb_prop in H. destruct H as [H1 H2]. apply Z.leb_le in H1. apply Z.leb_le in H2.
  split; [|lia]. replace (N + 1393883648) with (N - 7196050944 + 2 * 4294967296) by ring.
  rewrite Z_mod_plus_full, Z.mod_small by lia. lia.
Qed.

(** C97: for every public key, at least one in 2^16 of the hash points is accepted together with one
    and the same 625-byte string, although the vector is hundreds of times too long. *)
Theorem C97_forgery : forall h, int16s h -> (512 <= length h <= 767)%nat ->
  exists l, NoDup l /\ (forall c, In c l -> point 512 c) /\ q ^ 512 <= 2 ^ 16 * Z.of_nat (length l) /\
  forall X fuel msg hdr salt c, In c l -> length salt = 40%nat -> hashToPoint X fuel msg salt = Ok c ->
    Verify wrap64 X fuel h msg (hdr :: salt ++ guess_enc) = Ok true /\
    252 * beta2_512 < sqnorm (falcon_s0 512 (firstn 512 h) c guess) + sqnorm guess.
Proof.
  intros h Ih Lh. set (a := negacyc 512 guess (firstn 512 h)).
  assert (La : length a = 512%nat) by apply negacyc_length.
  exists (hits 512 (fun c => window (norm (shift a c)))).
  split; [apply nodup_hits|]. split; [intros c Hc; apply in_hits in Hc; apply Hc|]. split.
  - rewrite hits_count. rewrite (total_shift 512 a (fun v => b2z (window (norm v))) La). exact window_count.
  - intros X fuel msg hdr salt c Hc Ls Ec. apply in_hits in Hc. destruct Hc as [[Lc _] W].
    pose proof (s0_shift (firstn 512 h) c guess Lc) as E. fold a in E.
    apply window_accepts in W. destruct W as [W1 W2]. rewrite <- E in W1, W2. split.
    + rewrite (Verify_assembled wrap64 id64 X fuel h msg hdr salt guess c guess_enc Ih Lh Ls guess_len guess_int16 guess_enc_ok Ec).
      f_equal. unfold accept_norm. rewrite guess_norm. apply Z.leb_le. exact W1.
    + rewrite guess_norm. unfold beta2_512. change (2 ^ 33) with 8589934592 in W2. lia.
Qed.
Print Assumptions C97_forgery.

(** ... whereas a vector that is itself short enough is accepted for at most one in 2^41 hash points. *)
Theorem C97_short_rare : forall h s enc l, int16s h -> (512 <= length h <= 767)%nat ->
  length s = 512%nat -> int16s s -> Compress s 625 = Ok enc -> sqnorm s <= beta2_512 ->
  NoDup l ->
  (forall c, In c l -> point 512 c /\ exists X fuel msg hdr salt, length salt = 40%nat /\
     hashToPoint X fuel msg salt = Ok c /\ Verify wrap64 X fuel h msg (hdr :: salt ++ enc) = Ok true) ->
  2 ^ 41 * Z.of_nat (length l) <= q ^ 512.
Proof.
  intros h s enc l Ih Lh Ls Is Ee Ns Nl Hl. set (a := negacyc 512 s (firstn 512 h)).
  assert (La : length a = 512%nat) by apply negacyc_length.
  set (p := fun v => (2 ^ 33 - beta2_512 <=? norm v) || (norm v <=? 2 ^ 32 + beta2_512)).
  assert (K : Z.of_nat (length l) <= total 512 (fun v => b2z (p (shift a v)))).
  { apply hits_max; [exact Nl|]. intros c Hc. destruct (Hl c Hc) as [P (X & fuel & msg & hdr & salt & Lsalt & Ec & V)].
    split; [exact P|]. destruct P as [Lc _].
    rewrite (Verify_assembled wrap64 id64 X fuel h msg hdr salt s c enc Ih Lh Lsalt Ls Is Ee Ec) in V.
    assert (A : accept_norm (firstn 512 h) c s = true) by congruence. apply Z.leb_le in A.
    rewrite (s0_shift (firstn 512 h) c s Lc) in A. fold a in A. unfold p.
    pose proof (sqnorm_nonneg s) as N0.
    assert (N1 : 0 <= norm (shift a c)) by apply sqnorm_nonneg.
    change (2 ^ 33) with 8589934592. change (2 ^ 32) with 4294967296 in *. unfold beta2_512 in *.
    apply orb_true_iff. rewrite !Z.leb_le.
    pose proof (Z.div_mod (norm (shift a c) + sqnorm s) 4294967296 ltac:(lia)) as D.
    pose proof (Z.mod_pos_bound (norm (shift a c) + sqnorm s) 4294967296 ltac:(lia)).
    destruct (Z_lt_le_dec ((norm (shift a c) + sqnorm s) / 4294967296) 2); lia. }
  rewrite (total_shift 512 a (fun v => b2z (p v)) La) in K.
  assert (U : total 512 (fun v => b2z (p v)) <=
    total 512 (fun v => b2z (2 ^ 33 - beta2_512 <=? norm v)) + total 512 (fun v => b2z (norm v <=? 2 ^ 32 + beta2_512))).
  { rewrite <- total_add. apply total_le. intros v _. unfold p.
    destruct (2 ^ 33 - beta2_512 <=? norm v), (norm v <=? 2 ^ 32 + beta2_512); cbn; lia. }
  pose proof rare_up as R1. pose proof rare_down as R2.
  change (2 ^ 42) with 4398046511104 in *. change (2 ^ 41) with 2199023255552.
  revert R1 R2 K U. generalize (q ^ 512). intros z. lia.
Qed.
Print Assumptions C97_short_rare.

(** non-vacuity: every point is the hash of every message, for some XOF *)
Definition listXOF (c : list Z) : XOF.
Proof.
  refine {| xst := list Z; xnew := c; xwrite := fun s _ => s;
    xread2 := fun s => ((hd 0 s / 256) mod 256, hd 0 s mod 256, tl s) |}.
  intros s. cbn [fst snd]. unfold is_byte.
  split; [pose proof (Z.mod_pos_bound (hd 0 s / 256) 256)|pose proof (Z.mod_pos_bound (hd 0 s) 256)]; lia.
Defined.
Theorem C97_points_hashed : forall c msg salt, point 512 c -> hashToPoint (listXOF c) 512 msg salt = Ok c.
Proof.
  intros c msg salt [Lc Fc]. unfold hashToPoint. cbn [listXOF xnew xwrite].
  assert (G : forall m acc, Forall (fun x => 0 <= x < q) m -> (length acc + length m)%nat = 512%nat ->
    hash_loop (listXOF c) (length m) 512 m acc = Ok (acc ++ m)).
  { induction m as [|x m IH]; intros acc F E.
    - rewrite hash_loop_done by (cbn in E; lia). now rewrite app_nil_r.
    - inversion F as [|? ? Hx Hm]; subst. cbn [length] in *. rewrite hash_loop_step by lia.
      cbn [listXOF xread2 hd tl snd]. replace (accepted [word_of _ _]) with [x].
      + rewrite IH by (try assumption; rewrite app_length; cbn; lia). now rewrite <- app_assoc.
      + unfold word_of. cbn [fst snd]. unfold accepted, q in *. cbn [filter map].
        rewrite (Z.mod_small (x / 256)) by (split; [apply Z.div_pos; lia|apply Z.div_lt_upper_bound; lia]).
        replace (256 * (x / 256) + x mod 256) with x by (apply Z.div_mod; lia).
        destruct (Z.ltb_spec x (5 * 12289)); [|lia]. cbn [map]. rewrite Z.mod_small by lia. reflexivity. }
  pose proof (G c [] Fc Lc) as K. rewrite Lc in K. exact K.
Qed.
Print Assumptions C97_points_hashed.

Example C97_nonvacuous : length guess_enc = 625%nat /\ Compress guess 625 = Ok guess_enc /\ sqnorm guess = 1393883648 /\
  int16s h_small /\ length h_small = 512%nat /\
  Compress zero512 625 = Ok enc_zero /\ sqnorm zero512 <= beta2_512 /\ point 512 (repeat 0 512) /\
  Verify wrap64 zeroXOF 600 h_small ex_msg (57 :: ex_salt ++ enc_zero) = Ok true /\
  exists X salt, length salt = 40%nat /\ Verify wrap64 X 512 h_small ex_msg (57 :: salt ++ guess_enc) = Ok true.
Proof.
  assert (LH : length h_small = 512%nat) by (vm_compute; reflexivity).
  split; [exact guess_enc_len|]. split; [exact guess_enc_ok|]. split; [exact guess_norm|].
  split; [exact h_small_int16|]. split; [exact LH|].
  split; [exact enc_zero_ok|]. split; [rewrite sqnorm_zero512; discriminate|].
  split; [split; [reflexivity|apply Forall_forall; intros x Hx; apply repeat_spec in Hx; subst; split; [discriminate|reflexivity]]|].
  split.
  - refine (Verify_complete wrap64 id64 zeroXOF 600 h_small ex_msg 57 ex_salt zero512 (repeat 0 512) enc_zero LH h_small_int16
      ex_salt_len zero512_len _ enc_zero_ok zero_hash _).
    + apply pconst_int16. unfold is_int16. lia.
    + rewrite s0_zero by (exact LH || reflexivity). rewrite sqnorm_zero512. vm_compute. discriminate.
  - destruct (C97_forgery h_small h_small_int16 ltac:(rewrite LH; lia)) as (l & _ & Pl & Cl & Vl).
    destruct l as [|c l].
    + exfalso. assert (0 < q ^ 512) by (apply Z.pow_pos_nonneg; [reflexivity|discriminate]).
      cbn [length] in Cl. revert Cl H. generalize (q ^ 512) (2 ^ 16). intros. lia.
    + exists (listXOF c), ex_salt. split; [exact ex_salt_len|].
      apply (Vl (listXOF c) 512%nat ex_msg 57 ex_salt c (or_introl eq_refl) ex_salt_len).
      apply C97_points_hashed, Pl. now left.
Qed.
