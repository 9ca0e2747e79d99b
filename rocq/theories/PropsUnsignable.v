(** C109: key generation can return a key under which most hash points have no
    signature at all, so C95 needs its hypothesis on the norms. *)
From Coq Require Import Lia ZArith List.
From Verif Require Import GoBase Util Encoding Ntt Params Xof Falcon Spec SpecHash PolyZ BaseProofs UtilProofs Float Samplerz EncodingProofs FalconProofs VerifyProofs
  KeyGen AnyKeys SamplerProofs Binary64 Ntrugen Counting Levels GuessLevels GuessRare PropsGuess PropsVerify PropsWrongKey Examples.
Local Open Scope Z_scope.
Import ListNotations.

(** ** The longest vector 625 bytes can hold *)
(** what h zero bits buy in one coefficient, beyond 127^2 *)
Definition gain (h : Z) : Z := if h <=? 255 then 16384 * h * h + 32512 * h else 1073725695.
Lemma coef_cost z : int16_of z * int16_of z <= 16129 + gain (Z.abs z / 128).
Proof.
  pose proof (Z.mul_div_le (Z.abs z) 128 ltac:(lia)) as A. pose proof (Z.mul_succ_div_gt (Z.abs z) 128 ltac:(lia)) as B.
  set (h := Z.abs z / 128) in *. assert (H0 : 0 <= h) by (apply Z.div_pos; lia). unfold gain.
  destruct (Z.leb_spec h 255) as [S|S].
  - assert (E : int16_of z = z) by (unfold int16_of; rewrite Z.mod_small by lia; lia). rewrite E.
    rewrite <- (Z.abs_square z). assert (Z.abs z <= 128 * h + 127) by lia. nia.
  - assert (-32768 <= int16_of z <= 32768) by (unfold int16_of; pose proof (Z.mod_pos_bound (z + 32768) 65536); lia). nia.
Qed.
(** what h zero bits buy in all: fill one coefficient, put the rest in another *)
Definition gains (h : Z) : Z := if h <=? 255 then gain h else 1073725695 + gain (h - 255).
Lemma gains_add h H : 0 <= h -> 0 <= H -> h + H < 510 -> gain h + gains H <= gains (h + H).
Proof.
  intros A B C. unfold gains, gain.
  destruct (Z.leb_spec h 255), (Z.leb_spec H 255), (Z.leb_spec (h + H) 255); try lia;
    rewrite ?(proj2 (Z.leb_le (h + H - 255) 255)), ?(proj2 (Z.leb_le (H - 255) 255)) by lia; try nia.
Qed.
Definition zeros_of (v : list Z) : Z := fold_right (fun z acc => Z.abs z / 128 + acc) 0 v.
Lemma zeros_code v : code_len v = 9 * Z.of_nat (length v) + zeros_of v.
Proof.
  induction v as [|z v IH]; [reflexivity|]. cbn [code_len zeros_of fold_right length]. fold (code_len v) (zeros_of v). lia.
Qed.
Lemma zeros_nonneg v : 0 <= zeros_of v.
Proof.
  induction v as [|z v IH]; [cbn; lia|]. cbn [zeros_of fold_right]. fold (zeros_of v).
  pose proof (Z.div_pos (Z.abs z) 128 ltac:(lia) ltac:(lia)). lia.
Qed.
Lemma list_cost v : zeros_of v < 510 -> sqnorm (map int16_of v) <= 16129 * Z.of_nat (length v) + gains (zeros_of v).
Proof.
  induction v as [|z v IH]; intros B; [cbn; lia|]. pose proof (coef_cost z) as C. pose proof (zeros_nonneg v) as P.
  pose proof (Z.div_pos (Z.abs z) 128 ltac:(lia) ltac:(lia)) as P'.
  cbn [map sqnorm zeros_of fold_right length] in *. fold (sqnorm (map int16_of v)) (zeros_of v) in *. rewrite Nat2Z.inj_succ.
  pose proof (gains_add _ _ P' P B). specialize (IH ltac:(lia)). lia.
Qed.
Lemma gains_max h : 0 <= h <= 392 -> gains h <= 1385691135.
Proof.
  intros H. unfold gains, gain. destruct (Z.leb_spec h 255); [nia|]. rewrite (proj2 (Z.leb_le (h - 255) 255)) by lia. nia.
Qed.
Lemma bits_length x : Z.of_nat (length (bits_of x)) = 8 * Z.of_nat (length x).
Proof.
  unfold bits_of. induction x as [|a x IH]; [reflexivity|]. cbn [map concat length]. rewrite app_length, Nat2Z.inj_add, IH.
  change (length (bit_be 8 a)) with 8%nat. lia.
Qed.
Lemma decoded_norm x v : decodes x 625 512 v -> 0 <= sqnorm (map int16_of v) <= 1393949183.
Proof.
  intros (Lx & Lv & rest & E). split; [apply sqnorm_nonneg|].
  pose proof (bits_length x) as B. rewrite E, app_length, Nat2Z.inj_add, code_length, zeros_code in B.
  pose proof (zeros_nonneg v) as P. pose proof (list_cost v ltac:(lia)) as C. pose proof (gains_max (zeros_of v) ltac:(lia)). lia.
Qed.

(** C109: no body of 625 bytes or less decodes to a longer vector *)
Theorem C109_longest : forall x v, decodes x 625 512 v -> sqnorm (map int16_of v) <= 1393949183.
Proof. intros x v D. exact (proj2 (decoded_norm x v D)). Qed.
Print Assumptions C109_longest.

(** ** Most hash points are too far from 0 *)
Definition far_ok : bool :=
  zsum residues (weight (gtab 289 733 732 (2 ^ 30))) * 732 ^ 106 * 10072 <=? 10000 * (2 ^ 30 * 733 ^ 106 * q).
Lemma far_check : far_ok = true. Proof. vm_compute. reflexivity. Qed.
Lemma far_ratio : (393 * 10000 ^ 512 <=? 10 * 10072 ^ 512) = true. Proof. vm_compute. reflexivity. Qed.
#[local] Opaque total points Z.pow gtab.
Lemma rare_far : 393 * total 512 (fun v => b2z (2 ^ 33 - 1393949183 <=? norm v)) <= 10 * q ^ 512.
Proof.
  assert (H : total 512 (fun v => b2z (2 ^ 33 - 1393949183 <=? norm v)) * 10072 ^ 512 <= 10000 ^ 512 * q ^ 512).
  { apply (rare 733 732 (2 ^ 30) eq_refl eq_refl pos30 (gtab 289 733 732 (2 ^ 30)) (tab_at 733 732 eq_refl eq_refl) 512 106 _ 10072 10000);
      [discriminate|reflexivity|discriminate| |].
    - intros v P E. apply Z.leb_le in E. left. split; [discriminate|].
      pose proof (norm_levels 512 v P) as K. change (Z.of_nat 512) with 512 in *.
      change (2 ^ 33) with 8589934592 in E. lia.
    - apply Z.leb_le. exact far_check. }
  pose proof far_ratio as K. apply Z.leb_le in K.
  assert (P : 0 < 10000 ^ 512) by (apply Z.pow_pos_nonneg; [reflexivity|discriminate]).
  assert (Hc : 0 <= total 512 (fun v => b2z (2 ^ 33 - 1393949183 <=? norm v))) by (apply total_nonneg; intros; apply b2z_range).
  revert H K P Hc. generalize (total 512 (fun v => b2z (2 ^ 33 - 1393949183 <=? norm v))) (q ^ 512) (10000 ^ 512) (10072 ^ 512).
  intros c z s r H K P Hc. apply (Zmult_le_reg_r _ _ s); [apply Z.lt_gt, P|]. nia.
Qed.
(** too long for 0, and too short to reach 2^33 with any vector added *)
Definition far (v : list Z) : bool := negb ((2 ^ 33 - 1393949183 <=? norm v) || (norm v <=? 2 ^ 32 + beta2_512)).
Lemma far_count : 38 * q ^ 512 <= 39 * Z.of_nat (length (hits 512 far)).
Proof.
  rewrite hits_count. pose proof rare_far as R1. pose proof rare_down as R2.
  assert (U : q ^ 512 <= total 512 (fun v => b2z (far v)) + (total 512 (fun v => b2z (2 ^ 33 - 1393949183 <=? norm v)) +
    total 512 (fun v => b2z (norm v <=? 2 ^ 32 + beta2_512)))).
  { change (q ^ 512) with (q ^ Z.of_nat 512). rewrite <- total_one, <- !total_add. apply total_le. intros v _. unfold far.
    destruct (2 ^ 33 - 1393949183 <=? norm v), (norm v <=? 2 ^ 32 + beta2_512); cbn; lia. }
  assert (Q : 0 <= q ^ 512) by (apply Z.pow_nonneg; discriminate).
  change (2 ^ 42) with 4398046511104 in *. revert R1 R2 U Q.
  generalize (total 512 (fun v => b2z (far v))) (q ^ 512). intros. lia.
Qed.
Lemma far_rejects c n : far c = true -> 0 <= n <= 1393949183 -> ~ (norm c + n) mod 2 ^ 32 <= beta2_512.
Proof.
  unfold far. intros F N H. apply Bool.negb_true_iff, Bool.orb_false_iff in F. rewrite !Z.leb_gt in F.
  change (2 ^ 33) with 8589934592 in F. change (2 ^ 32) with 4294967296 in *. unfold beta2_512 in *.
  replace (norm c + n) with ((norm c + n - 4294967296) + 1 * 4294967296) in H by ring. rewrite Z_mod_plus_full in H.
  rewrite Z.mod_small in H by lia. lia.
Qed.

(** C109.  Of 39 hash points 38 have no signature under the zero public key *)
#[local] Opaque hits Verify far.
Theorem C109_zero_key : exists l, NoDup l /\ (forall c, In c l -> point 512 c) /\ 38 * q ^ 512 <= 39 * Z.of_nat (length l) /\
  forall X fuel msg hdr salt body c, In c l -> bytes (hdr :: salt ++ body) -> length salt = 40%nat -> hashToPoint X fuel msg salt = Ok c ->
    Verify wrap64 X fuel (repeat 0 512) msg (hdr :: salt ++ body) <> Ok true.
Proof.
  exists (hits 512 far). split; [apply nodup_hits|]. split; [intros c Hc; exact (proj1 (proj1 (in_hits 512 far c) Hc))|]. split; [exact far_count|].
  intros X fuel msg hdr salt body c Hc Hb Ls Ec E. pose proof (proj2 (proj1 (in_hits 512 far c) Hc)) as Fc.
  destruct (proj1 (C108_zero_key X fuel msg _ true Hb E) eq_refl) as (s & c' & D & Hh & N).
  change (skipn 1 (hdr :: salt ++ body)) with (salt ++ body) in Hh.
  assert (Es : firstn 40 (salt ++ body) = salt) by (rewrite <- Ls, firstn_app, Nat.sub_diag, firstn_all, firstn_O, app_nil_r; reflexivity).
  rewrite Es in Hh.
  pose proof (proj1 (C12_hash_point X msg salt c) (ex_intro _ fuel Ec)) as Hh'.
  rewrite <- (C12_hash_unique X 512 msg salt c c' Hh' Hh) in N. exact (far_rejects c _ Fc (decoded_norm _ _ D) N).
Qed.
Print Assumptions C109_zero_key.

(** C109: key generation returns such a key; C95 without its hypothesis is false *)
Theorem C109_unsignable : exists rb, byte_blocks rb /\ forall ci cu sf rf fuel, let FO := binary64 ci cu in exists sk pk,
  GeneratePrivateKey wrap64 FO (reduce_quotient FO) rb (S sf) (S rf) (S fuel) 512 = Ok sk /\ GetPublicKey wrap64 sk = Ok pk /\
  exists l, NoDup l /\ (forall c, In c l -> point 512 c) /\ 38 * q ^ 512 <= 39 * Z.of_nat (length l) /\
  forall X xfuel msg hdr salt body c, In c l -> bytes (hdr :: salt ++ body) -> length salt = 40%nat -> hashToPoint X xfuel msg salt = Ok c ->
    Verify wrap64 X xfuel (pk_h pk) msg (hdr :: salt ++ body) <> Ok true.
Proof.
  destruct (C108_wrong_key 9 ltac:(lia)) as (rb & B & H). exists rb. split; [exact B|]. intros ci cu sf rf fuel FO.
  destruct (H ci cu sf rf fuel) as (sk & E & _ & _ & _ & _ & EK).
  eexists sk, _. split; [exact E|]. split; [exact EK|]. exact C109_zero_key.
Qed.
Print Assumptions C109_unsignable.

(** the vector of C97 is within 2^16 of the bound on what 625 bytes can hold; a far
    point, hashed from every message by some XOF *)
Example C109_nonvacuous : decodes guess_enc 625 512 guess /\ 1393949183 - sqnorm (map int16_of guess) = 65535 /\
  far (repeat 3500 512) = true /\ norm (repeat 3500 512) = 6272000000 /\ hashToPoint (listXOF (repeat 3500 512)) 512 ex_msg ex_salt = Ok (repeat 3500 512).
Proof.
  split; [split; [vm_compute; discriminate|]; split; [reflexivity|]; exists []; exact guess_enc_bits|].
  split; [vm_compute; reflexivity|]. split; [vm_compute; reflexivity|]. split; [vm_compute; reflexivity|].
  apply C97_points_hashed. split; [reflexivity|]. apply Forall_forall. intros x Hx. apply repeat_spec in Hx. subst. unfold q. lia.
Qed.
