(** Concrete witnesses for refuted properties of Verify. *)
From Verif Require Import GoBase Util Ntt Encoding Params Xof Falcon Spec SpecHash PolyZ BaseProofs
  NttProofs NttLen EncodingProofs FalconProofs VerifyProofs VerifyProofs2 Examples.

Definition toy_c : list Z := ok_or_nil (hashToPoint toyXOF 700 ex_msg ex_salt).
Lemma toy_c_ok : hashToPoint toyXOF 700 ex_msg ex_salt = Ok toy_c.
Proof. vm_compute. reflexivity. Qed.
Lemma ex_salt_len : length ex_salt = 40%nat. Proof. reflexivity. Qed.
Lemma toy_c_len : length toy_c = 512%nat. Proof. exact (proj1 (hashToPoint_ok _ _ _ _ _ toy_c_ok)). Qed.
Lemma toy_c_inq : inq toy_c. Proof. exact (proj2 (hashToPoint_ok _ _ _ _ _ toy_c_ok)). Qed.

Lemma id64 z : is_int64 z -> wrap64 z = z. Proof. apply wrap64_id. Qed.

Lemma bytes_dec l : forallb (fun b => (0 <=? b) && (b <=? 255)) l = true -> bytes l.
Proof.
  intros H. apply Forall_forall. intros x Hx. rewrite forallb_forall in H. specialize (H x Hx).
  unfold is_byte. lia.
Qed.
Lemma int16s_dec l : forallb (fun b => (-32768 <=? b) && (b <=? 32767)) l = true -> int16s l.
Proof.
  intros H. apply Forall_forall. intros x Hx. rewrite forallb_forall in H. specialize (H x Hx).
  unfold is_int16. lia.
Qed.

(** an accepted signature for the key h = c and s1 = 1 (so s0 = 0), and three
    variants of it *)
Definition sig_a : list Z := 57 :: ex_salt ++ enc_one.
Definition sig_header : list Z := 0 :: ex_salt ++ enc_one.
Definition sig_short_ : list Z := 57 :: ex_salt ++ firstn 576 enc_one.
Definition sig_padding : list Z := 57 :: ex_salt ++ firstn 624 enc_one ++ [255].

Lemma dec_full : decodes enc_one 625 512 one512.
Proof.
  split; [rewrite enc_one_len; lia|]. split; [rewrite one512_len; reflexivity|].
  exists (repeat false 392). exact enc_one_bits.
Qed.
Lemma short_bits : bits_of (firstn 576 enc_one) = code one512 ++ [].
Proof. rewrite app_nil_r. vm_compute. reflexivity. Qed.
Lemma short_len : length (firstn 576 enc_one) = 576%nat. Proof. reflexivity. Qed.
Lemma dec_short : decodes (firstn 576 enc_one) 625 512 one512.
Proof.
  split; [rewrite short_len; lia|]. split; [rewrite one512_len; reflexivity|].
  exists []. exact short_bits.
Qed.
Lemma pad_bits : bits_of (firstn 624 enc_one ++ [255]) = code one512 ++ repeat false 384 ++ repeat true 8.
Proof. vm_compute. reflexivity. Qed.
Lemma pad_len : length (firstn 624 enc_one ++ [255]) = 625%nat. Proof. reflexivity. Qed.
Lemma dec_pad : decodes (firstn 624 enc_one ++ [255]) 625 512 one512.
Proof.
  split; [rewrite pad_len; lia|]. split; [rewrite one512_len; reflexivity|].
  exists (repeat false 384 ++ repeat true 8). exact pad_bits.
Qed.

(** for s1 = 1 the verdict is that of the difference of hash point and key *)
Lemma verify_one X fuel h msg hdr salt c : int16s h -> length h = 512%nat -> length salt = 40%nat ->
  hashToPoint X fuel msg salt = Ok c ->
  Verify wrap64 X fuel h msg (hdr :: salt ++ enc_one) =
  Ok ((sqnorm (map centred (psub 512 c h)) + 1) mod 2 ^ 32 <=? beta2_512).
Proof.
  intros Ih Lh Ls Ec.
  rewrite (Verify_assembled wrap64 id64 X fuel h msg hdr salt one512 c enc_one Ih ltac:(lia) Ls one512_len
    ltac:(apply pconst_int16; unfold is_int16; lia) enc_one_ok Ec).
  rewrite firstn_all2 by lia. unfold accept_norm. rewrite s0_one by assumption. rewrite sqnorm_one512. reflexivity.
Qed.

Lemma psub_self n c : psub n c c = repeat 0 n.
Proof.
  unfold psub. transitivity (map (fun _ : nat => 0) (seq 0 n)); [apply map_ext; intros; ring|].
  generalize 0%nat. induction n as [|n IH]; intros s; cbn [seq map repeat]; [reflexivity|]. f_equal. apply IH.
Qed.
Lemma norm_zeros : (sqnorm (map centred (repeat 0 512)) + 1) mod 2 ^ 32 <=? beta2_512 = true.
Proof. vm_compute. reflexivity. Qed.

Lemma sig_a_ok : Verify wrap64 toyXOF 700 toy_c ex_msg sig_a = Ok true.
Proof.
  unfold sig_a. rewrite (verify_one toyXOF 700 toy_c ex_msg 57 ex_salt toy_c (inq_int16 _ toy_c_inq) toy_c_len ex_salt_len toy_c_ok).
  rewrite psub_self, norm_zeros. reflexivity.
Qed.

Lemma variant hdr enc : bytes enc -> decodes enc 625 512 one512 ->
  Verify wrap64 toyXOF 700 toy_c ex_msg (hdr :: ex_salt ++ enc) = Ok true.
Proof.
  intros B D. rewrite <- sig_a_ok.
  exact (Verify_same_decoding wrap64 id64 toyXOF 700 toy_c ex_msg hdr 57 ex_salt enc enc_one one512
    (inq_int16 _ toy_c_inq) ex_salt_len B enc_one_bytes D dec_full).
Qed.

Lemma short_bytes : bytes (firstn 576 enc_one). Proof. apply bytes_dec. vm_compute. reflexivity. Qed.
Lemma pad_bytes : bytes (firstn 624 enc_one ++ [255]). Proof. apply bytes_dec. vm_compute. reflexivity. Qed.

Lemma variants_ok : Verify wrap64 toyXOF 700 toy_c ex_msg sig_header = Ok true /\
  Verify wrap64 toyXOF 700 toy_c ex_msg sig_short_ = Ok true /\
  Verify wrap64 toyXOF 700 toy_c ex_msg sig_padding = Ok true.
Proof.
  refine (conj _ (conj _ _)).
  - exact (variant 0 enc_one enc_one_bytes dec_full).
  - exact (variant 57 (firstn 576 enc_one) short_bytes dec_short).
  - exact (variant 57 (firstn 624 enc_one ++ [255]) pad_bytes dec_pad).
Qed.

(** ** 32-bit ints *)
(** a cheaper form of wrap32 *)
Definition fast32 (z : Z) : Z := if (-2147483648 <=? z) && (z <=? 2147483647) then z else wrap32 z.
Lemma fast32_ok z : wrap32 z = fast32 z.
Proof.
  unfold fast32. destruct (Z.leb_spec (-2147483648) z); [|reflexivity].
  destruct (Z.leb_spec z 2147483647); [|reflexivity]. cbn [andb]. unfold wrap32, wrap.
  change (2 ^ 32) with 4294967296. change (2 ^ (32 - 1)) with 2147483648.
  rewrite Z.mod_small by lia. lia.
Qed.

Section Ext.
Variables iw iw' : Z -> Z.
Hypothesis E : forall z, iw z = iw' z.
Lemma SplitNTT_ext f : SplitNTT iw f = SplitNTT iw' f.
Proof.
  unfold SplitNTT. f_equal. apply mapM_ext. intros i _.
  destruct (idx f _) as [a| | |]; try reflexivity. cbn [bind].
  destruct (idx f _) as [b| | |]; try reflexivity. cbn [bind]. rewrite !E.
  destruct (Pmod _ _) as [p| | |]; try reflexivity. cbn [bind].
  destruct (idx _ _) as [w| | |]; try reflexivity. cbn [bind].
  destruct (if w <? 0 then _ else _) as [v| | |]; try reflexivity. cbn [bind]. rewrite E. reflexivity.
Qed.
Lemma MergeNTT_ext f g : MergeNTT iw f g = MergeNTT iw' f g.
Proof.
  unfold MergeNTT. f_equal. apply mapM_ext. intros i _.
  destruct (idx _ _) as [w| | |]; try reflexivity. cbn [bind].
  destruct (idx _ _) as [a| | |]; try reflexivity. cbn [bind].
  destruct (idx _ _) as [b| | |]; try reflexivity. cbn [bind]. rewrite !E. reflexivity.
Qed.
Lemma NTT_fuel_ext fuel : forall f, NTT_fuel iw fuel f = NTT_fuel iw' fuel f.
Proof.
  induction fuel as [|fuel IH]; intros f; cbn [NTT_fuel]; [reflexivity|].
  destruct (Nat.ltb 2 (length f)).
  - destruct (SplitPolys f) as [p| | |]; try reflexivity. cbn [bind]. rewrite !IH.
    destruct (NTT_fuel iw' fuel _) as [a| | |]; try reflexivity. cbn [bind].
    destruct (NTT_fuel iw' fuel _) as [b| | |]; try reflexivity. cbn [bind]. apply MergeNTT_ext.
  - destruct (Nat.eqb (length f) 2); [|reflexivity].
    destruct (idx f 1) as [a| | |]; try reflexivity. cbn [bind].
    destruct (idx f 0) as [b| | |]; try reflexivity. cbn [bind]. rewrite !E. reflexivity.
Qed.
Lemma INTT_fuel_ext fuel : forall f, INTT_fuel iw fuel f = INTT_fuel iw' fuel f.
Proof.
  induction fuel as [|fuel IH]; intros f; cbn [INTT_fuel]; [reflexivity|].
  destruct (Nat.ltb 2 (length f)).
  - rewrite SplitNTT_ext. destruct (SplitNTT iw' f) as [p| | |]; try reflexivity. cbn [bind]. rewrite !IH. reflexivity.
  - destruct (Nat.eqb (length f) 2); [|reflexivity].
    destruct (idx f 0) as [a| | |]; try reflexivity. cbn [bind].
    destruct (idx f 1) as [b| | |]; try reflexivity. cbn [bind]. rewrite !E.
    destruct (Pmod _ _) as [p| | |]; try reflexivity. cbn [bind].
    generalize (idx NttTables.inv_mod_q 1479). intros [v| | |]; try reflexivity. cbn [bind]. rewrite !E. reflexivity.
Qed.
Lemma mulNTT_ext f g : mulNTT iw f g = mulNTT iw' f g.
Proof.
  unfold mulNTT. destruct (negb _); [reflexivity|]. apply mapM_ext. intros i _.
  destruct (idx _ _) as [a| | |]; try reflexivity. cbn [bind].
  destruct (idx _ _) as [b| | |]; try reflexivity. cbn [bind]. rewrite E. reflexivity.
Qed.
Lemma MulZq_ext f g : MulZq iw f g = MulZq iw' f g.
Proof.
  unfold MulZq, NTT, INTT. rewrite !NTT_fuel_ext.
  destruct (NTT_fuel iw' _ f) as [a| | |]; try reflexivity. cbn [bind].
  destruct (NTT_fuel iw' _ g) as [b| | |]; try reflexivity. cbn [bind].
  rewrite mulNTT_ext. destruct (mulNTT iw' a b) as [c| | |]; try reflexivity. cbn [bind].
  apply INTT_fuel_ext.
Qed.
End Ext.

(** Verify step by step, for any word size *)
Lemma Verify_steps iw X fuel h msg hdr salt enc ss1 c m s0 : length salt = 40%nat ->
  Decompress enc 625 512 = Ok ss1 -> hashToPoint X fuel msg salt = Ok c ->
  MulZq iw (map wrap16 ss1) h = Ok m -> SubZq c m = Ok s0 ->
  Verify iw X fuel h msg (hdr :: salt ++ enc) =
  if norm_acc (norm_acc 0 (map center s0)) (map wrap16 ss1) >? beta2_512 then Ok false else Ok true.
Proof.
  intros Ls D Ec Em Es. destruct (assembled hdr salt enc Ls) as [E1 E2].
  unfold Verify.
  destruct (sig_slices (hdr :: salt ++ enc)) as [F1 F2]; [cbn [length]; rewrite app_length; lia|].
  rewrite F1, F2. cbn [bind]. rewrite E1, E2.
  change (wrap16u (p_sigbytelen (GetParamSet 512) - HeadLen - SaltLen)) with 625.
  rewrite D. rewrite Ec. cbn [bind]. rewrite Em. cbn [bind]. rewrite Es. cbn [bind]. reflexivity.
Qed.

Definition mono256 (a : Z) : list Z := repeat 0 256 ++ [a] ++ repeat 0 255.
Lemma zero_hash : hashToPoint zeroXOF 600 ex_msg ex_salt = Ok (repeat 0 512).
Proof. vm_compute. reflexivity. Qed.
Lemma mul32 : MulZq fast32 one512 (mono256 44) = Ok (mono256 6359).
Proof. vm_compute. reflexivity. Qed.
Lemma sub32 : SubZq (repeat 0 512) (mono256 6359) = Ok (mono256 5930).
Proof. vm_compute. reflexivity. Qed.
Lemma norm32 : norm_acc (norm_acc 0 (map center (mono256 5930))) one512 >? beta2_512 = true.
Proof. vm_compute. reflexivity. Qed.
Lemma one512_wrap16 : map wrap16 one512 = one512.
Proof. vm_compute. reflexivity. Qed.
Lemma norm64 : (sqnorm (map centred (psub 512 (repeat 0 512) (mono256 44))) + 1) mod 2 ^ 32 <=? beta2_512 = true.
Proof. vm_compute. reflexivity. Qed.
Lemma mono_int16 a : is_int16 a -> int16s (mono256 a).
Proof.
  intros H. unfold mono256. apply Forall_app. split; [|apply Forall_app; split; [constructor; [exact H|constructor]|]];
  apply Forall_forall; intros x Hx; apply repeat_spec in Hx; subst; unfold is_int16; lia.
Qed.

Lemma word_size : Verify wrap64 zeroXOF 600 (mono256 44) ex_msg sig_a = Ok true /\
  Verify wrap32 zeroXOF 600 (mono256 44) ex_msg sig_a = Ok false.
Proof.
  unfold sig_a. refine (conj _ _).
  - rewrite (verify_one zeroXOF 600 (mono256 44) ex_msg 57 ex_salt (repeat 0 512)
      (mono_int16 44 ltac:(unfold is_int16; lia)) eq_refl ex_salt_len zero_hash).
    rewrite norm64. reflexivity.
  - rewrite (Verify_steps wrap32 zeroXOF 600 (mono256 44) ex_msg 57 ex_salt enc_one one512 (repeat 0 512) (mono256 6359) (mono256 5930)
      ex_salt_len (proj2 (decodes_Decompress _ _ enc_one_bytes) dec_full) zero_hash).
    + rewrite one512_wrap16, norm32. reflexivity.
    + rewrite one512_wrap16. rewrite (MulZq_ext wrap32 fast32 fast32_ok). exact mul32.
    + exact sub32.
Qed.

Definition h_small : list Z := map (fun i => Z.of_nat i mod 50) (seq 0 512).
Lemma norm_small : (sqnorm (map centred (psub 512 toy_c h_small)) + 1) mod 2 ^ 32 <=? beta2_512 = false.
Proof. vm_compute. reflexivity. Qed.
Lemma h_small_int16 : int16s h_small. Proof. apply int16s_dec. vm_compute. reflexivity. Qed.
Lemma h_small_false : Verify wrap64 toyXOF 700 h_small ex_msg sig_a = Ok false.
Proof.
  unfold sig_a. rewrite (verify_one toyXOF 700 h_small ex_msg 57 ex_salt toy_c h_small_int16 eq_refl ex_salt_len toy_c_ok).
  rewrite norm_small. reflexivity.
Qed.

Lemma one512_int16 : map int16_of one512 = one512.
Proof. vm_compute. reflexivity. Qed.

Lemma sig_a_bytes : bytes sig_a. Proof. apply bytes_dec. vm_compute. reflexivity. Qed.
