(** Property theorems about Verify, hashToPoint and VerifyBytes
    (C01-C05, C12, C13, C27, C28, C51, C53).  [wrap64] as the first argument of a
    modelled function means 64-bit Go ints. *)
From Verif Require Import GoBase Util Ntt Encoding Params Xof Falcon Spec SpecHash
  NttProofs EncodingProofs FalconProofs VerifyProofs VerifyProofs2 BytesProofs Examples Witness WordSize.

(** C01 *)
Theorem C01_verify_complete : forall X fuel h msg hdr salt s c enc,
  length h = 512%nat -> int16s h -> length salt = 40%nat -> length s = 512%nat -> int16s s ->
  Compress s 625 = Ok enc -> hashToPoint X fuel msg salt = Ok c ->
  sqnorm (falcon_s0 512 h c s) + sqnorm s <= beta2_512 ->
  Verify wrap64 X fuel h msg (hdr :: salt ++ enc) = Ok true.
Proof. exact (Verify_complete wrap64 id64). Qed.
Print Assumptions C01_verify_complete.

(** non-vacuity: a key, a message, a salt and a signature that meet all hypotheses,
    with s0 not zero *)
Definition C01_h : list Z := map (fun p => (fst p - (snd p mod 7 - 3)) mod q) (combine toy_c (map Z.of_nat (seq 0 512))).
Example C01_nonvacuous :
  length C01_h = 512%nat /\ int16s C01_h /\ Compress one512 625 = Ok enc_one /\
  hashToPoint toyXOF 700 ex_msg ex_salt = Ok toy_c /\
  sqnorm (falcon_s0 512 C01_h toy_c one512) + sqnorm one512 = 2054.
Proof.
  split; [vm_compute; reflexivity|]. split; [apply int16s_dec; vm_compute; reflexivity|].
  split; [exact enc_one_ok|]. split; [exact toy_c_ok|].
  rewrite s0_one by (vm_compute; reflexivity). vm_compute. reflexivity.
Qed.

(** C02: false.  Full statement:
    Verify wrap64 X fuel h msg sig = Ok true -> decodes (skipn 41 sig) 625 512 ss1 ->
    hashToPoint X fuel msg (firstn 40 (skipn 1 sig)) = Ok c ->
    sqnorm (falcon_s0 512 h c (map int16_of ss1)) + sqnorm (map int16_of ss1) <= beta2_512.
    The norm is accumulated in a uint32 and wraps. *)
Theorem C02_norm_bound_refuted : exists X fuel h msg sig ss1 c,
  length h = 512%nat /\ int16s h /\
  Verify wrap64 X fuel h msg sig = Ok true /\
  decodes (skipn 41 sig) 625 512 ss1 /\
  hashToPoint X fuel msg (firstn 40 (skipn 1 sig)) = Ok c /\
  sqnorm (falcon_s0 512 h c (map int16_of ss1)) + sqnorm (map int16_of ss1) > 126 * beta2_512.
Proof.
  exists toyXOF, 700%nat, (wrap_key toy_c), ex_msg, (57 :: ex_salt ++ enc_one), one512, toy_c.
  destruct (wrap_forgery wrap64 id64 toyXOF 700 ex_msg 57 ex_salt toy_c ex_salt_len toy_c_ok) as [A B].
  split; [vm_compute; reflexivity|]. split; [apply int16s_dec; vm_compute; reflexivity|].
  split; [exact A|]. split; [exact dec_full|]. split; [exact toy_c_ok|].
  rewrite one512_int16, B. reflexivity.
Qed.
Print Assumptions C02_norm_bound_refuted.

(** the wrap-around forgery works for every XOF, message, salt and header byte *)
Theorem C02_wrap_forgery : forall X fuel msg hdr salt c,
  length salt = 40%nat -> hashToPoint X fuel msg salt = Ok c ->
  Verify wrap64 X fuel (wrap_key c) msg (hdr :: salt ++ enc_one) = Ok true /\
  sqnorm (falcon_s0 512 (wrap_key c) c one512) + sqnorm one512 = 4297015809.
Proof. exact (wrap_forgery wrap64 id64). Qed.
Print Assumptions C02_wrap_forgery.

(** The all-zero polynomial verifies under EVERY 512-coefficient key, without any
    knowledge of it, for every salt whose hash point has a squared norm that is
    small modulo 2^32 (fewer than one in 2^41 points, C97_short_rare; a longer fixed
    vector does far better, C97_forgery). *)
Theorem C02_zero_forgery : forall X fuel h msg hdr salt c,
  int16s h -> length h = 512%nat -> length salt = 40%nat -> hashToPoint X fuel msg salt = Ok c ->
  sqnorm (map centred c) mod 2 ^ 32 <= beta2_512 ->
  Verify wrap64 X fuel h msg (hdr :: salt ++ enc_zero) = Ok true.
Proof. exact (zero_forgery wrap64 id64). Qed.
Print Assumptions C02_zero_forgery.

(** What does hold: the bound modulo 2^32, hence the bound itself for vectors of
    squared norm below 2^32. Missing: anything about longer vectors. *)
Theorem C02_norm_bound_partial : forall X fuel h msg sig, int16s h -> bytes sig ->
  Verify wrap64 X fuel h msg sig = Ok true ->
  exists ss1 c, decodes (skipn 41 sig) 625 512 ss1 /\
    hashToPoint X fuel msg (firstn 40 (skipn 1 sig)) = Ok c /\
    let s1 := map int16_of ss1 in
    let N := sqnorm (falcon_s0 512 (firstn 512 h) c s1) + sqnorm s1 in
    N mod 2 ^ 32 <= beta2_512 /\ (N < 2 ^ 32 -> N <= beta2_512).
Proof. exact (accepted_norm wrap64 id64). Qed.
Print Assumptions C02_norm_bound_partial.

Example C02_partial_nonvacuous : Verify wrap64 toyXOF 700 toy_c ex_msg sig_a = Ok true.
Proof. exact sig_a_ok. Qed.

(** C03 *)
Theorem C03_verify_decides : forall X fuel h msg sig b, int16s h -> bytes sig ->
  Verify wrap64 X fuel h msg sig = Ok b -> (b = true <-> verify_accepts X h msg sig).
Proof. exact (Verify_returns wrap64 id64). Qed.
Print Assumptions C03_verify_decides.

(** ... and it returns whenever it does not panic and the XOF eventually
    produces enough words below 5q. *)
Theorem C03_verify_terminates : forall X h msg sig c, int16s h -> bytes sig ->
  hash_point X 512 msg (firstn 40 (skipn 1 sig)) c ->
  exists fuel0, forall fuel, (fuel0 <= fuel)%nat -> Verify wrap64 X fuel h msg sig <> Diverge.
Proof. exact (Verify_terminates wrap64 id64). Qed.
Print Assumptions C03_verify_terminates.

Example C03_nonvacuous_true : Verify wrap64 toyXOF 700 toy_c ex_msg sig_a = Ok true.
Proof. exact sig_a_ok. Qed.
Example C03_nonvacuous_false : Verify wrap64 toyXOF 700 h_small ex_msg sig_a = Ok false.
Proof. exact h_small_false. Qed.

(** C04: false.  Full statement: Verify wrap64 X fuel h msg sig <> Panic. *)
Theorem C04_no_panic_refuted : forall X fuel h msg,
  Verify wrap64 X fuel h msg [] = Panic /\
  (length h = 512%nat -> int16s h -> Verify wrap64 X fuel h msg (57 :: ex_salt ++ [0]) = Panic).
Proof. exact (verify_panics wrap64 id64). Qed.
Print Assumptions C04_no_panic_refuted.

(** Exactly the inputs that panic: short signatures, bodies on which Decompress
    panics (characterised in C10_decompress_panics), wrong key lengths. *)
Theorem C04_panics_exactly : forall X fuel h msg sig, int16s h -> bytes sig ->
  Verify wrap64 X fuel h msg sig = Panic <->
  (length sig < 41)%nat \/
  Decompress (skipn 41 sig) 625 512 = Panic \/
  (~ (512 <= length h <= 767)%nat /\
   exists ss1 c, decodes (skipn 41 sig) 625 512 ss1 /\ hashToPoint X fuel msg (firstn 40 (skipn 1 sig)) = Ok c).
Proof. exact (Verify_panic wrap64 id64). Qed.
Print Assumptions C04_panics_exactly.

(** C05: false.  The header byte, the length and the padding of an accepted
    signature are not fixed. *)
Theorem C05_malleable_refuted : exists X fuel h msg sig sig1 sig2 sig3 v,
  Verify wrap64 X fuel h msg sig = Ok true /\
  (Verify wrap64 X fuel h msg sig1 = Ok true /\ Verify wrap64 X fuel h msg sig2 = Ok true /\
   Verify wrap64 X fuel h msg sig3 = Ok true) /\
  firstn 40 (skipn 1 sig1) = firstn 40 (skipn 1 sig) /\ firstn 40 (skipn 1 sig2) = firstn 40 (skipn 1 sig) /\
  firstn 40 (skipn 1 sig3) = firstn 40 (skipn 1 sig) /\
  (decodes (skipn 41 sig) 625 512 v /\ decodes (skipn 41 sig1) 625 512 v /\
   decodes (skipn 41 sig2) 625 512 v /\ decodes (skipn 41 sig3) 625 512 v) /\
  length sig = 666%nat /\
  (length sig1 = 666%nat /\ nth 0 sig1 0 <> nth 0 sig 0) /\
  length sig2 = 617%nat /\
  (length sig3 = 666%nat /\ nth 665 sig3 0 <> nth 665 sig 0).
Proof.
  exists toyXOF, 700%nat, toy_c, ex_msg, sig_a, sig_header, sig_short_, sig_padding, one512.
  split; [exact sig_a_ok|]. split; [exact variants_ok|].
  split; [vm_compute; reflexivity|]. split; [vm_compute; reflexivity|]. split; [vm_compute; reflexivity|].
  split; [split; [exact dec_full|split; [exact dec_full|split; [exact dec_short|exact dec_pad]]]|].
  split; [vm_compute; reflexivity|]. split; [split; [vm_compute; reflexivity|vm_compute; discriminate]|].
  split; [vm_compute; reflexivity|]. split; [vm_compute; reflexivity|vm_compute; discriminate].
Qed.
Print Assumptions C05_malleable_refuted.

(** more generally: any header byte and any other string decoding to the same
    polynomial gives the same verdict *)
Theorem C05_header_ignored : forall X fuel h msg hdr hdr' salt enc, int16s h -> length salt = 40%nat ->
  Verify wrap64 X fuel h msg (hdr :: salt ++ enc) = Verify wrap64 X fuel h msg (hdr' :: salt ++ enc).
Proof. exact (Verify_header wrap64 id64). Qed.
Print Assumptions C05_header_ignored.
Theorem C05_encoding_ignored : forall X fuel h msg hdr hdr' salt enc enc' ss1, int16s h -> length salt = 40%nat ->
  bytes enc -> bytes enc' -> decodes enc 625 512 ss1 -> decodes enc' 625 512 ss1 ->
  Verify wrap64 X fuel h msg (hdr :: salt ++ enc) = Verify wrap64 X fuel h msg (hdr' :: salt ++ enc').
Proof. exact (Verify_same_decoding wrap64 id64). Qed.
Print Assumptions C05_encoding_ignored.

(** What holds: among full-length, zero-padded signatures with a fixed header and
    salt, the polynomial determines the bytes. Missing: Verify does not enforce
    length, padding or header. *)
Theorem C05_malleable_partial : forall sig sig' v z z', bytes sig -> bytes sig' ->
  length sig = 666%nat -> length sig' = 666%nat -> firstn 41 sig = firstn 41 sig' ->
  bits_of (skipn 41 sig) = code v ++ repeat false z ->
  bits_of (skipn 41 sig') = code v ++ repeat false z' -> sig = sig'.
Proof. exact sig_unique. Qed.
Print Assumptions C05_malleable_partial.
Example C05_partial_nonvacuous : exists z, bits_of (skipn 41 sig_a) = code one512 ++ repeat false z.
Proof. exists 392%nat. exact enc_one_bits. Qed.

(** C12 *)
Theorem C12_hash_point : forall X msg salt c,
  (exists fuel, hashToPoint X fuel msg salt = Ok c) <-> hash_point X 512 msg salt c.
Proof. exact hashToPoint_point. Qed.
Print Assumptions C12_hash_point.
Theorem C12_hash_range : forall X n msg salt c, hash_point X n msg salt c ->
  Forall (fun x => 0 <= x < q) c /\ length c = n.
Proof. exact hash_point_inq. Qed.
Print Assumptions C12_hash_range.
Theorem C12_hash_unique : forall X n msg salt c c',
  hash_point X n msg salt c -> hash_point X n msg salt c' -> c = c'.
Proof. exact hash_point_fun. Qed.
Print Assumptions C12_hash_unique.
(** every residue has exactly the five preimages r, r+q, ..., r+4q among the
    16-bit words *)
Theorem C12_uniform_residues : forall w r, 0 <= w < 65536 -> 0 <= r < q ->
  accepted [w] = [r] <-> exists j, 0 <= j < 5 /\ w = r + j * q.
Proof. exact accepted_preimages. Qed.
Print Assumptions C12_uniform_residues.
Theorem C12_rejected_words : forall w, 0 <= w < 65536 -> accepted [w] = [] <-> 61445 <= w.
Proof. exact accepted_none. Qed.
Print Assumptions C12_rejected_words.
Theorem C12_hash_never_fails : forall X fuel msg salt,
  (exists c, hashToPoint X fuel msg salt = Ok c) \/ hashToPoint X fuel msg salt = Diverge.
Proof. exact hashToPoint_cases. Qed.
Print Assumptions C12_hash_never_fails.
(** on the toy XOF 548 words are read, 36 of them rejected *)
Example C12_nonvacuous : hashToPoint toyXOF 548 ex_msg ex_salt = Diverge /\ hashToPoint toyXOF 549 ex_msg ex_salt = Ok toy_c.
Proof. split; vm_compute; reflexivity. Qed.

(** C13 *)
Theorem C13_signer_verifier_hash : forall X fuel sk msg salt, sk_n sk = 512 ->
  priv_hashToPoint X fuel sk msg salt = hashToPoint X fuel msg salt.
Proof. exact priv_hash_eq. Qed.
Print Assumptions C13_signer_verifier_hash.
Example C13_nonvacuous :
  priv_hashToPoint toyXOF 700 {| sk_n := 512; sk_f := []; sk_g := []; sk_F := []; sk_G := [] |} ex_msg ex_salt = Ok toy_c.
Proof. vm_compute. reflexivity. Qed.

(** C27 *)
Theorem C27_verify_bytes_packed : forall X fuel h msg sig rest, length h = 512%nat -> int16s h ->
  length msg = 32%nat -> bytes msg -> length sig = 666%nat -> bytes sig ->
  VerifyBytes wrap64 X fuel (pack_words (key_bytes h ++ msg ++ sig) ++ rest) = Verify wrap64 X fuel h msg sig.
Proof. exact (VerifyBytes_packed wrap64). Qed.
Print Assumptions C27_verify_bytes_packed.
(** on any long enough input, packed or not *)
Theorem C27_verify_bytes_any : forall X fuel b, layout_len <= Z.of_nat (length b) ->
  VerifyBytes wrap64 X fuel b = Verify wrap64 X fuel (read_key b) (read_bytes b 1024 32) (read_bytes b 1056 666).
Proof. exact (VerifyBytes_long wrap64). Qed.
Print Assumptions C27_verify_bytes_any.
Example C27_nonvacuous : length toy_c = 512%nat /\ int16s toy_c /\ length (firstn 32 ex_salt) = 32%nat /\
  bytes (firstn 32 ex_salt) /\ length sig_a = 666%nat /\ bytes sig_a.
Proof.
  split; [exact toy_c_len|]. split; [apply inq_int16, toy_c_inq|]. split; [reflexivity|].
  split; [apply bytes_dec; reflexivity|]. split; [vm_compute; reflexivity|exact sig_a_bytes].
Qed.

(** C28: false.  Every input shorter than 55104 bytes panics. *)
Theorem C28_no_panic_refuted : forall X fuel b, Z.of_nat (length b) < 55104 ->
  VerifyBytes wrap64 X fuel b = Panic.
Proof. exact (VerifyBytes_short wrap64). Qed.
Print Assumptions C28_no_panic_refuted.
Example C28_witness : VerifyBytes wrap64 toyXOF 700 [] = Panic.
Proof. reflexivity. Qed.
(** on longer inputs it panics exactly when Verify panics on what it reads, i.e.
    (the key and the signature have the right lengths) when Decompress panics *)
Theorem C28_panics_exactly : forall X fuel b, bytes b -> 55104 <= Z.of_nat (length b) ->
  VerifyBytes wrap64 X fuel b = Panic <-> Decompress (skipn 41 (read_bytes b 1056 666)) 625 512 = Panic.
Proof. exact (VerifyBytes_panic wrap64 id64). Qed.
Print Assumptions C28_panics_exactly.

(** C51: false.  The same input is accepted with 64-bit and rejected with 32-bit
    ints. *)
Theorem C51_word_size_refuted : exists X fuel h msg sig,
  Verify wrap64 X fuel h msg sig = Ok true /\ Verify wrap32 X fuel h msg sig = Ok false.
Proof. exact (ex_intro _ zeroXOF (ex_intro _ 600%nat (ex_intro _ (mono256 44) (ex_intro _ ex_msg (ex_intro _ sig_a word_size))))). Qed.
Print Assumptions C51_word_size_refuted.
(** What does hold.  The forward transform and the pointwise operations give the same
    result with both word sizes, for int16 slices of any length. *)
Theorem C51_forward : forall f g, int16s f -> int16s g ->
  NTT wrap32 f = NTT wrap64 f /\ mulNTT wrap32 f g = mulNTT wrap64 f g /\ divNTT wrap32 f g = divNTT wrap64 f g.
Proof.
  assert (S : forall z, - 2 ^ 31 <= z < 2 ^ 31 -> wrap64 z = z) by (intros z H; apply id64; unfold is_int64; lia).
  intros f g If Ig. split; [|split].
  - exact (NTT_agree wrap32 wrap64 BaseProofs.wrap32_id S f If).
  - exact (mulNTT_agree wrap32 wrap64 BaseProofs.wrap32_id S f g If Ig).
  - exact (divNTT_agree wrap32 wrap64 BaseProofs.wrap32_id S f g If Ig).
Qed.
Print Assumptions C51_forward.
(** SplitNTT, and the last level of INTT, give the same result exactly when one
    product fits in 32 bits. *)
Theorem C51_split_exact : forall k f, (1 <= k <= 10)%nat -> length f = (2 ^ k)%nat -> int16s f ->
  (SplitNTT wrap32 f = SplitNTT wrap64 f <->
   forall i, (i < 2 ^ (k - 1))%nat ->
     - 2 ^ 31 <= (coef f (2 * i) - coef f (2 * i + 1)) * 6145 * invq (nth (2 * i) (W k) 0) < 2 ^ 31).
Proof. exact SplitNTT_word. Qed.
Print Assumptions C51_split_exact.
Theorem C51_intt2_exact : forall x y, is_int16 x -> is_int16 y ->
  (INTT wrap32 [x; y] = INTT wrap64 [x; y] <-> - 2 ^ 31 <= (x - y) * 10810 * 6145 < 2 ^ 31).
Proof. exact INTT2_word. Qed.
Print Assumptions C51_intt2_exact.
(** So Verify can differ only through INTT: it gives the same answer whenever INTT
    does on the product it is given.  Missing for the full statement (false): this hypothesis. *)
Theorem C51_word_size_partial : forall X fuel h msg sig, int16s h ->
  (forall s m, Decompress (skipn 41 sig) 625 512 = Ok s ->
     (ft <- NTT wrap64 (map wrap16 s) ;; gt <- NTT wrap64 h ;; mulNTT wrap64 ft gt) = Ok m ->
     INTT wrap32 m = INTT wrap64 m) ->
  Verify wrap32 X fuel h msg sig = Verify wrap64 X fuel h msg sig.
Proof.
  intros X fuel h msg sig. apply Verify_agree; [exact BaseProofs.wrap32_id|].
  intros z H. apply id64. unfold is_int64. lia.
Qed.
Print Assumptions C51_word_size_partial.
Example C51_nonvacuous : (ft <- NTT wrap64 one512 ;; gt <- NTT wrap64 (5 :: repeat 0 511) ;; mulNTT wrap64 ft gt) = Ok (repeat 5 512) /\
  INTT wrap32 (repeat 5 512) = INTT wrap64 (repeat 5 512) /\
  INTT wrap32 [33; 1] = INTT wrap64 [33; 1] /\ INTT wrap32 [34; 1] <> INTT wrap64 [34; 1].
Proof. split; [vm_compute; reflexivity|]. split; [vm_compute; reflexivity|]. split; [vm_compute; reflexivity|vm_compute; discriminate]. Qed.

(** C53 *)
Theorem C53_key_mod_q : forall X fuel h h' msg sig, int16s h -> int16s h' ->
  (512 <= length h <= 767)%nat -> (512 <= length h' <= 767)%nat ->
  pmod q (firstn 512 h) = pmod q (firstn 512 h') ->
  Verify wrap64 X fuel h msg sig = Verify wrap64 X fuel h' msg sig.
Proof. exact (Verify_key_cong wrap64 id64). Qed.
Print Assumptions C53_key_mod_q.
Theorem C53_other_lengths : forall X fuel h msg sig, int16s h -> ~ (512 <= length h <= 767)%nat ->
  Verify wrap64 X fuel h msg sig = Panic \/ Verify wrap64 X fuel h msg sig = Ok false \/
  Verify wrap64 X fuel h msg sig = Diverge.
Proof. exact (Verify_bad_key wrap64 id64). Qed.
Print Assumptions C53_other_lengths.
Example C53_nonvacuous : pmod q (firstn 512 toy_c) = pmod q (firstn 512 (map (fun x => x - q) toy_c ++ [1; 2; 3])) /\
  length (map (fun x => x - q) toy_c ++ [1; 2; 3]) = 515%nat /\
  map (fun x => x - q) toy_c <> toy_c.
Proof. split; [vm_compute; reflexivity|]. split; [vm_compute; reflexivity|vm_compute; discriminate]. Qed.
