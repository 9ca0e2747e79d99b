(** Property theorems about Compress and Decompress (C06-C11). *)
From Verif Require Import GoBase Encoding Spec BaseProofs EncodingProofs FalconProofs Examples Witness.

(** [fits64 slen]: 8*slen is an int64.  Lengths outside that range are reduced
    to lengths inside it by this law. *)
Theorem C07_wrapped_lengths : forall v slen,
  Compress v slen = Compress v (wrap64 (8 * slen) / 8) /\ fits64 (wrap64 (8 * slen) / 8).
Proof. exact Compress_wrap. Qed.
Print Assumptions C07_wrapped_lengths.

(** C06 *)
Theorem C06_decompress_compress : forall v slen x, fits64 slen -> v <> [] ->
  Compress v slen = Ok x -> Decompress x slen (Z.of_nat (length v)) = Ok v.
Proof. exact Decompress_Compress. Qed.
Print Assumptions C06_decompress_compress.
Example C06_nonvacuous : Compress [-300; 0; 17; 32767] 40 =
  Ok ([172; 32; 17; 27; 248] ++ repeat 0 31 ++ [8; 0; 0; 0]).
Proof. vm_compute. reflexivity. Qed.

(** C07 *)
Theorem C07_compress_exact : forall v slen, fits64 slen ->
  (code_len v > 8 * slen /\ Compress v slen = Err ErrEncodingTooLong) \/
  (code_len v <= 8 * slen /\ exists x, Compress v slen = Ok x /\ Z.of_nat (length x) = slen /\ bytes x /\
     exists z, bits_of x = code v ++ repeat false z).
Proof. exact Compress_exact. Qed.
Print Assumptions C07_compress_exact.
Theorem C07_code_len : forall v,
  code_len v = Z.of_nat (length (code v)) /\
  code_len v = sumn (length v) (fun i => 9 + Z.abs (coef v i) / 128).
Proof. exact code_len_sum. Qed.
Print Assumptions C07_code_len.
Example C07_nonvacuous : code_len [-300; 0; 17] = 29 /\
  Compress [-300; 0; 17] 3 = Err ErrEncodingTooLong /\ Compress [-300; 0; 17] 4 = Ok [172; 32; 17; 24]
  /\ Compress [1; 2] (-5) = Err ErrEncodingTooLong.
Proof. repeat split. Qed.

(** C08 *)
Theorem C08_compress_injective : forall v v' slen x, fits64 slen ->
  Compress v slen = Ok x -> Compress v' slen = Ok x -> v = v'.
Proof. exact Compress_injective. Qed.
Print Assumptions C08_compress_injective.
Example C08_nonvacuous : Compress [-300; 0; 17] 4 = Ok [172; 32; 17; 24] /\ Compress [-300; 0; 16] 4 = Ok [172; 32; 17; 8].
Proof. split; reflexivity. Qed.

(** C09: false.  Full statement: Decompress x slen n = Ok v -> Compress v slen = Ok x.
    Trailing bits are ignored and shorter strings are accepted. *)
Theorem C09_canonical_refuted : exists x x' slen n v,
  bytes x /\ bytes x' /\ fits64 slen /\
  Decompress x slen n = Ok v /\ Compress v slen <> Ok x /\ length x = Z.to_nat slen /\
  Decompress x' slen n = Ok v /\ Compress v slen <> Ok x' /\ (length x' < Z.to_nat slen)%nat.
Proof.
  exists [1; 129; 7], [1; 128], 3, 1, [1].
  split; [apply bytes_dec; reflexivity|]. split; [apply bytes_dec; reflexivity|].
  split; [unfold fits64, is_int64; lia|].
  repeat split; try reflexivity; try discriminate. cbn. lia.
Qed.
Print Assumptions C09_canonical_refuted.
(** What holds: exactly the full-length zero-padded inputs are canonical.
    Missing: Decompress does not check length and padding. *)
Theorem C09_canonical_partial : forall x slen n v, bytes x -> fits64 slen -> Decompress x slen n = Ok v ->
  Compress v slen = Ok x <->
  Z.of_nat (length x) = slen /\ exists z, bits_of x = code v ++ repeat false z.
Proof. exact Decompress_canonical. Qed.
Print Assumptions C09_canonical_partial.
(** The only freedom is in the bits after the code of v: those before are the
    canonical ones. *)
Theorem C09_unused_bits : forall x slen n v, bytes x -> Decompress x slen n = Ok v ->
  exists rest, bits_of x = code v ++ rest.
Proof. intros x slen n v Hx H. apply (Decompress_iff x slen n v Hx) in H. tauto. Qed.
Print Assumptions C09_unused_bits.
Example C09_partial_nonvacuous : Decompress [172; 32; 17; 24] 4 3 = Ok [-300; 0; 17].
Proof. reflexivity. Qed.

(** C10: false. Full statement: Decompress x slen n <> Panic. *)
Theorem C10_no_panic_refuted : exists x slen n, bytes x /\ Decompress x slen n = Panic.
Proof. exists [], 625, 512. split; [constructor|reflexivity]. Qed.
Print Assumptions C10_no_panic_refuted.
(** all-zero (or empty) strings panic, and so do strings that end, after the
    trailing zeros are stripped, in the middle of a coefficient's low bits *)
Theorem C10_decompress_panics : forall x slen n, bytes x ->
  Decompress x slen n = Panic <->
  Z.of_nat (length x) <= slen /\
  ((exists k, bits_of x = repeat false k) \/
   (exists w r k, bits_of x = code w ++ (r ++ [true]) ++ repeat false k /\
      (length r <= 7)%nat /\ Z.of_nat (length w) < n)).
Proof. exact Decompress_panic_iff. Qed.
Print Assumptions C10_decompress_panics.
Theorem C10_decompress_error : forall x slen n, bytes x ->
  Decompress x slen n <> Diverge /\ forall e, Decompress x slen n = Err e -> e = ErrInvalidEncoding.
Proof. exact (fun x slen n H => conj (Decompress_no_diverge x slen n H) (fun e => Decompress_err x slen n e H)). Qed.
Print Assumptions C10_decompress_error.
Example C10_all_zero : Decompress (repeat 0 625) 625 512 = Panic.
Proof. apply Decompress_panic_iff; [apply bytes_dec; reflexivity|]. split; [cbn; lia|]. left. exists 5000%nat. vm_compute. reflexivity. Qed.
Example C10_mid_coefficient : Decompress [1; 136] 625 2 = Panic.
Proof. reflexivity. Qed.

(** C11 *)
Theorem C11_decompress_exact : forall x slen n v, bytes x ->
  Decompress x slen n = Ok v <->
  Z.of_nat (length x) <= slen /\ Z.of_nat (length v) = n /\ In true (bits_of x) /\
  exists rest, bits_of x = code v ++ rest.
Proof. exact Decompress_iff. Qed.
Print Assumptions C11_decompress_exact.
(** minus zero is rejected *)
Example C11_minus_zero : Decompress [128; 128] 2 1 = Err ErrInvalidEncoding.
Proof. reflexivity. Qed.
Example C11_nonvacuous : Decompress [172; 32; 17; 31] 9 3 = Ok [-300; 0; 17].
Proof. reflexivity. Qed.
