(** Property theorems about the ntt package (C14-C19, C52). *)
From Verif Require Import GoBase Util Ntt Spec PolyZ BaseProofs NttProofs FalconProofs VerifyProofs2 Witness NttProps.

(** C14 *)
Theorem C14_ntt_evaluates : forall n, valid_degree n -> exists ws, length ws = n /\ NoDup ws /\
  Forall (fun w => 0 < w < q /\ (w ^ Z.of_nat n + 1) mod q = 0) ws /\
  forall f, length f = n -> int16s f -> NTT wrap64 f = Ok (map (fun w => eval f w mod q) ws).
Proof. exact NTT_spec64. Qed.
Print Assumptions C14_ntt_evaluates.
Example C14_nonvacuous : NTT wrap64 [1; -2; 32767; -32768] = Ok [5540; 8194; 736; 10112].
Proof. vm_compute. reflexivity. Qed.

(** C15 *)
Theorem C15_intt_ntt : forall n f, valid_degree n -> length f = n -> int16s f ->
  exists F, NTT wrap64 f = Ok F /\ INTT wrap64 F = Ok (pmod q f).
Proof. exact INTT_NTT64. Qed.
Print Assumptions C15_intt_ntt.
Theorem C15_ntt_intt : forall n F, valid_degree n -> length F = n -> int16s F ->
  exists f, INTT wrap64 F = Ok f /\ NTT wrap64 f = Ok (pmod q F).
Proof. exact NTT_INTT64. Qed.
Print Assumptions C15_ntt_intt.
Example C15_nonvacuous : INTT wrap64 [1; -2; 32767; -32768] = Ok [6144; 8723; 0; 10236].
Proof. vm_compute. reflexivity. Qed.

(** C16 *)
Theorem C16_mulzq : forall n f g, valid_degree n -> length f = n -> length g = n -> int16s f -> int16s g ->
  MulZq wrap64 f g = Ok (pmod q (negacyc n f g)).
Proof. exact MulZq64. Qed.
Print Assumptions C16_mulzq.
Example C16_nonvacuous : MulZq wrap64 [1; -2; 32767; -32768] [5; 7; 11; 13] = Ok (pmod q (negacyc 4 [1; -2; 32767; -32768] [5; 7; 11; 13]))
  /\ negacyc 4 [1; 2; 3; 4] [5; 6; 7; 8] = [-56; -36; 2; 60].
Proof. split; vm_compute; reflexivity. Qed.

(** C17 *)
Theorem C17_divzq_divides : forall n f g, valid_degree n -> length f = n -> length g = n -> int16s f -> int16s g ->
  invertible_mod_q n g ->
  exists h, DivZq wrap64 f g = Ok h /\ length h = n /\ Forall (fun c => 0 <= c < q) h /\
    pmod q (negacyc n h g) = pmod q f /\
    (forall h', length h' = n -> Forall (fun c => 0 <= c < q) h' -> pmod q (negacyc n h' g) = pmod q f -> h' = h).
Proof. exact DivZq64. Qed.
Print Assumptions C17_divzq_divides.
Theorem C17_divzq_fails : forall n f g, valid_degree n -> length f = n -> length g = n -> int16s f -> int16s g ->
  ~ invertible_mod_q n g -> DivZq wrap64 f g = Err ErrDivByZero.
Proof. exact DivZq64_err. Qed.
Print Assumptions C17_divzq_fails.
Example C17_nonvacuous : (exists h, DivZq wrap64 [1; 2; 3; 4] [5; 7; 11; 13] = Ok h) /\
  invertible_mod_q 4 [5; 7; 11; 13] /\ ~ invertible_mod_q 2 [-1479; 1].
Proof.
  assert (D : valid_degree 4) by (exists 2%nat; split; [lia|reflexivity]).
  assert (D2 : valid_degree 2) by (exists 1%nat; split; [lia|reflexivity]).
  split; [eexists; vm_compute; reflexivity|]. split.
  - destruct (invertible_mod_q_dec 4 [5; 7; 11; 13] D eq_refl) as [H|H]; [exact H|exfalso].
    pose proof (DivZq64_err 4 [1; 2; 3; 4] [5; 7; 11; 13] D eq_refl eq_refl ltac:(apply int16s_dec; reflexivity) ltac:(apply int16s_dec; reflexivity) H) as E.
    vm_compute in E. discriminate.
  - intros H.
    destruct (DivZq64 2 [1; 2] [-1479; 1] D2 eq_refl eq_refl ltac:(apply int16s_dec; reflexivity) ltac:(apply int16s_dec; reflexivity) H) as [h [E _]].
    vm_compute in E. discriminate.
Qed.

(** C18 *)
Theorem C18_subzq : forall n f g, length f = n -> length g = n ->
  Forall (fun c => -32768 <= c <= 20479) f -> Forall (fun c => -32767 <= c <= 32767) g ->
  SubZq f g = Ok (pmod q (psub n f g)).
Proof. exact SubZq_ok. Qed.
Print Assumptions C18_subzq.
Theorem C18_subzq_panics : forall f g, SubZq f g = Panic <-> length f <> length g.
Proof. exact SubZq_panic. Qed.
Print Assumptions C18_subzq_panics.
Example C18_nonvacuous : SubZq [0; 12288; 5; 20479] [12288; -32767; 32767; 1] = Ok [1; 8188; 4105; 8189].
Proof. reflexivity. Qed.

(** C19: false.  Full statement:
    SubZq f g = Ok (pmod q (psub n f g)) for all int16 slices f g of length n. *)
Theorem C19_subzq_refuted : exists f g, int16s f /\ int16s g /\ length f = length g /\
  SubZq f g <> Ok (pmod q (psub (length f) f g)).
Proof.
  exists [32767; 0], [-1; -32768].
  split; [apply int16s_dec; reflexivity|]. split; [apply int16s_dec; reflexivity|].
  split; [reflexivity|]. vm_compute. discriminate.
Qed.
Print Assumptions C19_subzq_refuted.
(** exactly which entries are wrong: SubZq is right at [i] precisely when the
    int16 sum f[i] + (-g[i] mod q) does not overflow and g[i] is not -32768 *)
Theorem C19_subzq_entries : forall n f g, length f = n -> length g = n -> int16s f -> int16s g ->
  exists r, SubZq f g = Ok r /\ length r = n /\
    forall i, (i < n)%nat ->
      (coef r i = (coef f i - coef g i) mod q <->
       coef g i <> -32768 /\ coef f i + (- coef g i) mod q <= 32767).
Proof. exact SubZq_entries. Qed.
Print Assumptions C19_subzq_entries.

(** C52: the result is the same whatever the machine does outside the int64
    range; in particular it equals the result with unbounded integers. *)
Theorem C52_no_overflow : forall iw, (forall z, -2 ^ 63 <= z < 2 ^ 63 -> iw z = z) ->
  forall n f g, valid_degree n -> length f = n -> length g = n -> int16s f -> int16s g ->
  NTT iw f = NTT (fun z => z) f /\ INTT iw f = INTT (fun z => z) f /\
  MulZq iw f g = MulZq (fun z => z) f g /\ DivZq iw f g = DivZq (fun z => z) f g.
Proof. exact ntt_no_overflow. Qed.
Print Assumptions C52_no_overflow.
Example C52_nonvacuous : forall z, -2 ^ 63 <= z < 2 ^ 63 -> wrap64 z = z.
Proof. intros z H. apply wrap64_id. unfold is_int64. lia. Qed.
