(** Exact counts: invertible polynomials, key pairs behind a public key (C100), and accepted hash
    points (C101). *)
From Verif Require Import GoBase Util BaseProofs Ntt Encoding Params Xof Falcon Spec SpecHash NttProofs NttProps EncodingProofs
  FalconProofs VerifyProofs WordSize Examples Witness PolyZ PolyEval Counting Levels GuessLevels GuessRare PropsGuess PropsSubst.
From Coq Require Import Permutation.

(** ** The transform permutes the points *)
Definition no_zero (v : list Z) : bool := forallb (fun x => negb (x =? 0)) v.
Lemma no_zero_spec v : no_zero v = true <-> ~ In 0 v.
Proof.
  unfold no_zero. rewrite forallb_forall. split.
  - intros H I. specialize (H 0 I). discriminate.
  - intros H x Hx. destruct (Z.eqb_spec x 0) as [->|N]; [contradiction|reflexivity].
Qed.
Lemma count_no_zero n : total n (fun v => b2z (no_zero v)) = (q - 1) ^ Z.of_nat n.
Proof.
  rewrite (total_ext n _ (vprod (fun x => b2z (negb (x =? 0))))).
  - rewrite total_prod.
    assert (E : zsum residues (fun x => b2z (negb (x =? 0))) = q - 1) by (vm_compute; reflexivity).
    rewrite E. reflexivity.
  - intros v _. induction v as [|x v IH]; [reflexivity|].
    cbn [vprod fold_right no_zero forallb]. unfold vprod in IH. rewrite <- IH. unfold no_zero.
    destruct (negb (x =? 0)); destruct (forallb _ v); reflexivity.
Qed.
Lemma total_evals k w : (1 <= k <= 10)%nat -> total (2 ^ k) (fun f => w (evalsP k f)) = total (2 ^ k) w.
Proof.
  intros Hk. unfold total. rewrite <- (zsum_map (evalsP k) (points (2 ^ k)) w).
  apply zsum_perm. apply NoDup_Permutation_bis.
  - assert (G : forall l, NoDup l -> (forall h, In h l -> point (2 ^ k) h) -> NoDup (map (evalsP k) l)).
    { induction 1 as [|h l Hh Nl IH]; intros R; cbn [map]; constructor.
      - rewrite in_map_iff. intros (h' & E & H'). apply Hh.
        destruct (R h (or_introl eq_refl)) as [Lh Fh]. destruct (R h' (or_intror H')) as [Lh' Fh'].
        rewrite <- (pmod_small h Fh), <- (evals_inj wrap64 id64 k h' h Hk Lh' Lh E), (pmod_small h' Fh'). exact H'.
      - apply IH. intros h' H'. apply R. now right. }
    apply G; [apply nodup_points|]. intros h Hh. now apply in_points.
  - rewrite map_length. reflexivity.
  - intros v Hv. apply in_map_iff in Hv. destruct Hv as (h & <- & _). apply in_points.
    split; [apply evalsP_length; exact Hk|apply evalsP_inq].
Qed.

(** C100: of the q^n polynomials with coefficients 0..q-1, exactly (q-1)^n are invertible mod q and
    x^n + 1 ... *)
Theorem C100_invertible : forall n, valid_degree n -> exists l, NoDup l /\
  (forall f, In f l <-> point n f /\ invertible_mod_q n f) /\ Z.of_nat (length l) = (q - 1) ^ Z.of_nat n.
Proof.
  intros n (k & Hk & ->). exists (hits (2 ^ k) (fun f => no_zero (evalsP k f))).
  split; [apply nodup_hits|]. split.
  - intros f. rewrite in_hits, no_zero_spec. split; intros [P H]; (split; [exact P|]);
      apply (evals_nz_invertible wrap64 id64 k f Hk (proj1 P)); exact H.
  - rewrite hits_count, (total_evals k (fun v => b2z (no_zero v)) Hk). apply count_no_zero.
Qed.
Print Assumptions C100_invertible.

(** ... these are the f for which DivZq (and so GetPublicKey) finds a quotient; and behind every public
    key h there are exactly (q-1)^n pairs (f, g) of such polynomials. *)
Theorem C100_public_keys : forall n h, valid_degree n -> point n h -> exists l, NoDup l /\
  (forall f g, In (f, g) l <-> point n f /\ point n g /\ DivZq wrap64 g f = Ok h) /\
  Z.of_nat (length l) = (q - 1) ^ Z.of_nat n.
Proof.
  intros n h V [Lh Fh]. destruct (C100_invertible n V) as (l & Nl & El & Cl).
  exists (map (fun f => (f, pmod q (negacyc n h f))) l). split; [|split].
  - assert (G : forall (m : list Z -> list Z) l, NoDup l -> NoDup (map (fun f => (f, m f)) l)).
    { intros m. induction 1 as [|f l' Hf N IH]; cbn [map]; constructor; [|exact IH].
      rewrite in_map_iff. intros (f' & E & H'). injection E as -> _. contradiction. }
    apply (G (fun f => pmod q (negacyc n h f))), Nl.
  - intros f g. rewrite in_map_iff. split.
    + intros (f' & E & H'). injection E as -> <-. apply El in H'. destruct H' as [[Lf Ff] Inv].
      assert (P : point n (pmod q (negacyc n h f))).
      { split; [unfold pmod; rewrite map_length; apply negacyc_length|apply pmod_inq]. }
      split; [split; assumption|]. split; [exact P|]. destruct P as [Lg Fg].
      destruct (DivZq64 n (pmod q (negacyc n h f)) f V Lg Lf (inq_int16' _ Fg) (inq_int16' _ Ff) Inv) as (u & D & _ & _ & _ & U).
      rewrite D. f_equal. symmetry. apply U; [exact Lh|exact Fh|]. symmetry. apply (pmod_small _ Fg).
    + intros ([Lf Ff] & [Lg Fg] & D). destruct (invertible_mod_q_dec n f V Lf) as [Inv|Inv].
      * exists f. split; [|apply El; split; [split; assumption|exact Inv]]. f_equal.
        destruct (DivZq64 n g f V Lg Lf (inq_int16' _ Fg) (inq_int16' _ Ff) Inv) as (u & D' & _ & _ & E & _).
        rewrite D in D'. injection D' as <-. rewrite E. apply (pmod_small g Fg).
      * rewrite (DivZq64_err n g f V Lg Lf (inq_int16' _ Fg) (inq_int16' _ Ff) Inv) in D. discriminate.
  - rewrite map_length. exact Cl.
Qed.
Print Assumptions C100_public_keys.
Example C100_nonvacuous : valid_degree 4 /\ point 4 [1; 2; 3; 4] /\
  (exists h, DivZq wrap64 [5; 7; 11; 13] [1; 2; 3; 4] = Ok h /\ point 4 h) /\
  ~ invertible_mod_q 2 [1479; 1].
Proof.
  assert (V : valid_degree 4) by (exists 2%nat; split; [lia|reflexivity]).
  split; [exact V|]. split; [split; [reflexivity|repeat constructor; lia]|]. split.
  - eexists. split; [vm_compute; reflexivity|]. split; [reflexivity|repeat constructor; lia].
  - intros H. assert (V2 : valid_degree 2) by (exists 1%nat; split; [lia|reflexivity]).
    destruct (DivZq64 2 [1; 2] [1479; 1] V2 eq_refl eq_refl ltac:(apply int16s_dec; reflexivity) ltac:(apply int16s_dec; reflexivity) H) as [h [E _]].
    vm_compute in E. discriminate.
Qed.

#[local] Opaque total points Z.pow Decompress.

(** C101: how many hash points are accepted with given bytes does not depend on the key. *)
Definition accepts_point (h body c : list Z) : Prop := forall X fuel msg hdr salt,
  length salt = 40%nat -> hashToPoint X fuel msg salt = Ok c ->
  Verify wrap64 X fuel h msg (hdr :: salt ++ body) = Ok true.

Lemma Ok_inj {A} (x y : A) : Ok x = Ok y -> x = y.
Proof. intros E. injection E as E. exact E. Qed.
Lemma hits_shift n a (p : list Z -> bool) : length a = n ->
  Z.of_nat (length (hits n (fun c => p (shift a c)))) = total n (fun v => b2z (p v)).
Proof. intros L. rewrite hits_count. exact (total_shift n a (fun v => b2z (p v)) L). Qed.
Definition near (s1 v : list Z) : bool := (norm v + sqnorm s1) mod 2 ^ 32 <=? beta2_512.
Lemma accept_near h c s1 : length c = 512%nat -> accept_norm h c s1 = near s1 (shift (negacyc 512 s1 h) c).
Proof. intros Lc. unfold accept_norm, near. rewrite (s0_shift h c s1 Lc). reflexivity. Qed.
Lemma accepted_ok h body s1 :
  (forall X fuel msg hdr salt c, length salt = 40%nat -> hashToPoint X fuel msg salt = Ok c ->
    Verify wrap64 X fuel h msg (hdr :: salt ++ body) = Ok (accept_norm (firstn 512 h) c s1)) ->
  exists l, NoDup l /\ (forall c, In c l <-> point 512 c /\ accepts_point h body c) /\
  Z.of_nat (length l) = total 512 (fun v => b2z (near s1 v)).
Proof.
  intros E. exists (hits 512 (fun c => near s1 (shift (negacyc 512 s1 (firstn 512 h)) c))).
  split; [apply nodup_hits|]. split.
  - intros c. split.
    + intros H. destruct (proj1 (in_hits _ _ _) H) as [P A]. split; [exact P|]. intros X fuel msg hdr salt Ls Ec.
      rewrite (E _ _ _ _ _ _ Ls Ec), (accept_near _ _ _ (proj1 P)), A. reflexivity.
    + intros [P A]. apply (proj2 (in_hits _ _ _)). split; [exact P|].
      specialize (A (listXOF c) 512%nat [] 57 ex_salt ex_salt_len (C97_points_hashed c [] ex_salt P)).
      rewrite (E _ _ _ _ _ _ ex_salt_len (C97_points_hashed c [] ex_salt P)), (accept_near _ _ _ (proj1 P)) in A. exact (Ok_inj _ _ A).
  - apply (hits_shift 512 (negacyc 512 s1 (firstn 512 h)) (near s1)), negacyc_length.
Qed.
Lemma accepted_count h body : int16s h -> (512 <= length h <= 767)%nat -> exists l, NoDup l /\
  (forall c, In c l <-> point 512 c /\ accepts_point h body c) /\
  Z.of_nat (length l) = match Decompress body 625 512 with
    | Ok s => total 512 (fun v => b2z (near (map int16_of s) v))
    | _ => 0 end.
Proof.
  intros Ih Lh.
  assert (E : forall X fuel msg hdr salt c, length salt = 40%nat -> hashToPoint X fuel msg salt = Ok c ->
    Verify wrap64 X fuel h msg (hdr :: salt ++ body) =
    match Decompress body 625 512 with
    | Ok s => Ok (accept_norm (firstn 512 h) c (map int16_of s)) | Err _ => Ok false | Panic => Panic | Diverge => Diverge end).
  { intros X fuel msg hdr salt c Ls Ec. rewrite (Verify_gen wrap64 id64) by assumption.
    destruct (assembled hdr salt body Ls) as [-> ->].
    assert (Hl : (41 <= length (hdr :: salt ++ body))%nat) by (cbn [length]; rewrite app_length; lia).
    destruct (Nat.ltb_spec (length (hdr :: salt ++ body)) 41); [lia|].
    destruct (Decompress body 625 512); try reflexivity. rewrite Ec. cbn [bind].
    destruct (good_len_dec h) as [G|G]; [reflexivity|contradiction]. }
  assert (NO : (forall s, Decompress body 625 512 <> Ok s) -> exists l : list (list Z), NoDup l /\
    (forall c, In c l <-> point 512 c /\ accepts_point h body c) /\ Z.of_nat (length l) = 0).
  { intros N. exists []. split; [constructor|]. split; [|reflexivity]. intros c. split; [intros []|].
    intros [P A]. specialize (A (listXOF c) 512%nat [] 57 ex_salt ex_salt_len (C97_points_hashed c [] ex_salt P)).
    rewrite (E _ _ _ _ _ _ ex_salt_len (C97_points_hashed c [] ex_salt P)) in A.
    destruct (Decompress body 625 512) as [s| | |]; try discriminate A. now destruct (N s). }
  destruct (Decompress body 625 512) as [s| | |] eqn:D; try (apply NO; discriminate). clear NO.
  apply accepted_ok. exact E.
Qed.

Theorem C101_key_independent : forall h h' body,
  int16s h -> (512 <= length h <= 767)%nat -> int16s h' -> (512 <= length h' <= 767)%nat ->
  exists l l', NoDup l /\ NoDup l' /\ (forall c, In c l <-> point 512 c /\ accepts_point h body c) /\
    (forall c, In c l' <-> point 512 c /\ accepts_point h' body c) /\ length l = length l'.
Proof.
  intros h h' body Ih Lh Ih' Lh'.
  destruct (accepted_count h body Ih Lh) as (l & N & E & C). destruct (accepted_count h' body Ih' Lh') as (l' & N' & E' & C').
  exists l, l'. split; [exact N|]. split; [exact N'|]. split; [exact E|]. split; [exact E'|].
  apply Nat2Z.inj. exact (eq_trans C (eq_sym C')).
Qed.
Print Assumptions C101_key_independent.

(** It is the number of s0 mod q with which s1 is short enough, modulo 2^32. *)
Theorem C101_count : forall h body s, int16s h -> (512 <= length h <= 767)%nat ->
  Decompress body 625 512 = Ok s ->
  exists l l0, NoDup l /\ NoDup l0 /\ (forall c, In c l <-> point 512 c /\ accepts_point h body c) /\
    (forall v, In v l0 <-> point 512 v /\ (sqnorm (map centred v) + sqnorm (map int16_of s)) mod 2 ^ 32 <= beta2_512) /\
    length l = length l0.
Proof.
  intros h body s Ih Lh D. destruct (accepted_count h body Ih Lh) as (l & N & E & C). rewrite D in C.
  exists l, (hits 512 (near (map int16_of s))). split; [exact N|]. split; [apply nodup_hits|]. split; [exact E|]. split.
  - intros v. etransitivity; [apply in_hits|]. unfold near, norm. rewrite Z.leb_le. reflexivity.
  - apply Nat2Z.inj. exact (eq_trans C (eq_sym (hits_count 512 (near (map int16_of s))))).
Qed.
Print Assumptions C101_count.
Example C101_nonvacuous : int16s h_small /\ length h_small = 512%nat /\ int16s toy_c /\ length toy_c = 512%nat /\
  Decompress enc_zero 625 512 = Ok zero512 /\
  (sqnorm (map centred (repeat 0 512)) + sqnorm (map int16_of zero512)) mod 2 ^ 32 <= beta2_512 /\
  ~ (sqnorm (map centred (repeat 1000 512)) + sqnorm (map int16_of zero512)) mod 2 ^ 32 <= beta2_512.
Proof.
  split; [exact h_small_int16|]. split; [vm_compute; reflexivity|]. split; [apply inq_int16', toy_c_inq|]. split; [exact toy_c_len|].
  split; [apply (Decompress_Compress zero512 625 enc_zero); [unfold fits64, is_int64; lia|discriminate|exact enc_zero_ok]|].
  split; vm_compute; [discriminate|intros H; apply H; reflexivity].
Qed.
