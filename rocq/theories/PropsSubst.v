(** For a fixed message, salt and signature body: which public keys accept (C99). *)
From Verif Require Import GoBase Util BaseProofs Ntt Encoding Params Xof Falcon Spec SpecHash NttProofs NttProps EncodingProofs
  FalconProofs VerifyProofs WordSize Examples Witness PolyZ PolyEval Counting Levels GuessLevels GuessRare PropsGuess.
From Coq Require Import Permutation.

Lemma negacyc_comm n f g : length f = n -> length g = n -> negacyc n f g = negacyc n g f.
Proof.
  intros Lf Lg. apply (poly_eq n); [apply negacyc_length|apply negacyc_length|]. intros x _.
  pose proof (nega_eval n f g x Lf Lg) as A. pose proof (nega_eval n g f x Lg Lf) as B.
  rewrite Z.mul_comm in B. exact (eq_trans A (eq_sym B)).
Qed.
Lemma valid512 : valid_degree 512. Proof. exists 9%nat. split; [lia|reflexivity]. Qed.
Lemma pmod_inq f : Forall (fun x => 0 <= x < q) (pmod q f).
Proof. apply Forall_forall. intros x Hx. apply in_map_iff in Hx. destruct Hx as (y & <- & _). apply Z.mod_pos_bound, qpos. Qed.
Lemma inq_int16' f : Forall (fun x => 0 <= x < q) f -> int16s f.
Proof. apply inq_int16. Qed.

(** the point c - s h, for a key h *)
Lemma shift_inj : forall n a a' c, length a = n -> length a' = n -> length c = n -> shift a c = shift a' c -> pmod q a = pmod q a'.
Proof.
  induction n as [|n IH]; intros [|y a] [|y' a'] [|x c] La La' Lc E; try discriminate; [reflexivity|].
  cbn [shift] in E. injection E as E0 E. cbn [pmod map]. f_equal.
  - replace y with (x - (x - y)) by ring. replace y' with (x - (x - y')) by ring.
    rewrite Zminus_mod, E0, <- Zminus_mod. reflexivity.
  - apply (IH a a' c); [now injection La|now injection La'|now injection Lc|exact E].
Qed.
Lemma key_inj s c h h' : length s = 512%nat -> int16s s -> invertible_mod_q 512 s -> length c = 512%nat ->
  point 512 h -> point 512 h' -> shift (negacyc 512 s h) c = shift (negacyc 512 s h') c -> h = h'.
Proof.
  intros Ls Is Inv Lc [Lh Fh] [Lh' Fh'] E.
  apply (shift_inj 512) in E; [|apply negacyc_length|apply negacyc_length|exact Lc].
  rewrite (negacyc_comm 512 s h), (negacyc_comm 512 s h') in E by assumption.
  destruct (DivZq64 512 (pmod q (negacyc 512 h s)) s valid512) as (u & _ & _ & _ & _ & U); try assumption.
  - unfold pmod. rewrite map_length. apply negacyc_length.
  - apply inq_int16', pmod_inq.
  - assert (PP : forall f, pmod q (pmod q f) = pmod q f).
    { intros f. unfold pmod. rewrite map_map. apply map_ext. intros x. apply Zmod_mod. }
    rewrite (U h Lh Fh) by (now rewrite PP). rewrite (U h' Lh' Fh') by (rewrite PP; now symmetry). reflexivity.
Qed.
Lemma total_keys s c w : length s = 512%nat -> int16s s -> invertible_mod_q 512 s -> length c = 512%nat ->
  total 512 (fun h => w (shift (negacyc 512 s h) c)) = total 512 w.
Proof.
  intros Ls Is Inv Lc. unfold total. rewrite <- (zsum_map (fun h => shift (negacyc 512 s h) c) (points 512) w).
  apply zsum_perm. apply NoDup_Permutation_bis.
  - assert (G : forall l, NoDup l -> (forall h, In h l -> point 512 h) -> NoDup (map (fun h => shift (negacyc 512 s h) c) l)).
    { induction 1 as [|h l Hh Nl IH]; intros R; cbn [map]; constructor.
      - rewrite in_map_iff. intros (h' & E & H'). apply Hh.
        rewrite (key_inj s c h h' Ls Is Inv Lc (R h (or_introl eq_refl)) (R h' (or_intror H')) (eq_sym E)). exact H'.
      - apply IH. intros h' H'. apply R. now right. }
    apply G; [apply nodup_points|]. intros h Hh. now apply in_points.
  - rewrite map_length. reflexivity.
  - intros v Hv. destruct (proj1 (in_map_iff _ _ _) Hv) as (h & <- & _). apply in_points.
    apply shift_point; [apply negacyc_length|exact Lc].
Qed.

#[local] Opaque guess guess_enc total points Z.pow Compress.

(** C99: with s invertible there is exactly one key for each s0, and DivZq computes it: a signature
    does not bind its signer's key. *)
Theorem C99_key_substitution : forall X fuel msg hdr salt s s0 c enc,
  length salt = 40%nat -> length s = 512%nat -> int16s s -> invertible_mod_q 512 s ->
  Compress s 625 = Ok enc -> hashToPoint X fuel msg salt = Ok c ->
  length s0 = 512%nat -> Forall (fun x => - 6144 <= x <= 6144) s0 -> sqnorm s0 + sqnorm s <= beta2_512 ->
  exists h, DivZq wrap64 (pmod q (psub 512 c s0)) s = Ok h /\ point 512 h /\
    falcon_s0 512 h c s = s0 /\ Verify wrap64 X fuel h msg (hdr :: salt ++ enc) = Ok true /\
    forall h', point 512 h' -> falcon_s0 512 h' c s = s0 -> h' = h.
Proof.
  intros X fuel msg hdr salt s s0 c enc Lsalt Ls Is Inv Ee Ec L0 F0 N0.
  destruct (hashToPoint_ok X _ _ _ _ Ec) as [Lc Ic].
  destruct (DivZq64 512 (pmod q (psub 512 c s0)) s valid512) as (h & D & Lh & Fh & Eh & _); try assumption.
  { unfold pmod. rewrite map_length. apply psub_length. }
  { apply inq_int16', pmod_inq. }
  assert (C0 : map centred s0 = s0).
  { clear - F0. induction F0 as [|x l Hx F IH]; cbn [map]; [reflexivity|]. rewrite centred_small by exact Hx. now rewrite IH. }
  assert (CM : forall a b, a mod q = b mod q -> centred a = centred b).
  { intros a b E. rewrite <- (centred_mod a), <- (centred_mod b), E. reflexivity. }
  assert (S0 : falcon_s0 512 h c s = s0).
  { rewrite <- C0. unfold falcon_s0. rewrite (negacyc_comm 512 s h) by assumption.
    apply nth_ext with (d := centred 0) (d' := centred 0); [rewrite !map_length, psub_length; now symmetry|].
    intros i Hi. rewrite map_length, psub_length in Hi. rewrite !map_nth. apply CM.
    assert (E := f_equal (fun l => coef l i) Eh). cbv beta in E.
    unfold pmod in E. rewrite map_map in E. unfold coef in E. change 0 with (0 mod q) in E.
    rewrite (map_nth (fun c => c mod q)) in E.
    replace (map (fun x => (x mod q) mod q) (psub 512 c s0)) with (map (fun x => x mod q) (psub 512 c s0)) in E
      by (apply map_ext; intros; symmetry; apply Zmod_mod).
    rewrite (map_nth (fun c => c mod q)) in E. unfold psub in *.
    fold (coef (negacyc 512 h s) i) in E.
    change (nth i (map (fun i0 => coef c i0 - coef s0 i0) (seq 0 512)) 0) with (coef (map (fun i0 => coef c i0 - coef s0 i0) (seq 0 512)) i) in E.
    change (nth i (map (fun i0 => coef c i0 - coef (negacyc 512 h s) i0) (seq 0 512)) 0)
      with (coef (map (fun i0 => coef c i0 - coef (negacyc 512 h s) i0) (seq 0 512)) i).
    rewrite coef_map_seq in * by exact Hi. fold (coef s0 i).
    rewrite Zminus_mod, E, <- Zminus_mod. f_equal. ring. }
  exists h. split; [exact D|]. split; [split; assumption|]. split; [exact S0|]. split.
  - apply (Verify_complete wrap64 id64 X fuel h msg hdr salt s c enc Lh (inq_int16' _ Fh) Lsalt Ls Is Ee Ec).
    rewrite S0. exact N0.
  - intros h' P' E'. apply (key_inj s c h' h Ls Is Inv Lc P' (conj Lh Fh)).
    assert (Q : map centred (shift (negacyc 512 s h') c) = map centred (shift (negacyc 512 s h) c)).
    { rewrite <- !(centred_shift 512) by (apply negacyc_length || exact Lc). exact (eq_trans E' (eq_sym S0)). }
    assert (G : forall a b, Forall (fun x => 0 <= x < q) a -> Forall (fun x => 0 <= x < q) b -> map centred a = map centred b -> a = b).
    { clear. induction a as [|x a IH]; intros [|y b] Fa Fb E; try discriminate; [reflexivity|].
      inversion Fa; inversion Fb; subst. cbn [map] in E. injection E as E0 E. f_equal; [|now apply IH].
      unfold centred in E0. change ((q - 1) / 2) with 6144 in E0.
      rewrite <- (Z.mod_small x q), <- (Z.mod_small y q) by assumption.
      replace x with (x + 6144 - 6144) by ring. replace y with (y + 6144 - 6144) by ring.
      rewrite Zminus_mod, (Zminus_mod (y + 6144)). do 2 f_equal. lia. }
    apply G; [apply (shift_point 512); [apply negacyc_length|exact Lc]|apply (shift_point 512); [apply negacyc_length|exact Lc]|exact Q].
Qed.
Print Assumptions C99_key_substitution.

(** the vector of C97 is invertible *)
Lemma guess_invertible : invertible_mod_q 512 guess.
Proof.
  apply (evals_nz_invertible wrap64 id64 9%nat guess ltac:(lia) guess_len). unfold evals_nz. intros Z0.
  pose proof (NTT_ok wrap64 id64 9%nat guess ltac:(lia) guess_len guess_int16) as E.
  assert (N : match NTT wrap64 guess with Ok l => existsb (Z.eqb 0) l | _ => true end = false) by (vm_compute; reflexivity).
  rewrite E in N. assert (B : existsb (Z.eqb 0) (evalsP 9%nat guess) = true).
  { apply existsb_exists. exists 0. split; [exact Z0|reflexivity]. }
  rewrite B in N. discriminate N.
Qed.

(** For every message and salt, at least one in 2^16 of all keys accepts the long vector ... *)
Theorem C99_forgery_keys : forall c, point 512 c ->
  exists l, NoDup l /\ (forall h, In h l -> point 512 h) /\ q ^ 512 <= 2 ^ 16 * Z.of_nat (length l) /\
  forall X fuel msg hdr salt h, In h l -> length salt = 40%nat -> hashToPoint X fuel msg salt = Ok c ->
    Verify wrap64 X fuel h msg (hdr :: salt ++ guess_enc) = Ok true.
Proof.
  intros c [Lc Fc]. exists (hits 512 (fun h => window (norm (shift (negacyc 512 guess h) c)))).
  split; [apply nodup_hits|]. split; [intros h Hh; exact (proj1 (proj1 (in_hits _ _ _) Hh))|]. split.
  - rewrite hits_count.
    rewrite (total_keys guess c (fun v => b2z (window (norm v))) guess_len guess_int16 guess_invertible Lc). exact window_count.
  - intros X fuel msg hdr salt h Hh Ls Ec. destruct (proj1 (in_hits _ _ _) Hh) as [[Lh Fh] W].
    assert (Fi : firstn 512 h = h) by (apply firstn_all2; rewrite Lh; apply Nat.le_refl).
    apply window_accepts in W. destruct W as [W1 _]. rewrite <- (s0_shift h c guess Lc) in W1.
    rewrite (Verify_assembled wrap64 id64 X fuel h msg hdr salt guess c guess_enc (inq_int16' _ Fh) ltac:(rewrite Lh; lia) Ls guess_len guess_int16 guess_enc_ok Ec).
    rewrite Fi. f_equal. unfold accept_norm. rewrite guess_norm. apply Z.leb_le. exact W1.
Qed.
Print Assumptions C99_forgery_keys.

(** ... and at most one in 2^41 a given short invertible vector. *)
Theorem C99_short_keys : forall X fuel msg hdr salt s enc c l,
  length salt = 40%nat -> hashToPoint X fuel msg salt = Ok c ->
  length s = 512%nat -> int16s s -> invertible_mod_q 512 s -> Compress s 625 = Ok enc -> sqnorm s <= beta2_512 ->
  NoDup l -> (forall h, In h l -> point 512 h /\ Verify wrap64 X fuel h msg (hdr :: salt ++ enc) = Ok true) ->
  2 ^ 41 * Z.of_nat (length l) <= q ^ 512.
Proof.
  intros X fuel msg hdr salt s enc c l Lsalt Ec Ls Is Inv Ee Ns Nl Hl.
  destruct (hashToPoint_ok X _ _ _ _ Ec) as [Lc Ic].
  pose (p := fun v : list Z => (norm v + sqnorm s) mod 2 ^ 32 <=? beta2_512).
  assert (K : Z.of_nat (length l) <= total 512 (fun h => b2z (p (shift (negacyc 512 s h) c)))).
  { apply hits_max; [exact Nl|]. intros h Hh. destruct (Hl h Hh) as [[Lh Fh] V]. split; [split; assumption|].
    assert (Fi : firstn 512 h = h) by (apply firstn_all2; rewrite Lh; apply Nat.le_refl).
    rewrite (Verify_assembled wrap64 id64 X fuel h msg hdr salt s c enc (inq_int16' _ Fh) ltac:(rewrite Lh; lia) Lsalt Ls Is Ee Ec) in V.
    rewrite Fi in V. unfold accept_norm in V. rewrite (s0_shift h c s Lc) in V. unfold p. congruence. }
  rewrite (total_keys s c (fun v => b2z (p v)) Ls Is Inv Lc) in K.
  (* the hash points accepted with the zero key, which C97 counts *)
  assert (C : 2 ^ 41 * total 512 (fun v => b2z (p v)) <= q ^ 512).
  { rewrite <- hits_count. 
    assert (I0 : int16s zero512) by (apply pconst_int16; unfold is_int16; lia).
    apply (C97_short_rare zero512 s enc (hits 512 p) I0 ltac:(rewrite zero512_len; lia) Ls Is Ee Ns (nodup_hits _ _)).
    intros v Hv. destruct (proj1 (in_hits 512 p v) Hv) as [P A]. split; [exact P|]. destruct P as [Lv Fv].
    exists (listXOF v), 512%nat, [], 57, ex_salt. split; [exact ex_salt_len|]. split; [apply C97_points_hashed; now split|].
    rewrite (Verify_assembled wrap64 id64 (listXOF v) 512 zero512 [] 57 ex_salt s v enc I0 ltac:(rewrite zero512_len; lia) ex_salt_len Ls Is Ee
      (C97_points_hashed v [] ex_salt (conj Lv Fv))).
    assert (Fi : firstn 512 zero512 = zero512) by (apply firstn_all2; rewrite zero512_len; apply Nat.le_refl).
    rewrite Fi. unfold accept_norm.
    replace (falcon_s0 512 zero512 v s) with (falcon_s0 512 s v zero512).
    + rewrite (s0_zero s v Ls Lv). f_equal. exact A.
    + unfold falcon_s0. rewrite (negacyc_comm 512 s zero512 Ls zero512_len). reflexivity. }
  apply Z.le_trans with (2 ^ 41 * total 512 (fun v => b2z (p v))); [|exact C].
  apply Z.mul_le_mono_nonneg_l; [apply Z.pow_nonneg; discriminate|exact K].
Qed.
Print Assumptions C99_short_keys.

(** A case: the hash point 0 and s = 1, with s0 = 0 and s0 = 1; two different keys accept the same bytes. *)
Lemma one_invertible : invertible_mod_q 512 one512.
Proof.
  exists one512. split; [exact one512_len|]. unfold one512. rewrite negacyc_const by apply pconst_length. vm_compute. reflexivity.
Qed.
Example C99_nonvacuous : exists h1 h2, h1 <> h2 /\
  hashToPoint zeroXOF 600 ex_msg ex_salt = Ok (repeat 0 512) /\ Compress one512 625 = Ok enc_one /\
  sqnorm one512 + sqnorm one512 <= beta2_512 /\ point 512 (repeat 0 512) /\
  falcon_s0 512 h1 (repeat 0 512) one512 = zero512 /\ falcon_s0 512 h2 (repeat 0 512) one512 = one512 /\
  Verify wrap64 zeroXOF 600 h1 ex_msg (57 :: ex_salt ++ enc_one) = Ok true /\
  Verify wrap64 zeroXOF 600 h2 ex_msg (57 :: ex_salt ++ enc_one) = Ok true.
Proof.
  assert (I1 : int16s one512) by (apply pconst_int16; unfold is_int16; lia).
  assert (S0 : sqnorm zero512 = 0) by (vm_compute; reflexivity).
  assert (S1 : sqnorm one512 = 1) by (vm_compute; reflexivity).
  assert (B : forall a, -1 <= a <= 1 -> Forall (fun x => - 6144 <= x <= 6144) (pconst 512 a)).
  { intros a Ha. unfold pconst. apply Forall_forall. intros x Hx. apply in_map_iff in Hx. destruct Hx as (i & <- & _).
    destruct (i =? 0)%nat; lia. }
  destruct (C99_key_substitution zeroXOF 600 ex_msg 57 ex_salt one512 zero512 (repeat 0 512) enc_one ex_salt_len one512_len I1
    one_invertible enc_one_ok zero_hash zero512_len (B 0 ltac:(lia)) ltac:(rewrite S0, S1; discriminate)) as (h1 & _ & _ & E1 & V1 & _).
  destruct (C99_key_substitution zeroXOF 600 ex_msg 57 ex_salt one512 one512 (repeat 0 512) enc_one ex_salt_len one512_len I1
    one_invertible enc_one_ok zero_hash one512_len (B 1 ltac:(lia)) ltac:(rewrite S1; discriminate)) as (h2 & _ & _ & E2 & V2 & _).
  exists h1, h2. split.
  { intros ->. rewrite E1 in E2. apply (f_equal sqnorm) in E2. rewrite S0, S1 in E2. discriminate E2. }
  split; [exact zero_hash|]. split; [exact enc_one_ok|]. split; [rewrite S1; discriminate|].
  split; [split; [apply repeat_length|apply Forall_forall; intros x Hx; apply repeat_spec in Hx; subst; split; [apply Z.le_refl|reflexivity]]|].
  split; [exact E1|]. split; [exact E2|]. split; [exact V1|exact V2].
Qed.
