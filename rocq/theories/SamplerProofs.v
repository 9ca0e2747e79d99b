(** Proofs about samplerz.go that hold for every behaviour of the floating
    point operations. *)
From Verif Require Import GoBase Util BaseProofs Float Samplerz.

(** ** Big-endian values *)
Lemma SetBytes_snoc l x : SetBytes (l ++ [x]) = SetBytes l * 256 + x.
Proof. unfold SetBytes. now rewrite fold_left_app. Qed.

Lemma SetBytes_range l : bytes l -> 0 <= SetBytes l < 256 ^ Z.of_nat (length l).
Proof.
  induction l as [|x l IH] using rev_ind; intros H; [cbn; lia|].
  apply Forall_app in H. destruct H as [H1 H2]. inversion H2 as [|? ? Hx _]; subst.
  specialize (IH H1). rewrite SetBytes_snoc, app_length. cbn [length]. unfold is_byte in Hx.
  replace (Z.of_nat (length l + 1)) with (Z.succ (Z.of_nat (length l))) by lia.
  rewrite Z.pow_succ_r by lia. lia.
Qed.

Lemma SetBytes_inj l : forall l', bytes l -> bytes l' -> length l = length l' ->
  SetBytes l = SetBytes l' -> l = l'.
Proof.
  induction l as [|x l IH] using rev_ind; intros l' H H' L E.
  - destruct l'; [reflexivity|discriminate].
  - destruct l' as [|y l' _] using rev_ind; [rewrite app_length in L; cbn in L; lia|].
    rewrite !app_length in L. cbn in L. rewrite !SetBytes_snoc in E.
    apply Forall_app in H. destruct H as [H1 H2]. inversion H2 as [|? ? Hx _]; subst.
    apply Forall_app in H'. destruct H' as [H1' H2']. inversion H2' as [|? ? Hy _]; subst.
    unfold is_byte in Hx, Hy. assert (x = y) by lia. subst y.
    f_equal. apply IH; auto; lia.
Qed.

Lemma SetBytes_surj m : forall u, 0 <= u < 256 ^ Z.of_nat m ->
  exists l, bytes l /\ length l = m /\ SetBytes l = u.
Proof.
  induction m as [|m IH]; intros u Hu.
  - exists []. cbn in *. repeat split; [constructor|lia].
  - rewrite Nat2Z.inj_succ, Z.pow_succ_r in Hu by lia.
    destruct (IH (u / 256)) as (l & Hl & L & E).
    { split; [apply Z.div_pos; lia|apply Z.div_lt_upper_bound; lia]. }
    exists (l ++ [u mod 256]). rewrite SetBytes_snoc, app_length, L, E. cbn [length].
    pose proof (Z.mod_pos_bound u 256 ltac:(lia)).
    repeat split; [|lia|lia]. apply Forall_app. split; [exact Hl|].
    constructor; [unfold is_byte; lia|constructor].
Qed.

(** ** BaseSampler *)
Definition count_below (u : Z) (l : list Z) : Z :=
  Z.of_nat (length (filter (fun e => u <? e) l)).

Lemma base_fold u l : forall acc,
  fold_left (fun z0 elt => match u ?= elt with Lt => z0 + 1 | _ => z0 end) l acc
  = acc + count_below u l.
Proof.
  induction l as [|e l IH]; intros acc; cbn; [unfold count_below; cbn; lia|].
  rewrite IH. unfold count_below. cbn [filter]. unfold Z.ltb.
  destruct (u ?= e); cbn [length]; lia.
Qed.

Lemma BaseSampler_count l : BaseSampler l = count_below (SetBytes l) RCDT.
Proof. unfold BaseSampler. rewrite base_fold. lia. Qed.

(** For a decreasing table the count exceeds k exactly when u is below entry k. *)
Fixpoint decreasing (l : list Z) : bool :=
  match l with
  | a :: ((b :: _) as l') => (b <=? a) && decreasing l'
  | _ => true
  end.

Lemma count_zero u l : decreasing l = true -> (forall e, hd_error l = Some e -> e <= u) ->
  count_below u l = 0.
Proof.
  revert u. induction l as [|a l IH]; intros u D H; [reflexivity|].
  specialize (H a eq_refl). unfold count_below. cbn [filter].
  destruct (Z.ltb_spec u a); [lia|]. apply IH.
  - destruct l; [reflexivity|]. cbn in D. apply andb_prop in D. apply D.
  - intros e E. destruct l as [|b l]; [discriminate|]. cbn in E. injection E as <-.
    cbn in D. apply andb_prop in D. destruct D as [D _]. apply Z.leb_le in D. lia.
Qed.

Lemma count_gt u l : decreasing l = true -> forall k d, (k < length l)%nat ->
  (count_below u l > Z.of_nat k <-> u < nth k l d).
Proof.
  induction l as [|a l IH]; intros D k d Hk; [cbn in Hk; lia|].
  assert (D' : decreasing l = true).
  { destruct l; [reflexivity|]. cbn in D. apply andb_prop in D. apply D. }
  destruct (Z.ltb_spec u a) as [Ha|Ha].
  - assert (E : count_below u (a :: l) = 1 + count_below u l).
    { unfold count_below. cbn [filter]. rewrite (proj2 (Z.ltb_lt u a) Ha). cbn [length]. lia. }
    rewrite E. destruct k as [|k]; cbn [nth].
    + split; [lia|]. unfold count_below. lia.
    + cbn in Hk. rewrite <- (IH D' k d) by lia. lia.
  - rewrite count_zero; [|exact D|intros e E; cbn in E; injection E as <-; lia].
    split; [lia|]. intros H.
    enough (nth k (a :: l) d <= a) by lia.
    clear -D Hk. revert a D k Hk. induction l as [|b l IH]; intros a D k Hk.
    + destruct k; [cbn; lia|cbn in Hk; lia].
    + destruct k as [|k]; [cbn; lia|]. cbn in D. apply andb_prop in D. destruct D as [D1 D2].
      apply Z.leb_le in D1. specialize (IH b D2 k ltac:(cbn in *; lia)). cbn in *. lia.
Qed.

Lemma filter_len_le {A} (p : A -> bool) l : (length (filter p l) <= length l)%nat.
Proof. induction l as [|x l IH]; cbn; [lia|]. destruct (p x); cbn; lia. Qed.

Lemma RCDT_decreasing : decreasing RCDT = true. Proof. reflexivity. Qed.

Lemma BaseSampler_gt l k : (k < 18)%nat -> (BaseSampler l > Z.of_nat k <-> SetBytes l < nth k RCDT 0).
Proof. intros H. rewrite BaseSampler_count. apply count_gt; [reflexivity|exact H]. Qed.

Lemma BaseSampler_range l : 0 <= BaseSampler l <= 18.
Proof.
  rewrite BaseSampler_count. unfold count_below.
  pose proof (filter_len_le (fun e => SetBytes l <? e) RCDT) as H.
  change (length RCDT) with 18%nat in H. lia.
Qed.

(** ** approxexp *)
Lemma shr63_bit v : 0 <= Z.shiftr (wrap64u v) 63 <= 1.
Proof.
  unfold wrap64u, wrapu. rewrite Z.shiftr_div_pow2 by lia.
  pose proof (Z.mod_pos_bound v (2 ^ 64) ltac:(lia)). lia.
Qed.

Section Float.
Context (FO : floats).
Notation F := (F FO).

(** The bit left by the last Horner step. *)
Definition horner_bit (x : F) : Z :=
  let z := to_u64 FO (f_mul FO x (f_of_int FO (2 ^ 63))) in
  let y := fold_left (fun y elt => wrap64u (elt - Z.shiftr (wrap64u (z * y)) 63))
             (removelast (tl expC)) (hd 0 expC) in
  Z.shiftr (wrap64u (z * y)) 63.

Lemma horner_bit_range x : 0 <= horner_bit x <= 1.
Proof. apply shr63_bit. Qed.

(** The value of c = uint64(ccs * 2^63). *)
Definition ccs63 (ccs : F) : Z := to_u64 FO (f_mul FO ccs (f_of_int FO (2 ^ 63))).

Lemma approxexp_exact x ccs :
  approxexp FO x ccs =
  if (horner_bit x =? 1) && (0 <? ccs63 ccs mod 2 ^ 63) && (ccs63 ccs mod 2 ^ 63 <=? 2 ^ 62) then 1 else 0.
Proof.
  unfold approxexp. fold (ccs63 ccs).
  set (zx := to_u64 FO (f_mul FO x (f_of_int FO (2 ^ 63)))).
  change (tl expC) with (removelast (tl expC) ++ [2 ^ 63]).
  rewrite fold_left_app. cbn [fold_left].
  change (Z.shiftr (wrap64u (zx * fold_left
      (fun y elt => wrap64u (elt - Z.shiftr (wrap64u (zx * y)) 63))
      (removelast (tl expC)) (hd 0 expC))) 63) with (horner_bit x).
  pose proof (horner_bit_range x) as Hb.
  assert (Hc : 0 <= ccs63 ccs < 2 ^ 64).
  { unfold ccs63, to_u64, wrap64u, wrapu. apply Z.mod_pos_bound. lia. }
  set (c := ccs63 ccs) in *. clearbody c. set (h := horner_bit x) in *. clearbody h. clear zx.
  unfold wrap64u, wrapu. rewrite Z.shiftl_mul_pow2, Z.shiftr_div_pow2 by lia.
  change (2 ^ 1) with 2.
  set (m := c mod 2 ^ 63).
  assert (Em : (c * 2) mod 2 ^ 64 = 2 * m).
  { unfold m. change (2 ^ 64) with (2 ^ 63 * 2). rewrite Zmult_mod_distr_r. lia. }
  rewrite Em.
  assert (Hm : 0 <= m < 2 ^ 63) by (apply Z.mod_pos_bound; lia). clearbody m. clear Em.
  destruct (Z.eqb_spec h 1) as [->|Hh]; cbn [andb].
  - rewrite (Z.mod_small (2 ^ 63 - 1)) by lia.
    destruct (Z.ltb_spec 0 m) as [P|P]; cbn [andb].
    2:{ replace m with 0 by lia. reflexivity. }
    assert (E : (2 * m * (2 ^ 63 - 1)) mod 2 ^ 64 = 2 ^ 64 - 2 * m).
    { symmetry. apply (Z.mod_unique_pos _ _ (m - 1)); lia. }
    rewrite E. destruct (Z.leb_spec m (2 ^ 62)); lia.
  - replace h with 0 by lia. rewrite (Z.mod_small (2 ^ 63 - 0)) by lia.
    replace (2 * m * (2 ^ 63 - 0)) with (m * 2 ^ 64) by lia. rewrite Z_mod_mult. reflexivity.
Qed.

Lemma approxexp_01 x ccs : approxexp FO x ccs = 0 \/ approxexp FO x ccs = 1.
Proof. rewrite approxexp_exact. destruct (_ && _ && _); auto. Qed.

(** ** berexp *)
(** The value of a list of base-256 digits, most significant first. *)
Definition digits (z : Z) (is : list Z) : list Z := map (fun i => shr_u64 z i mod 256) is.

Lemma land255 v : Z.land (wrap64 v) 255 = v mod 256.
Proof.
  change 255 with (Z.ones 8). rewrite Z.land_ones by lia. change (2 ^ 8) with 256.
  unfold wrap64. pose proof (wrap_congr 64 v ltac:(lia)) as H.
  rewrite <- (Z.mod_mod v 256) by lia.
  replace (v mod 256 mod 256) with ((v mod 2 ^ 64) mod 256).
  - rewrite <- H. lia.
  - lia.
Qed.

(** First digit that differs from b, compared. *)
Fixpoint first_diff (b : Z) (ds : list Z) : bool :=
  match ds with
  | [] => false
  | d :: ds' => if b =? d then first_diff b ds' else b <? d
  end.

Lemma loop_first_diff z b is : 0 <= b <= 255 -> forall w, w = 0 ->
  (berexp_loop z b is w <? 0) = first_diff b (digits z is).
Proof.
  intros Hb. induction is as [|i is IH]; intros w Hw; [subst; reflexivity|].
  cbn [berexp_loop digits map first_diff]. rewrite land255.
  pose proof (Z.mod_pos_bound (shr_u64 z i) 256 ltac:(lia)).
  rewrite wrap64_id by (unfold is_int64; lia).
  destruct (Z.eqb_spec (b - shr_u64 z i mod 256) 0) as [E|E]; cbn [negb];
  destruct (Z.eqb_spec b (shr_u64 z i mod 256)); try lia.
  apply IH. lia.
Qed.

(** Lexicographic comparison of a repeated digit is comparison of values. *)
Lemma first_diff_val b ds : 0 <= b <= 255 -> Forall is_byte ds ->
  (first_diff b ds = true <-> SetBytes (map (fun _ => b) ds) < SetBytes ds).
Proof.
  intros Hb.
  assert (SC : forall d l, SetBytes (d :: l) = d * 256 ^ Z.of_nat (length l) + SetBytes l).
  { intros d l. revert d. induction l as [|x l IH] using rev_ind; intros d; [cbn; lia|].
    rewrite app_comm_cons, !SetBytes_snoc, IH, app_length. cbn [length].
    replace (Z.of_nat (length l + 1)) with (Z.succ (Z.of_nat (length l))) by lia.
    rewrite Z.pow_succ_r by lia. lia. }
  induction ds as [|d ds IH]; intros H; [cbn; split; [discriminate|lia]|].
  inversion H as [|? ? Hd Hds]; subst. cbn [first_diff map]. rewrite !SC, map_length.
  assert (R1 : 0 <= SetBytes ds < 256 ^ Z.of_nat (length ds)) by now apply SetBytes_range.
  assert (R2 : 0 <= SetBytes (map (fun _ => b) ds) < 256 ^ Z.of_nat (length ds)).
  { rewrite <- (map_length (fun _ => b) ds). apply SetBytes_range.
    apply Forall_forall. intros x Hx. apply in_map_iff in Hx. destruct Hx as (y & <- & _).
    unfold is_byte. lia. }
  destruct (Z.eqb_spec b d) as [->|N].
  - rewrite IH by exact Hds. lia.
  - rewrite Z.ltb_lt. nia.
Qed.

Lemma digits_value z : 0 <= z < 2 ^ 64 ->
  SetBytes (digits z [56; 48; 40; 32; 24; 16; 8; 0; -8]) = 256 * z.
Proof.
  intros Hz. unfold digits, shr_u64. cbn [map].
  change (wrap64u 56 >=? 64) with false. change (wrap64u 48 >=? 64) with false.
  change (wrap64u 40 >=? 64) with false. change (wrap64u 32 >=? 64) with false.
  change (wrap64u 24 >=? 64) with false. change (wrap64u 16 >=? 64) with false.
  change (wrap64u 8 >=? 64) with false. change (wrap64u 0 >=? 64) with false.
  change (wrap64u (-8) >=? 64) with true. cbv iota.
  change (wrap64u 56) with 56. change (wrap64u 48) with 48. change (wrap64u 40) with 40.
  change (wrap64u 32) with 32. change (wrap64u 24) with 24. change (wrap64u 16) with 16.
  change (wrap64u 8) with 8. change (wrap64u 0) with 0.
  rewrite !Z.shiftr_div_pow2 by lia. unfold SetBytes. cbn [fold_left].
  lia.
Qed.

(** The acceptance rule: with the byte b the call accepts iff
    b * 0x0101010101010101 is below z. *)
Lemma loop_accept z b : 0 <= z < 2 ^ 64 -> 0 <= b <= 255 ->
  ((berexp_loop z b [56; 48; 40; 32; 24; 16; 8; 0; -8] 0 <? 0) = true
   <-> b * 72340172838076673 < z).
Proof.
  intros Hz Hb. rewrite loop_first_diff by auto.
  rewrite first_diff_val; [|exact Hb|].
  - rewrite digits_value by exact Hz. unfold digits. rewrite map_map. cbn [map].
    unfold SetBytes. cbn [fold_left]. lia.
  - apply Forall_forall. intros x Hx. apply in_map_iff in Hx. destruct Hx as (i & <- & _).
    pose proof (Z.mod_pos_bound (shr_u64 z i) 256 ltac:(lia)). unfold is_byte. lia.
Qed.

(** The shift count of berexp. *)
Definition shift_count (x : F) : Z :=
  to_int FO (Min FO (f_floor FO (f_mul FO x (ILN2 FO))) (f_of_int FO 63)).
(** The remainder r = x - s*ln 2 given to approxexp. *)
Definition berexp_rest (x : F) : F :=
  f_sub FO x (f_mul FO (f_floor FO (f_mul FO x (ILN2 FO))) (LN2 FO)).

Lemma berexp_panic x ccs bs : berexp FO x ccs bs = Panic <-> shift_count x < 0.
Proof.
  unfold berexp. fold (shift_count x).
  destruct (Z.ltb_spec (shift_count x) 0); split; intros; try discriminate; auto; lia.
Qed.

Lemma berexp_ok x ccs bs : 0 <= shift_count x -> exists a, berexp FO x ccs bs = Ok a.
Proof.
  intros H. unfold berexp. fold (shift_count x).
  destruct (Z.ltb_spec (shift_count x) 0); [lia|]. eauto.
Qed.

Lemma berexp_byte x ccs b : 0 <= b <= 255 -> 0 <= shift_count x ->
  berexp FO x ccs [b] = Ok (
    (approxexp FO (berexp_rest x) ccs =? 0) &&
    (if shift_count x =? 0 then b <? 255
     else if shift_count x <? 8 then b <? 2 ^ (8 - shift_count x)
     else if shift_count x <? 64 then b =? 0 else false)).
Proof.
  intros Hb Hs. unfold berexp. fold (shift_count x) (berexp_rest x).
  destruct (Z.ltb_spec (shift_count x) 0) as [?|_]; [lia|]. f_equal.
  change (SetBytes [b]) with b.
  replace (wrap64 (wrap64u b)) with b.
  2:{ unfold wrap64u, wrapu. rewrite Z.mod_small by lia. symmetry. apply wrap64_id. unfold is_int64. lia. }
  set (s := shift_count x) in *. clearbody s.
  destruct (approxexp_01 (berexp_rest x) ccs) as [-> | ->].
  - change (wrap64u (0 - 1)) with (2 ^ 64 - 1). change (0 =? 0) with true. cbn [andb].
    set (z := if s >=? 64 then 0 else Z.shiftr (2 ^ 64 - 1) s).
    assert (Ez : z = if s <? 64 then 2 ^ (64 - s) - 1 else 0).
    { unfold z. rewrite Z.geb_leb. destruct (Z.leb_spec 64 s), (Z.ltb_spec s 64); try lia.
      rewrite Z.shiftr_div_pow2 by lia.
      symmetry. apply (Z.div_unique_pos _ _ _ (2 ^ s - 1)).
      - pose proof (Z.pow_pos_nonneg 2 s). lia.
      - rewrite Z.mul_sub_distr_l, <- Z.pow_add_r by lia. replace (s + (64 - s)) with 64 by lia. lia. }
    clearbody z.
    assert (Hz : 0 <= z < 2 ^ 64).
    { rewrite Ez. destruct (Z.ltb_spec s 64); [|lia].
      pose proof (Z.pow_pos_nonneg 2 (64 - s)). 
      pose proof (Z.pow_le_mono_r 2 (64 - s) 64). lia. }
    pose proof (loop_accept z b Hz Hb) as A.
    set (t := berexp_loop _ _ _ _ <? 0) in *. clearbody t.
    destruct (Z.eqb_spec s 0) as [E0|N0].
    { subst s. cbn in Ez. destruct t, (Z.ltb_spec b 255); auto; [|symmetry]; lia. }
    destruct (Z.ltb_spec s 8) as [L8|G8].
    { assert (s = 1 \/ s = 2 \/ s = 3 \/ s = 4 \/ s = 5 \/ s = 6 \/ s = 7) as D by lia.
      destruct D as [-> |[-> |[-> |[-> |[-> |[-> | ->]]]]]]; cbn in Ez; subst z;
        match goal with |- _ = (b <? ?p) => destruct t, (Z.ltb_spec b p) as [H|H]; cbn in H; auto; lia end. }
    destruct (Z.ltb_spec s 64) as [L64|G64]; subst z.
    + pose proof (Z.pow_le_mono_r 2 (64 - s) 56 ltac:(lia) ltac:(lia)) as U.
      pose proof (Z.pow_le_mono_r 2 1 (64 - s) ltac:(lia) ltac:(lia)) as V.
      change (2 ^ 56) with 72057594037927936 in U. change (2 ^ 1) with 2 in V.
      set (p := 2 ^ (64 - s)) in *. clearbody p.
      destruct t, (Z.eqb_spec b 0); auto; lia.
    + destruct t; auto. lia.
  - change (wrap64u (1 - 1)) with 0. rewrite Z.shiftr_0_l.
    replace (if s >=? 64 then 0 else 0) with 0 by (destruct (s >=? 64); reflexivity).
    change (1 =? 0) with false. cbn [andb].
    pose proof (loop_accept 0 b ltac:(lia) Hb) as A. destruct (_ <? 0); auto. lia.
Qed.

(** Number of random bytes that make berexp accept. *)
Definition accepted (x ccs : F) : Z :=
  Z.of_nat (length (filter
    (fun b => match berexp FO x ccs [b] with Ok t => t | _ => false end)
    (map Z.of_nat (seq 0 256)))).

Lemma count_lt m n : (m <= n)%nat ->
  length (filter (fun b => b <? Z.of_nat m) (map Z.of_nat (seq 0 n))) = m.
Proof.
  intros H. replace n with (m + (n - m))%nat by lia. rewrite seq_app, map_app, filter_app.
  rewrite app_length.
  assert (A : forall k s, (s + k <= m)%nat ->
    length (filter (fun b => b <? Z.of_nat m) (map Z.of_nat (seq s k))) = k).
  { induction k as [|k IH]; intros s Hs; [reflexivity|]. cbn [seq map filter].
    destruct (Z.ltb_spec (Z.of_nat s) (Z.of_nat m)); [|lia]. cbn [length]. rewrite IH; lia. }
  assert (B : forall k s, (m <= s)%nat ->
    length (filter (fun b => b <? Z.of_nat m) (map Z.of_nat (seq s k))) = 0%nat).
  { induction k as [|k IH]; intros s Hs; [reflexivity|]. cbn [seq map filter].
    destruct (Z.ltb_spec (Z.of_nat s) (Z.of_nat m)); [lia|]. apply IH. lia. }
  rewrite A, B; lia.
Qed.

Lemma accepted_spec x ccs : 0 <= shift_count x ->
  accepted x ccs =
    if approxexp FO (berexp_rest x) ccs =? 0 then
      (if shift_count x =? 0 then 255
       else if shift_count x <? 8 then 2 ^ (8 - shift_count x)
       else if shift_count x <? 64 then 1 else 0)
    else 0.
Proof.
  intros Hs. unfold accepted.
  set (m := if approxexp FO (berexp_rest x) ccs =? 0 then
      (if shift_count x =? 0 then 255
       else if shift_count x <? 8 then 2 ^ (8 - shift_count x)
       else if shift_count x <? 64 then 1 else 0)
    else 0).
  assert (Hm : 0 <= m <= 255).
  { unfold m. destruct (_ =? 0); [|lia]. destruct (Z.eqb_spec (shift_count x) 0); [lia|].
    destruct (Z.ltb_spec (shift_count x) 8); [|destruct (_ <? 64); lia].
    pose proof (Z.pow_pos_nonneg 2 (8 - shift_count x)).
    pose proof (Z.pow_le_mono_r 2 (8 - shift_count x) 7 ltac:(lia) ltac:(lia)).
    change (2 ^ 7) with 128 in *. lia. }
  rewrite (filter_ext_in _ (fun b => b <? Z.of_nat (Z.to_nat m))).
  - rewrite count_lt by lia. lia.
  - intros b Hb. apply in_map_iff in Hb. destruct Hb as (i & <- & Hi). apply in_seq in Hi.
    rewrite berexp_byte by lia. rewrite Z2Nat.id by lia. unfold m.
    destruct (_ =? 0); cbn [andb].
    2:{ destruct (Z.ltb_spec (Z.of_nat i) 0); [lia|reflexivity]. }
    destruct (shift_count x =? 0); [reflexivity|].
    destruct (shift_count x <? 8); [reflexivity|].
    destruct (shift_count x <? 64).
    + destruct (Z.eqb_spec (Z.of_nat i) 0), (Z.ltb_spec (Z.of_nat i) 1); lia.
    + destruct (Z.ltb_spec (Z.of_nat i) 0); [lia|reflexivity].
Qed.

(** ** Samplerz *)
(** The conversions agree on the small integers the sampler makes. *)
Definition small_exact : Prop := forall k, -18 <= k <= 19 -> f_to_int FO (f_of_int FO k) = k.

Lemma round_value r dss ccs fb sb tb z a : small_exact ->
  sampler_round FO r dss ccs fb sb tb = Ok (z, a) ->
  exists k, -18 <= k <= 19 /\ to_int FO z = k.
Proof.
  intros SE. unfold sampler_round.
  destruct (berexp _ _ _ _) as [t| | |]; cbn [bind]; try discriminate.
  intros H. apply Ok_inj in H. injection H as <- <-.
  pose proof (BaseSampler_range fb) as R.
  set (b := Z.land _ 1).
  assert (Hb : b = 0 \/ b = 1).
  { unfold b. change 1 with (Z.ones 1) at 1 2. rewrite Z.land_ones by lia. change (2 ^ 1) with 2. lia. }
  exists (b + (2 * b - 1) * BaseSampler fb).
  assert (-18 <= b + (2 * b - 1) * BaseSampler fb <= 19) by (destruct Hb as [-> | ->]; lia).
  split; [assumption|]. unfold to_int. rewrite SE by assumption. apply wrap64_id. unfold is_int64. lia.
Qed.

Lemma loop_value rb fuel : small_exact -> forall s r dss ccs k v k',
  sampler_loop FO rb fuel s r dss ccs k = Ok (v, k') ->
  exists d, -18 <= d <= 19 /\ v = wrap8 (wrap64 (s + d)).
Proof.
  intros SE. induction fuel as [|fuel IH]; intros s r dss ccs k v k'; [discriminate|].
  cbn [sampler_loop]. destruct (generateAndSplitRandBytes rb k) as [[[fb sb] tb]| | |]; cbn [bind]; try discriminate.
  destruct (sampler_round FO r dss ccs fb sb tb) as [[z a]| | |] eqn:E; cbn [bind]; try discriminate.
  cbn [fst snd]. destruct a.
  - intros H. apply Ok_inj in H. injection H as <- <-.
    destruct (round_value _ _ _ _ _ _ _ _ SE E) as (d & Hd & <-). eauto.
  - intros H. eapply IH. exact H.
Qed.

Lemma wrap8_64 s : wrap8 (wrap64 s) = wrap8 s.
Proof. unfold wrap8, wrap64, wrap. lia. Qed.

Lemma Samplerz_value rb fuel mu sigma sigmin k v k' : small_exact ->
  Samplerz FO rb fuel mu sigma sigmin k = Ok (v, k') ->
  exists d, -18 <= d <= 19 /\ v = wrap8 (to_int FO (f_floor FO mu) + d).
Proof.
  intros SE H. apply loop_value in H; [|exact SE]. destruct H as (d & Hd & ->).
  exists d. rewrite wrap8_64. auto.
Qed.

Lemma Samplerz_range rb fuel mu sigma sigmin k v k' : small_exact ->
  let s := to_int FO (f_floor FO mu) in
  -128 <= s - 18 -> s + 19 <= 127 ->
  Samplerz FO rb fuel mu sigma sigmin k = Ok (v, k') -> s - 18 <= v <= s + 19.
Proof.
  intros SE s H1 H2 E. destruct (Samplerz_value _ _ _ _ _ _ _ _ SE E) as (d & Hd & ->).
  fold s. unfold wrap8. rewrite wrap_id; [lia|lia|]. change (2 ^ (8 - 1)) with 128. lia.
Qed.

(** ** GenPoly *)
Lemma samples_spec rb fuel : small_exact -> to_int FO (f_floor FO (f_of_int FO 0)) = 0 ->
  forall m k l k', samples FO rb fuel m k = Ok (l, k') ->
  length l = m /\ Forall (fun v => -18 <= v <= 19) l.
Proof.
  intros SE Z0. induction m as [|m IH]; intros k l k' H.
  - apply Ok_inj in H. injection H as <- <-. auto.
  - cbn [samples] in H.
    destruct (Samplerz _ _ _ _ _ _ _) as [[v k1]| | |] eqn:E; cbn [bind] in H; try discriminate.
    cbn [fst snd] in H. destruct (samples _ _ _ _ _) as [[l1 k2]| | |] eqn:E1; cbn [bind] in H; try discriminate.
    apply Ok_inj in H. injection H as <- <-. cbn [fst snd].
    destruct (IH _ _ _ E1) as [L A]. split; [cbn; lia|]. constructor; [|exact A].
    apply Samplerz_range in E; try rewrite Z0 in *; auto; lia.
Qed.

Definition sum_list (l : list Z) : Z := fold_right Z.add 0 l.

Lemma fold_sum_exact l B : 0 <= B -> Forall (fun v => - B <= v <= B) l -> 
  forall acc, Z.abs acc + B * Z.of_nat (length l) < 2 ^ 63 ->
  fold_left (fun sum t => wrap64 (sum + t)) l acc = acc + sum_list l.
Proof.
  intros HB. induction l as [|x l IH]; intros H acc Ha; [cbn; lia|].
  inversion H as [|? ? Hx Hl]; subst. cbn [fold_left length] in *.
  rewrite wrap64_id by (unfold is_int64; nia).
  rewrite IH; [unfold sum_list; cbn [fold_right]; lia|exact Hl|nia].
Qed.

Lemma sum_list_bound l a b : Forall (fun v => a <= v <= b) l ->
  a * Z.of_nat (length l) <= sum_list l <= b * Z.of_nat (length l).
Proof.
  induction 1 as [|x l Hx _ IH]; [cbn; lia|]. cbn [sum_list fold_right length].
  fold (sum_list l). nia.
Qed.

Lemma mapM_idx_seq {A} (l : list A) a k : (a + k <= length l)%nat ->
  mapM (fun j => idx l (a + j)) (seq 0 k) = Ok (firstn k (skipn a l)).
Proof.
  intros H. destruct l as [|d l'].
  { cbn in H. replace k with 0%nat by lia. reflexivity. }
  set (l := d :: l') in *.
  rewrite (mapM_Ok _ (fun j => nth (a + j) l d)).
  - f_equal. apply (nth_ext _ _ d d).
    + rewrite map_length, seq_length, firstn_length, skipn_length. lia.
    + intros i Hi. rewrite map_length, seq_length in Hi. rewrite nth_map_seq by exact Hi.
      rewrite <- (firstn_skipn a l) at 1.
      rewrite app_nth2; rewrite firstn_length; [|lia].
      replace (a + i - Nat.min a (length l))%nat with i by lia.
      rewrite <- (firstn_skipn k (skipn a l)) at 1.
      rewrite app_nth1; [reflexivity|]. rewrite firstn_length, skipn_length. lia.
  - intros j Hj. apply in_seq in Hj. apply idx_nth. lia.
Qed.

(** GenPoly: each coefficient is the (wrapped) sum of a block of samples. *)
Definition block (l : list Z) (k i : nat) : list Z := firstn k (skipn (i * k) l).

Lemma block_all (P : Z -> Prop) l k i : Forall P l -> Forall P (block l k i).
Proof.
  intros H. unfold block. rewrite <- (firstn_skipn (i * k) l) in H. apply Forall_app in H.
  destruct H as [_ H]. rewrite <- (firstn_skipn k (skipn (i * k) l)) in H. apply Forall_app in H. apply H.
Qed.

Lemma block_length l k i n : length l = 4096%nat -> (n * k <= 4096)%nat -> (i < n)%nat ->
  length (block l k i) = k.
Proof. intros L H Hi. unfold block. rewrite firstn_length, skipn_length. nia. Qed.

Lemma GenPoly_spec rb fuel n c f c' : small_exact -> to_int FO (f_floor FO (f_of_int FO 0)) = 0 ->
  1 <= n -> GenPoly FO rb fuel n c = Ok (f, c') ->
  n <= 4096 /\ exists l, samples FO rb fuel 4096 c = Ok (l, c') /\
    length l = 4096%nat /\ Forall (fun v => -18 <= v <= 19) l /\
    f = map (fun i => wrap16 (sum_list (block l (Z.to_nat (4096 / n)) i))) (seq 0 (Z.to_nat n)).
Proof.
  intros SE Z0 Hn. unfold GenPoly. rewrite Z.gtb_ltb. destruct (Z.ltb_spec 4096 n); [discriminate|].
  destruct (samples FO rb fuel 4096 c) as [[l c1]| | |] eqn:E; cbn [bind]; try discriminate.
  destruct (samples_spec rb fuel SE Z0 4096 c l c1 E) as [L A].
  set (k := Z.to_nat (4096 / n)).
  assert (Hk : (Z.to_nat n * k <= 4096)%nat).
  { unfold k. pose proof (Z.mul_div_le 4096 n ltac:(lia)). pose proof (Z.div_pos 4096 n). nia. }
  rewrite (mapM_Ok _ (fun i => wrap16 (sum_list (block l k i)))).
  - cbn [bind]. intros H'. apply Ok_inj in H'. injection H' as <- <-. split; [lia|].
    exists l. repeat split; auto.
  - intros i Hi. apply in_seq in Hi. rewrite mapM_idx_seq by nia. cbn [bind]. f_equal. f_equal.
    rewrite (fold_sum_exact _ 19); [reflexivity|lia| |].
    + apply (block_all (fun v => -19 <= v <= 19)). eapply Forall_impl; [|exact A]. cbn. lia.
    + fold (block l k i). rewrite (block_length l k i (Z.to_nat n)) by (assumption || lia). lia.
Qed.

Lemma GenPoly_panic rb fuel n c : 4096 < n -> GenPoly FO rb fuel n c = Panic.
Proof. intros H. unfold GenPoly. rewrite Z.gtb_ltb. destruct (Z.ltb_spec 4096 n); [reflexivity|lia]. Qed.
End Float.
