(** Property theorems about RandomHexString (C64, continued), SubFloat64 and NegFloat64 (C79),
    and NewBigIntFromString (C80). *)
From Coq Require Import Reals.
From Flocq Require Import Core BinarySingleNaN.
From Verif Require Import GoBase Util Float Binary64 B64Proofs KeyGen UtilRest BigStr Spec BaseProofs UtilRestProofs.
Open Scope list_scope.
Open Scope Z_scope.

(** C64: the value of a lower-case hexadecimal digit *)
Definition hex_value (c : Z) : option Z :=
  if (48 <=? c) && (c <=? 57) then Some (c - 48) else if (97 <=? c) && (c <=? 102) then Some (c - 87) else None.
Lemma hex_digit_value d : 0 <= d < 16 -> hex_value (hex_digit d) = Some d.
Proof.
  intros H. unfold hex_digit, hex_value. destruct (Z.ltb_spec d 10).
  - destruct (Z.leb_spec 48 (48 + d)); [|lia]. destruct (Z.leb_spec (48 + d) 57); [|lia]. cbn [andb]. f_equal. lia.
  - destruct (Z.leb_spec (87 + d) 57); [lia|]. rewrite Bool.andb_false_r.
    destruct (Z.leb_spec 97 (87 + d)); [|lia]. destruct (Z.leb_spec (87 + d) 102); [|lia]. cbn [andb]. f_equal. lia.
Qed.
(** two digits for each byte, the high one first *)
Theorem C64_hex_content : forall rnd n s, 0 < n -> Forall (fun x => 0 <= x < 256) (rnd (Z.to_nat n)) ->
  RandomHexString rnd n = Ok s -> forall i, (i < length (rnd (Z.to_nat n)))%nat ->
  exists a b, hex_value (nth (2 * i) s 0) = Some a /\ hex_value (nth (2 * i + 1) s 0) = Some b /\
    nth i (rnd (Z.to_nat n)) 0 = 16 * a + b.
Proof.
  intros rnd n s Hn HB. unfold RandomHexString. destruct (Z.eqb_spec n 0); [lia|]. destruct (Z.ltb_spec n 0); [lia|].
  intros E. apply Ok_inj in E. subst s. generalize (rnd (Z.to_nat n)) HB. clear. intros l H. unfold EncodeToString.
  induction H as [|x l Hx H IH]; intros i Hi; [cbn in Hi; lia|]. cbn [flat_map app]. destruct i as [|i].
  - exists (x / 16), (x mod 16). cbn [Nat.mul Nat.add nth].
    pose proof (Z.mod_pos_bound x 16 ltac:(lia)). pose proof (Z.div_mod x 16 ltac:(lia)).
    split; [apply hex_digit_value; lia|]. split; [apply hex_digit_value; lia|]. lia.
  - replace (2 * S i)%nat with (S (S (2 * i))) by lia. replace (S (S (2 * i)) + 1)%nat with (S (S (2 * i + 1))) by lia.
    cbn [nth]. apply IH. cbn [length] in Hi. lia.
Qed.
Print Assumptions C64_hex_content.
Example C64_content_nonvacuous : RandomHexString (fun k => repeat 62 k) 2 = Ok [51; 101; 51; 101] /\
  hex_value 51 = Some 3 /\ hex_value 101 = Some 14.
Proof. repeat split. Qed.

(** C79 *)
Theorem C79_sub : forall ci cu (x y : list b64), (length x <= length y)%nat -> exists r : list b64, SubFloat64 (binary64 ci cu) x y = Ok r /\ length r = length x /\
  forall i, (i < length x)%nat -> let a := nth i x (B754_zero false) in let b := nth i y (B754_zero false) in
  is_finite a = true -> is_finite b = true ->
  let d := round radix2 (FLT_exp (-1074) 53) ZnearestE (B2R a - B2R b) in
  (Rabs d < bpow radix2 1024)%R ->
  B2R (nth i r (B754_zero false)) = d /\ is_finite (nth i r (B754_zero false)) = true.
Proof.
  intros ci cu x y H. set (d0 := B754_zero false : b64).
  exists (map (fun i => b_sub (nth i x d0) (nth i y d0)) (seq 0 (length x))). split; [|split].
  - unfold SubFloat64. apply (mapM_Ok _ (fun i => b_sub (nth i x d0) (nth i y d0))). intros i Hi. apply in_seq in Hi.
    change (F (binary64 ci cu)) with b64 in *. rewrite !(idx_nth _ _ d0) by lia. reflexivity.
  - rewrite map_length, seq_length. reflexivity.
  - intros i Hi a b Fa Fb d Hd. assert (E : nth i (map (fun i => b_sub (nth i x d0) (nth i y d0)) (seq 0 (length x))) d0 = b_sub a b)
      by (rewrite nth_map_seq by exact Hi; reflexivity).
    fold d0. rewrite E.
    pose proof (Bminus_correct 53 1024 _ _ mode_NE a b Fa Fb) as A. cbv zeta in A.
    rewrite Rlt_bool_true in A by exact Hd. destruct A as (A1 & A2 & _). split; [exact A1|exact A2].
Qed.
Print Assumptions C79_sub.
Theorem C79_sub_panics : forall FO x y, SubFloat64 FO x y = Panic <-> (length y < length x)%nat.
Proof.
  intros FO x y. assert (O : (length x <= length y)%nat -> SubFloat64 FO x y = Ok (map (fun i => f_sub FO (nth i x (f_of_int FO 0)) (nth i y (f_of_int FO 0))) (seq 0 (length x)))).
  { intros H. unfold SubFloat64. apply (mapM_Ok _ (fun i => f_sub FO (nth i x (f_of_int FO 0)) (nth i y (f_of_int FO 0)))).
    intros i Hi. apply in_seq in Hi. rewrite !(idx_nth _ _ (f_of_int FO 0)) by lia. reflexivity. }
  split.
  - intros E. destruct (Nat.lt_ge_cases (length y) (length x)) as [H|H]; [assumption|]. rewrite O in E by exact H. discriminate.
  - intros H. unfold SubFloat64.
    replace (length x) with (length y + S (length x - length y - 1))%nat by lia.
    rewrite seq_app. cbn [seq]. apply mapM_panic_at.
    + intros i Hi. apply in_seq in Hi. rewrite !(idx_nth _ _ (f_of_int FO 0)) by lia. eexists. reflexivity.
    + rewrite Nat.add_0_l, (idx_nth x _ (f_of_int FO 0)) by lia. cbn [bind]. unfold idx.
      rewrite (proj2 (nth_error_None y (length y))) by lia. reflexivity.
Qed.
Print Assumptions C79_sub_panics.
Theorem C79_neg : forall ci cu (x : list b64), length (NegFloat64 (binary64 ci cu) x) = length x /\
  forall i, (i < length x)%nat -> let a := nth i x (B754_zero false) in let b := nth i (NegFloat64 (binary64 ci cu) x) (B754_zero false) in
  B2R b = (- B2R a)%R /\ is_nan b = is_nan a /\ is_finite b = is_finite a /\ (is_nan a = false -> Bsign b = negb (Bsign a)).
Proof.
  intros ci cu x. split; [apply map_length|]. intros i Hi a b.
  assert (E : b = Bopp a).
  { unfold b, NegFloat64. rewrite (nth_indep _ (B754_zero false) (Bopp (B754_zero false) : b64)).
    - exact (map_nth (f_neg (binary64 ci cu)) x (B754_zero false) i).
    - rewrite map_length. exact Hi. }
  rewrite E. split; [apply B2R_Bopp|]. split; [now destruct a|]. split; [apply is_finite_Bopp|]. apply Bsign_Bopp.
Qed.
Print Assumptions C79_neg.
Example C79_nonvacuous : forall ci cu,
  match SubFloat64 (binary64 ci cu) [b_of_int 5] [b_of_int 7; b_of_int 1] with
  | Ok r => map B2SF r = map B2SF [b_of_int (-2)] | _ => False end /\
  map B2SF (NegFloat64 (binary64 ci cu) [b_of_int 5; b_of_int 0]) = map B2SF [b_of_int (-5); B754_zero true].
Proof. intros. split; vm_compute; reflexivity. Qed.

(** C80.  Full statement: a string of decimal digits, with an optional minus sign, becomes its
    decimal value.  False when it starts with 0: base 0 reads it in octal. *)
(** the digits ds, most significant first, in a base *)
Fixpoint positional (base : Z) (ds : list Z) : Z :=
  match ds with [] => 0 | d :: ds => d * base ^ Z.of_nat (length ds) + positional base ds end.
Definition decimal_string (ds : list Z) : list Z := map (fun d => 48 + d) ds.
Definition decimal (ds : list Z) : Prop := Forall (fun d => 0 <= d < 10) ds /\ ds <> [].

Lemma digit_dec base d : 0 <= d < 10 -> digit base (48 + d) = if d <? base then Some d else None.
Proof.
  intros H. unfold digit. destruct (Z.leb_spec 48 (48 + d)); [|lia]. destruct (Z.leb_spec (48 + d) 57); [|lia]. cbn [andb].
  replace (48 + d - 48) with d by lia. reflexivity.
Qed.
Lemma digits_dec base ds : Forall (fun d => 0 <= d < 10) ds -> forall acc sep last, 
  digits base acc sep last (decimal_string ds) =
    if forallb (fun d => d <? base) ds then match ds with [] => if last then Some acc else None | _ => Some (acc * base ^ Z.of_nat (length ds) + positional base ds) end
    else None.
Proof.
  induction 1 as [|d ds Hd H IH]; intros acc sep last; [reflexivity|].
  cbn [decimal_string map digits]. destruct (Z.eqb_spec (48 + d) 95); [lia|]. rewrite digit_dec by exact Hd. cbn [forallb].
  destruct (d <? base) eqn:E; [|reflexivity]. cbn [andb]. fold (decimal_string ds). rewrite IH.
  destruct (forallb _ ds) eqn:E2; [|reflexivity]. destruct ds as [|e ds].
  - f_equal. cbn [length positional]. change (Z.of_nat 1) with 1. change (Z.of_nat 0) with 0. rewrite Z.pow_1_r, Z.pow_0_r. lia.
  - f_equal. cbn [length positional]. rewrite !Nat2Z.inj_succ. rewrite !Z.pow_succ_r by lia. ring.
Qed.
Lemma forallb_10 ds : Forall (fun d => 0 <= d < 10) ds -> forallb (fun d => d <? 10) ds = true.
Proof. intros H. apply forallb_forall. intros d Hd. rewrite Forall_forall in H. specialize (H d Hd). lia. Qed.
(** every string of decimal digits *)
Lemma magnitude_dec ds : decimal ds ->
  magnitude (decimal_string ds) =
    if (hd 0 ds =? 0) && (1 <? Z.of_nat (length ds)) then
      if forallb (fun d => d <? 8) ds then Some (positional 8 ds) else None
    else Some (positional 10 ds).
Proof.
  intros [H N]. destruct ds as [|d ds]; [congruence|]. cbn [hd].
  inversion H as [|? ? Hd H']; subst. destruct (Z.eqb_spec d 0) as [-> |Nd].
  - destruct ds as [|e ds]; [reflexivity|]. replace (1 <? Z.of_nat (length (0 :: e :: ds))) with true by (cbn [length]; lia).
    cbn [andb]. unfold decimal_string. cbn [map magnitude]. change (48 + 0) with 48. cbv iota.
    inversion H' as [|? ? He _]; subst.
    destruct (Z.eqb_spec (48 + e) 98); [lia|]. destruct (Z.eqb_spec (48 + e) 66); [lia|].
    destruct (Z.eqb_spec (48 + e) 111); [lia|]. destruct (Z.eqb_spec (48 + e) 79); [lia|].
    destruct (Z.eqb_spec (48 + e) 120); [lia|]. destruct (Z.eqb_spec (48 + e) 88); [lia|]. cbn [orb].
    change (48 + e :: map (fun d => 48 + d) ds) with (decimal_string (e :: ds)). rewrite (digits_dec 8 (e :: ds) H').
    cbn [forallb]. change (0 <? 8) with true. cbn [andb]. destruct (_ && _); [|reflexivity].
    f_equal.
  - cbn [andb]. unfold magnitude.
    assert (M : magnitude (decimal_string (d :: ds)) = digits 10 0 false false (decimal_string (d :: ds))).
    { cbn [decimal_string map]. unfold magnitude. assert (C : exists p, 48 + d = Zpos p /\ p <> 48%positive).
      { destruct (48 + d) as [|p|p] eqn:E; [lia| |lia]. exists p. split; [reflexivity|]. intros ->. lia. }
      destruct C as (p & -> & Np). repeat first [reflexivity | congruence | destruct p as [p|p|]]. }
    change (magnitude (decimal_string (d :: ds)) = Some (positional 10 (d :: ds))). rewrite M, digits_dec by exact H.
    rewrite forallb_10 by exact H. f_equal.
Qed.
Lemma SetString_dec (neg : bool) ds : decimal ds ->
  SetString0 (if neg then 45 :: decimal_string ds else decimal_string ds) =
  option_map (fun v => if neg then - v else v) (magnitude (decimal_string ds)).
Proof.
  intros [H N]. destruct neg; [reflexivity|]. destruct ds as [|d ds]; [congruence|]. inversion H as [|? ? Hd H']; subst.
  assert (I : forall o : option Z, option_map (fun v => v) o = o) by (intros [o|]; reflexivity). rewrite I.
  cbn [decimal_string map]. unfold SetString0.
  assert (C : exists p, 48 + d = Zpos p /\ p <> 45%positive /\ p <> 43%positive).
  { destruct (48 + d) as [|p|p] eqn:E; [lia| |lia]. exists p. split; [reflexivity|]. split; intros ->; lia. }
  destruct C as (p & -> & N1 & N2). repeat first [reflexivity | congruence | destruct p as [p|p|]].
Qed.
(** no leading zero: the decimal value *)
Theorem C80_decimal_partial : forall undef (neg : bool) ds, decimal ds -> hd 0 ds <> 0 \/ length ds = 1%nat ->
  NewBigIntFromString undef (if neg then 45 :: decimal_string ds else decimal_string ds) =
  if neg then - positional 10 ds else positional 10 ds.
Proof.
  intros undef neg ds D H. unfold NewBigIntFromString. rewrite SetString_dec, magnitude_dec by exact D.
  replace ((hd 0 ds =? 0) && (1 <? Z.of_nat (length ds))) with false; [reflexivity|].
  destruct H as [H|H]; [destruct (Z.eqb_spec (hd 0 ds) 0); [congruence|reflexivity]|rewrite H; now rewrite Bool.andb_false_r].
Qed.
Print Assumptions C80_decimal_partial.
(** a leading zero: the octal value, or nothing certain when a digit is 8 or 9 *)
Theorem C80_octal : forall undef (neg : bool) ds, decimal ds -> hd 0 ds = 0 -> (1 < length ds)%nat ->
  let s := if neg then 45 :: decimal_string ds else decimal_string ds in
  NewBigIntFromString undef s =
  if forallb (fun d => d <? 8) ds then if neg then - positional 8 ds else positional 8 ds else undef s.
Proof.
  intros undef neg ds D H L s. unfold NewBigIntFromString, s. rewrite SetString_dec, magnitude_dec by exact D.
  replace ((hd 0 ds =? 0) && (1 <? Z.of_nat (length ds))) with true by (rewrite H; cbn [Z.eqb andb]; lia).
  destruct (forallb _ ds); destruct neg; reflexivity.
Qed.
Print Assumptions C80_octal.
Theorem C80_decimal_refuted : exists ds, decimal ds /\ forall undef, NewBigIntFromString undef (decimal_string ds) <> positional 10 ds.
Proof. exists [0; 1; 0]. split; [split; [repeat constructor; lia|discriminate]|]. intros undef. discriminate. Qed.
Print Assumptions C80_decimal_refuted.
Example C80_nonvacuous : decimal [1; 2; 8; 9] /\ NewBigIntFromString (fun _ => 0) [49; 50; 50; 56; 57] = 12289 /\
  NewBigIntFromString (fun _ => 0) [45; 49; 50; 50; 56; 57] = -12289 /\ NewBigIntFromString (fun _ => 7) [48; 56] = 7 /\
  NewBigIntFromString (fun _ => 0) [48; 120; 95; 102; 70] = 255.
Proof. split; [split; [repeat constructor; lia|discriminate]|]. repeat split. Qed.
