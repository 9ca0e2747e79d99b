(** lift, bitsize, reduce, xgcd and NtruSolve: heap against lists. *)
From Verif Require Import GoBase Util Ntrugen Heap BaseProofs NoErr HeapFrame HeapRefine HeapKara.

(** ** Everything but W is unchanged *)
Definition pres (W : list nat) (h h' : heap) : Prop :=
  (forall p z, ~ In p W -> holds h p z -> holds h' p z) /\
  (forall k arr, nth_error (h_arr h) k = Some arr -> nth_error (h_arr h') k = Some arr).
Lemma pres_ext W h h' : ext h h' -> pres W h h'.
Proof.
  intros (li & la & E1 & E2). split.
  - intros p z _ H. unfold holds in *. rewrite E1, nth_error_app1; [exact H|]. apply nth_error_Some. congruence.
  - intros k arr H. rewrite E2, nth_error_app1; [exact H|]. apply nth_error_Some. congruence.
Qed.
Lemma pres_trans W a b c : pres W a b -> pres W b c -> pres W a c.
Proof. intros [A B] [C D]. split; eauto. Qed.
Lemma pres_refl W h : pres W h h. Proof. apply pres_ext, ext_refl. Qed.
Lemma pres_hs W h p z : In p W -> pres W h (hs h p z).
Proof.
  intros H. split; [|auto]. intros p0 z0 N E.
  assert (F : Forall2 (holds (hs h p z)) [p0] [z0]).
  { apply F2_hs; [constructor; [exact E|constructor]|]. intros [->|[]]. contradiction. }
  inversion F. assumption.
Qed.
Lemma rep_pres W h h' s ps l : pres W h h' -> (forall p, In p ps -> ~ In p W) -> rep h s ps l -> rep h' s ps l.
Proof.
  intros [A B] D [(arr & E & P) F]. split; [exists arr; split; [apply B; exact E|exact P]|].
  clear P E. induction F; constructor; [apply A; [apply D; left; reflexivity|assumption]|].
  apply IHF. intros p Hp. apply D. right. exact Hp.
Qed.
Lemma prefix_of {A} (l l' : list A) : (forall i x, nth_error l i = Some x -> nth_error l' i = Some x) -> exists t, l' = l ++ t.
Proof.
  revert l'. induction l as [|a l IH]; intros l' H; [exists l'; reflexivity|].
  pose proof (H 0%nat a eq_refl). destruct l' as [|b l']; [discriminate|]. injection H0 as ->.
  destruct (IH l') as [t ->]; [|exists t; reflexivity]. intros i x E. exact (H (S i) x E).
Qed.
Lemma pres_to_ext W h h1 h2 : ext h h1 -> pres W h1 h2 -> Forall (fun p => (length (h_int h) <= p)%nat) W -> ext h h2.
Proof.
  intros X [A B] F. assert (P : pres [] h h1) by (apply pres_ext; exact X).
  destruct (prefix_of (h_int h) (h_int h2)) as [t Et].
  { intros i x E. apply A; [|apply P; [auto|exact E]]. intros Hi. rewrite Forall_forall in F. specialize (F _ Hi). cbv beta in F.
    assert (i < length (h_int h))%nat by (apply nth_error_Some; congruence). lia. }
  destruct (prefix_of (h_arr h) (h_arr h2)) as [u Eu]; [intros; apply B; apply P; assumption|].
  exists t, u. auto.
Qed.

(** ** lift *)
Lemma make_filled_eq n h : make_filled n h = Ok (mk_sl (length (h_arr h)) n,
  {| h_int := h_int h ++ repeat 0 n; h_arr := h_arr h ++ [map Some (seq (length (h_int h)) n)] |}).
Proof.
  unfold make_filled. set (a := length (h_arr h)).
  set (h1 := {| h_int := h_int h; h_arr := h_arr h ++ [repeat None n] |}).
  assert (E1 : hmake n h = Ok (mk_sl a n, h1)) by reflexivity. rewrite (step _ _ _ _ _ E1).
  assert (E2 : nth_error (h_arr h1) a = Some (repeat None n))
    by (unfold h1, a; cbn; rewrite nth_error_app2, Nat.sub_diag by lia; reflexivity).
  rewrite (step _ _ _ _ _ (Fill_eq a n h1 E2)). unfold ret, h1, a. cbn [h_int h_arr]. rewrite upd_last. reflexivity.
Qed.
Lemma upd_map {A B} (f : A -> B) l i x : upd (map f l) i (f x) = map f (upd l i x).
Proof. unfold upd. rewrite map_app, firstn_map. cbn [map]. rewrite skipn_map. reflexivity. Qed.
Lemma lift_loop h a psa la I ar n : rep h a psa la -> n = s_len a ->
  (forall cur, ext h {| h_int := I; h_arr := ar ++ [map Some cur] |}) -> forall m k cur, (k + m = n)%nat -> length cur = (2 * n)%nat ->
  for_ (seq k m) (fun i => o <~ sget a i ;; sset (mk_sl (length ar) (2 * n)) (2 * i) o) {| h_int := I; h_arr := ar ++ [map Some cur] |} =
  Ok (tt, {| h_int := I; h_arr := ar ++ [map Some (fold_left (fun c i => upd c (2 * i) (nth i psa 0%nat)) (seq k m) cur)] |}).
Proof.
  intros Ra -> X. destruct (rep_len _ _ _ _ Ra) as [Lp La].
  induction m as [|m IH]; intros k cur Hk Lc; cbn [seq for_ fold_left]; [reflexivity|].
  assert (E : (o <~ sget a k ;; sset (mk_sl (length ar) (2 * s_len a)) (2 * k) o) {| h_int := I; h_arr := ar ++ [map Some cur] |}
    = Ok (tt, {| h_int := I; h_arr := ar ++ [map Some (upd cur (2 * k) (nth k psa 0%nat))] |})).
  { rewrite (sget_bind _ _ _ _ _ _ (rep_ext _ _ _ _ _ (X cur) Ra)).
    rewrite (nth_error_nth' psa 0%nat) by lia. unfold sset. cbn [s_len s_arr s_off mk_sl h_arr h_int].
    destruct (Nat.ltb_spec (2 * k) (2 * s_len a)); [|lia]. unfold idx. rewrite nth_error_app2, Nat.sub_diag by lia. cbn [nth_error bind Nat.add].
    rewrite map_length. destruct (Nat.ltb_spec (2 * k) (length cur)); [|lia]. rewrite upd_last, upd_map. reflexivity. }
  rewrite (step _ _ _ _ _ E). apply IH; [lia|]. rewrite length_upd by lia. exact Lc.
Qed.
Lemma lift_nth_even l : forall i, nth_error (lift l) (2 * i) = nth_error l i.
Proof.
  induction l as [|x l IH]; intros i; [destruct i; [reflexivity|]; cbn; destruct (i + S (i + 0))%nat; reflexivity|].
  destruct i as [|i]; [reflexivity|]. replace (2 * S i)%nat with (S (S (2 * i))) by lia. cbn [lift map concat app nth_error]. apply IH.
Qed.
Lemma lift_nth_odd l : forall i, (i < length l)%nat -> nth_error (lift l) (S (2 * i)) = Some 0.
Proof.
  induction l as [|x l IH]; intros i H; cbn [length] in H; [lia|].
  destruct i as [|i]; [reflexivity|]. replace (2 * S i)%nat with (S (S (2 * i))) by lia. cbn [lift map concat app nth_error]. apply IH. lia.
Qed.
Lemma lift_len l : length (lift l) = (2 * length l)%nat.
Proof. induction l as [|x l IH]; [reflexivity|]. cbn [lift map concat app length]. unfold lift in IH. rewrite IH. lia. Qed.
Lemma evens_fold (ps : list nat) : forall m k cur, (2 * (k + m) <= length cur)%nat ->
  let c := fold_left (fun c i => upd c (2 * i) (nth i ps 0%nat)) (seq k m) cur in
  length c = length cur /\ (forall i, nth_error c (S (2 * i)) = nth_error cur (S (2 * i))) /\
  forall i, nth_error c (2 * i) = if Nat.leb k i && Nat.ltb i (k + m) then Some (nth i ps 0%nat) else nth_error cur (2 * i).
Proof.
  induction m as [|m IH]; intros k cur H; cbn [seq fold_left].
  - split; [reflexivity|]. split; [reflexivity|]. intros i. destruct (Nat.leb_spec k i); cbn [andb]; [|reflexivity].
    destruct (Nat.ltb_spec i (k + 0)); [lia|reflexivity].
  - specialize (IH (S k) (upd cur (2 * k) (nth k ps 0%nat))). rewrite length_upd in IH by lia.
    destruct (IH ltac:(lia)) as (A & B & C). cbv zeta. split; [exact A|]. split.
    + intros i. rewrite B, nth_error_upd by lia. destruct (Nat.eqb_spec (S (2 * i)) (2 * k)); [lia|reflexivity].
    + intros i. rewrite C, nth_error_upd by lia. destruct (Nat.leb_spec (S k) i), (Nat.leb_spec k i); try lia; cbn [andb].
      * replace (S k + m)%nat with (k + S m)%nat by lia. destruct (Nat.ltb i (k + S m)); [reflexivity|].
        destruct (Nat.eqb_spec (2 * i) (2 * k)); [lia|reflexivity].
      * assert (i = k) by lia. subst i. rewrite Nat.eqb_refl. destruct (Nat.ltb_spec k (k + S m)); [reflexivity|lia].
      * destruct (Nat.eqb_spec (2 * i) (2 * k)); [lia|reflexivity].
Qed.
Lemma F2_nth {A B} (P : A -> B -> Prop) : forall l l', length l = length l' ->
  (forall i x y, nth_error l i = Some x -> nth_error l' i = Some y -> P x y) -> Forall2 P l l'.
Proof.
  induction l as [|a l IH]; intros [|b l'] L H; try discriminate; constructor.
  - exact (H 0%nat a b eq_refl eq_refl).
  - apply IH; [cbn in L; lia|]. intros i. exact (H (S i)).
Qed.
(** lift shares the integers of its argument: the even pointers are those of a *)
Lemma lift_sim h a psa la : rep h a psa la -> exists r h' ps, Hlift a h = Ok (r, h') /\ ext h h' /\
  s_cap r = s_len r /\ rep h' r ps (lift la) /\ forall i, (i < s_len a)%nat -> nth_error ps (2 * i) = nth_error psa i.
Proof.
  intros Ra. destruct (rep_len _ _ _ _ Ra) as [Lp La]. remember (s_len a) as n eqn:En.
  unfold Hlift. rewrite <- En. rewrite (step _ _ _ _ _ (make_filled_eq (2 * n) h)).
  set (I := h_int h ++ repeat 0 (2 * n)). set (cur := seq (length (h_int h)) (2 * n)).
  assert (X : forall c, ext h {| h_int := I; h_arr := h_arr h ++ [map Some c] |})
    by (intros c; exists (repeat 0 (2 * n)), [map Some c]; split; reflexivity).
  assert (Lc : length cur = (2 * n)%nat) by apply seq_length.
  rewrite (step _ _ _ _ _ (lift_loop h a psa la I (h_arr h) n Ra En X n 0 cur eq_refl Lc)).
  destruct (evens_fold psa n 0 cur ltac:(lia)) as (A & B & C). set (c := fold_left _ (seq 0 n) cur) in *.
  eexists _, _, c. split; [reflexivity|]. split; [apply X|]. split; [reflexivity|]. 
  assert (Even : forall i, (i < n)%nat -> nth_error c (2 * i) = nth_error psa i).
  { intros i Hi. rewrite C. destruct (Nat.ltb_spec i (0 + n)); [|lia]. cbn [Nat.leb andb]. symmetry. apply nth_error_nth'. lia. }
  split; [|exact Even]. apply rep_fresh_ints; [lia| |].
  { cbn [h_arr]. rewrite nth_error_app2, Nat.sub_diag by lia. reflexivity. }
  apply F2_nth; [rewrite lift_len; lia|]. intros j p z Hp Hz.
  assert (Hj : (j < 2 * n)%nat) by (rewrite <- Lc, <- A; apply nth_error_Some; congruence).
  destruct (Nat.Even_or_Odd j) as [[i ->]|[i ->]].
  - rewrite lift_nth_even in Hz. rewrite Even in Hp by lia.
    apply (rep_holds _ _ _ _ _ _ _ (rep_ext _ _ _ _ _ (X c) Ra) Hp Hz).
  - rewrite Nat.add_1_r in *. rewrite lift_nth_odd in Hz by lia. injection Hz as <-. rewrite B in Hp.
    unfold holds. cbn [h_int]. unfold I, cur in *. 
    rewrite (nth_error_nth' _ 0%nat) in Hp by lia. injection Hp as <-. rewrite seq_nth by lia.
    rewrite nth_error_app2 by lia. rewrite (nth_error_nth' _ 0) by (rewrite repeat_length; lia). f_equal. apply nth_repeat.
Qed.

(** ** bitsize *)
Lemma bitsize_loop_sim fuel : forall h h' q v r, ext h h' -> (length (h_int h) <= q)%nat -> holds h' q v ->
  sim (Hbitsize_loop fuel (Some q) r h') (bitsize_loop fuel v r) (fun z z' h'' => z' = z /\ ext h h'').
Proof.
  induction fuel as [|fuel IH]; intros h h' q v r X Hq Hv; cbn [Hbitsize_loop bitsize_loop];
    rewrite (step _ _ _ _ _ (hget_eq _ _ _ Hv)); destruct (v >? 0); try (apply sim_ok; auto); [reflexivity|].
  rewrite (hset_bind _ _ _ _ _ Hv). apply IH; [apply ext_hs; assumption|exact Hq|].
  unfold holds in *. cbn. rewrite nth_error_upd, Nat.eqb_refl; [reflexivity|]. apply nth_error_Some. congruence.
Qed.
Lemma bitsize_sim h h' p x : ext h h' -> holds h' p x -> sim (Hbitsize (Some p) h') (bitsize x) (fun z z' h'' => z' = z /\ ext h h'').
Proof.
  intros X H. unfold Hbitsize, bitsize. rewrite (step _ _ _ _ _ (hget_eq _ _ _ H)), (step _ _ _ _ _ (hnew_eq _ _)).
  apply bitsize_loop_sim; [apply ext_hn; exact X| |].
  - destruct X as (li & lr & E & _). rewrite E, app_length. lia.
  - unfold holds, hn. cbn. rewrite nth_error_app2, Nat.sub_diag by lia. reflexivity.
Qed.

(** ** the extreme element *)
Lemma extreme_sim better h s ps l : rep h s ps l ->
  sim (Hextreme better s h) (m <- idx l 0 ;; Ok (fold_left (fun m v => if better v m then v else m) l m))
    (fun m o h' => h' = h /\ exists p, o = Some p /\ holds h p m).
Proof.
  intros R. unfold Hextreme. rewrite (sget_bind _ _ _ _ _ _ R). pose proof (rep_same _ _ _ _ 0 R) as S0. unfold idx.
  destruct (nth_error ps 0) as [p0|]; destruct (nth_error l 0) as [z0|]; try contradiction; [|reflexivity]. cbn [bind].
  destruct (rep_len _ _ _ _ R) as [_ L]. rewrite <- L. clear L.
  assert (G : forall l2 k p z, (forall i x, nth_error l2 i = Some x -> nth_error l (k + i) = Some x) -> holds h p z ->
    sim ((fix go (l : list nat) (m : option nat) : M (option nat) :=
     match l with
     | [] => ret m
     | i :: l' => v <~ sget s i ;; x <~ hget v ;; y <~ hget m ;; go l' (if better x y then v else m)
     end) (seq k (length l2)) (Some p) h) (Ok (fold_left (fun m v => if better v m then v else m) l2 z))
    (fun m o h' => h' = h /\ exists p, o = Some p /\ holds h p m)).
  { induction l2 as [|x l2 IH]; intros k p z H Hp; cbn [length seq fold_left].
    - apply sim_ok. eauto.
    - pose proof (H 0%nat x eq_refl) as E. rewrite Nat.add_0_r in E. rewrite (sget_bind _ _ _ _ _ _ R).
      pose proof (rep_same _ _ _ _ k R) as Sk. rewrite E in Sk. destruct (nth_error ps k) as [pk|]; [|contradiction].
      rewrite (step _ _ _ _ _ (hget_eq _ _ _ Sk)), (step _ _ _ _ _ (hget_eq _ _ _ Hp)).
      specialize (IH (S k)). destruct (better x z); apply IH; auto;
        intros i y Ey; rewrite Nat.add_succ_comm; apply H; exact Ey. }
  apply G; [auto|exact S0].
Qed.
Lemma min_sim h s ps l : rep h s ps l ->
  sim (HMinFromBigInt s h) (MinFromBigInt l) (fun m o h' => h' = h /\ exists p, o = Some p /\ holds h p m).
Proof.
  intros R. pose proof (extreme_sim (fun x y => x <? y) h s ps l R) as H. unfold HMinFromBigInt, MinFromBigInt.
  destruct (idx l 0) as [m| | |]; cbn [bind] in *; try exact H.
  replace (fold_left (fun min v => match v ?= min with Lt => v | _ => min end) l m)
    with (fold_left (fun m v => if v <? m then v else m) l m); [exact H|].
  clear. revert m. induction l as [|x l IH]; intros m; cbn [fold_left]; [reflexivity|]. rewrite IH. unfold Z.ltb.
  destruct (x ?= m); reflexivity.
Qed.
Lemma max_sim h s ps l : rep h s ps l ->
  sim (HMaxFromBigInt s h) (MaxFromBigInt l) (fun m o h' => h' = h /\ exists p, o = Some p /\ holds h p m).
Proof.
  intros R. pose proof (extreme_sim (fun x y => y <? x) h s ps l R) as H. unfold HMaxFromBigInt, MaxFromBigInt.
  destruct (idx l 0) as [m| | |]; cbn [bind] in *; try exact H.
  replace (fold_left (fun min v => match v ?= min with Gt => v | _ => min end) l m)
    with (fold_left (fun m v => if m <? v then v else m) l m); [exact H|].
  clear. revert m. induction l as [|x l IH]; intros m; cbn [fold_left]; [reflexivity|]. rewrite IH. unfold Z.ltb.
  rewrite (Z.compare_antisym x m). destruct (x ?= m); reflexivity.
Qed.
Lemma max_bitsize_sim h a b pa pb la lb : rep h a pa la -> rep h b pb lb ->
  sim (Hmax_bitsize a b h) (max_bitsize la lb) (fun z z' h' => z' = z /\ ext h h').
Proof.
  intros Ra Rb. unfold Hmax_bitsize, max_bitsize.
  assert (Go : forall (f : sl -> M (option nat)) (g : list Z -> res Z) s ps l h1,
    (forall h, rep h s ps l -> sim (f s h) (g l) (fun m o h' => h' = h /\ exists p, o = Some p /\ holds h p m)) ->
    rep h s ps l -> ext h h1 -> forall A B (k : Z -> M A) (q : Z -> res B) S,
    (forall z h', ext h h' -> sim (k z h') (q z) S) ->
    sim ((m <~ f s ;; x <~ Hbitsize m ;; k x) h1) (m <- g l ;; x <- bitsize m ;; q x) S).
  { intros f g s ps l h1 Hf R X A B k q' S Hk. eapply sim_bind; [apply Hf; eapply rep_ext; eauto|].
    intros m o h' _ _ (-> & p & -> & Hp). eapply sim_bind; [eapply bitsize_sim; eauto|].
    intros z z' h'' _ _ (-> & X'). apply Hk. exact X'. }
  eapply (Go HMinFromBigInt MinFromBigInt); [intros; eapply min_sim; eauto|exact Ra|apply ext_refl|]. intros s1 h1 X1.
  eapply (Go HMaxFromBigInt MaxFromBigInt); [intros; eapply max_sim; eauto|exact Ra|exact X1|]. intros s2 h2 X2.
  eapply (Go HMinFromBigInt MinFromBigInt); [intros; eapply min_sim; eauto|exact Rb|exact X2|]. intros s3 h3 X3.
  eapply (Go HMaxFromBigInt MaxFromBigInt); [intros; eapply max_sim; eauto|exact Rb|exact X3|]. intros s4 h4 X4.
  unfold fail. destruct (Max [53; s1; s2; s3; s4]); try reflexivity. apply sim_ok. auto.
Qed.
Lemma adjust_sim size h s ps l : rep h s ps l ->
  exists h', Hadjust size s h = Ok (adjust size l, h') /\ ext h h'.
Proof.
  intros R. destruct (rep_len _ _ _ _ R) as [_ L]. unfold Hadjust. rewrite <- L. clear L.
  assert (G : forall l2 k h1, ext h h1 -> (forall i x, nth_error l2 i = Some x -> nth_error l (k + i) = Some x) ->
    exists h', ((fix go (l : list nat) : M (list Z) :=
     match l with
     | [] => ret []
     | i :: l' => x <~ sval s i ;; w <~ hnew (Z.shiftr x (size - 53)) ;; v <~ hget w ;;
                  r <~ go l' ;; ret (big_Int64 v :: r)
     end) (seq k (length l2)) h1) = Ok (adjust size l2, h') /\ ext h h').
  { induction l2 as [|x l2 IH]; intros k h1 X H; cbn [length seq].
    - exists h1. split; [reflexivity|exact X].
    - pose proof (H 0%nat x eq_refl) as E. rewrite Nat.add_0_r in E.
      rewrite (sval_bind _ _ _ _ _ _ (rep_ext _ _ _ _ _ X R)), E.
      rewrite (step _ _ _ _ _ (hnew_eq _ _)), (step _ _ _ _ _ (hget_hn _ _)).
      destruct (IH (S k) (hn h1 (Z.shiftr x (size - 53)))) as (h' & E' & X').
      + apply ext_hn. exact X.
      + intros i y Ey. rewrite Nat.add_succ_comm. apply H. exact Ey.
      + rewrite (step _ _ _ _ _ E'). exists h'. split; [reflexivity|exact X']. }
  apply G; [apply ext_refl|auto].
Qed.
Lemma t_IntToBigInt h0 k : triple h0 (HIntToBigInt k) (fresh h0).
Proof.
  unfold HIntToBigInt. tb. eapply t_bind; [|intros; apply t_ret; eassumption].
  apply t_for. intros i _. tb. eapply t_bind; [apply t_fail|]. intros. apply t_hset; assumption.
Qed.
Lemma IntToBigInt_sim h k : sim (HIntToBigInt k h) (Ok k) (made h).
Proof.
  apply (sim_made (HIntToBigInt k)); [|apply t_IntToBigInt]. unfold HIntToBigInt.
  destruct (make_filled_ok (length k) h) as (r & h2 & E & Mr & Lr). rewrite (step _ _ _ _ _ E).
  assert (X12 : ext h h2) by apply Mr. pose proof Mr as (_ & _ & Cr & pr & Nr & Rr).
  pose proof (made_ptrs _ _ _ _ _ Mr Rr) as Fr.
  assert (Ek : mapM (idx k) (seq 0 (length k)) = Ok k).
  { clear. rewrite <- (app_nil_l k) at 1. change 0%nat with (length (@nil Z)). generalize (@nil Z) as l.
    induction k as [|x k IH]; intros l; cbn [length seq mapM]; [reflexivity|].
    unfold idx at 1. rewrite nth_error_app2, Nat.sub_diag by lia. cbn [nth_error bind].
    specialize (IH (l ++ [x])). rewrite app_length, Nat.add_1_r, <- app_assoc in IH. cbn [app] in IH. rewrite IH. reflexivity. }
  rewrite <- Ek.
  apply (sim_tail _ _ _ (fun l _ h' => ext h h' /\ rep h' r pr l)).
  2: { intros l u h' (X' & R'). apply sim_ok. split; [exact Cr|]. eauto. }
  apply (fill_one (length k) _ _ h h2 r pr X12 Rr). intros l h' i Hi X' Rl Ll.
  rewrite (sget_bind _ _ _ _ _ _ Rl).
  destruct (nth_error pr i) as [p|] eqn:Ep; [|apply nth_error_None in Ep; destruct (rep_len _ _ _ _ Rl); lia].
  unfold mbind, fail, idx. destruct (nth_error k i) as [x|]; [|reflexivity]. cbn [bind].
  destruct (put_step h h' r pr l i x X' Rl Nr Fr ltac:(lia)) as (p' & Ep' & Es & X'' & R'').
  rewrite Ep in Ep'. injection Ep' as <-. rewrite Es. apply sim_ok. auto.
Qed.

(** ** reduce *)
Definition reduced (W : list nat) (h : heap) (F G : sl) (pF pG : list nat) (lFG : list Z * list Z) (FG : sl * sl) (h' : heap) : Prop :=
  FG = (F, G) /\ pres W h h' /\ rep h' F pF (fst lFG) /\ rep h' G pG (snd lFG).
Lemma nobad_fold {A} (f : A -> nat -> res A) l : (forall a i, nobad (f a i)) -> forall a, nobad (foldM f l a).
Proof. intros H. induction l as [|i l IH]; intros a; cbn [foldM]; [exact I|]. pose proof (H a i). destruct (f a i); cbn in *; auto. Qed.

Lemma NoDup_parts {A} (l l' : list A) : NoDup (l ++ l') -> NoDup l /\ NoDup l' /\ forall p, In p l -> In p l' -> False.
Proof.
  induction l as [|x l IH]; cbn; intros H; [split; [constructor|split; [exact H|auto]]|].
  inversion H as [|? ? N D]; subst. destruct (IH D) as (A1 & A2 & A3). rewrite in_app_iff in N.
  split; [constructor; tauto|]. split; [exact A2|]. intros p [->|Hp] Hq; [tauto|eauto].
Qed.
Lemma reduce_loop_sim quo size f g F G pf pg pF pG lf lg (fuel : nat) :
  NoDup (pF ++ pG) -> (forall p, In p pf \/ In p pg -> ~ In p (pF ++ pG)) ->
  forall h lF lG, rep h f pf lf -> rep h g pg lg -> rep h F pF lF -> rep h G pG lG ->
  sim (Hreduce_loop quo fuel f g size (adjust size lf) (adjust size lg) F G h) (reduce_loop quo fuel lf lg size lF lG)
    (reduced (pF ++ pG) h F G pF pG).
Proof.
  intros ND D. set (W := pF ++ pG).
  destruct (NoDup_parts _ _ ND) as (NF & NG & DFG).
  assert (DFp : forall p, In p pF -> In p W) by (intros; apply in_or_app; auto).
  assert (DGp : forall p, In p pG -> In p W) by (intros; apply in_or_app; auto).
  induction fuel as [|fuel IH]; intros h lF lG Rf Rg RF RG; cbn [Hreduce_loop reduce_loop]; [reflexivity|].
  eapply sim_bind; [apply (max_bitsize_sim _ _ _ _ _ _ _ RF RG)|]. intros SIZE z' h1 _ _ (-> & X1).
  destruct (SIZE <? size).
  { apply sim_ok. split; [reflexivity|]. split; [apply pres_ext; exact X1|]. cbn [fst snd]. split; eapply rep_ext; eauto. }
  destruct (adjust_sim SIZE h1 F pF lF (rep_ext _ _ _ _ _ X1 RF)) as (h2 & E2 & X2). rewrite (step _ _ _ _ _ E2).
  assert (X12 : ext h h2) by (eapply ext_trans; eauto).
  destruct (adjust_sim SIZE h2 G pG lG (rep_ext _ _ _ _ _ X12 RG)) as (h3 & E3 & X3). rewrite (step _ _ _ _ _ E3).
  assert (X13 : ext h h3) by (eapply ext_trans; eauto).
  destruct (quo (adjust size lf) (adjust size lg) (adjust SIZE lF) (adjust SIZE lG)) as [k| | |]; try reflexivity.
  cbn [bind]. rewrite (step (fail (Ok k)) _ h3 k h3 eq_refl).
  destruct (AllZeroes k).
  { apply sim_ok. split; [reflexivity|]. split; [apply pres_ext; exact X13|]. cbn [fst snd]. split; eapply rep_ext; eauto. }
  destruct (IntToBigInt_sim h3 k) as (k1 & h4 & E4 & M4). rewrite (step _ _ _ _ _ E4).
  assert (X14 : ext h h4) by (eapply ext_trans; [exact X13|apply M4]).
  destruct M4 as (_ & _ & C4 & p4 & _ & R4).
  eapply sim_bind; [apply (karamul_sim _ _ _ _ _ _ _ (rep_ext _ _ _ _ _ X14 Rf) R4)|]. intros fk sfk h5 _ _ M5.
  assert (X15 : ext h h5) by (eapply ext_trans; [exact X14|apply M5]). pose proof M5 as (_ & _ & _ & p5 & _ & R5).
  pose proof (made_ptrs _ _ _ _ _ M5 R5) as F5.
  destruct (IntToBigInt_sim h5 k) as (k2 & h6 & E6 & M6). rewrite (step _ _ _ _ _ E6).
  assert (X16 : ext h h6) by (eapply ext_trans; [exact X15|apply M6]). assert (X56 : ext h5 h6) by apply M6.
  destruct M6 as (_ & _ & C6 & p6 & _ & R6).
  eapply sim_bind; [apply (karamul_sim _ _ _ _ _ _ _ (rep_ext _ _ _ _ _ X16 Rg) R6)|]. intros gk sgk h7 _ _ M7.
  assert (X17 : ext h h7) by (eapply ext_trans; [exact X16|apply M7]). assert (X57 : ext h5 h7) by (eapply ext_trans; [exact X56|apply M7]).
  pose proof M7 as (_ & _ & _ & p7 & _ & R7). pose proof (made_ptrs _ _ _ _ _ M7 R7) as F7. apply (rep_ext _ _ _ _ _ X57) in R5.
  (* the products do not share integers with F and G *)
  assert (BW : Forall (fun p => (p < length (h_int h))%nat) W) by (apply Forall_app; split; eapply rep_below; eauto).
  assert (LE : forall h', ext h h' -> (length (h_int h) <= length (h_int h'))%nat)
    by (intros h' (li & lr & E & _); rewrite E, app_length; lia).
  assert (D5 : forall p, In p p5 -> ~ In p W).
  { intros p H1 H2. rewrite Forall_forall in F5, BW. specialize (F5 _ H1). specialize (BW _ H2). cbv beta in *. pose proof (LE _ X14). lia. }
  assert (D7 : forall p, In p p7 -> ~ In p W).
  { intros p H1 H2. rewrite Forall_forall in F7, BW. specialize (F7 _ H1). specialize (BW _ H2). cbv beta in *. pose proof (LE _ X16). lia. }
  destruct (rep_len _ _ _ _ Rf) as [_ Lf]. rewrite pair_bind. rewrite Lf.
  assert (RF7 : rep h7 F pF lF) by exact (rep_ext _ _ _ _ _ X17 RF). assert (RG7 : rep h7 G pG lG) by exact (rep_ext _ _ _ _ _ X17 RG).
  eapply sim_bind with (R := fun ab _ h' => pres W h7 h' /\ rep h' F pF (fst ab) /\ rep h' G pG (snd ab)).
  { unfold sub_shifted. 
    rewrite <- (foldM_pair (fun F i => x <- idx fk i ;; add_at F i (- Z.shiftl x (SIZE - size))) (fun F i => x <- idx gk i ;; add_at F i (- Z.shiftl x (SIZE - size)))).
    2: { intros a i. apply nobad_bind; [apply nobad_idx|intros x]. rewrite add_at_eq. destruct (nth_error a i); exact I. }
    2: { intros a i. apply nobad_bind; [apply nobad_idx|intros x]. rewrite add_at_eq. destruct (nth_error a i); exact I. }
    apply (sim_for (fun ab h' => pres W h7 h' /\ rep h' F pF (fst ab) /\ rep h' G pG (snd ab)));
      [|split; [apply pres_refl|split; assumption]].
    intros [l1 l2] h' i _ (P & Q1 & Q2). cbn [fst snd] in *.
    assert (ONE : forall T pT l s ps vs h0, rep h0 T pT l -> pres W h7 h0 -> rep h7 s ps vs -> (forall p, In p ps -> ~ In p W) ->
      forall A (k : unit -> M A), (t <~ sget T i ;; z <~ sval T i ;; x <~ sval s i ;; w <~ hnew (Z.shiftl x (SIZE - size)) ;;
             v <~ hget w ;; u <~ hset t (z - v) ;; k u) h0 =
        match nth_error vs i with Some x => match nth_error l i with Some z => match nth_error pT i with
          | Some p => k tt (hs (hn h0 (Z.shiftl x (SIZE - size))) p (z - Z.shiftl x (SIZE - size)))
          | None => Panic end | None => Panic end | None => Panic end).
    { intros T pT l s ps vs h0 RT P0 Rs Ds A k0. rewrite (sget_bind _ _ _ _ _ _ RT). pose proof (rep_same _ _ _ _ i RT) as S0.
      destruct (nth_error pT i) as [p|] eqn:Ep; destruct (nth_error l i) as [z|] eqn:El; try contradiction.
      - rewrite (sval_bind _ _ _ _ _ _ RT), El. rewrite (sval_bind _ _ _ _ _ _ (rep_pres _ _ _ _ _ _ P0 Ds Rs)).
        destruct (nth_error vs i) as [x|]; [|reflexivity].
        rewrite (step _ _ _ _ _ (hnew_eq _ _)), (step _ _ _ _ _ (hget_hn _ _)).
        rewrite (hset_bind _ _ _ z) by (apply holds_hn; exact S0). reflexivity.
      - destruct (nth_error vs i); reflexivity. }
    assert (TO : forall (m : M unit) h0, m h0 = (mbind m (fun u => ret u)) h0).
    { intros m h0. unfold mbind, ret. destruct (m h0) as [[[] ?]| | |]; reflexivity. }
    rewrite (ONE F pF l1 sfk p5 fk h' Q1 P R5 D5). unfold idx.
    destruct (nth_error fk i) as [x|]; [|reflexivity]. cbn [bind]. rewrite add_at_eq.
    destruct (nth_error l1 i) as [z|] eqn:El1; [|reflexivity]. cbn [bind].
    destruct (rep_ptr _ _ _ _ _ _ Q1 El1) as [p Ep]. rewrite Ep. 
    set (h8 := hs _ p _).
    assert (Ip : In p pF) by (eapply nth_error_In; eauto).
    assert (P8 : pres W h7 h8).
    { eapply pres_trans; [exact P|]. eapply pres_trans; [apply pres_ext, ext_hn, ext_refl|]. apply pres_hs. auto. }
    assert (Q18 : rep h8 F pF (upd l1 i (z + - Z.shiftl x (SIZE - size)))).
    { apply rep_hs_in; [apply rep_hn; exact Q1|exact NF|exact Ep]. }
    assert (Q28 : rep h8 G pG l2) by (apply rep_hs; [apply rep_hn; exact Q2|intros Hp; eapply DFG; eauto]).
    rewrite (sget_bind _ _ _ _ _ _ Q28). pose proof (rep_same _ _ _ _ i Q28) as S8.
    destruct (nth_error pG i) as [pg'|] eqn:Epg; destruct (nth_error l2 i) as [z2|] eqn:El2; try contradiction.
    2: { destruct (nth_error gk i); [|reflexivity]. cbn [bind]. rewrite add_at_eq, El2. reflexivity. }
    rewrite (sval_bind _ _ _ _ _ _ Q28), El2. rewrite (sval_bind _ _ _ _ _ _ (rep_pres _ _ _ _ _ _ P8 D7 R7)).
    destruct (nth_error gk i) as [y|]; [|reflexivity]. cbn [bind]. rewrite add_at_eq, El2.
    rewrite (step _ _ _ _ _ (hnew_eq _ _)), (step _ _ _ _ _ (hget_hn _ _)).
    rewrite (hset_eq _ _ _ z2) by (apply holds_hn; exact S8). apply sim_ok. cbn [fst snd].
    assert (Ipg : In pg' pG) by (eapply nth_error_In; eauto).
    split; [eapply pres_trans; [exact P8|]; eapply pres_trans; [apply pres_ext, ext_hn, ext_refl|]; apply pres_hs; auto|].
    split; [apply rep_hs; [apply rep_hn; exact Q18|intros Hp; eapply DFG; eauto]|].
    apply rep_hs_in; [apply rep_hn; exact Q28|exact NG|exact Epg]. }
  intros [lF' lG'] u h8 _ _ (P8 & RF8 & RG8). cbn [fst snd] in *. clear u.
  assert (Rf8 : rep h8 f pf lf) by (eapply rep_pres; [exact P8|intros; apply D; auto|eapply rep_ext; [exact X17|assumption]]).
  assert (Rg8 : rep h8 g pg lg) by (eapply rep_pres; [exact P8|intros; apply D; auto|eapply rep_ext; [exact X17|assumption]]).
  eapply sim_weak; [apply (IH h8 lF' lG' Rf8 Rg8 RF8 RG8)|]. intros lFG FG h9 _ _ (-> & P9 & Q).
  split; [reflexivity|]. split; [|exact Q]. eapply pres_trans; [|exact P9]. eapply pres_trans; [|exact P8]. apply pres_ext. exact X17.
Qed.

Lemma reduce_sim quo fuel h f g F G pf pg pF pG lf lg lF lG :
  NoDup (pF ++ pG) -> (forall p, In p pf \/ In p pg -> ~ In p (pF ++ pG)) ->
  rep h f pf lf -> rep h g pg lg -> rep h F pF lF -> rep h G pG lG ->
  sim (Hreduce quo fuel f g F G h) (reduce quo fuel lf lg lF lG) (reduced (pF ++ pG) h F G pF pG).
Proof.
  intros ND D Rf Rg RF RG. unfold Hreduce, reduce.
  eapply sim_bind; [apply (max_bitsize_sim _ _ _ _ _ _ _ Rf Rg)|]. intros size z' h1 _ _ (-> & X1).
  destruct (adjust_sim size h1 f pf lf (rep_ext _ _ _ _ _ X1 Rf)) as (h2 & E2 & X2). rewrite (step _ _ _ _ _ E2).
  assert (X12 : ext h h2) by (eapply ext_trans; eauto).
  destruct (adjust_sim size h2 g pg lg (rep_ext _ _ _ _ _ X12 Rg)) as (h3 & E3 & X3). rewrite (step _ _ _ _ _ E3).
  assert (X13 : ext h h3) by (eapply ext_trans; eauto).
  eapply sim_weak; [eapply reduce_loop_sim; eauto; eapply rep_ext; eauto|].
  intros lFG FG h4 _ _ (-> & P & Q). split; [reflexivity|]. split; [|exact Q].
  eapply pres_trans; [apply pres_ext; exact X13|exact P].
Qed.

(** ** xgcd *)
Lemma holds_ext h h' p z : ext h h' -> holds h p z -> holds h' p z.
Proof.
  intros (li & la & E & _) H. unfold holds in *. rewrite E, nth_error_app1; [exact H|]. apply nth_error_Some. congruence.
Qed.
Lemma holds_new h z : holds (hn h z) (length (h_int h)) z.
Proof. unfold holds. cbn. rewrite nth_error_app2, Nat.sub_diag by lia. reflexivity. Qed.
Lemma holds_hs_same h p x z : holds h p x -> holds (hs h p z) p z.
Proof.
  unfold holds, hs. cbn. intros H. rewrite nth_error_upd by (apply nth_error_Some; congruence). rewrite Nat.eqb_refl. reflexivity.
Qed.
Lemma xgcd_loop_sim fuel : forall h pb pn px0 px1 py0 py1 b n x0 x1 y0 y1,
  holds h pb b -> holds h pn n -> holds h px0 x0 -> holds h px1 x1 -> holds h py0 y0 -> holds h py1 y1 ->
  sim (Hxgcd_loop fuel (Some pb) (Some pn) (Some px0) (Some px1) (Some py0) (Some py1) h) (xgcd_loop fuel b n x0 x1 y0 y1)
    (fun duv r h' => ext h h' /\ exists d u v, r = (Some d, Some u, Some v) /\
       holds h' d (fst (fst duv)) /\ holds h' u (snd (fst duv)) /\ holds h' v (snd duv)).
Proof.
  induction fuel as [|fuel IH]; intros h pb pn px0 px1 py0 py1 b n x0 x1 y0 y1 Hb Hn Hx0 Hx1 Hy0 Hy1; cbn [Hxgcd_loop xgcd_loop];
    rewrite (step _ _ _ _ _ (hget_eq _ _ _ Hn)); destruct (n =? 0).
  1, 3: apply sim_ok; split; [apply ext_refl|]; exists pb, px0, py0; auto.
  { reflexivity. }
  rewrite (step _ _ _ _ _ (hnew_eq _ _)). set (h1 := hn h 0).
  assert (X1 : ext h h1) by apply ext_hn, ext_refl.
  rewrite (step _ _ _ _ _ (hget_eq _ _ _ (holds_ext _ _ _ _ X1 Hb))).
  rewrite (hset_bind _ _ _ 0) by apply holds_new. set (h2 := hs h1 _ _).
  assert (X2 : ext h h2) by (apply ext_hs; [exact X1|lia]).
  assert (Hq : holds h2 (length (h_int h)) (big_Div b n)) by (apply (holds_hs_same _ _ 0), holds_new).
  rewrite (step _ _ _ _ _ (hnew_eq _ _)). set (h3 := hn h2 _).
  assert (X23 : ext h2 h3) by apply ext_hn, ext_refl. assert (X3 : ext h h3) by (eapply ext_trans; eauto).
  assert (Hm : holds h3 (length (h_int h2)) (big_Mod b n)) by apply holds_new.
  rewrite (step _ _ _ _ _ (hget_eq _ _ _ (holds_ext _ _ _ _ X23 Hq))).
  rewrite (step _ _ _ _ _ (hget_eq _ _ _ (holds_ext _ _ _ _ X3 Hx0))).
  rewrite (step _ _ _ _ _ (hget_eq _ _ _ (holds_ext _ _ _ _ X3 Hx1))).
  rewrite (step _ _ _ _ _ (hnew_eq _ _)). rewrite (step _ _ _ _ _ (hget_hn _ _)). set (h4 := hn h3 _).
  rewrite (step _ _ _ _ _ (hnew_eq _ _)). set (h5 := hn h4 _).
  assert (X35 : ext h3 h5) by apply ext_hn, ext_hn, ext_refl. assert (X5 : ext h h5) by (eapply ext_trans; eauto).
  assert (Hx : holds h5 (length (h_int h4)) (x0 - big_Div b n * x1)) by apply holds_new.
  rewrite (step _ _ _ _ _ (hget_eq _ _ _ (holds_ext _ _ _ _ X5 Hy0))).
  rewrite (step _ _ _ _ _ (hget_eq _ _ _ (holds_ext _ _ _ _ X5 Hy1))).
  rewrite (step _ _ _ _ _ (hnew_eq _ _)). rewrite (step _ _ _ _ _ (hget_hn _ _)). set (h6 := hn h5 _).
  rewrite (step _ _ _ _ _ (hnew_eq _ _)). set (h7 := hn h6 _).
  assert (X57 : ext h5 h7) by apply ext_hn, ext_hn, ext_refl. assert (X7 : ext h h7) by (eapply ext_trans; eauto).
  assert (X37 : ext h3 h7) by (eapply ext_trans; eauto).
  assert (Hy : holds h7 (length (h_int h6)) (y0 - big_Div b n * y1)) by apply holds_new.
  cbv zeta. eapply sim_weak.
  - apply (IH h7 pn (length (h_int h2)) px1 (length (h_int h4)) py1 (length (h_int h6))).
    + exact (holds_ext _ _ _ _ X7 Hn).
    + exact (holds_ext _ _ _ _ X37 Hm).
    + exact (holds_ext _ _ _ _ X7 Hx1).
    + exact (holds_ext _ _ _ _ X57 Hx).
    + exact (holds_ext _ _ _ _ X7 Hy1).
    + exact Hy.
  - intros duv r h8 _ _ (X8 & E). split; [eapply ext_trans; eauto|exact E].
Qed.
Lemma xgcd_sim h pb pn b n : holds h pb b -> holds h pn n ->
  sim (Hxgcd (Some pb) (Some pn) h) (xgcd b n)
    (fun duv r h' => ext h h' /\ exists d u v, r = (Some d, Some u, Some v) /\
       holds h' d (fst (fst duv)) /\ holds h' u (snd (fst duv)) /\ holds h' v (snd duv)).
Proof.
  intros Hb Hn. unfold Hxgcd, xgcd. rewrite !(step _ _ _ _ _ (hnew_eq _ _)).
  set (h1 := hn h 1). set (h2 := hn h1 0). set (h3 := hn h2 0). set (h4 := hn h3 1).
  assert (X4 : ext h h4) by (repeat apply ext_hn; apply ext_refl).
  rewrite (step _ _ _ _ _ (hget_eq _ _ _ (holds_ext _ _ _ _ X4 Hn))).
  eapply sim_weak.
  - apply (xgcd_loop_sim _ h4 pb pn (length (h_int h)) (length (h_int h1)) (length (h_int h2)) (length (h_int h3)) b n 1 0 0 1).
    + exact (holds_ext _ _ _ _ X4 Hb).
    + exact (holds_ext _ _ _ _ X4 Hn).
    + do 3 apply holds_hn. apply holds_new.
    + do 2 apply holds_hn. apply holds_new.
    + apply holds_hn. apply holds_new.
    + apply holds_new.
  - intros duv r h8 _ _ (X8 & E). split; [eapply ext_trans; eauto|exact E].
Qed.

(** ** NtruSolve *)
Lemma noerr_add_at l i v : noerr (add_at l i v). Proof. unfold add_at. ne. Qed.
Lemma noerr_slice {A} (l : list A) a b : noerr (slice l a b). Proof. unfold slice. ne. Qed.
#[export] Hint Resolve noerr_add_at noerr_slice : noerr.
Lemma noerr_Karatsuba fuel : forall a b n, noerr (Karatsuba_fuel fuel a b n).
Proof. induction fuel as [|fuel IH]; intros a b n; cbn [Karatsuba_fuel]; [ne|]. cbv zeta. ne. Qed.
Lemma noerr_karamul a b : noerr (karamul a b).
Proof. unfold karamul, Karatsuba. cbv zeta. apply noerr_bind; [apply noerr_Karatsuba|]. intros. ne. Qed.
Lemma noerr_galoisConjugate a : noerr (galoisConjugate a). Proof. unfold galoisConjugate. ne. Qed.
#[export] Hint Resolve noerr_karamul noerr_galoisConjugate : noerr.
Lemma noerr_fieldNorm a : noerr (fieldNorm a). Proof. unfold fieldNorm. cbv zeta. ne. Qed.
Lemma noerr_xgcd_loop fuel : forall b n x0 x1 y0 y1, noerr (xgcd_loop fuel b n x0 x1 y0 y1).
Proof. induction fuel as [|fuel IH]; intros; cbn [xgcd_loop]; cbv zeta; ne. Qed.
Lemma noerr_bitsize_loop fuel : forall v r, noerr (bitsize_loop fuel v r).
Proof. induction fuel as [|fuel IH]; intros; cbn [bitsize_loop]; ne. Qed.
Lemma noerr_bitsize x : noerr (bitsize x). Proof. apply noerr_bitsize_loop. Qed.
#[export] Hint Resolve noerr_bitsize : noerr.
Lemma noerr_max_bitsize a b : noerr (max_bitsize a b).
Proof. unfold max_bitsize, MinFromBigInt, MaxFromBigInt, Max. ne. Qed.
#[export] Hint Resolve noerr_max_bitsize : noerr.
Lemma noerr_reduce quo fuel f g F G : (forall a b c d, noerr (quo a b c d)) -> noerr (reduce quo fuel f g F G).
Proof.
  intros Hq. unfold reduce. apply noerr_bind; [ne|]. intros size. revert F G.
  induction fuel as [|fuel IH]; intros F G; cbn [reduce_loop]; [ne|]. unfold sub_shifted. ne.
Qed.

(** ErrEquation as a value *)
Definition reify {A} (r : res A) : res (option A) :=
  match r with Ok a => Ok (Some a) | Err _ => Ok None | Panic => Panic | Diverge => Diverge end.
Lemma sim_bind_r {A A' B B'} (m : M A) (k : A -> M A') (p : res B) (q : B -> res B') R S h : noerr p ->
  sim (m h) p R -> (forall b a h', p = Ok b -> m h = Ok (a, h') -> R b a h' -> sim (k a h') (reify (q b)) S) ->
  sim (mbind m k h) (reify (bind p q)) S.
Proof.
  intros Np H K. destruct p as [b|e| |]; cbn in *.
  - destruct H as (a & h' & E & HR). rewrite (step _ _ _ _ _ E). eapply K; eauto.
  - destruct (Np e eq_refl).
  - unfold mbind. rewrite H. reflexivity.
  - unfold mbind. rewrite H. reflexivity.
Qed.
(** what NtruSolve establishes: the caller's heap is unchanged, the two results
    are made of new integers and do not share any *)
Definition solved (h : heap) (o : option (list Z * list Z)) (r : option (sl * sl)) (h' : heap) : Prop :=
  ext h h' /\
  match o, r with
  | None, None => True
  | Some (lF, lG), Some (F, G) => exists pF pG, rep h' F pF lF /\ rep h' G pG lG /\ NoDup (pF ++ pG) /\
      Forall (fun p => (length (h_int h) <= p)%nat) (pF ++ pG)
  | _, _ => False
  end.
Lemma NoDup_join {A} (l l' : list A) : NoDup l -> NoDup l' -> (forall p, In p l -> In p l' -> False) -> NoDup (l ++ l').
Proof.
  induction l as [|x l IH]; cbn; intros H H' D; [exact H'|]. inversion H; subst. constructor.
  - rewrite in_app_iff. intros [X|X]; [tauto|]. exact (D x (or_introl eq_refl) X).
  - apply IH; auto. intros p Hp. apply D. auto.
Qed.
Lemma ext_len h h' : ext h h' -> (length (h_int h) <= length (h_int h'))%nat.
Proof. intros (li & la & E & _). rewrite E, app_length. lia. Qed.
(** two vectors made one after the other *)
Lemma made_two h h1 h2 h3 h4 v w r s : ext h h1 -> made h1 v r h2 -> ext h2 h3 -> made h3 w s h4 ->
  exists p q, rep h4 r p v /\ rep h4 s q w /\ NoDup (p ++ q) /\ Forall (fun x => (length (h_int h) <= x)%nat) (p ++ q).
Proof.
  intros X1 M1 X2 M2. pose proof M1 as (I1 & _ & _ & p & Np & Rp). pose proof M2 as (I2 & _ & _ & q & Nq & Rq).
  exists p, q. pose proof (made_ptrs _ _ _ _ _ M1 Rp) as Fp. pose proof (made_ptrs _ _ _ _ _ M2 Rq) as Fq.
  pose proof (rep_below _ _ _ _ Rp) as Bp. rewrite Forall_forall in Fp, Fq, Bp.
  assert (X24 : ext h2 h4) by (eapply ext_trans; [exact X2|apply I2]).
  pose proof (ext_len _ _ X1). pose proof (ext_len _ _ X2).
  assert (X12 : ext h1 h2) by apply I1. pose proof (ext_len _ _ X12).
  split; [exact (rep_ext _ _ _ _ _ X24 Rp)|]. split; [exact Rq|]. split.
  - apply NoDup_join; [exact Np|exact Nq|]. intros x Hp Hq. specialize (Bp _ Hp). specialize (Fq _ Hq). cbv beta in *. lia.
  - apply Forall_forall. intros x Hx. apply in_app_or in Hx. destruct Hx as [Hx|Hx].
    + specialize (Fp _ Hx). cbv beta in Fp. lia.
    + specialize (Fq _ Hx). cbv beta in Fq. lia.
Qed.

Theorem NtruSolve_depth_sim quo fuel : (forall a b c d, noerr (quo a b c d)) -> forall depth h f g pf pg lf lg,
  rep h f pf lf -> rep h g pg lg ->
  sim (HNtruSolve_depth quo fuel depth f g h) (reify (NtruSolve_depth quo fuel depth lf lg)) (solved h).
Proof.
  intros Hq. induction depth as [|depth IH]; intros h f g pf pg lf lg Rf Rg; cbn [HNtruSolve_depth NtruSolve_depth]; [reflexivity|].
  destruct (rep_len _ _ _ _ Rf) as [Lp Lf]. rewrite Lf. destruct (Nat.eqb (s_len f) 1).
  - rewrite (sval_bind _ _ _ _ _ _ Rf). unfold idx. destruct (nth_error lf 0) as [x|]; [|reflexivity]. cbn [bind].
    rewrite (step _ _ _ _ _ (hnew_eq _ _)). rewrite (sval_bind _ _ _ _ _ _ (rep_hn _ _ _ _ x Rg)).
    destruct (nth_error lg 0) as [y|]; [|reflexivity]. cbn [bind].
    rewrite (step _ _ _ _ _ (hnew_eq _ _)). set (h2 := hn (hn h x) y).
    assert (X2 : ext h h2) by (repeat apply ext_hn; apply ext_refl).
    eapply sim_bind_r; [apply noerr_xgcd_loop| |].
    { apply (xgcd_sim h2 (length (h_int h)) (length (h_int (hn h x))) x y); [apply holds_hn|]; apply holds_new. }
    intros [[d u] v] duv h3 _ _ (X23 & pd & pu & pv & -> & Hd & Hu & Hv). cbn [fst snd] in *.
    assert (X3 : ext h h3) by (eapply ext_trans; eauto).
    rewrite (step _ _ _ _ _ (hget_eq _ _ _ Hd)). destruct (negb (big_Int64 d =? 1)).
    { apply sim_ok. split; [exact X3|exact Logic.I]. }
    rewrite (step _ _ _ _ _ (hget_eq _ _ _ Hv)).
    destruct (literal_ok [- Q * v] h3) as (F & h4 & E4 & M4 & _). rewrite (step _ _ _ _ _ E4).
    assert (X34 : ext h3 h4) by apply M4.
    rewrite (step _ _ _ _ _ (hget_eq _ _ _ (holds_ext _ _ _ _ X34 Hu))).
    destruct (literal_ok [Q * u] h4) as (G & h5 & E5 & M5 & _). rewrite (step _ _ _ _ _ E5).
    apply sim_ok. split; [eapply ext_trans; [exact X3|]; eapply ext_trans; [exact X34|apply M5]|].
    exact (made_two _ _ _ _ _ _ _ _ _ X3 M4 (ext_refl h4) M5).
  - eapply sim_bind_r; [apply noerr_fieldNorm|apply (fieldNorm_sim _ _ _ _ Rf)|]. intros lfp fp h1 _ _ M1.
    assert (X1 : ext h h1) by apply M1. destruct M1 as (_ & _ & _ & pfp & _ & Rfp).
    eapply sim_bind_r; [apply noerr_fieldNorm|apply (fieldNorm_sim _ _ _ _ (rep_ext _ _ _ _ _ X1 Rg))|]. intros lgp gp h2 _ _ M2.
    assert (X12 : ext h1 h2) by apply M2. destruct M2 as (_ & _ & _ & pgp & _ & Rgp).
    assert (X2 : ext h h2) by (eapply ext_trans; eauto).
    specialize (IH h2 fp gp pfp pgp lfp lgp (rep_ext _ _ _ _ _ X12 Rfp) Rgp).
    destruct (NtruSolve_depth quo fuel depth lfp lgp) as [[lFp lGp]|e| |]; cbn [bind reify sim] in *.
    2: { destruct IH as (o & h3 & E3 & X23 & S3). destruct o as [[? ?]|]; [contradiction|].
         exists None, h3. rewrite (step _ _ _ _ _ E3). split; [reflexivity|]. split; [eapply ext_trans; eauto|exact Logic.I]. }
    2, 3: unfold mbind; rewrite IH; reflexivity.
    destruct IH as (o & h3 & E3 & X23 & S3). destruct o as [[Fp Gp]|]; [|contradiction].
    destruct S3 as (pFp & pGp & RFp & RGp & _). assert (X3 : ext h h3) by (eapply ext_trans; eauto).
    rewrite (step _ _ _ _ _ E3).
    destruct (lift_sim _ _ _ _ RFp) as (lF & h4 & plF & E4 & X34 & C4 & RlF & _). rewrite (step _ _ _ _ _ E4).
    assert (X4 : ext h h4) by (eapply ext_trans; eauto).
    eapply sim_bind_r; [apply noerr_galoisConjugate|apply (galoisConjugate_sim _ _ _ _ (rep_ext _ _ _ _ _ X4 Rg))|].
    intros lcg cg h5 _ _ M5. assert (X45 : ext h4 h5) by apply M5. destruct M5 as (_ & _ & C5 & pcg & _ & Rcg).
    assert (X5 : ext h h5) by (eapply ext_trans; eauto).
    eapply sim_bind_r; [apply noerr_karamul|apply (karamul_sim _ _ _ _ _ _ _ (rep_ext _ _ _ _ _ X45 RlF) Rcg)|].
    intros lF0 F h6 _ _ M6. assert (X56 : ext h5 h6) by apply M6. assert (X6 : ext h h6) by (eapply ext_trans; eauto).
    assert (X36 : ext h3 h6) by (eapply ext_trans; [exact X34|]; eapply ext_trans; eauto).
    destruct (lift_sim _ _ _ _ (rep_ext _ _ _ _ _ X36 RGp)) as (lG & h7 & plG & E7 & X67 & C7 & RlG & _). rewrite (step _ _ _ _ _ E7).
    assert (X7 : ext h h7) by (eapply ext_trans; eauto).
    eapply sim_bind_r; [apply noerr_galoisConjugate|apply (galoisConjugate_sim _ _ _ _ (rep_ext _ _ _ _ _ X7 Rf))|].
    intros lcf cf h8 _ _ M8. assert (X78 : ext h7 h8) by apply M8. destruct M8 as (_ & _ & C8 & pcf & _ & Rcf).
    assert (X8 : ext h h8) by (eapply ext_trans; eauto). assert (X68 : ext h6 h8) by (eapply ext_trans; eauto).
    eapply sim_bind_r; [apply noerr_karamul|apply (karamul_sim _ _ _ _ _ _ _ (rep_ext _ _ _ _ _ X78 RlG) Rcf)|].
    intros lG0 G h9 _ _ M9. assert (X89 : ext h8 h9) by apply M9. assert (X9 : ext h h9) by (eapply ext_trans; eauto).
    destruct (made_two _ _ _ _ _ _ _ _ _ X5 M6 X68 M9) as (pF & pG & RF & RG & ND & FR).
    assert (D : forall p, In p pf \/ In p pg -> ~ In p (pF ++ pG)).
    { intros p H1 H2. rewrite Forall_forall in FR. specialize (FR _ H2). cbv beta in FR.
      pose proof (rep_below _ _ _ _ Rf) as B1. pose proof (rep_below _ _ _ _ Rg) as B2. rewrite Forall_forall in B1, B2.
      destruct H1 as [H1|H1]; [specialize (B1 _ H1)|specialize (B2 _ H1)]; cbv beta in *; lia. }
    pose proof (reduce_sim quo fuel h9 f g F G pf pg pF pG lf lg lF0 lG0 ND D (rep_ext _ _ _ _ _ X9 Rf) (rep_ext _ _ _ _ _ X9 Rg) RF RG) as S.
    pose proof (noerr_reduce quo fuel lf lg lF0 lG0 Hq) as NE.
    destruct (reduce quo fuel lf lg lF0 lG0) as [[lF1 lG1]|e| |]; cbn [reify sim] in *.
    + destruct S as (FG & h10 & E10 & -> & P & RF1 & RG1). cbn [fst snd] in *.
      exists (Some (F, G)), h10. rewrite (step _ _ _ _ _ E10). split; [reflexivity|].
      split; [exact (pres_to_ext _ _ _ _ X9 P FR)|]. exists pF, pG. auto.
    + destruct (NE e eq_refl).
    + unfold mbind. rewrite S. reflexivity.
    + unfold mbind. rewrite S. reflexivity.
Qed.
Theorem NtruSolve_sim quo fuel h f g pf pg lf lg : (forall a b c d, noerr (quo a b c d)) ->
  rep h f pf lf -> rep h g pg lg ->
  sim (HNtruSolve quo fuel f g h) (reify (NtruSolve quo fuel lf lg)) (solved h).
Proof.
  intros Hq Rf Rg. unfold HNtruSolve, NtruSolve. destruct (rep_len _ _ _ _ Rf) as [_ ->].
  eapply NtruSolve_depth_sim; eauto.
Qed.
