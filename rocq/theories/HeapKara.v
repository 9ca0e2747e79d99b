(** Karatsuba, karamul, galoisConjugate, fieldNorm and lift: heap against lists. *)
From Verif Require Import GoBase Util Ntrugen Heap BaseProofs HeapFrame HeapRefine.

Lemma sval_bind {A} h s ps l i (k : Z -> M A) : rep h s ps l ->
  mbind (sval s i) k h = match nth_error l i with Some z => k z h | None => Panic end.
Proof. intros R. unfold mbind. rewrite (sval_eq _ _ _ _ _ R). unfold idx. destruct (nth_error l i); reflexivity. Qed.
Lemma sget_bind {A} h s ps l i (k : option nat -> M A) : rep h s ps l ->
  mbind (sget s i) k h = match nth_error ps i with Some p => k (Some p) h | None => Panic end.
Proof.
  intros R. unfold mbind. destruct (nth_error ps i) as [p|] eqn:E.
  - rewrite (sget_eq _ _ _ _ _ _ R E). reflexivity.
  - rewrite (sget_out _ _ _ l _ R); [reflexivity|]. apply nth_error_None in E. apply nth_error_None.
    destruct (rep_len _ _ _ _ R). lia.
Qed.
Lemma hset_bind {A} h p z x (k : unit -> M A) : holds h p x -> mbind (hset (Some p) z) k h = k tt (hs h p z).
Proof. intros H. apply step. eapply hset_eq; eauto. Qed.
(** ps and l have the same length *)
Lemma rep_same h s ps l i : rep h s ps l ->
  match nth_error ps i, nth_error l i with Some p, Some z => holds h p z | None, None => True | _, _ => False end.
Proof.
  intros R. destruct (rep_len _ _ _ _ R) as [A B]. destruct (nth_error ps i) eqn:E1, (nth_error l i) eqn:E2; auto.
  - eapply rep_holds; eauto.
  - apply nth_error_None in E2. assert (i < length ps)%nat by (apply nth_error_Some; congruence). lia.
  - apply nth_error_None in E1. assert (i < length l)%nat by (apply nth_error_Some; congruence). lia.
Qed.
Lemma rep_hn h s ps l z : rep h s ps l -> rep (hn h z) s ps l.
Proof. apply rep_ext. apply ext_hn, ext_refl. Qed.
Lemma holds_hn h p x z : holds h p x -> holds (hn h z) p x.
Proof.
  unfold holds, hn. cbn. intros H. rewrite nth_error_app1; [exact H|]. apply nth_error_Some. congruence.
Qed.
Lemma add_at_eq l i v : add_at l i v = match nth_error l i with Some x => Ok (upd l i (x + v)) | None => Panic end.
Proof. unfold add_at, idx. destruct (nth_error l i); reflexivity. Qed.
Lemma Forall_nth (P : nat -> Prop) l i p : Forall P l -> nth_error l i = Some p -> P p.
Proof. intros H E. rewrite Forall_forall in H. apply H. eapply nth_error_In; eauto. Qed.

Lemma upd_cons {A} (l : list A) i x : upd l i x = firstn i l ++ x :: skipn (S i) l. Proof. reflexivity. Qed.

(** two vectors made and filled *)
Lemma two_made n h : exists ax bx h1 psa psb,
  (forall A (k : sl -> sl -> M A),
    (ax <~ hmake n ;; bx <~ hmake n ;; _ <~ FillBigIntSlice ax ;; _ <~ FillBigIntSlice bx ;; k ax bx) h = k ax bx h1) /\
  ext h h1 /\ rep h1 ax psa (repeat 0 n) /\ rep h1 bx psb (repeat 0 n) /\
  NoDup psa /\ NoDup psb /\ (forall p, In p psa -> In p psb -> False) /\
  Forall (fun p => (length (h_int h) <= p)%nat) psa /\ Forall (fun p => (length (h_int h) <= p)%nat) psb /\
  s_len ax = n /\ s_len bx = n /\ s_cap ax = n /\ s_cap bx = n.
Proof.
  set (a := length (h_arr h)). set (N := length (h_int h)).
  set (h1 := {| h_int := h_int h; h_arr := h_arr h ++ [repeat None n] |}).
  set (h2 := {| h_int := h_int h; h_arr := (h_arr h ++ [repeat None n]) ++ [repeat None n] |}).
  set (h3 := {| h_int := h_int h ++ repeat 0 n; h_arr := (h_arr h ++ [map Some (seq N n)]) ++ [repeat None n] |}).
  set (h4 := {| h_int := (h_int h ++ repeat 0 n) ++ repeat 0 n;
                h_arr := (h_arr h ++ [map Some (seq N n)]) ++ [map Some (seq (N + n) n)] |}).
  assert (E1 : hmake n h = Ok (mk_sl a n, h1)) by reflexivity.
  assert (E2 : hmake n h1 = Ok (mk_sl (S a) n, h2))
    by (unfold hmake, h1, h2, mk_sl, a; cbn; rewrite app_length, Nat.add_1_r; reflexivity).
  assert (E3 : FillBigIntSlice (mk_sl a n) h2 = Ok (tt, h3)).
  { rewrite Fill_eq.
    - unfold h2, h3. cbn [h_int h_arr]. do 3 f_equal. rewrite <- !app_assoc. unfold a. rewrite upd_app_l, Nat.sub_diag by lia.
      reflexivity.
    - unfold h2, a. cbn. rewrite <- app_assoc, nth_error_app2, Nat.sub_diag by lia. reflexivity. }
  assert (E4 : FillBigIntSlice (mk_sl (S a) n) h3 = Ok (tt, h4)).
  { assert (La : S a = length (h_arr h ++ [map Some (seq N n)])) by (rewrite app_length; unfold a; cbn; lia).
    rewrite Fill_eq.
    - unfold h3, h4. cbn [h_int h_arr]. do 3 f_equal. rewrite La, upd_last. unfold N. rewrite app_length, repeat_length. reflexivity.
    - unfold h3. cbn [h_arr]. rewrite La, nth_error_app2, Nat.sub_diag by lia. reflexivity. }
  exists (mk_sl a n), (mk_sl (S a) n), h4, (seq N n), (seq (N + n) n).
  split. { intros A k. rewrite (step _ _ _ _ _ E1), (step _ _ _ _ _ E2), (step _ _ _ _ _ E3), (step _ _ _ _ _ E4). reflexivity. }
  split. { exists (repeat 0 n ++ repeat 0 n), ([map Some (seq N n)] ++ [map Some (seq (N + n) n)]). unfold h4. cbn [h_int h_arr].
    rewrite <- !app_assoc. auto. }
  split. { apply rep_fresh_ints; [apply seq_length| |].
    - unfold h4. cbn [h_arr]. rewrite <- app_assoc. unfold a. rewrite nth_error_app2, Nat.sub_diag by lia. reflexivity.
    - pose proof (F2_new (h_int h) (h_arr h4) (repeat 0 n)) as X. rewrite repeat_length in X. fold N in X.
      assert (Y : rep {| h_int := h_int h ++ repeat 0 n; h_arr := [map Some (seq N n)] |} (mk_sl 0 n) (seq N n) (repeat 0 n))
        by (apply rep_fresh_ints; [apply seq_length|reflexivity|exact X]).
      apply (rep_ext _ {| h_int := (h_int h ++ repeat 0 n) ++ repeat 0 n; h_arr := [map Some (seq N n)] |}) in Y;
        [|exists (repeat 0 n), []; cbn; auto]. destruct Y as [_ Y]. exact Y. }
  split. { apply rep_fresh_ints; [apply seq_length| |].
    - unfold h4. cbn [h_arr]. rewrite nth_error_app2 by (rewrite app_length; unfold a; cbn; lia).
      rewrite app_length. unfold a. cbn [length]. replace (S (length (h_arr h)) - (length (h_arr h) + 1))%nat with 0%nat by lia. reflexivity.
    - pose proof (F2_new (h_int h ++ repeat 0 n) (h_arr h4) (repeat 0 n)) as X. rewrite app_length, !repeat_length in X. exact X. }
  split; [apply seq_NoDup|]. split; [apply seq_NoDup|].
  split. { intros p H1 H2. apply in_seq in H1, H2. lia. }
  split. { apply Forall_forall. intros p H. apply in_seq in H. lia. }
  split. { apply Forall_forall. intros p H. apply in_seq in H. lia. }
  repeat split.
Qed.

Lemma rep_reslice h s ps l lo hi : rep h s ps l -> (s_cap s = s_len s \/ hi <= s_len s)%nat ->
  sim (reslice s lo hi h) (slice l lo hi) (fun v r h' => h' = h /\ s_len r = (hi - lo)%nat /\
    s_cap r = (s_cap s - lo)%nat /\ rep h r (firstn (hi - lo) (skipn lo ps)) v).
Proof.
  intros R C. destruct (rep_len _ _ _ _ R) as [L1 L2]. pose proof R as [(arr & A & B & _ & D) F].
  unfold reslice, slice. destruct (Nat.leb_spec lo hi) as [H1|H1]; cbn [andb]; [|reflexivity].
  destruct (Nat.leb_spec hi (s_cap s)) as [H2|H2]; destruct (Nat.leb_spec hi (length l)) as [H3|H3]; try (exfalso; lia); [|reflexivity].
  apply sim_ok. split; [reflexivity|]. split; [reflexivity|]. split; [reflexivity|]. split.
  - exists arr. cbn [s_arr s_off s_len s_cap]. split; [exact A|]. split; [|split; [rewrite firstn_length, skipn_length; lia|lia]].
    replace (s_off s + lo)%nat with (lo + s_off s)%nat by lia. 
    assert (SS : forall (l : list (option nat)) x y, skipn x (skipn y l) = skipn (x + y) l).
    { clear. intros l x y. revert l. induction y; intros l; [rewrite Nat.add_0_r; reflexivity|].
      rewrite Nat.add_succ_r. destruct l; [rewrite !skipn_nil; reflexivity|]. cbn [skipn]. apply IHy. }
    rewrite <- SS. rewrite firstn_skipn_comm. replace (lo + (hi - lo))%nat with hi by lia.
    assert (X : firstn hi (skipn (s_off s) arr) = firstn hi (map Some ps)).
    { rewrite <- B, firstn_firstn, Nat.min_l by lia. reflexivity. }
    rewrite X, firstn_map, skipn_map. f_equal. rewrite firstn_skipn_comm. do 2 f_equal. lia.
  - clear -F. generalize (hi - lo)%nat as m. revert lo. induction F as [|p z ps l H F IH]; intros lo m.
    + rewrite !skipn_nil, !firstn_nil. constructor.
    + destruct lo as [|lo]; [|apply IH]. destruct m as [|m]; [constructor|]. cbn [skipn firstn]. constructor; [exact H|].
      apply (IH 0%nat).
Qed.

(** s[:m] then s[m:]: the capacity does not matter, the second panics when the
    first would read past the length *)
Lemma rep_halves {A B} h s ps l m (k : sl -> sl -> M A) (q : list Z -> list Z -> res B) S : rep h s ps l ->
  (forall v0 v1 r0 r1, s_len r0 = m -> rep h r0 (firstn (m - 0) (skipn 0 ps)) v0 -> s_len r1 = (s_len s - m)%nat ->
     rep h r1 (firstn (s_len s - m) (skipn m ps)) v1 -> sim (k r0 r1 h) (q v0 v1) S) ->
  sim ((r0 <~ reslice s 0 m ;; r1 <~ reslice s m (s_len s) ;; k r0 r1) h)
      (v0 <- slice l 0 m ;; v1 <- slice l m (length l) ;; q v0 v1) S.
Proof.
  intros R K. destruct (rep_len _ _ _ _ R) as [_ L]. destruct (Nat.leb_spec m (s_len s)) as [H|H].
  - eapply sim_bind; [apply (rep_reslice _ _ _ _ 0 m R); lia|]. intros v0 r0 ? _ _ (-> & L0 & _ & R0).
    rewrite L. eapply sim_bind; [apply (rep_reslice _ _ _ _ m (s_len s) R); lia|]. intros v1 r1 ? _ _ (-> & L1 & _ & R1).
    apply K; auto. lia.
  - unfold slice at 1. cbn [Nat.leb andb]. destruct (Nat.leb_spec m (length l)); [lia|]. cbn [bind sim].
    unfold mbind, reslice, fail, ret. cbn [Nat.leb andb]. destruct (Nat.leb m (s_cap s)); [|reflexivity].
    destruct (Nat.leb_spec m (s_len s)); [lia|]. reflexivity.
Qed.

Lemma sim_tail {A A' B} (m : M A) (k : A -> M A') (p : res B) R S h :
  sim (m h) p R -> (forall b a h', R b a h' -> sim (k a h') (Ok b) S) -> sim (mbind m k h) p S.
Proof.
  unfold mbind. intros H K. destruct p as [b| | |]; cbn [sim] in *; try (rewrite H; reflexivity).
  destruct H as (a & h' & E & HR). rewrite E. exact (K b a h' HR).
Qed.
Lemma rep_below h s ps l : rep h s ps l -> Forall (fun p => (p < length (h_int h))%nat) ps.
Proof.
  intros [_ F]. induction F; constructor; [|assumption]. apply nth_error_Some. unfold holds in H. congruence.
Qed.
Definition built (v : list Z) (r : sl) (h' : heap) : Prop :=
  s_cap r = s_len r /\ exists ps, NoDup ps /\ rep h' r ps v.
Lemma sim_made (m : M sl) h p : sim (m h) p built -> triple h m (fresh h) -> sim (m h) p (made h).
Proof.
  intros S T. eapply sim_weak; [exact S|]. intros v r h' _ E (C & B). destruct (T _ _ _ (inv_refl h) E) as [I F].
  split; [exact I|]. split; [exact F|]. split; [exact C|exact B].
Qed.
Lemma pair_bind {A B C} (m1 : res A) (m2 : res B) (k : A -> B -> res C) :
  (a <- m1 ;; b <- m2 ;; k a b) = (ab <- (a <- m1 ;; b <- m2 ;; Ok (a, b)) ;; k (fst ab) (snd ab)).
Proof. destruct m1; try reflexivity. destruct m2; reflexivity. Qed.
Lemma nobad_bind {A B} (m : res A) (k : A -> res B) : nobad m -> (forall a, nobad (k a)) -> nobad (bind m k).
Proof. destruct m; cbn; auto. Qed.
Ltac nob := repeat (apply nobad_bind; [apply nobad_idx|intros ?]); try exact I.

(** two vectors filled in one loop *)
Lemma fill_two n (fa fb : nat -> res Z) (body : nat -> M unit) h h1 ax bx psa psb :
  ext h h1 -> rep h1 ax psa (repeat 0 n) -> rep h1 bx psb (repeat 0 n) ->
  (forall i, nobad (fa i)) -> (forall i, nobad (fb i)) ->
  (forall la lb h' i, (i < n)%nat -> ext h h' -> rep h' ax psa la -> rep h' bx psb lb ->
     length la = n -> length lb = n ->
     sim (body i h') (x <- fa i ;; y <- fb i ;; Ok (upd la i x, upd lb i y))
       (fun ab _ h'' => ext h h'' /\ rep h'' ax psa (fst ab) /\ rep h'' bx psb (snd ab))) ->
  sim (for_ (seq 0 n) body h1) (a <- mapM fa (seq 0 n) ;; b <- mapM fb (seq 0 n) ;; Ok (a, b))
    (fun ab _ h'' => ext h h'' /\ rep h'' ax psa (fst ab) /\ rep h'' bx psb (snd ab)).
Proof.
  intros X Ra Rb Na Nb H. rewrite <- (mapM_fold0 fa), <- (mapM_fold0 fb).
  rewrite <- (foldM_pair (fun l i => z <- fa i ;; Ok (upd l i z)) (fun l i => z <- fb i ;; Ok (upd l i z))).
  2: { intros l i. apply nobad_bind; [apply Na|intros; exact I]. }
  2: { intros l i. apply nobad_bind; [apply Nb|intros; exact I]. }
  eapply sim_weak; [eapply (sim_for (fun ab h'' => (ext h h'' /\ rep h'' ax psa (fst ab) /\ rep h'' bx psb (snd ab)) /\
     length (fst ab) = n /\ length (snd ab) = n))|].
  - intros [la lb] h' i Hi ((X1 & R1 & R2) & L1 & L2). apply in_seq in Hi. cbn [fst snd] in *.
    specialize (H la lb h' i ltac:(lia) X1 R1 R2 L1 L2).
    destruct (fa i) as [x| | |]; cbn [bind] in *; try exact H. destruct (fb i) as [y| | |]; cbn [bind] in *; try exact H.
    eapply sim_weak; [exact H|]. intros ab u h'' Eab _ G. apply Ok_inj in Eab. subst ab. cbn [fst snd] in *.
    split; [exact G|]. rewrite !length_upd by lia. auto.
  - cbn [fst snd]. rewrite !repeat_length. auto.
  - intros ab u h'' _ _ [G _]. exact G.
Qed.

Lemma Karatsuba_sim fuel : forall h a b n psa psb la lb,
  rep h a psa la -> rep h b psb lb ->
  sim (HKaratsuba fuel a b n h) (Karatsuba_fuel fuel la lb n) built.
Proof.
  induction fuel as [|fuel IH]; intros h a b n psa psb la lb Ra Rb; cbn [HKaratsuba Karatsuba_fuel]; [reflexivity|].
  destruct (Nat.eqb n 1).
  { rewrite (sval_bind _ _ _ _ _ _ Ra). unfold idx. destruct (nth_error la 0) as [x|]; [|reflexivity]. cbn [bind].
    rewrite (sval_bind _ _ _ _ _ _ Rb). destruct (nth_error lb 0) as [y|]; [|reflexivity]. cbn [bind].
    destruct (literal_ok [x * y; 0] h) as (r & h' & E & (_ & _ & C & B) & _). rewrite E. apply sim_ok. split; assumption. }
  set (n2 := Nat.div n 2). assert (Hn2 : (n2 <= n)%nat) by (apply Nat.div_le_upper_bound; lia).
  assert (Hn3 : (n2 + n2 <= n)%nat) by (pose proof (Nat.div_mod n 2 ltac:(lia)); unfold n2; lia).
  destruct (rep_len _ _ _ _ Ra) as [_ La]. destruct (rep_len _ _ _ _ Rb) as [_ Lb].
  apply (rep_halves _ _ _ _ n2 _ _ _ Ra). intros va0 va1 a0 a1 La0 Ra0 La1 Ra1.
  apply (rep_halves _ _ _ _ n2 _ _ _ Rb). intros vb0 vb1 b0 b1 Lb0 Rb0 Lb1 Rb1.
  destruct (two_made n2 h) as (ax & bx & h1 & pa & pb & E & X1 & Rax & Rbx & Na & Nb & Dab & Fa & Fb & Lax & Lbx & Cax & Cbx).
  rewrite E. clear E. rewrite pair_bind.
  eapply sim_bind.
  { apply (fill_two n2 _ _ _ h h1 ax bx pa pb X1 Rax Rbx); [intros i; nob|intros i; nob|].
    intros lx ly h' i Hi X' Rx Ry Lx Ly. rewrite (sget_bind _ _ _ _ _ _ Rx).
    pose proof (rep_same _ _ _ _ i Rx) as Sx. pose proof (rep_same _ _ _ _ i Ry) as Sy.
    destruct (nth_error lx i) as [x0|] eqn:Ex; [|apply nth_error_None in Ex; lia].
    destruct (nth_error ly i) as [y0|] eqn:Ey; [|apply nth_error_None in Ey; lia].
    destruct (nth_error pa i) as [px|] eqn:Epx; [|contradiction]. destruct (nth_error pb i) as [py|] eqn:Epy; [|contradiction].
    rewrite (sval_bind _ _ _ _ _ _ (rep_ext _ _ _ _ _ X' Ra0)). unfold idx. destruct (nth_error va0 i) as [x|]; [|reflexivity]. cbn [bind].
    rewrite (sval_bind _ _ _ _ _ _ (rep_ext _ _ _ _ _ X' Ra1)). destruct (nth_error va1 i) as [x'|]; [|reflexivity]. cbn [bind].
    rewrite (hset_bind _ _ _ _ _ Sx). set (h2 := hs h' px (x + x')).
    assert (X2 : ext h h2) by (apply ext_hs; [exact X'|exact (Forall_nth _ _ _ _ Fa Epx)]).
    assert (Rx2 : rep h2 ax pa (upd lx i (x + x'))) by (apply rep_hs_in; assumption).
    assert (Ry2 : rep h2 bx pb ly).
    { apply rep_hs; [exact Ry|]. intros Hp. apply (Dab px); [eapply nth_error_In; eauto|exact Hp]. }
    rewrite (sget_bind _ _ _ _ _ _ Ry2), Epy.
    rewrite (sval_bind _ _ _ _ _ _ (rep_ext _ _ _ _ _ X2 Rb0)). destruct (nth_error vb0 i) as [y|]; [|reflexivity]. cbn [bind].
    rewrite (sval_bind _ _ _ _ _ _ (rep_ext _ _ _ _ _ X2 Rb1)). destruct (nth_error vb1 i) as [y'|]; [|reflexivity]. cbn [bind].
    rewrite (hset_eq _ _ _ y0) by (eapply rep_holds; eauto). apply sim_ok. cbn [fst snd].
    split; [apply ext_hs; [exact X2|exact (Forall_nth _ _ _ _ Fb Epy)]|].
    split; [|apply rep_hs_in; assumption]. apply rep_hs; [exact Rx2|]. intros Hp. apply (Dab py); [exact Hp|eapply nth_error_In; eauto]. }
  intros [vax vbx] u h2 _ _ (X2 & Rax2 & Rbx2). cbn [fst snd] in *. clear u.
  assert (K : forall h a b psa psb la lb, rep h a psa la -> rep h b psb lb ->
    sim (HKaratsuba fuel a b n2 h) (Karatsuba_fuel fuel la lb n2) (made h)).
  { intros. apply (sim_made (HKaratsuba fuel a2 b2 n2)); [eapply IH; eauto|apply t_Karatsuba]. }
  eapply sim_bind; [eapply K; [exact (rep_ext _ _ _ _ _ X2 Ra0)|exact (rep_ext _ _ _ _ _ X2 Rb0)]|].
  intros v00 a0b0 h3 _ _ M00.
  assert (X23 : ext h2 h3) by apply M00. assert (X3 : ext h h3) by (eapply ext_trans; eauto).
  destruct M00 as (_ & _ & _ & p00 & _ & R00).
  eapply sim_bind; [eapply K; [exact (rep_ext _ _ _ _ _ X3 Ra1)|exact (rep_ext _ _ _ _ _ X3 Rb1)]|].
  intros v11 a1b1 h4 _ _ M11.
  assert (X34 : ext h3 h4) by apply M11. assert (X4 : ext h2 h4) by (eapply ext_trans; eauto).
  destruct M11 as (_ & _ & _ & p11 & _ & R11). apply (rep_ext _ _ _ _ _ X34) in R00.
  eapply sim_bind; [eapply K; [exact (rep_ext _ _ _ _ _ X4 Rax2)|exact (rep_ext _ _ _ _ _ X4 Rbx2)]|].
  intros vxx axbx h5 _ _ Mxx. assert (X45 : ext h4 h5) by apply Mxx.
  pose proof Mxx as (_ & _ & _ & pxx & Nxx & Rxx). pose proof (made_ptrs _ _ _ _ _ Mxx Rxx) as Fxx.
  (* axbx[i] -= a0b0[i] + a1b1[i] *)
  eapply sim_bind.
  { apply (sim_for (fun l h' => ext h4 h' /\ rep h' axbx pxx l)); [|split; assumption].
    intros l h' i _ (X' & Rl). rewrite (sget_bind _ _ _ _ _ _ Rl), (sval_bind _ _ _ _ _ _ Rl) || rewrite (sget_bind _ _ _ _ _ _ Rl).
    pose proof (rep_same _ _ _ _ i Rl) as Sl. unfold idx. rewrite ?add_at_eq.
    destruct (nth_error pxx i) as [p|] eqn:Ep; destruct (nth_error l i) as [z|] eqn:El; try contradiction.
    2: { destruct (nth_error v00 i); [|reflexivity]. cbn [bind]. destruct (nth_error v11 i); [|reflexivity]. cbn [bind].
         rewrite add_at_eq, El. reflexivity. }
    rewrite (sval_bind _ _ _ _ _ _ Rl), El.
    rewrite (sval_bind _ _ _ _ _ _ (rep_ext _ _ _ _ _ X' R00)). destruct (nth_error v00 i) as [x|]; [|reflexivity]. cbn [bind].
    rewrite (sval_bind _ _ _ _ _ _ (rep_ext _ _ _ _ _ X' R11)). destruct (nth_error v11 i) as [y|]; [|reflexivity]. cbn [bind].
    rewrite (step _ _ _ _ _ (hnew_eq h' (x + y))). rewrite (step _ _ _ _ _ (hget_hn h' (x + y))).
    rewrite (hset_eq _ _ _ z) by (apply holds_hn; exact Sl). rewrite add_at_eq, El. apply sim_ok.
    replace (z + - (x + y)) with (z - (x + y)) by lia.
    split; [apply ext_hs; [apply ext_hn; exact X'|exact (Forall_nth _ _ _ _ Fxx Ep)]|].
    apply rep_hs_in; [apply rep_hn; exact Rl|exact Nxx|exact Ep]. }
  intros vxx' u h6 _ _ (X46 & Rxx'). clear u. apply (rep_ext _ _ _ _ _ X46) in R00, R11.
  destruct (make_filled_ok (2 * n) h6) as (ab & h7 & Eab & Mab & Lab). rewrite (step _ _ _ _ _ Eab).
  assert (X67 : ext h6 h7) by apply Mab. pose proof Mab as (_ & _ & Cab & pab & Nab & Rab).
  pose proof (made_ptrs _ _ _ _ _ Mab Rab) as Fab.
  assert (ADD : forall l h' (i j : nat), ext h6 h' -> rep h' ab pab l ->
    forall (s : sl) ps0 vs, rep h6 s ps0 vs -> 
    forall A (k : unit -> M A), (t <~ sget ab j ;; z <~ sval ab j ;; x <~ sval s i ;; u <~ hset t (z + x) ;; k u) h' =
      match nth_error vs i with
      | Some v => match nth_error l j with
                  | Some z => match nth_error pab j with Some p => k tt (hs h' p (z + v)) | None => Panic end
                  | None => Panic end
      | None => Panic end).
  { intros l h' i j X' Rl s ps0 vs Rs A k. rewrite (sget_bind _ _ _ _ _ _ Rl).
    pose proof (rep_same _ _ _ _ j Rl) as Sl.
    destruct (nth_error pab j) as [p|] eqn:Ep; destruct (nth_error l j) as [z|] eqn:El; try contradiction.
    - rewrite (sval_bind _ _ _ _ _ _ Rl), El, (sval_bind _ _ _ _ _ _ (rep_ext _ _ _ _ _ X' Rs)).
      destruct (nth_error vs i) as [v|]; [|reflexivity]. rewrite (hset_bind _ _ _ _ _ Sl). reflexivity.
    - destruct (nth_error vs i); reflexivity. }
  assert (UP : forall l h' j p z, ext h6 h' -> rep h' ab pab l -> nth_error pab j = Some p ->
     ext h6 (hs h' p z) /\ rep (hs h' p z) ab pab (upd l j z)).
  { intros l h' j p z X' Rl Ep. split; [apply ext_hs; [exact X'|exact (Forall_nth _ _ _ _ Fab Ep)]|].
    apply rep_hs_in; assumption. }
  assert (PS : forall l h' j z, rep h' ab pab l -> nth_error l j = Some z -> exists p, nth_error pab j = Some p)
    by (intros; eapply rep_ptr; eauto).
  assert (AA : forall l (i j : nat) vs, (x <- idx vs i ;; add_at l j x) =
    match nth_error vs i with Some v => match nth_error l j with Some z => Ok (upd l j (z + v)) | None => Panic end | None => Panic end).
  { intros. unfold idx. destruct (nth_error vs i); [|reflexivity]. apply add_at_eq. }
  apply (sim_tail _ _ _ (fun l _ h' => ext h6 h' /\ rep h' ab pab l)).
  2: { intros l u h' (X' & R'). apply sim_ok. split; [exact Cab|]. eauto. }
  apply (sim_for (fun l h' => ext h6 h' /\ rep h' ab pab l)); [|split; assumption].
  intros l h' i _ (X' & Rl). rewrite (ADD l h' i i X' Rl _ _ _ R00). unfold idx at 1.
  destruct (nth_error v00 i) as [x|]; [|reflexivity]. cbn [bind]. rewrite add_at_eq.
  destruct (nth_error l i) as [z|] eqn:El; [|reflexivity]. cbn [bind].
  destruct (PS _ _ _ _ Rl El) as [p Ep]. rewrite Ep. destruct (UP l h' i p (z + x) X' Rl Ep) as [X2' Rl2].
  rewrite (ADD _ _ i (i + n)%nat X2' Rl2 _ _ _ R11). unfold idx at 1.
  destruct (nth_error v11 i) as [y|]; [|reflexivity]. cbn [bind]. rewrite add_at_eq.
  destruct (nth_error (upd l i (z + x)) (i + n)) as [z2|] eqn:El2; [|reflexivity]. cbn [bind].
  destruct (PS _ _ _ _ Rl2 El2) as [p2 Ep2]. rewrite Ep2. destruct (UP _ _ _ _ (z2 + y) X2' Rl2 Ep2) as [X3' Rl3].
  rewrite (sget_bind _ _ _ _ _ _ Rl3). unfold idx.
  pose proof (rep_same _ _ _ _ (i + n2) Rl3) as S3.
  set (l3 := upd _ (i + n) _) in *. set (h3' := hs _ p2 _) in *.
  destruct (nth_error pab (i + n2)) as [p3|] eqn:Ep3; destruct (nth_error l3 (i + n2)) as [z3|] eqn:El3; try contradiction.
  - rewrite (sval_bind _ _ _ _ _ _ Rl3), El3, (sval_bind _ _ _ _ _ _ (rep_ext _ _ _ _ _ X3' Rxx')).
    destruct (nth_error vxx' i) as [w|]; [|reflexivity]. cbn [bind]. rewrite add_at_eq, El3.
    rewrite (hset_eq _ _ _ z3) by exact S3. apply sim_ok. apply UP; assumption.
  - destruct (nth_error vxx' i) as [w|]; [|reflexivity]. cbn [bind]. rewrite add_at_eq, El3. reflexivity.
Qed.


(** one vector filled in a loop *)
Lemma fill_one n (f : nat -> res Z) (body : nat -> M unit) h h1 s ps :
  ext h h1 -> rep h1 s ps (repeat 0 n) ->
  (forall l h' i, (i < n)%nat -> ext h h' -> rep h' s ps l -> length l = n ->
     sim (body i h') (x <- f i ;; Ok (upd l i x)) (fun l' _ h'' => ext h h'' /\ rep h'' s ps l')) ->
  sim (for_ (seq 0 n) body h1) (mapM f (seq 0 n)) (fun l' _ h'' => ext h h'' /\ rep h'' s ps l').
Proof.
  intros X R H. rewrite <- (mapM_fold0 f).
  eapply sim_weak; [eapply (sim_for (fun l h'' => (ext h h'' /\ rep h'' s ps l) /\ length l = n))|].
  - intros l h' i Hi ((X1 & R1) & L1). apply in_seq in Hi.
    specialize (H l h' i ltac:(lia) X1 R1 L1).
    destruct (f i) as [x| | |]; cbn [bind] in *; try exact H.
    eapply sim_weak; [exact H|]. intros l' u h'' El _ G. apply Ok_inj in El. subst l'. cbn [fst snd] in *.
    split; [exact G|]. rewrite length_upd by lia. exact L1.
  - rewrite repeat_length. auto.
  - intros ab u h'' _ _ [G _]. exact G.
Qed.
(** the usual body: *s[i] is set to a value read from protected slices *)
Lemma put_step h h' s ps l i z : ext h h' -> rep h' s ps l -> NoDup ps ->
  Forall (fun p => (length (h_int h) <= p)%nat) ps -> (i < length l)%nat ->
  exists p, nth_error ps i = Some p /\ hset (Some p) z h' = Ok (tt, hs h' p z) /\
    ext h (hs h' p z) /\ rep (hs h' p z) s ps (upd l i z).
Proof.
  intros X R N F Hi. pose proof (rep_same _ _ _ _ i R) as S.
  destruct (nth_error l i) as [x|] eqn:E; [|apply nth_error_None in E; lia].
  destruct (nth_error ps i) as [p|] eqn:Ep; [|contradiction]. exists p. split; [reflexivity|].
  split; [eapply hset_eq; eauto|]. split; [apply ext_hs; [exact X|exact (Forall_nth _ _ _ _ F Ep)]|].
  apply rep_hs_in; assumption.
Qed.

Lemma karamul_sim h a b psa psb la lb : rep h a psa la -> rep h b psb lb ->
  sim (Hkaramul a b h) (karamul la lb) (made h).
Proof.
  intros Ra Rb. apply (sim_made (Hkaramul a b)); [|apply t_karamul]. unfold Hkaramul, karamul, Karatsuba.
  destruct (rep_len _ _ _ _ Ra) as [_ La]. rewrite La. set (n := s_len a) in *.
  eapply sim_bind; [apply (sim_made (HKaratsuba n a b n)); [eapply Karatsuba_sim; eauto|apply t_Karatsuba]|].
  intros v ab h1 _ _ (_ & _ & _ & p1 & _ & R1).
  destruct (make_filled_ok n h1) as (r & h2 & E & Mr & Lr). rewrite (step _ _ _ _ _ E).
  assert (X12 : ext h1 h2) by apply Mr. pose proof Mr as (_ & _ & Cr & pr & Nr & Rr).
  pose proof (made_ptrs _ _ _ _ _ Mr Rr) as Fr.
  apply (sim_tail _ _ _ (fun l _ h' => ext h1 h' /\ rep h' r pr l)).
  2: { intros l u h' (X' & R'). apply sim_ok. split; [exact Cr|]. eauto. }
  apply (fill_one n _ _ h1 h2 r pr X12 Rr). intros l h' i Hi X' Rl Ll.
  rewrite (sget_bind _ _ _ _ _ _ Rl). 
  destruct (nth_error pr i) as [p|] eqn:Ep; [|apply nth_error_None in Ep; destruct (rep_len _ _ _ _ Rl); lia].
  pose proof (rep_ext _ _ _ _ _ X' R1) as R1'. rewrite (sval_bind _ _ _ _ _ _ R1'). unfold idx.
  destruct (nth_error v i) as [x|]; [|reflexivity]. cbn [bind]. rewrite (sval_bind _ _ _ _ _ _ R1').
  destruct (nth_error v (i + n)) as [y|]; [|reflexivity]. cbn [bind].
  destruct (put_step h1 h' r pr l i (x - y) X' Rl Nr Fr ltac:(lia)) as (p' & Ep' & Es & X'' & R'').
  rewrite Ep in Ep'. injection Ep' as <-. rewrite Es. apply sim_ok. auto.
Qed.

Lemma galoisConjugate_sim h a psa la : rep h a psa la -> sim (HgaloisConjugate a h) (galoisConjugate la) (made h).
Proof.
  intros Ra. apply (sim_made (HgaloisConjugate a)); [|apply t_galoisConjugate]. unfold HgaloisConjugate, galoisConjugate.
  destruct (rep_len _ _ _ _ Ra) as [_ La]. rewrite La. set (n := s_len a) in *.
  destruct (make_filled_ok n h) as (r & h2 & E & Mr & Lr). rewrite (step _ _ _ _ _ E).
  assert (X12 : ext h h2) by apply Mr. pose proof Mr as (_ & _ & Cr & pr & Nr & Rr).
  pose proof (made_ptrs _ _ _ _ _ Mr Rr) as Fr.
  apply (sim_tail _ _ _ (fun l _ h' => ext h h' /\ rep h' r pr l)).
  2: { intros l u h' (X' & R'). apply sim_ok. split; [exact Cr|]. eauto. }
  apply (fill_one n _ _ h h2 r pr X12 Rr). intros l h' i Hi X' Rl Ll.
  rewrite (sget_bind _ _ _ _ _ _ Rl).
  destruct (nth_error pr i) as [p|] eqn:Ep; [|apply nth_error_None in Ep; destruct (rep_len _ _ _ _ Rl); lia].
  rewrite (step _ _ _ _ _ (hnew_eq h' _)), (step _ _ _ _ _ (hget_hn h' _)).
  set (h3 := hn h' _). assert (X3 : ext h h3) by (apply ext_hn; exact X'). assert (Rl3 : rep h3 r pr l) by (apply rep_hn; exact Rl).
  rewrite (sval_bind _ _ _ _ _ _ (rep_ext _ _ _ _ _ X3 Ra)). unfold idx.
  destruct (nth_error la i) as [x|]; [|reflexivity]. cbn [bind].
  destruct (put_step h h3 r pr l i ((-1) ^ Z.of_nat i * x) X3 Rl3 Nr Fr ltac:(lia)) as (p' & Ep' & Es & X'' & R'').
  rewrite Ep in Ep'. injection Ep' as <-. rewrite Es. apply sim_ok. auto.
Qed.

Lemma fieldNorm_sim h a psa la : rep h a psa la -> sim (HfieldNorm a h) (fieldNorm la) (made h).
Proof.
  intros Ra. apply (sim_made (HfieldNorm a)); [|apply t_fieldNorm]. unfold HfieldNorm, fieldNorm.
  destruct (rep_len _ _ _ _ Ra) as [_ La]. rewrite La. set (n2 := Nat.div (s_len a) 2).
  destruct (two_made n2 h) as (ax & bx & h1 & pa & pb & E & X1 & Rax & Rbx & Na & Nb & Dab & Fa & Fb & Lax & Lbx & Cax & Cbx).
  rewrite E. clear E. rewrite pair_bind.
  eapply sim_bind.
  { apply (fill_two n2 _ _ _ h h1 ax bx pa pb X1 Rax Rbx); [intros i; apply nobad_idx|intros i; apply nobad_idx|].
    intros lx ly h' i Hi X' Rx Ry Lx Ly. rewrite (sget_bind _ _ _ _ _ _ Rx).
    pose proof (rep_same _ _ _ _ i Rx) as Sx. pose proof (rep_same _ _ _ _ i Ry) as Sy.
    destruct (nth_error lx i) as [x0|] eqn:Ex; [|apply nth_error_None in Ex; lia].
    destruct (nth_error ly i) as [y0|] eqn:Ey; [|apply nth_error_None in Ey; lia].
    destruct (nth_error pa i) as [px|] eqn:Epx; [|contradiction]. destruct (nth_error pb i) as [py|] eqn:Epy; [|contradiction].
    rewrite (sval_bind _ _ _ _ _ _ (rep_ext _ _ _ _ _ X' Ra)). unfold idx.
    destruct (nth_error la (2 * i)) as [x|]; [|reflexivity]. cbn [bind].
    rewrite (hset_bind _ _ _ _ _ Sx). set (h2 := hs h' px x).
    assert (X2 : ext h h2) by (apply ext_hs; [exact X'|exact (Forall_nth _ _ _ _ Fa Epx)]).
    assert (Rx2 : rep h2 ax pa (upd lx i x)) by (apply rep_hs_in; assumption).
    assert (Ry2 : rep h2 bx pb ly).
    { apply rep_hs; [exact Ry|]. intros Hp. apply (Dab px); [eapply nth_error_In; eauto|exact Hp]. }
    rewrite (sget_bind _ _ _ _ _ _ Ry2), Epy.
    rewrite (sval_bind _ _ _ _ _ _ (rep_ext _ _ _ _ _ X2 Ra)). destruct (nth_error la (2 * i + 1)) as [y|]; [|reflexivity]. cbn [bind].
    rewrite (hset_eq _ _ _ y0) by (eapply rep_holds; eauto). apply sim_ok. cbn [fst snd].
    split; [apply ext_hs; [exact X2|exact (Forall_nth _ _ _ _ Fb Epy)]|].
    split; [|apply rep_hs_in; assumption]. apply rep_hs; [exact Rx2|]. intros Hp. apply (Dab py); [exact Hp|eapply nth_error_In; eauto]. }
  intros [vae vao] u h2 _ _ (X2 & Rae & Rao). cbn [fst snd] in *. clear u.
  eapply sim_bind; [apply (karamul_sim _ _ _ _ _ _ _ Rae Rae)|]. intros ve ae2 h3 _ _ Me.
  assert (X23 : ext h2 h3) by apply Me. pose proof Me as (_ & _ & Ce & pe & Ne & Re). pose proof (made_ptrs _ _ _ _ _ Me Re) as Fe.
  (* the pointers of aeSquared are below those of aoSquared *)
  pose proof (rep_below _ _ _ _ Re) as De.
  eapply sim_bind; [apply (karamul_sim _ _ _ _ _ _ _ (rep_ext _ _ _ _ _ X23 Rao) (rep_ext _ _ _ _ _ X23 Rao))|].
  intros vo ao2 h4 _ _ Mo. assert (X34 : ext h3 h4) by apply Mo. pose proof Mo as (_ & _ & Co & po & No & Ro).
  pose proof (made_ptrs _ _ _ _ _ Mo Ro) as Fo. apply (rep_ext _ _ _ _ _ X34) in Re.
  destruct (rep_len _ _ _ _ Re) as [Lpe Lve].
  assert (S0 : reslice ae2 0 (s_len ae2) h4 = Ok (ae2, h4)).
  { unfold reslice. rewrite Ce. cbn [Nat.leb andb]. rewrite Nat.leb_refl. rewrite Nat.add_0_r, !Nat.sub_0_r.
    unfold ret. do 3 f_equal. destruct ae2 as [x1 x2 x3 x4]. cbn in *. rewrite Ce. reflexivity. }
  rewrite (step _ _ _ _ _ S0).
  set (RR := fun l (h' : heap) => rep h' ae2 pe l /\ rep h' ao2 po vo).
  assert (UP : forall l h' j p z, RR l h' -> nth_error pe j = Some p -> RR (upd l j z) (hs h' p z)).
  { intros l h' j p z [A B] Ep. split; [apply rep_hs_in; assumption|]. apply rep_hs; [exact B|].
    intros Hp. pose proof (Forall_nth _ _ _ _ De Ep). rewrite Forall_forall in Fo. specialize (Fo _ Hp). cbv beta in *. lia. }
  eapply sim_bind.
  { apply (sim_for RR); [|split; assumption]. intros l h' i _ Rl. pose proof Rl as [Rl1 Rl2].
    rewrite (sget_bind _ _ _ _ _ _ Rl1). pose proof (rep_same _ _ _ _ (i + 1) Rl1) as S. unfold idx.
    destruct (nth_error pe (i + 1)) as [p|] eqn:Ep; destruct (nth_error l (i + 1)) as [z|] eqn:El; try contradiction.
    - rewrite (sval_bind _ _ _ _ _ _ Rl1), El, (sval_bind _ _ _ _ _ _ Rl2).
      destruct (nth_error vo i) as [x|]; [|reflexivity]. cbn [bind]. rewrite add_at_eq, El, (hset_eq _ _ _ _ S).
      replace (z + - x) with (z - x) by lia. apply sim_ok. apply UP; assumption.
    - destruct (nth_error vo i); [|reflexivity]. cbn [bind]. rewrite add_at_eq, El. reflexivity. }
  intros l u h5 _ _ Rl. cbv beta in Rl. pose proof Rl as [Rl1 Rl2].
  rewrite (sget_bind _ _ _ _ _ _ Rl1). pose proof (rep_same _ _ _ _ 0 Rl1) as S. unfold idx.
  destruct (nth_error pe 0) as [p|] eqn:Ep; destruct (nth_error l 0) as [z|] eqn:El; try contradiction.
  - rewrite (sval_bind _ _ _ _ _ _ Rl1), El, (sval_bind _ _ _ _ _ _ Rl2).
    destruct (nth_error vo (n2 - 1)) as [x|]; [|reflexivity]. cbn [bind]. rewrite add_at_eq, El, (hset_bind _ _ _ _ _ S).
    apply sim_ok. split; [exact Ce|]. exists pe. split; [exact Ne|]. apply UP; assumption.
  - destruct (nth_error vo (n2 - 1)); [|reflexivity]. cbn [bind]. rewrite add_at_eq, El. reflexivity.
Qed.
