(** The heap model computes what the list model computes. *)
From Verif Require Import GoBase Util Ntrugen Heap BaseProofs HeapFrame.

(** the slice s holds the pointers ps *)
Definition ptrs (h : heap) (s : sl) (ps : list nat) : Prop :=
  exists arr, nth_error (h_arr h) (s_arr s) = Some arr /\
    firstn (s_len s) (skipn (s_off s) arr) = map Some ps /\ length ps = s_len s /\ (s_len s <= s_cap s)%nat.
Definition holds (h : heap) (p : nat) (z : Z) : Prop := nth_error (h_int h) p = Some z.
(** ... and these point to the integers l *)
Definition rep (h : heap) (s : sl) (ps : list nat) (l : list Z) : Prop :=
  ptrs h s ps /\ Forall2 (holds h) ps l.

Lemma rep_len h s ps l : rep h s ps l -> length ps = s_len s /\ length l = s_len s.
Proof. intros [(arr & _ & _ & L & _) F]. split; [exact L|]. rewrite <- L. clear -F. induction F; cbn; congruence. Qed.

Lemma rep_ext h h' s ps l : ext h h' -> rep h s ps l -> rep h' s ps l.
Proof.
  intros (li & la & E1 & E2) [(arr & A & B) F]. split.
  - exists arr. split; [|exact B]. rewrite E2. rewrite nth_error_app1; [exact A|]. apply nth_error_Some. congruence.
  - clear -F E1. induction F as [|p z ps l Hp F IH]; constructor; [|exact IH]. unfold holds in *. rewrite E1.
    rewrite nth_error_app1; [exact Hp|]. apply nth_error_Some. congruence.
Qed.

Definition hs (h : heap) (p : nat) (z : Z) : heap := {| h_int := upd (h_int h) p z; h_arr := h_arr h |}.
Definition hn (h : heap) (z : Z) : heap := {| h_int := h_int h ++ [z]; h_arr := h_arr h |}.
Lemma ext_hn h0 h z : ext h0 h -> ext h0 (hn h z).
Proof. intros (li & la & E1 & E2). exists (li ++ [z]), la. cbn. rewrite E1, app_assoc. auto. Qed.
Lemma ext_hs h0 h p z : ext h0 h -> (length (h_int h0) <= p)%nat -> ext h0 (hs h p z).
Proof.
  intros (li & la & E1 & E2) H. exists (upd li (p - length (h_int h0)) z), la. cbn. rewrite E1. split; [|exact E2].
  apply upd_app_l. exact H.
Qed.
Lemma hset_eq h p z x : holds h p x -> hset (Some p) z h = Ok (tt, hs h p z).
Proof.
  intros H. unfold hset. assert (p < length (h_int h))%nat by (apply nth_error_Some; unfold holds in H; congruence).
  destruct (Nat.ltb_spec p (length (h_int h))); [reflexivity|lia].
Qed.
Lemma hnew_eq h z : hnew z h = Ok (Some (length (h_int h)), hn h z). Proof. reflexivity. Qed.
Lemma hget_eq h p z : holds h p z -> hget (Some p) h = Ok (z, h).
Proof. intros H. unfold hget, idx. rewrite H. reflexivity. Qed.
Lemma hget_hn h z : hget (Some (length (h_int h))) (hn h z) = Ok (z, hn h z).
Proof. apply hget_eq. unfold holds. cbn. rewrite nth_error_app2, Nat.sub_diag by lia. reflexivity. Qed.

Lemma rep_holds h s ps l i p z : rep h s ps l -> nth_error ps i = Some p -> nth_error l i = Some z -> holds h p z.
Proof.
  intros [_ F]. revert i. induction F; intros i A B; [destruct i; discriminate|].
  destruct i; cbn in A, B; [injection A as <-; injection B as <-; assumption|eauto].
Qed.
Lemma rep_ptr h s ps l i z : rep h s ps l -> nth_error l i = Some z -> exists p, nth_error ps i = Some p.
Proof.
  intros R E. destruct (rep_len _ _ _ _ R) as [A B]. destruct (nth_error ps i) eqn:N; [eauto|].
  apply nth_error_None in N. assert (i < length l)%nat by (apply nth_error_Some; congruence). lia.
Qed.
Lemma sget_eq h s ps l i p : rep h s ps l -> nth_error ps i = Some p -> sget s i h = Ok (Some p, h).
Proof.
  intros [(arr & A & B & L & _) F] E. unfold sget.
  assert (i < s_len s)%nat by (rewrite <- L; apply nth_error_Some; congruence).
  destruct (Nat.ltb_spec i (s_len s)); [|lia]. unfold idx. rewrite A. cbn [bind].
  assert (X : nth_error arr (s_off s + i) = Some (Some p)).
  { assert (Y : nth_error (firstn (s_len s) (skipn (s_off s) arr)) i = Some (Some p)) by (rewrite B, nth_error_map, E; reflexivity).
    rewrite <- (firstn_skipn (s_off s) arr). 
    assert (Z1 : nth_error (skipn (s_off s) arr) i = Some (Some p)).
    { rewrite <- (firstn_skipn (s_len s) (skipn (s_off s) arr)). rewrite nth_error_app1; [exact Y|]. apply nth_error_Some. congruence. }
    assert (length (skipn (s_off s) arr) > 0)%nat by (destruct (skipn (s_off s) arr); [destruct i; discriminate|cbn; lia]).
    rewrite skipn_length in H1.
    rewrite nth_error_app2 by (rewrite firstn_length; lia). rewrite firstn_length, Nat.min_l by lia.
    replace (s_off s + i - s_off s)%nat with i by lia. exact Z1. }
  rewrite X. reflexivity.
Qed.
Lemma sget_out h s ps l i : rep h s ps l -> nth_error l i = None -> sget s i h = Panic.
Proof.
  intros R E. apply nth_error_None in E. destruct (rep_len _ _ _ _ R) as [_ L]. unfold sget.
  destruct (Nat.ltb_spec i (s_len s)); [lia|reflexivity].
Qed.
Lemma sval_eq h s ps l i : rep h s ps l -> sval s i h = (z <- idx l i ;; Ok (z, h)).
Proof.
  intros R. unfold sval, mbind. unfold idx at 1. destruct (nth_error l i) as [z|] eqn:E; cbn [bind].
  - destruct (rep_ptr _ _ _ _ _ _ R E) as [p Hp]. rewrite (sget_eq _ _ _ _ _ _ R Hp).
    apply hget_eq. eapply rep_holds; eauto.
  - rewrite (sget_out _ _ _ _ _ R E). reflexivity.
Qed.

Lemma F2_hs h ps l p z : Forall2 (holds h) ps l -> ~ In p ps -> Forall2 (holds (hs h p z)) ps l.
Proof.
  intros F N. induction F as [|p0 z0 ps l H0 F IH]; [constructor|].
  constructor; [|apply IH; intros X; apply N; right; exact X]. unfold holds in *. cbn.
  destruct (Nat.lt_ge_cases p (length (h_int h))).
  - rewrite nth_error_upd by assumption. destruct (Nat.eqb_spec p0 p) as [->|]; [destruct N; left; reflexivity|exact H0].
  - assert (p0 < length (h_int h))%nat by (apply nth_error_Some; congruence).
    unfold upd. rewrite firstn_all2 by lia. rewrite nth_error_app1 by lia. exact H0.
Qed.
Lemma F2_hs_in h ps l i p z : Forall2 (holds h) ps l -> NoDup ps -> nth_error ps i = Some p ->
  Forall2 (holds (hs h p z)) ps (upd l i z).
Proof.
  intros F. revert i. induction F as [|p0 z0 ps l H0 F IH]; intros i N E; [destruct i; discriminate|].
  inversion N as [|? ? N1 N2]; subst. destruct i as [|i]; cbn in E.
  - injection E as ->. unfold upd. cbn [firstn skipn app].
    assert (p < length (h_int h))%nat by (apply nth_error_Some; unfold holds in H0; congruence).
    constructor; [|apply F2_hs; assumption].
    unfold holds. cbn. rewrite nth_error_upd, Nat.eqb_refl by assumption. reflexivity.
  - change (upd (z0 :: l) (S i) z) with (z0 :: upd l i z). constructor; [|apply IH; assumption].
    assert (p0 <> p) by (intros ->; apply N1; eapply nth_error_In; eauto).
    unfold holds in *. cbn. destruct (Nat.lt_ge_cases p (length (h_int h))).
    + rewrite nth_error_upd by assumption. destruct (Nat.eqb_spec p0 p); [contradiction|exact H0].
    + assert (p0 < length (h_int h))%nat by (apply nth_error_Some; congruence).
      unfold upd. rewrite firstn_all2 by lia. rewrite nth_error_app1 by lia. exact H0.
Qed.
Lemma rep_hs h s ps l p z : rep h s ps l -> ~ In p ps -> rep (hs h p z) s ps l.
Proof. intros [P F] N. split; [exact P|apply F2_hs; assumption]. Qed.
Lemma rep_hs_in h s ps l i p z : rep h s ps l -> NoDup ps -> nth_error ps i = Some p ->
  rep (hs h p z) s ps (upd l i z).
Proof. intros [P F] N E. split; [exact P|apply F2_hs_in; assumption]. Qed.

(** ** Simulation *)
Definition sim {A B} (mh : res (A * heap)) (p : res B) (R : B -> A -> heap -> Prop) : Prop :=
  match p with
  | Ok b => exists a h', mh = Ok (a, h') /\ R b a h'
  | Err e => mh = Err e
  | Panic => mh = Panic
  | Diverge => mh = Diverge
  end.
Lemma sim_bind {A A' B B'} (m : M A) (k : A -> M A') (p : res B) (q : B -> res B') R S h :
  sim (m h) p R -> (forall b a h', p = Ok b -> m h = Ok (a, h') -> R b a h' -> sim (k a h') (q b) S) ->
  sim (mbind m k h) (bind p q) S.
Proof.
  unfold mbind. intros H K. destruct p as [b| | |]; cbn [sim bind] in *; try (rewrite H; reflexivity).
  destruct H as (a & h' & E & HR). rewrite E. eapply K; eauto.
Qed.
Lemma sim_weak {A B} (mh : res (A * heap)) (p : res B) (R S : B -> A -> heap -> Prop) :
  sim mh p R -> (forall b a h', p = Ok b -> mh = Ok (a, h') -> R b a h' -> S b a h') -> sim mh p S.
Proof. intros H W. destruct p; cbn in *; auto. destruct H as (x & h' & E & HR). exists x, h'. auto. Qed.
Lemma sim_ok {A B} (a : A) (b : B) h' (R : B -> A -> heap -> Prop) : R b a h' -> sim (Ok (a, h')) (Ok b) R.
Proof. intros H. exists a, h'. auto. Qed.
(** a step of the heap model that always succeeds *)
Lemma step {A B} (m : M A) (k : A -> M B) h a h' : m h = Ok (a, h') -> mbind m k h = k a h'.
Proof. intros E. unfold mbind. rewrite E. reflexivity. Qed.
Lemma sim_for {B} (R : B -> heap -> Prop) (f : B -> nat -> res B) body l :
  (forall b h i, In i l -> R b h -> sim (body i h) (f b i) (fun b' _ h' => R b' h')) ->
  forall b h, R b h -> sim (for_ l body h) (foldM f l b) (fun b' _ h' => R b' h').
Proof.
  induction l as [|i l IH]; intros H b h Hb; cbn [for_ foldM]; [apply sim_ok; exact Hb|].
  eapply sim_bind; [apply H; [left; reflexivity|exact Hb]|]. intros b' u h' _ _ Hb'.
  apply IH; [|exact Hb']. intros. apply H; [right; assumption|assumption].
Qed.

(** a loop that fills a vector *)
Lemma mapM_fold (f : nat -> res Z) : forall m k l1 l2, length l1 = k -> length l2 = m ->
  foldM (fun l i => z <- f i ;; Ok (upd l i z)) (seq k m) (l1 ++ l2) = (bs <- mapM f (seq k m) ;; Ok (l1 ++ bs)).
Proof.
  induction m as [|m IH]; intros k l1 l2 L1 L2; cbn [seq foldM mapM bind].
  - destruct l2; [|discriminate]. reflexivity.
  - destruct (f k) as [z| | |]; cbn [bind]; try reflexivity. destruct l2 as [|y l2]; [discriminate|].
    replace (upd (l1 ++ y :: l2) k z) with ((l1 ++ [z]) ++ l2).
    + rewrite IH; [|rewrite app_length; cbn; lia|cbn in L2; lia]. destruct (mapM f (seq (S k) m)); cbn [bind]; try reflexivity.
      rewrite <- app_assoc. reflexivity.
    + subst k. unfold upd. rewrite firstn_app, firstn_all, Nat.sub_diag. cbn [firstn]. rewrite app_nil_r.
      rewrite skipn_app, skipn_all2 by lia. replace (S (length l1) - length l1)%nat with 1%nat by lia. cbn [skipn app].
      rewrite <- app_assoc. reflexivity.
Qed.
Lemma mapM_fold0 (f : nat -> res Z) n : foldM (fun l i => z <- f i ;; Ok (upd l i z)) (seq 0 n) (repeat 0 n) = mapM f (seq 0 n).
Proof.
  change (repeat 0 n) with ([] ++ repeat 0 n).
  rewrite (mapM_fold f n 0 []) by (cbn; rewrite ?repeat_length; reflexivity).
  destruct (mapM f (seq 0 n)); reflexivity.
Qed.
(** two interleaved loops against one after the other *)
Definition nobad {A} (r : res A) : Prop := match r with Ok _ | Panic => True | _ => False end.
Lemma foldM_pair {A B} (f : A -> nat -> res A) (g : B -> nat -> res B) l :
  (forall a i, nobad (f a i)) -> (forall b i, nobad (g b i)) -> forall a b,
  foldM (fun ab i => a <- f (fst ab) i ;; b <- g (snd ab) i ;; Ok (a, b)) l (a, b) =
  (a <- foldM f l a ;; b <- foldM g l b ;; Ok (a, b)).
Proof.
  intros Hf Hg.
  assert (Ng : forall l b, nobad (foldM g l b)).
  { induction l0 as [|i l0 IH]; intros b; cbn [foldM]; [exact I|]. pose proof (Hg b i). destruct (g b i); cbn in *; auto. }
  assert (Nf : forall l a, nobad (foldM f l a)).
  { induction l0 as [|i l0 IH]; intros a; cbn [foldM]; [exact I|]. pose proof (Hf a i). destruct (f a i); cbn in *; auto. }
  induction l as [|i l IH]; intros a b; cbn [foldM bind]; [reflexivity|]. cbn [fst snd].
  pose proof (Hf a i). destruct (f a i) as [a'| | |]; cbn [bind]; cbn in H; try contradiction; try reflexivity.
  pose proof (Hg b i). destruct (g b i) as [b'| | |]; cbn [bind]; cbn in H0; try contradiction.
  - apply IH.
  - pose proof (Nf l a'). destruct (foldM f l a'); cbn in *; try contradiction; reflexivity.
Qed.
Lemma nobad_idx {A} (l : list A) i : nobad (idx l i).
Proof. unfold idx. destruct (nth_error l i); exact I. Qed.

(** ** Allocation *)
Definition mk_sl (a n : nat) : sl := {| s_arr := a; s_off := 0; s_len := n; s_cap := n |}.
Lemma upd_last {A} (l : list A) x y : upd (l ++ [x]) (length l) y = l ++ [y].
Proof. rewrite upd_app_l, Nat.sub_diag by lia. reflexivity. Qed.

Lemma Fill_loop a n : forall m k h l1, length l1 = k -> n = (k + m)%nat ->
  nth_error (h_arr h) a = Some (l1 ++ repeat None m) ->
  for_ (seq k m) (fun i => p <~ hnew 0 ;; sset (mk_sl a n) i p) h =
  Ok (tt, {| h_int := h_int h ++ repeat 0 m; h_arr := upd (h_arr h) a (l1 ++ map Some (seq (length (h_int h)) m)) |}).
Proof.
  induction m as [|m IH]; intros k h l1 L N E; cbn [seq for_].
  - cbn [repeat map] in *. rewrite !app_nil_r in *. unfold ret. do 2 f_equal. destruct h as [hi ha]. cbn [h_int h_arr] in *.
    f_equal. unfold upd. symmetry. apply nth_error_split in E as (x & y & -> & <-). 
    rewrite firstn_app, firstn_all, Nat.sub_diag. cbn [firstn]. rewrite app_nil_r. f_equal. f_equal.
    rewrite skipn_app, skipn_all2 by lia. replace (S (length x) - length x)%nat with 1%nat by lia. reflexivity.
  - assert (La : (a < length (h_arr h))%nat) by (apply nth_error_Some; congruence).
    set (h1 := {| h_int := h_int h ++ [0]; h_arr := upd (h_arr h) a (l1 ++ Some (length (h_int h)) :: repeat None m) |}).
    assert (S1 : (p <~ hnew 0 ;; sset (mk_sl a n) k p) h = Ok (tt, h1)).
    { rewrite (step _ _ _ _ _ (hnew_eq h 0)). unfold sset. cbn [s_len s_off s_arr mk_sl].
      destruct (Nat.ltb_spec k n); [|lia]. unfold idx. cbn [hn h_arr]. rewrite E. cbn [bind]. cbn [Nat.add].
      destruct (Nat.ltb_spec k (length (l1 ++ repeat None (S m)))) as [|X];
        [|rewrite app_length, repeat_length in X; lia].
      unfold h1. do 3 f_equal. cbn [h_int h_arr hn]. f_equal. cbn [repeat].
      rewrite upd_app_l by lia. f_equal. replace (k - length l1)%nat with 0%nat by lia. reflexivity. }
    rewrite (step _ _ _ _ _ S1).
    rewrite (IH (S k) h1 (l1 ++ [Some (length (h_int h))])); [|rewrite app_length; cbn; lia|lia|].
    + unfold h1. cbn [h_int h_arr]. do 2 f_equal. f_equal.
      * rewrite <- app_assoc. reflexivity.
      * rewrite <- app_assoc. cbn [app seq map]. rewrite app_length. cbn [length]. rewrite Nat.add_1_r.
        unfold upd. rewrite firstn_app, firstn_firstn, Nat.min_id, firstn_length, Nat.min_l, Nat.sub_diag by lia.
        cbn [firstn]. rewrite app_nil_r. f_equal. f_equal.
        rewrite skipn_app, skipn_all2 by (rewrite firstn_length; lia). rewrite firstn_length, Nat.min_l by lia.
        replace (S a - a)%nat with 1%nat by lia. reflexivity.
    + unfold h1. cbn [h_arr]. rewrite nth_error_upd, Nat.eqb_refl by exact La. rewrite <- app_assoc. reflexivity.
Qed.
Lemma Fill_eq a n h : nth_error (h_arr h) a = Some (repeat None n) ->
  FillBigIntSlice (mk_sl a n) h =
  Ok (tt, {| h_int := h_int h ++ repeat 0 n; h_arr := upd (h_arr h) a (map Some (seq (length (h_int h)) n)) |}).
Proof. intros E. unfold FillBigIntSlice. cbn [s_len mk_sl]. exact (Fill_loop a n n 0 h [] eq_refl eq_refl E). Qed.

Lemma rep_fresh_ints h a n ps l : length ps = n -> nth_error (h_arr h) a = Some (map Some ps) -> Forall2 (holds h) ps l ->
  rep h (mk_sl a n) ps l.
Proof.
  intros <- E F. split; [|exact F]. exists (map Some ps). cbn [s_arr s_off s_len s_cap mk_sl]. split; [exact E|].
  cbn [skipn]. rewrite firstn_all2 by (rewrite map_length; lia). repeat split; lia.
Qed.
Lemma F2_new hi ha l : Forall2 (holds {| h_int := hi ++ l; h_arr := ha |}) (seq (length hi) (length l)) l.
Proof.
  assert (X : forall l2 k, (forall i z, nth_error l2 i = Some z -> nth_error (hi ++ l) (k + i) = Some z) ->
    Forall2 (holds {| h_int := hi ++ l; h_arr := ha |}) (seq k (length l2)) l2).
  { induction l2 as [|z l2 IH]; intros k H; cbn [length seq]; [constructor|]. constructor.
    - unfold holds. cbn. rewrite <- (Nat.add_0_r k). apply H. reflexivity.
    - apply IH. intros i y Hy. rewrite Nat.add_succ_comm. apply H. exact Hy. }
  apply X. intros i z E. rewrite nth_error_app2 by lia. rewrite <- E. f_equal. lia.
Qed.

(** what a function that builds a vector establishes *)
Definition made (h : heap) (v : list Z) (r : sl) (h' : heap) : Prop :=
  inv h h' /\ fresh h r /\ s_cap r = s_len r /\ exists ps, NoDup ps /\ rep h' r ps v.
Lemma made_ptrs h v r h' ps : made h v r h' -> rep h' r ps v -> Forall (fun p => (length (h_int h) <= p)%nat) ps.
Proof.
  intros ((_ & I) & F & _) [(arr & A & B & _) _]. specialize (I _ _ F A). apply Forall_forall. intros p Hp.
  rewrite Forall_forall in I. apply (I (Some p)); [|reflexivity].
  assert (In (Some p) (map Some ps)) by (apply in_map; exact Hp). rewrite <- B in H.
  rewrite <- (firstn_skipn (s_off r) arr). apply in_or_app. right.
  rewrite <- (firstn_skipn (s_len r) (skipn (s_off r) arr)). apply in_or_app. left. exact H.
Qed.

Lemma make_filled_ok n h : exists r h', make_filled n h = Ok (r, h') /\ made h (repeat 0 n) r h' /\ s_len r = n.
Proof.
  unfold make_filled. set (a := length (h_arr h)).
  set (h1 := {| h_int := h_int h; h_arr := h_arr h ++ [repeat None n] |}).
  assert (E1 : hmake n h = Ok (mk_sl a n, h1)) by reflexivity. rewrite (step _ _ _ _ _ E1).
  assert (E2 : nth_error (h_arr h1) a = Some (repeat None n))
    by (unfold h1, a; cbn; rewrite nth_error_app2, Nat.sub_diag by lia; reflexivity).
  rewrite (step _ _ _ _ _ (Fill_eq a n h1 E2)). eexists _, _. split; [reflexivity|]. split; [|reflexivity].
  assert (T : make_filled n h = Ok (mk_sl a n, {| h_int := h_int h1 ++ repeat 0 n;
     h_arr := upd (h_arr h1) a (map Some (seq (length (h_int h1)) n)) |})).
  { unfold make_filled. rewrite (step _ _ _ _ _ E1), (step _ _ _ _ _ (Fill_eq a n h1 E2)). reflexivity. }
  destruct (t_make_filled h n h _ _ (inv_refl h) T) as [I F]. split; [exact I|]. split; [exact F|]. split; [reflexivity|].
  exists (seq (length (h_int h1)) n). split; [apply seq_NoDup|].
  apply rep_fresh_ints; [apply seq_length| |].
  - cbn [h_arr]. unfold h1, a. cbn [h_arr h_int]. rewrite upd_last, nth_error_app2, Nat.sub_diag by lia. reflexivity.
  - pose proof (F2_new (h_int h1) (upd (h_arr h1) a (map Some (seq (length (h_int h1)) n))) (repeat 0 n)) as X.
    rewrite repeat_length in X. exact X.
Qed.

Lemma new_ints_eq l : forall h, new_ints l h =
  Ok (map Some (seq (length (h_int h)) (length l)), {| h_int := h_int h ++ l; h_arr := h_arr h |}).
Proof.
  induction l as [|z l IH]; intros h; cbn [new_ints].
  - cbn. rewrite app_nil_r. destruct h. reflexivity.
  - rewrite (step _ _ _ _ _ (hnew_eq h z)). rewrite (step _ _ _ _ _ (IH (hn h z))). cbn [hn h_int h_arr length seq map].
    unfold ret. do 2 f_equal.
    + rewrite app_length, Nat.add_1_r. reflexivity.
    + rewrite <- app_assoc. reflexivity.
Qed.
Lemma put_loop a n os : length os = n -> forall m k h l2, (k + m = n)%nat -> length l2 = m ->
  nth_error (h_arr h) a = Some (firstn k os ++ l2) ->
  for_ (seq k m) (fun i => o <~ fail (idx os i) ;; sset (mk_sl a n) i o) h =
  Ok (tt, {| h_int := h_int h; h_arr := upd (h_arr h) a os |}).
Proof.
  intros Lo. induction m as [|m IH]; intros k h l2 N L2 E; cbn [seq for_].
  - destruct l2; [|discriminate]. rewrite app_nil_r, firstn_all2 in E by lia.
    unfold ret. do 2 f_equal. destruct h as [hi ha]. cbn [h_int h_arr] in *. f_equal. unfold upd. symmetry.
    apply nth_error_split in E as (x & y & -> & <-). rewrite firstn_app, firstn_all, Nat.sub_diag. cbn [firstn].
    rewrite app_nil_r. f_equal. f_equal. rewrite skipn_app, skipn_all2 by lia.
    replace (S (length x) - length x)%nat with 1%nat by lia. reflexivity.
  - assert (La : (a < length (h_arr h))%nat) by (apply nth_error_Some; congruence).
    destruct l2 as [|y l2]; [discriminate|]. destruct (nth_error os k) as [o|] eqn:Eo;
      [|apply nth_error_None in Eo; lia].
    set (h1 := {| h_int := h_int h; h_arr := upd (h_arr h) a (firstn (S k) os ++ l2) |}).
    assert (F1 : firstn (S k) os = firstn k os ++ [o]).
    { apply nth_error_split in Eo as (x & z & -> & <-). rewrite !firstn_app, firstn_all, firstn_all2 by lia.
      rewrite Nat.sub_diag. replace (S (length x) - length x)%nat with 1%nat by lia. cbn [firstn].
      rewrite app_nil_r. reflexivity. }
    assert (S1 : (o <~ fail (idx os k) ;; sset (mk_sl a n) k o) h = Ok (tt, h1)).
    { unfold mbind at 1. unfold fail, idx. rewrite Eo. unfold sset. cbn [s_len s_off s_arr mk_sl].
      destruct (Nat.ltb_spec k n); [|lia]. unfold idx. rewrite E. cbn [bind Nat.add].
      assert (Lk : length (firstn k os) = k) by (rewrite firstn_length; lia).
      destruct (Nat.ltb_spec k (length (firstn k os ++ y :: l2))) as [|X]; [|rewrite app_length in X; cbn in X; lia].
      unfold h1. do 3 f_equal. rewrite upd_app_l by lia. rewrite F1, <- app_assoc. f_equal.
      replace (k - length (firstn k os))%nat with 0%nat by lia. reflexivity. }
    rewrite (step _ _ _ _ _ S1). rewrite (IH (S k) h1 l2); [|lia|cbn in L2; lia|].
    + unfold h1. cbn [h_int h_arr]. do 2 f_equal. f_equal. 
      unfold upd. rewrite firstn_app, firstn_firstn, Nat.min_id, firstn_length, Nat.min_l, Nat.sub_diag by lia.
      cbn [firstn]. rewrite app_nil_r. f_equal. f_equal.
      rewrite skipn_app, skipn_all2 by (rewrite firstn_length; lia). rewrite firstn_length, Nat.min_l by lia.
      replace (S a - a)%nat with 1%nat by lia. reflexivity.
    + unfold h1. cbn [h_arr]. rewrite nth_error_upd, Nat.eqb_refl by exact La. reflexivity.
Qed.
Lemma literal_ok l h : exists r h', literal l h = Ok (r, h') /\ made h l r h' /\ s_len r = length l.
Proof.
  set (a := length (h_arr h)). set (n := length l). set (os := map Some (seq (length (h_int h)) n)).
  set (h1 := {| h_int := h_int h ++ l; h_arr := h_arr h |}).
  set (h2 := {| h_int := h_int h ++ l; h_arr := h_arr h ++ [repeat None n] |}).
  assert (T : literal l h = Ok (mk_sl a n, {| h_int := h_int h2; h_arr := upd (h_arr h2) a os |})).
  { unfold literal. rewrite (step _ _ _ _ _ (new_ints_eq l h)). fold n os h1.
    assert (E1 : hmake n h1 = Ok (mk_sl a n, h2)) by reflexivity. rewrite (step _ _ _ _ _ E1).
    rewrite (step _ _ _ _ _ (put_loop a n os ltac:(unfold os; rewrite map_length, seq_length; reflexivity)
      n 0 h2 (repeat None n) ltac:(lia) ltac:(apply repeat_length)
      ltac:(unfold h2, a; cbn; rewrite nth_error_app2, Nat.sub_diag by lia; reflexivity))). reflexivity. }
  eexists _, _. split; [exact T|]. split; [|reflexivity].
  destruct (t_literal h l h _ _ (inv_refl h) T) as [I F]. split; [exact I|]. split; [exact F|]. split; [reflexivity|].
  exists (seq (length (h_int h)) n). split; [apply seq_NoDup|].
  apply rep_fresh_ints; [apply seq_length| |].
  - cbn [h_arr]. unfold h2, a. cbn [h_arr h_int]. rewrite upd_last, nth_error_app2, Nat.sub_diag by lia. reflexivity.
  - apply F2_new.
Qed.
