(** What the functions of Heap.v may write. *)
From Verif Require Import GoBase Util Ntrugen Heap BaseProofs.

(** every integer and every array of h is still there, unchanged, in h' *)
Definition ext (h h' : heap) : Prop :=
  exists li la, h_int h' = h_int h ++ li /\ h_arr h' = h_arr h ++ la.
Lemma ext_refl h : ext h h. Proof. exists [], []. rewrite !app_nil_r. auto. Qed.
Lemma ext_trans a b c : ext a b -> ext b c -> ext a c.
Proof.
  intros (i & r & E1 & E2) (i2 & r2 & E3 & E4). exists (i ++ i2), (r ++ r2).
  rewrite E3, E4, E1, E2, !app_assoc. auto.
Qed.

(** [fresh_ptr h0 o]: o does not point into h0; [fresh h0 s]: the array of s is
    not one of h0 *)
Definition fresh_ptr (h0 : heap) (o : option nat) : Prop := forall p, o = Some p -> (length (h_int h0) <= p)%nat.
Definition fresh (h0 : heap) (s : sl) : Prop := (length (h_arr h0) <= s_arr s)%nat.
(** h extends h0 and the arrays that are not in h0 hold fresh pointers only *)
Definition inv (h0 h : heap) : Prop :=
  ext h0 h /\
  forall k arr, (length (h_arr h0) <= k)%nat -> nth_error (h_arr h) k = Some arr -> Forall (fresh_ptr h0) arr.
Lemma inv_refl h : inv h h.
Proof.
  split; [apply ext_refl|]. intros k arr H E.
  assert (k < length (h_arr h))%nat by (apply nth_error_Some; congruence). lia.
Qed.

Definition triple (h0 : heap) {A} (m : M A) (Qr : A -> Prop) : Prop :=
  forall h r h', inv h0 h -> m h = Ok (r, h') -> inv h0 h' /\ Qr r.

Lemma t_bind h0 {A B} (m : M A) (k : A -> M B) P R :
  triple h0 m P -> (forall a, P a -> triple h0 (k a) R) -> triple h0 (mbind m k) R.
Proof.
  intros Hm Hk h r h' I E. unfold mbind in E. destruct (m h) as [[a h1]| | |] eqn:Em; try discriminate.
  destruct (Hm _ _ _ I Em) as [I1 Pa]. exact (Hk a Pa _ _ _ I1 E).
Qed.
Lemma t_ret h0 {A} (a : A) (P : A -> Prop) : P a -> triple h0 (ret a) P.
Proof. intros H h r h' I E. apply Ok_inj in E. injection E as <- <-. auto. Qed.
Lemma t_fail h0 {A} (r : res A) : triple h0 (fail r) (fun _ => True).
Proof. intros h x h' I E. destruct r; try discriminate. apply Ok_inj in E. injection E as <- <-. auto. Qed.
Lemma t_fail2 h0 {A} (r : res A) P : (forall a, r <> Ok a) -> triple h0 (fail r) P.
Proof. intros H h x h' I E. destruct r; try discriminate. destruct (H a). reflexivity. Qed.
Lemma t_weak h0 {A} (m : M A) (P R : A -> Prop) : triple h0 m P -> (forall a, P a -> R a) -> triple h0 m R.
Proof. intros H W h r h' I E. destruct (H _ _ _ I E). auto. Qed.
Lemma t_any h0 {A} (m : M A) P : triple h0 m P -> triple h0 m (fun _ => True).
Proof. intros H. eapply t_weak; [exact H|auto]. Qed.

Lemma t_hget h0 o : triple h0 (hget o) (fun _ => True).
Proof.
  intros h r h' I E. destruct o as [p|]; [|discriminate]. unfold hget in E.
  destruct (idx (h_int h) p); try discriminate. apply Ok_inj in E. injection E as <- <-. auto.
Qed.
Lemma upd_app_l {A} (l1 l2 : list A) i x : (length l1 <= i)%nat -> upd (l1 ++ l2) i x = l1 ++ upd l2 (i - length l1) x.
Proof.
  intros H. unfold upd. rewrite firstn_app, firstn_all2 by lia. rewrite skipn_app, (skipn_all2 l1) by lia.
  cbn [app]. rewrite <- app_assoc. f_equal. f_equal. f_equal. f_equal. lia.
Qed.
Lemma nth_error_upd {A} (l : list A) i x k : (i < length l)%nat ->
  nth_error (upd l i x) k = if Nat.eqb k i then Some x else nth_error l k.
Proof.
  intros H. unfold upd. destruct (Nat.eqb_spec k i) as [->|N].
  - rewrite nth_error_app2 by (rewrite firstn_length; lia). rewrite firstn_length, Nat.min_l, Nat.sub_diag by lia. reflexivity.
  - destruct (Nat.lt_ge_cases k i).
    + rewrite nth_error_app1 by (rewrite firstn_length; lia). apply nth_error_firstn_lt || idtac.
      rewrite <- (firstn_skipn i l) at 2. rewrite nth_error_app1 by (rewrite firstn_length; lia). reflexivity.
    + rewrite nth_error_app2 by (rewrite firstn_length; lia). rewrite firstn_length, Nat.min_l by lia.
      destruct (k - i)%nat as [|j] eqn:Ej; [lia|]. cbn [nth_error].
      rewrite <- (firstn_skipn (S i) l) at 2. rewrite nth_error_app2 by (rewrite firstn_length; lia).
      rewrite firstn_length, Nat.min_l by lia. f_equal. lia.
Qed.
Lemma length_upd {A} (l : list A) i x : (i < length l)%nat -> length (upd l i x) = length l.
Proof. intros H. unfold upd. rewrite app_length, firstn_length. cbn [length]. rewrite skipn_length. lia. Qed.

Lemma Forall_upd {A} (P : A -> Prop) l i x : Forall P l -> P x -> Forall P (upd l i x).
Proof.
  rewrite !Forall_forall. intros H Hx y Hy. unfold upd in Hy. apply in_app_or in Hy. destruct Hy as [Hy|[<-|Hy]].
  - apply H. rewrite <- (firstn_skipn i l). apply in_or_app. left. exact Hy.
  - exact Hx.
  - apply H. rewrite <- (firstn_skipn (S i) l). apply in_or_app. right. exact Hy.
Qed.

Lemma t_hset h0 o z : fresh_ptr h0 o -> triple h0 (hset o z) (fun _ => True).
Proof.
  intros F h r h' [(li & la & E1 & E2) I] E. destruct o as [p|]; [|discriminate]. unfold hset in E.
  destruct (Nat.ltb_spec p (length (h_int h))); [|discriminate]. apply Ok_inj in E. injection E as <- <-.
  split; [|exact Logic.I]. split; cbn [h_int h_arr]; [|exact I].
  exists (upd li (p - length (h_int h0)) z), la. split; [|exact E2]. cbn [h_int]. rewrite E1.
  apply upd_app_l. apply F. reflexivity.
Qed.
Lemma t_hnew h0 z : triple h0 (hnew z) (fresh_ptr h0).
Proof.
  intros h r h' [(li & la & E1 & E2) I] E. apply Ok_inj in E. injection E as <- <-. split.
  - split; cbn [h_int h_arr]; [|exact I]. exists (li ++ [z]), la. cbn [h_int h_arr]. rewrite E1, app_assoc. auto.
  - intros p H. injection H as <-. rewrite E1, app_length. lia.
Qed.
Lemma t_hmake h0 n : triple h0 (hmake n) (fresh h0).
Proof.
  intros h r h' [(li & la & E1 & E2) I] E. apply Ok_inj in E. injection E as <- <-. split.
  - split; cbn [h_int h_arr].
    + exists li, (la ++ [repeat None n]). cbn [h_int h_arr]. rewrite E2, app_assoc. auto.
    + intros k arr Hk Ek. destruct (Nat.lt_ge_cases k (length (h_arr h))).
      * rewrite nth_error_app1 in Ek by lia. eapply I; eauto.
      * rewrite nth_error_app2 in Ek by lia. destruct (k - length (h_arr h))%nat as [|j]; cbn in Ek.
        -- injection Ek as <-. apply Forall_forall. intros o Ho. apply repeat_spec in Ho. subst o. intros p Hp. discriminate.
        -- destruct j; discriminate.
  - unfold fresh. cbn [s_arr]. rewrite E2, app_length. lia.
Qed.
Lemma t_sget_any h0 s i : triple h0 (sget s i) (fun _ => True).
Proof.
  intros h r h' I E. unfold sget in E. destruct (Nat.ltb i (s_len s)); [|discriminate].
  destruct (idx (h_arr h) (s_arr s)) as [arr| | |]; try discriminate. cbn [bind] in E.
  destruct (idx arr (s_off s + i)); try discriminate. apply Ok_inj in E. injection E as <- <-. auto.
Qed.
Lemma t_sget h0 s i : fresh h0 s -> triple h0 (sget s i) (fresh_ptr h0).
Proof.
  intros F h r h' I E. unfold sget in E. destruct (Nat.ltb i (s_len s)); [|discriminate].
  destruct (idx (h_arr h) (s_arr s)) as [arr| | |] eqn:E1; try discriminate. cbn [bind] in E.
  destruct (idx arr (s_off s + i)) as [o| | |] eqn:E2; try discriminate. apply Ok_inj in E. injection E as <- <-.
  split; [exact I|]. destruct I as [_ I]. unfold idx in E1, E2.
  destruct (nth_error (h_arr h) (s_arr s)) eqn:N1; try discriminate. apply Ok_inj in E1. subst l.
  destruct (nth_error arr (s_off s + i)) eqn:N2; try discriminate. apply Ok_inj in E2. subst o0.
  specialize (I _ _ F N1). rewrite Forall_forall in I. apply I. eapply nth_error_In; eauto.
Qed.
Lemma t_sset h0 s i o : fresh h0 s -> fresh_ptr h0 o -> triple h0 (sset s i o) (fun _ => True).
Proof.
  intros F Fo h r h' [(li & la & E1 & E2) I] E. unfold sset in E. destruct (Nat.ltb i (s_len s)); [|discriminate].
  destruct (idx (h_arr h) (s_arr s)) as [arr| | |] eqn:Ea; try discriminate. cbn [bind] in E.
  destruct (Nat.ltb_spec (s_off s + i) (length arr)) as [L|]; [|discriminate]. apply Ok_inj in E. injection E as <- <-.
  unfold idx in Ea. destruct (nth_error (h_arr h) (s_arr s)) eqn:N1; try discriminate. apply Ok_inj in Ea. subst l.
  assert (La : (s_arr s < length (h_arr h))%nat) by (apply nth_error_Some; congruence).
  split; [|exact Logic.I]. split; cbn [h_int h_arr].
  - exists li, (upd la (s_arr s - length (h_arr h0)) (upd arr (s_off s + i) o)). cbn [h_int h_arr].
    split; [exact E1|]. rewrite E2. apply upd_app_l. exact F.
  - intros k arr' Hk Ek. rewrite nth_error_upd in Ek by exact La. destruct (Nat.eqb k (s_arr s)).
    + injection Ek as <-. apply Forall_upd; [exact (I _ _ F N1)|exact Fo].
    + eapply I; eauto.
Qed.
Lemma t_reslice h0 s lo hi : triple h0 (reslice s lo hi) (fun r => s_arr r = s_arr s).
Proof.
  unfold reslice. destruct (Nat.leb lo hi && Nat.leb hi (s_cap s)); [apply t_ret; reflexivity|].
  apply t_fail2. discriminate.
Qed.
Lemma t_for h0 l body : (forall i, In i l -> triple h0 (body i) (fun _ => True)) -> triple h0 (for_ l body) (fun _ => True).
Proof.
  induction l as [|i l IH]; intros H; cbn [for_]; [apply t_ret; exact I|].
  eapply t_bind; [apply H; left; reflexivity|]. intros _ _. apply IH. intros j Hj. apply H. right. exact Hj.
Qed.
Lemma t_sval h0 s i : triple h0 (sval s i) (fun _ => True).
Proof. unfold sval. eapply t_bind; [apply t_sget_any|]. intros. apply t_hget. Qed.

#[global] Hint Resolve t_hget t_hnew t_hmake t_sget t_sval t_reslice : heap.
#[global] Hint Resolve t_sget_any | 50 : heap.
(** sequence of steps *)
Ltac tb := eapply t_bind; [first [apply t_sget; assumption | solve [eauto with heap]]|]; intros ? ?.

Lemma t_Fill h0 s : fresh h0 s -> triple h0 (FillBigIntSlice s) (fun _ => True).
Proof. intros F. apply t_for. intros i _. tb. apply t_sset; assumption. Qed.
#[global] Hint Resolve t_Fill : heap.
Lemma t_make_filled h0 n : triple h0 (make_filled n) (fresh h0).
Proof. unfold make_filled. tb. tb. apply t_ret. assumption. Qed.
#[global] Hint Resolve t_make_filled : heap.
Lemma t_new_ints h0 l : triple h0 (new_ints l) (Forall (fresh_ptr h0)).
Proof. induction l; cbn [new_ints]; [apply t_ret; constructor|]. tb. tb. apply t_ret. constructor; assumption. Qed.
#[global] Hint Resolve t_new_ints : heap.
Lemma t_literal h0 l : triple h0 (literal l) (fresh h0).
Proof.
  unfold literal. tb. tb. eapply t_bind; [|intros; apply t_ret; eassumption].
  apply t_for. intros i _. apply t_bind with (P := fresh_ptr h0).
  - intros h r h' I E. unfold idx in E. destruct (nth_error a i) eqn:N; try discriminate. apply Ok_inj in E.
    injection E as <- <-. split; [exact I|]. rewrite Forall_forall in H. apply H. eapply nth_error_In; eauto.
  - intros o Ho. apply t_sset; assumption.
Qed.
#[global] Hint Resolve t_literal : heap.

Lemma t_Karatsuba h0 fuel : forall a b n, triple h0 (HKaratsuba fuel a b n) (fresh h0).
Proof.
  induction fuel as [|fuel IH]; intros a b n; cbn [HKaratsuba]; [apply t_fail2; discriminate|].
  destruct (Nat.eqb n 1); [tb; tb; apply t_literal|].
  tb. tb. tb. tb. tb. tb. tb. tb.
  eapply t_bind. { apply t_for. intros i _. tb. tb. tb. eapply t_bind; [apply t_hset; assumption|]. intros _ _.
    tb. tb. tb. apply t_hset; assumption. }
  intros _ _. tb. tb. tb.
  eapply t_bind. { apply t_for. intros i _. tb. tb. tb. tb. tb. tb. apply t_hset; assumption. }
  intros _ _. tb.
  eapply t_bind. { apply t_for. intros i _.
    tb. tb. tb. eapply t_bind; [apply t_hset; assumption|]. intros _ _.
    tb. tb. tb. eapply t_bind; [apply t_hset; assumption|]. intros _ _.
    tb. tb. tb. apply t_hset; assumption. }
  intros _ _. apply t_ret. assumption.
Qed.
#[global] Hint Resolve t_Karatsuba : heap.
Lemma t_karamul h0 a b : triple h0 (Hkaramul a b) (fresh h0).
Proof.
  unfold Hkaramul. tb. tb. eapply t_bind; [|intros; apply t_ret; eassumption].
  apply t_for. intros i _. tb. tb. tb. apply t_hset; assumption.
Qed.
#[global] Hint Resolve t_karamul : heap.
Lemma t_galoisConjugate h0 a : triple h0 (HgaloisConjugate a) (fresh h0).
Proof.
  unfold HgaloisConjugate. tb. eapply t_bind; [|intros; apply t_ret; eassumption].
  apply t_for. intros i _. tb. tb. tb. tb. apply t_hset; assumption.
Qed.
Lemma t_fieldNorm h0 a : triple h0 (HfieldNorm a) (fresh h0).
Proof.
  unfold HfieldNorm. tb. tb. tb. tb.
  eapply t_bind. { apply t_for. intros i _. tb. tb. eapply t_bind; [apply t_hset; assumption|]. intros _ _.
    tb. tb. apply t_hset; assumption. }
  intros _ _. tb. tb. eapply t_bind; [apply t_reslice|]. intros r Er.
  assert (Fr : fresh h0 r) by (unfold fresh in *; lia).
  eapply t_bind. { apply t_for. intros i _. tb. tb. tb. apply t_hset; assumption. }
  intros _ _. tb. tb. tb. eapply t_bind; [apply t_hset; assumption|]. intros _ _. apply t_ret. exact Fr.
Qed.

(** ** The statements for C59 *)
Lemma karamul_frame h a b r h' : Hkaramul a b h = Ok (r, h') -> ext h h'.
Proof. intros E. apply (t_karamul h a b h r h' (inv_refl h) E). Qed.
Lemma Karatsuba_frame h fuel a b n r h' : HKaratsuba fuel a b n h = Ok (r, h') -> ext h h'.
Proof. intros E. apply (t_Karatsuba h fuel a b n h r h' (inv_refl h) E). Qed.
Lemma galoisConjugate_frame h a r h' : HgaloisConjugate a h = Ok (r, h') -> ext h h'.
Proof. intros E. apply (t_galoisConjugate h a h r h' (inv_refl h) E). Qed.
Lemma fieldNorm_frame h a r h' : HfieldNorm a h = Ok (r, h') -> ext h h'.
Proof. intros E. apply (t_fieldNorm h a h r h' (inv_refl h) E). Qed.

(** lift writes pointers of its argument into a new array *)
Lemma hnew_ext h0 h z o h' : ext h0 h -> hnew z h = Ok (o, h') -> ext h0 h'.
Proof.
  intros (li & la & E1 & E2) E. apply Ok_inj in E. injection E as <- <-. exists (li ++ [z]), la. cbn. rewrite E1, app_assoc. auto.
Qed.
Lemma sset_ext h0 h s i o r h' : ext h0 h -> fresh h0 s -> sset s i o h = Ok (r, h') -> ext h0 h'.
Proof.
  intros (li & la & E1 & E2) F E. unfold sset in E. destruct (Nat.ltb i (s_len s)); [|discriminate].
  destruct (idx (h_arr h) (s_arr s)) as [arr| | |]; try discriminate. cbn [bind] in E.
  destruct (Nat.ltb (s_off s + i) (length arr)); [|discriminate]. apply Ok_inj in E. injection E as <- <-.
  exists li, (upd la (s_arr s - length (h_arr h0)) (upd arr (s_off s + i) o)). cbn. split; [exact E1|].
  rewrite E2. apply upd_app_l. exact F.
Qed.
Lemma lift_frame h a r h' : Hlift a h = Ok (r, h') -> ext h h' /\ fresh h r.
Proof.
  unfold Hlift, mbind. intros E. destruct (make_filled (2 * s_len a) h) as [[al h1]| | |] eqn:E1; try discriminate.
  destruct (t_make_filled h _ h al h1 (inv_refl h) E1) as [[X _] F].
  destruct (for_ _ _ h1) as [[u h2]| | |] eqn:E2; try discriminate. apply Ok_inj in E. injection E as <- <-.
  split; [|exact F]. clear E1. revert h1 X E2. induction (seq 0 (s_len a)) as [|i l IH]; intros h1 X E2; cbn [for_] in E2.
  - apply Ok_inj in E2. injection E2 as <- <-. exact X.
  - unfold mbind in E2. destruct (sget a i h1) as [[o h3]| | |] eqn:E3; try discriminate.
    destruct (t_sget_any h1 a i h1 o h3 (inv_refl _) E3) as [[X3 _] _].
    destruct (sset al (2 * i) o h3) as [[u3 h4]| | |] eqn:E4; try discriminate.
    eapply IH; [|exact E2]. eapply sset_ext; [|exact F|exact E4]. eapply ext_trans; eassumption.
Qed.
