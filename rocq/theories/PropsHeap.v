(** C58, C59 and the properties of the in-place code (C60, C61). *)
From Verif Require Import GoBase Util Params Falcon Ntrugen Heap KeyHeap Float BaseProofs NoErr HeapFrame HeapRefine HeapKara HeapSolve
  Witness NtruProps Spec Samplerz Fft Ffsampling KeyGen.

(** * C58: the key shares the caller's arrays *)

(** At the time of the call the key is the one of the list model. *)
Theorem C58_value : forall m n f g F G, wf_sl m f -> wf_sl m g -> wf_sl m F -> wf_sl m G ->
  GetPrivateKey n (contents m f) (contents m g) (contents m F) (contents m G) =
  (k <- HGetPrivateKey n f g F G ;; Ok (key_of m k)).
Proof.
  assert (L : forall m s, wf_sl m s -> length (contents m s) = a_len s).
  { intros m s [_ H]. unfold contents. rewrite firstn_length_le; [reflexivity|]. rewrite skipn_length. lia. }
  intros m n f g F G Hf Hg HF HG. unfold GetPrivateKey, HGetPrivateKey. destruct (negb (isValidDegree n)); [reflexivity|]. cbv zeta.
  unfold isValidPolysLength. rewrite !repeat_length, !L by assumption. cbv zeta.
  destruct (wrap16u (4 * n) =? 0); [reflexivity|]. cbn [bind].
  destruct (Z.rem _ _ =? 0); reflexivity.
Qed.

Lemma nth_upd {A} (l : list A) i x j d : (i < length l)%nat -> nth j (upd l i x) d = if Nat.eqb j i then x else nth j l d.
Proof.
  intros H. destruct (Nat.ltb_spec j (length l)) as [Hj|Hj].
  - assert (E : nth_error (upd l i x) j = Some (if Nat.eqb j i then x else nth j l d)).
    { rewrite nth_error_upd by exact H. destruct (Nat.eqb j i); [reflexivity|]. apply nth_error_nth'. exact Hj. }
    apply (nth_error_nth _ _ d) in E. exact E.
  - rewrite (nth_overflow (upd l i x)) by (rewrite length_upd; lia). rewrite nth_overflow by lia.
    destruct (Nat.eqb_spec j i); [lia|reflexivity].
Qed.

Lemma nth_error_window {A} (l : list A) n o i : (i < n)%nat -> nth_error (firstn n (skipn o l)) i = nth_error l (o + i).
Proof.
  intros H. transitivity (nth_error (skipn o l) i).
  - rewrite <- (firstn_skipn n (skipn o l)) at 2. destruct (Nat.ltb_spec i (length (firstn n (skipn o l)))).
    + rewrite nth_error_app1 by assumption. reflexivity.
    + rewrite (proj2 (nth_error_None _ _)) by assumption. rewrite firstn_length in *. symmetry. apply nth_error_None.
      rewrite app_length, firstn_length, !skipn_length in *. lia.
  - revert l. induction o as [|o IH]; intros l; [reflexivity|]. destruct l; [destruct i; reflexivity|]. apply IH.
Qed.

(** The claim is false, and of every key: a write to any index of f by the caller
    shows in the key. *)
Theorem C58_every_write : forall m n f g F G k, HGetPrivateKey n f g F G = Ok k -> wf_sl m f ->
  forall i v, (i < a_len f)%nat -> v <> nth i (contents m f) 0 ->
  exists m', write m f i v = Ok m' /\ nth i (sk_f (key_of m' k)) 0 = v /\ key_of m' k <> key_of m k.
Proof.
  intros m n f g F G k E [W1 W2] i v Hi Hv. unfold write. destruct (Nat.ltb_spec i (a_len f)); [|lia].
  eexists. split; [reflexivity|].
  assert (Kf : hk_f k = f).
  { unfold HGetPrivateKey in E. destruct (negb (isValidDegree n)); [discriminate|]. cbv zeta in E.
    destruct (isValidPolysLength _ _ _ _ _) as [b| | |]; try discriminate. cbn [bind] in E.
    destruct (negb b); [discriminate|]. injection E as <-. reflexivity. }
  set (m' := upd m _ _).
  assert (V : nth i (contents m' f) 0 = v).
  { unfold contents, m'. rewrite nth_upd, Nat.eqb_refl by exact W1. set (l := nth (a_arr f) m []) in *.
    assert (X : nth_error (firstn (a_len f) (skipn (a_off f) (upd l (a_off f + i) v))) i = Some v).
    { rewrite nth_error_window by lia. rewrite nth_error_upd by lia. rewrite Nat.eqb_refl. reflexivity. }
    apply (nth_error_nth _ _ 0) in X. exact X. }
  cbn [key_of sk_f]. rewrite Kf. split; [exact V|]. intros C. apply (f_equal sk_f) in C. cbn [key_of sk_f] in C. rewrite Kf in C.
  apply Hv. rewrite <- C. symmetry. exact V.
Qed.

(** a degree-2 key and a write *)
Definition mem58 : mem := [[1; 2]; [3; 4]; [5; 6]; [7; 8]].
Definition s58 (a : nat) : sl16 := {| a_arr := a; a_off := 0; a_len := 2 |}.
Theorem C58_refuted : exists m n f g F G k, HGetPrivateKey n f g F G = Ok k /\
  wf_sl m f /\ wf_sl m g /\ wf_sl m F /\ wf_sl m G /\
  exists i v m', write m f i v = Ok m' /\ key_of m' k <> key_of m k.
Proof.
  exists mem58, 2, (s58 0), (s58 1), (s58 2), (s58 3), {| hk_n := 2; hk_f := s58 0; hk_g := s58 1; hk_F := s58 2; hk_G := s58 3 |}.
  split; [reflexivity|]. repeat (split; [split; cbn; lia|]). exists 0%nat, 9, [[9; 2]; [3; 4]; [5; 6]; [7; 8]].
  split; [reflexivity|]. discriminate.
Qed.

(** After any history of writes the key is what the caller's four slices now hold. *)
Theorem C58_tracks : forall n f g F G k, HGetPrivateKey n f g F G = Ok k ->
  forall m ws m', writes m ws = Ok m' ->
  key_of m' k = {| sk_n := n; sk_f := contents m' f; sk_g := contents m' g; sk_F := contents m' F; sk_G := contents m' G |}.
Proof.
  intros n f g F G k E m ws m' _. unfold HGetPrivateKey in E. destruct (negb (isValidDegree n)); [discriminate|]. cbv zeta in E.
  destruct (isValidPolysLength _ _ _ _ _) as [b| | |]; try discriminate. cbn [bind] in E.
  destruct (negb b); [discriminate|]. injection E as <-. reflexivity.
Qed.

(** What holds: histories of writes to other arrays do not change the key.
    Missing from C58: writes to f, g, F, G themselves, for which it is false. *)
Theorem C58_other_arrays_partial : forall n f g F G k, HGetPrivateKey n f g F G = Ok k ->
  forall ws m m', writes m ws = Ok m' ->
  Forall (fun w => let '(s, i, v) := w in wf_sl m s /\ ~ In (a_arr s) [a_arr f; a_arr g; a_arr F; a_arr G]) ws ->
  key_of m' k = key_of m k.
Proof.
  intros n f g F G k E ws.
  assert (K : k = {| hk_n := n; hk_f := f; hk_g := g; hk_F := F; hk_G := G |}).
  { unfold HGetPrivateKey in E. destruct (negb (isValidDegree n)); [discriminate|]. cbv zeta in E.
    destruct (isValidPolysLength _ _ _ _ _) as [b| | |]; try discriminate. cbn [bind] in E.
    destruct (negb b); [discriminate|]. injection E as <-. reflexivity. }
  subst k. clear E.
  induction ws as [|[[s i] v] ws IH]; intros m m' H A.
  - cbn in H. injection H as <-. reflexivity.
  - unfold writes in H. cbn [foldM] in H. inversion A as [|? ? X A']; subst. cbv beta iota in X. destruct X as [[W1 W2] NI].
    unfold write in H at 1. destruct (Nat.ltb_spec i (a_len s)); [|discriminate]. cbn [bind] in H.
    set (m1 := upd m _ _) in *.
    assert (Same : forall a, a <> a_arr s -> nth a m1 [] = nth a m []).
    { intros a Ha. unfold m1. rewrite nth_upd by exact W1. destruct (Nat.eqb_spec a (a_arr s)); [contradiction|reflexivity]. }
    assert (C : forall t, a_arr t <> a_arr s -> contents m1 t = contents m t) by (intros t Ht; unfold contents; rewrite Same by exact Ht; reflexivity).
    rewrite (IH m1 m' H).
    + cbn in NI. unfold key_of. cbn [hk_f hk_g hk_F hk_G hk_n]. rewrite !C by tauto. reflexivity.
    + eapply Forall_impl; [|exact A']. intros [[t j] w] [[T1 T2] NT]. split; [|exact NT]. split.
      * unfold m1. rewrite length_upd by exact W1. exact T1.
      * unfold m1. rewrite nth_upd by exact W1. destruct (Nat.eqb_spec (a_arr t) (a_arr s)) as [e|]; [|exact T2].
        rewrite length_upd by lia. rewrite <- e. exact T2.
Qed.
Example C58_nonvacuous : exists k m', HGetPrivateKey 2 (s58 0) (s58 1) (s58 2) (s58 3) = Ok k /\
  writes (mem58 ++ [[10; 11; 12]]) [({| a_arr := 4; a_off := 1; a_len := 2 |}, 1%nat, 99)] = Ok m' /\ m' <> mem58 ++ [[10; 11; 12]] /\
  key_of m' k = key_of (mem58 ++ [[10; 11; 12]]) k.
Proof. do 2 eexists. split; [reflexivity|]. split; [reflexivity|]. split; [discriminate|reflexivity]. Qed.

(** * C59: no argument is written *)

(** Every integer and every array that was there is as it was. *)
Definition unchanged (h h' : heap) : Prop :=
  (forall p z, nth_error (h_int h) p = Some z -> nth_error (h_int h') p = Some z) /\
  (forall a arr, nth_error (h_arr h) a = Some arr -> nth_error (h_arr h') a = Some arr).
Lemma ext_unchanged h h' : ext h h' -> unchanged h h'.
Proof.
  intros (li & la & E1 & E2). split.
  - intros p z H. rewrite E1, nth_error_app1; [exact H|]. apply nth_error_Some. congruence.
  - intros a arr H. rewrite E2, nth_error_app1; [exact H|]. apply nth_error_Some. congruence.
Qed.

(** No hypothesis on the heap or on the slices: they may overlap, share integers,
    contain nil pointers. *)
Theorem C59_Karatsuba : forall h a b n r h', HKaratsuba n a b n h = Ok (r, h') -> unchanged h h'.
Proof. intros. apply ext_unchanged. eapply Karatsuba_frame; eauto. Qed.
Theorem C59_karamul : forall h a b r h', Hkaramul a b h = Ok (r, h') -> unchanged h h'.
Proof. intros. apply ext_unchanged. eapply karamul_frame; eauto. Qed.
Theorem C59_fieldNorm : forall h a r h', HfieldNorm a h = Ok (r, h') -> unchanged h h'.
Proof. intros. apply ext_unchanged. eapply fieldNorm_frame; eauto. Qed.
Theorem C59_galoisConjugate : forall h a r h', HgaloisConjugate a h = Ok (r, h') -> unchanged h h'.
Proof. intros. apply ext_unchanged. eapply galoisConjugate_frame; eauto. Qed.
Theorem C59_lift : forall h a r h', Hlift a h = Ok (r, h') -> unchanged h h'.
Proof. intros. apply ext_unchanged. eapply lift_frame; eauto. Qed.

(** the values a slice refers to *)
Fixpoint collect {A} (l : list (option A)) : option (list A) :=
  match l with
  | [] => Some []
  | None :: _ => None
  | Some x :: l => match collect l with Some r => Some (x :: r) | None => None end
  end.
Definition values (h : heap) (s : sl) : option (list Z) :=
  match nth_error (h_arr h) (s_arr s) with
  | None => None
  | Some arr =>
      let w := firstn (s_len s) (skipn (s_off s) arr) in
      if Nat.eqb (length w) (s_len s) && Nat.leb (s_len s) (s_cap s) then
        collect (map (fun o => match o with Some p => nth_error (h_int h) p | None => None end) w)
      else None
  end.
Lemma collect_ptrs h w : forall l, collect (map (fun o => match o with Some p => nth_error (h_int h) p | None => None end) w) = Some l <->
  exists ps, w = map Some ps /\ Forall2 (holds h) ps l.
Proof.
  induction w as [|o w IH]; intros l; cbn [map collect].
  - split.
    + intros [= <-]. exists []. split; [reflexivity|constructor].
    + intros (ps & E & F). destruct ps; [|discriminate]. inversion F. reflexivity.
  - split.
    + destruct o as [p|]; [|discriminate]. destruct (nth_error (h_int h) p) as [z|] eqn:Ez; [|discriminate].
      destruct (collect _) as [r|] eqn:Er; [|discriminate]. intros [= <-]. destruct (proj1 (IH r) eq_refl) as (ps & -> & F).
      exists (p :: ps). split; [reflexivity|]. constructor; assumption.
    + intros (ps & E & F). destruct ps as [|p ps]; [discriminate|]. injection E as -> E.
      inversion F as [|? z ? r Hz Fr]; subst. unfold holds in Hz. rewrite Hz. rewrite (proj2 (IH r)); [reflexivity|]. exists ps. auto.
Qed.
Lemma values_rep h s l : values h s = Some l -> exists ps, rep h s ps l.
Proof.
  unfold values. destruct (nth_error (h_arr h) (s_arr s)) as [arr|] eqn:Ea; [|discriminate].
  cbv zeta. destruct (Nat.eqb_spec (length (firstn (s_len s) (skipn (s_off s) arr))) (s_len s)); [|discriminate].
  destruct (Nat.leb_spec (s_len s) (s_cap s)); [|discriminate].
  cbn [andb]. rewrite collect_ptrs. intros (ps & E & F). exists ps. split; [|exact F]. exists arr. split; [exact Ea|]. split; [exact E|].
  split; [|assumption]. rewrite E, map_length in *. assumption.
Qed.
Lemma rep_values h s ps l : rep h s ps l -> values h s = Some l.
Proof.
  intros [(arr & Ea & E & L & C) F]. unfold values. rewrite Ea. cbv zeta. rewrite E, map_length, L, Nat.eqb_refl.
  destruct (Nat.leb_spec (s_len s) (s_cap s)); [|lia]. cbn [andb].
  apply collect_ptrs. exists ps. auto.
Qed.

(** A concrete case: a slice multiplied by itself, two of whose entries are the
    same integer, so every in-place operation has aliased operands. *)
Definition heap59 : heap := {| h_int := [3; -5]; h_arr := [[Some 0%nat; Some 1%nat; Some 0%nat; Some 0%nat]] |}.
Definition sl59 : sl := {| s_arr := 0; s_off := 0; s_len := 4; s_cap := 4 |}.
Example C59_nonvacuous : values heap59 sl59 = Some [3; -5; 3; 3] /\
  (exists r h', Hkaramul sl59 sl59 heap59 = Ok (r, h') /\ values h' r = Some [30; -48; 34; -12] /\ values h' sl59 = Some [3; -5; 3; 3]) /\
  (exists r h', HfieldNorm sl59 heap59 = Ok (r, h') /\ values h' r = Some [-30; 2] /\ values h' sl59 = Some [3; -5; 3; 3]) /\
  (exists r h', Hlift sl59 heap59 = Ok (r, h') /\ values h' r = Some [3; 0; -5; 0; 3; 0; 3; 0] /\ values h' sl59 = Some [3; -5; 3; 3]).
Proof.
  split; [reflexivity|]. split; [|split].
  all: do 2 eexists; split; [vm_compute; reflexivity|]; split; vm_compute; reflexivity.
Qed.

(** * C60: the in-place code computes what the code on values computes *)

(** [mh] returns what [p] returns; results are compared by [R] *)
Definition agrees {A B} (mh : res (A * heap)) (p : res B) (R : B -> A -> heap -> Prop) : Prop :=
  match p with
  | Ok b => exists a h', mh = Ok (a, h') /\ R b a h'
  | Err e => mh = Err e
  | Panic => mh = Panic
  | Diverge => mh = Diverge
  end.
Definition is_slice (h : heap) (l : list Z) (r : sl) (h' : heap) : Prop := unchanged h h' /\ values h' r = Some l.
Lemma made_slice h l r h' : made h l r h' -> is_slice h l r h'.
Proof. intros ([X _] & _ & _ & ps & _ & R). split; [apply ext_unchanged; exact X|]. eapply rep_values; eauto. Qed.

(** Also when the lengths differ and when the slices have spare capacity. *)
Theorem C60_karamul : forall h a b la lb, values h a = Some la -> values h b = Some lb ->
  agrees (Hkaramul a b h) (karamul la lb) (is_slice h).
Proof.
  intros h a b la lb Ha Hb. apply values_rep in Ha. apply values_rep in Hb. destruct Ha as [pa Ra], Hb as [pb Rb].
  eapply sim_weak; [eapply karamul_sim; eauto|]. intros ? ? ? _ _. apply made_slice.
Qed.
Theorem C60_galoisConjugate : forall h a la, values h a = Some la -> agrees (HgaloisConjugate a h) (galoisConjugate la) (is_slice h).
Proof.
  intros h a la Ha. apply values_rep in Ha. destruct Ha as [pa Ra].
  eapply sim_weak; [eapply galoisConjugate_sim; eauto|]. intros ? ? ? _ _. apply made_slice.
Qed.
Theorem C60_fieldNorm : forall h a la, values h a = Some la -> agrees (HfieldNorm a h) (fieldNorm la) (is_slice h).
Proof.
  intros h a la Ha. apply values_rep in Ha. destruct Ha as [pa Ra].
  eapply sim_weak; [eapply fieldNorm_sim; eauto|]. intros ? ? ? _ _. apply made_slice.
Qed.
Theorem C60_lift : forall h a la, values h a = Some la -> agrees (Hlift a h) (Ok (lift la)) (is_slice h).
Proof.
  intros h a la Ha. apply values_rep in Ha. destruct Ha as [pa Ra].
  destruct (lift_sim _ _ _ _ Ra) as (r & h' & ps & E & X & _ & R & _). exists r, h'. split; [exact E|].
  split; [apply ext_unchanged; exact X|]. eapply rep_values; eauto.
Qed.
(** The result of lift shares the integers of its argument: an in-place operation
    on the result would change the argument. *)
Theorem C60_lift_shares : forall h a la, values h a = Some la ->
  forall r h', Hlift a h = Ok (r, h') -> forall i, (i < s_len a)%nat ->
  exists p h1 h2, sget a i h' = Ok (Some p, h1) /\ sget r (2 * i) h' = Ok (Some p, h2).
Proof.
  intros h a la Ha r h' E i Hi. apply values_rep in Ha. destruct Ha as [pa Ra].
  destruct (lift_sim _ _ _ _ Ra) as (r2 & h2 & ps & E2 & X & _ & R & N). rewrite E in E2. injection E2 as <- <-.
  destruct (rep_len _ _ _ _ Ra) as [La _].
  assert (Ep : nth_error pa i = Some (nth i pa 0%nat)) by (apply nth_error_nth'; lia).
  exists (nth i pa 0%nat), h', h'. split.
  - eapply sget_eq; [eapply rep_ext; eauto|exact Ep].
  - eapply sget_eq; [exact R|]. rewrite N by exact Hi. exact Ep.
Qed.

(** NtruSolve on the heap: f and g (and everything else the caller has) are
    unchanged, also when there is no solution; the results are those of the list
    model, in integers that the caller's heap did not have, none shared. *)
Definition pointers (h : heap) (s : sl) : list (option nat) := firstn (s_len s) (skipn (s_off s) (nth (s_arr s) (h_arr h) [])).
Definition solution_of (h : heap) (o : option (list Z * list Z)) (r : option (sl * sl)) (h' : heap) : Prop :=
  unchanged h h' /\
  match o, r with
  | None, None => True
  | Some (lF, lG), Some (F, G) => values h' F = Some lF /\ values h' G = Some lG /\
      NoDup (pointers h' F ++ pointers h' G) /\
      forall p, In (Some p) (pointers h' F ++ pointers h' G) -> nth_error (h_int h) p = None
  | _, _ => False
  end.
(** the error of NtruSolve as a value *)
Definition as_value {A} (r : res A) : res (option A) :=
  match r with Ok a => Ok (Some a) | Err _ => Ok None | Panic => Panic | Diverge => Diverge end.
Lemma rep_pointers h s ps l : rep h s ps l -> pointers h s = map Some ps.
Proof. intros [(arr & Ea & E & _) _]. unfold pointers. rewrite (nth_error_nth _ _ _ Ea). exact E. Qed.
Lemma NoDup_map_Some {A} (l : list A) : NoDup l -> NoDup (map Some l).
Proof.
  induction 1 as [|x l N D IH]; cbn; constructor; [|exact IH]. intros H. apply in_map_iff in H. destruct H as (y & [= ->] & H). auto.
Qed.
Theorem C60_NtruSolve : forall quo fuel h f g lf lg, (forall a b c d e, quo a b c d <> Err e) ->
  values h f = Some lf -> values h g = Some lg ->
  agrees (HNtruSolve quo fuel f g h) (as_value (NtruSolve quo fuel lf lg)) (solution_of h).
Proof.
  intros quo fuel h f g lf lg Hq Hf Hg. apply values_rep in Hf. apply values_rep in Hg. destruct Hf as [pf Rf], Hg as [pg Rg].
  eapply sim_weak; [eapply NtruSolve_sim; eauto; intros a b c d e; apply Hq|].
  intros o r h' _ _ [X S]. split; [apply ext_unchanged; exact X|].
  destruct o as [[lF lG]|], r as [[F G]|]; try exact S. destruct S as (pF & pG & RF & RG & ND & FR).
  split; [eapply rep_values; eauto|]. split; [eapply rep_values; eauto|].
  rewrite (rep_pointers _ _ _ _ RF), (rep_pointers _ _ _ _ RG), <- map_app. split; [apply NoDup_map_Some; exact ND|].
  intros p Hp. apply in_map_iff in Hp. destruct Hp as (q & [= ->] & Hq'). rewrite Forall_forall in FR. apply nth_error_None. apply FR, Hq'.
Qed.
(** the quotient of the code has no error result *)
Theorem C60_NtruSolve_code : forall FO fuel h f g lf lg, values h f = Some lf -> values h g = Some lg ->
  agrees (HNtruSolve (reduce_quotient FO) fuel f g h) (as_value (NtruSolve (reduce_quotient FO) fuel lf lg)) (solution_of h).
Proof. intros. apply C60_NtruSolve; try assumption. intros a b c d. apply noerr_reduce_quotient. Qed.
Example C60_nonvacuous : exists F G h', 
  values {| h_int := [1; 2; 0; 3]; h_arr := [[Some 0%nat; Some 1%nat; Some 2%nat; Some 0%nat]; [Some 3%nat; Some 2%nat; Some 0%nat; Some 0%nat]] |}
    {| s_arr := 1; s_off := 0; s_len := 4; s_cap := 4 |} = Some [3; 0; 1; 1] /\
  HNtruSolve zero_quo 1 {| s_arr := 0; s_off := 0; s_len := 4; s_cap := 4 |} {| s_arr := 1; s_off := 0; s_len := 4; s_cap := 4 |}
    {| h_int := [1; 2; 0; 3]; h_arr := [[Some 0%nat; Some 1%nat; Some 2%nat; Some 0%nat]; [Some 3%nat; Some 2%nat; Some 0%nat; Some 0%nat]] |}
  = Ok (Some (F, G), h') /\
  match values h' F, values h' G with Some lF, Some lG => NtruSolve zero_quo 1 [1; 2; 0; 1] [3; 0; 1; 1] = Ok (lF, lG) | _, _ => False end.
Proof. do 3 eexists. split; [reflexivity|]. split; [vm_compute; reflexivity|]. vm_compute. reflexivity. Qed.

(** * C61: reduce writes F and G only *)
Theorem C61_reduce : forall quo fuel h f g F G lf lg lF lG,
  values h f = Some lf -> values h g = Some lg -> values h F = Some lF -> values h G = Some lG ->
  NoDup (pointers h F ++ pointers h G) ->
  (forall o, In o (pointers h f) \/ In o (pointers h g) -> ~ In o (pointers h F ++ pointers h G)) ->
  agrees (Hreduce quo fuel f g F G h) (reduce quo fuel lf lg lF lG)
    (fun lFG FG h' => FG = (F, G) /\ values h' F = Some (fst lFG) /\ values h' G = Some (snd lFG) /\
       values h' f = Some lf /\ values h' g = Some lg /\
       (forall p z, nth_error (h_int h) p = Some z -> ~ In (Some p) (pointers h F ++ pointers h G) -> nth_error (h_int h') p = Some z) /\
       (forall a arr, nth_error (h_arr h) a = Some arr -> nth_error (h_arr h') a = Some arr)).
Proof.
  intros quo fuel h f g F G lf lg lF lG Hf Hg HF HG ND D.
  apply values_rep in Hf. apply values_rep in Hg. apply values_rep in HF. apply values_rep in HG.
  destruct Hf as [pf Rf], Hg as [pg Rg], HF as [pF RF], HG as [pG RG].
  rewrite (rep_pointers _ _ _ _ RF), (rep_pointers _ _ _ _ RG), <- map_app in *.
  rewrite (rep_pointers _ _ _ _ Rf), (rep_pointers _ _ _ _ Rg) in D.
  assert (ND' : NoDup (pF ++ pG)) by (eapply NoDup_map_inv; exact ND).
  assert (D' : forall p, In p pf \/ In p pg -> ~ In p (pF ++ pG)).
  { intros p H1 H2. apply (D (Some p)); [destruct H1; [left|right]; apply in_map; assumption|apply in_map; assumption]. }
  eapply sim_weak; [eapply (reduce_sim quo fuel h f g F G pf pg pF pG); eauto|].
  intros lFG FG h' _ _ (-> & P & RF' & RG'). split; [reflexivity|].
  split; [eapply rep_values; eauto|]. split; [eapply rep_values; eauto|].
  assert (Rf' : rep h' f pf lf) by (eapply rep_pres; [exact P|intros; apply D'; auto|exact Rf]).
  assert (Rg' : rep h' g pg lg) by (eapply rep_pres; [exact P|intros; apply D'; auto|exact Rg]).
  split; [eapply rep_values; eauto|]. split; [eapply rep_values; eauto|].
  destruct P as [P1 P2]. split; [|exact P2].
  intros p z Hp NI. apply P1; [|exact Hp]. intros C. apply NI. rewrite map_app in *. 
  rewrite <- map_app. apply in_map, C.
Qed.
(** When F is f the hypothesis fails, and so does the conclusion: f is overwritten. *)
Theorem C61_aliased_refuted : exists quo h f g F G lf lF lg lG, values h f = Some lf /\ values h g = Some lg /\ values h F = Some lF /\ values h G = Some lG /\
  exists FG h', Hreduce quo 3 f g F G h = Ok (FG, h') /\ values h' f <> Some lf.
Proof.
  exists (fun f g F G => if nth 0 F 0 =? 5 then Ok [1] else Ok [0]), {| h_int := [5; 7; 9]; h_arr := [[Some 0%nat]; [Some 1%nat]; [Some 2%nat]] |},
    {| s_arr := 0; s_off := 0; s_len := 1; s_cap := 1 |}, {| s_arr := 1; s_off := 0; s_len := 1; s_cap := 1 |},
    {| s_arr := 0; s_off := 0; s_len := 1; s_cap := 1 |}, {| s_arr := 2; s_off := 0; s_len := 1; s_cap := 1 |}, [5], [5], [7], [9].
  repeat (split; [reflexivity|]). do 2 eexists. split; [vm_compute; reflexivity|]. vm_compute. discriminate.
Qed.
Example C61_nonvacuous : exists FG h', Hreduce (fun f g F G => if nth 0 F 0 =? 12 then Ok [2] else Ok [0]) 3
    {| s_arr := 0; s_off := 0; s_len := 1; s_cap := 1 |} {| s_arr := 1; s_off := 0; s_len := 1; s_cap := 1 |}
    {| s_arr := 2; s_off := 0; s_len := 1; s_cap := 1 |} {| s_arr := 3; s_off := 0; s_len := 1; s_cap := 1 |}
    {| h_int := [5; 7; 12; 9]; h_arr := [[Some 0%nat]; [Some 1%nat]; [Some 2%nat]; [Some 3%nat]] |} = Ok (FG, h') /\
  values h' (fst FG) = Some [2] /\ values h' (snd FG) = Some [-5].
Proof. do 2 eexists. split; [vm_compute; reflexivity|]. split; reflexivity. Qed.
