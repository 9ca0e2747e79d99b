(** GsNorm and the quotient of reduce (ntrugen.go) in exact arithmetic. *)
From Coq Require Import Lra Lia.
From Verif Require Import GoBase Util BaseProofs PolyRing Float Fft FftShape SpecFft SpecBabai ExactReal FftProofs
  Ntrugen Ffsampling FfExact Babai KeyGen.
Local Open Scope R_scope.

Lemma rconst_length n q : length (rconst n q) = n.
Proof. unfold rconst. now rewrite map_length, seq_length. Qed.
Lemma ceval_rconst n q z : (1 <= n)%nat -> ceval (rconst n q) z = RtoC q.
Proof.
  intros Hn. unfold ceval. rewrite rconst_length. destruct n as [|n]; [lia|].
  assert (E : forall m, (m <= n)%nat ->
    Csum (S m) (fun i => Cmul (RtoC (nth i (rconst (S n) q) 0)) (Cpow z i)) = RtoC q).
  { induction m as [|m IH]; intros Hm.
    - cbn [Csum]. unfold rconst. rewrite nth_map_seq by lia. cbn [Cpow].
      unfold Cadd, Cmul, RtoC, C0, C1. cbn [fst snd]. apply f_equal2; ring.
    - change (Csum (S (S m)) ?f) with (Cadd (Csum (S m) f) (f (S m))). rewrite IH by lia.
      unfold rconst. rewrite nth_map_seq by lia. destruct (Cpow z (S m)) as [x y].
      unfold Cadd, Cmul, RtoC. cbn [fst snd]. apply f_equal2; ring. }
  apply (E n). lia.
Qed.
Lemma fold_sum (l : list R) a : fold_left (fun r c => r + c * c) l a = a + sqnorm (length l) l.
Proof.
  unfold sqnorm. revert a. induction l as [|x l IH] using rev_ind; intros a; [cbn [fold_left length rsum]; ring|].
  rewrite fold_left_app, IH, app_length. cbn [fold_left length]. rewrite Nat.add_1_r. cbn [rsum].
  rewrite app_nth2, Nat.sub_diag by lia. cbn [nth].
  rewrite (rsum_ext _ (fun i => nth i (l ++ [x]) 0 * nth i (l ++ [x]) 0) (fun i => nth i l 0 * nth i l 0)).
  - ring.
  - intros i Hi. now rewrite app_nth1 by exact Hi.
Qed.
Lemma Sqnorm_exact (f g : list R) : @eq R (Sqnorm exactR [f; g]) (sqnorm (length f) f + sqnorm (length g) g).
Proof.
  transitivity (fold_left (fun r c => r + c * c) g (fold_left (fun r c => r + c * c) f 0)); [reflexivity|].
  rewrite !fold_sum. ring.
Qed.
Lemma Biggest_exact (a b : R) : BiggestFloat64 exactR [a; b] = Ok (Rmax a b).
Proof.
  unfold BiggestFloat64. cbn [idx nth_error bind fold_left f_ltb exactR]. f_equal.
  destruct (Rlt_dec a a); [lra|]. unfold Rmax. destruct (Rlt_dec a b), (Rle_dec a b); lra.
Qed.

Lemma zip_map2 {A B C D} (op : B -> C -> D) (l : list A) (a : A -> B) (b : A -> C) d e n : n = length l ->
  map (fun i => op (nth i (map a l) d) (nth i (map b l) e)) (seq 0 n) = map (fun z => op (a z) (b z)) l.
Proof.
  intros ->. induction l as [|x l IH]; [reflexivity|]. cbn [length seq map nth]. f_equal.
  rewrite <- seq_shift, map_map. exact IH.
Qed.

Section Gs.
Context (roots : nat -> list Cx) (G : good_roots roots).
Notation P := (P roots).
Notation avg := (Babai.avg).

(** |f|^2 + |g|^2 at a point *)
Definition lam (f g : list R) (z : Cx) : R := Csqnorm (ceval f z) + Csqnorm (ceval g z).
Lemma lam_nonneg f g z : 0 <= lam f g z.
Proof.
  unfold lam, Csqnorm. pose proof (Rle_0_sqr (fst (ceval f z))). pose proof (Rle_0_sqr (snd (ceval f z))).
  pose proof (Rle_0_sqr (fst (ceval g z))). pose proof (Rle_0_sqr (snd (ceval g z))). unfold Rsqr in *. lra.
Qed.

Section K.
Context (k : nat) (Hk : (1 <= k)%nat).
Notation n := (2 ^ k)%nat.

Lemma P_in i : (i < n)%nat -> In (P k i) (roots n).
Proof.
  intros Hi. unfold Babai.P, pts. destruct k; [lia|]. apply nth_In. rewrite (gr_len _ G) by lia. exact Hi.
Qed.
Lemma in_P z : In z (roots n) -> exists i, (i < n)%nat /\ z = P k i.
Proof.
  intros H. apply (In_nth _ _ C0) in H. destruct H as (i & Hi & <-). rewrite (gr_len _ G) in Hi by lia.
  exists i. split; [exact Hi|]. unfold Babai.P, pts. destruct k; [lia|reflexivity].
Qed.
Lemma ceval_inj (a b : list R) : length a = n -> length b = n ->
  (forall i, (i < n)%nat -> ceval a (P k i) = ceval b (P k i)) -> a = b.
Proof.
  intros La Lb H. apply Ok_inj. rewrite <- (IFFT_eval roots G k a), <- (IFFT_eval roots G k b) by auto.
  f_equal. apply map_ext_in. intros z Hz. destruct (in_P z Hz) as (i & Hi & ->). apply H, Hi.
Qed.
Lemma rmul_comm (a b : list R) : length a = n -> length b = n -> rmul n a b = rmul n b a.
Proof.
  intros La Lb. apply ceval_inj; [apply rmul_length ..|]. intros i Hi. rewrite !(ceval_rmul_P roots G k) by auto. ring.
Qed.

Context (f g : list R) (Lf : length f = n) (Lg : length g = n).
(** the Gram entry is invertible *)
Context (h : list R) (Lh : length h = n) (Inv : rmul n (gram2 n f g f g) h = rconst n 1).
Lemma ceval_lam i : (i < n)%nat -> ceval (gram2 n f g f g) (P k i) = RtoC (lam f g (P k i)).
Proof.
  intros Hi. rewrite (ceval_gram roots G k) by assumption. unfold lam, Csqnorm, Cadd, Cmul, Cconj, RtoC. cbn [fst snd].
  apply f_equal2; ring.
Qed.
Lemma lam_pos i : (i < n)%nat -> 0 < lam f g (P k i).
Proof.
  intros Hi. destruct (Rle_lt_or_eq_dec _ _ (lam_nonneg f g (P k i))) as [H|H]; [exact H|exfalso].
  assert (E : ceval (rmul n (gram2 n f g f g) h) (P k i) = RtoC 1).
  { rewrite Inv. apply ceval_rconst. pose proof (pow2_ge1 k). lia. }
  rewrite (ceval_rmul_P roots G k) in E; [|apply radd_length|exact Lh|exact Hi]. rewrite ceval_lam in E by exact Hi.
  rewrite <- H in E. unfold Cmul, RtoC in E. cbn [fst snd] in E. apply (f_equal fst) in E. cbn [fst] in E. lra.
Qed.
Lemma gram_nz z : In z (roots n) -> ceval (gram2 n f g f g) z <> C0.
Proof.
  intros Hz. destruct (in_P z Hz) as (i & Hi & ->). rewrite ceval_lam by exact Hi. pose proof (lam_pos i Hi).
  intros E. apply (f_equal fst) in E. unfold RtoC, C0 in E. cbn [fst] in E. lra.
Qed.
Lemma div_gram (a : list R) : length a = n ->
  exists d : list R, Div exactR roots a (gram2 n f g f g) = Ok d /\ length d = n /\ rmul n d (gram2 n f g f g) = a /\
    forall i, (i < n)%nat -> ceval d (P k i) = Cmul (ceval a (P k i)) (RtoC (/ lam f g (P k i))).
Proof.
  intros La. pose proof gram_nz as NZ. pose proof lam_pos as LP. pose proof ceval_lam as CL. destruct k as [|k']; [lia|].
  destruct (Div_exact roots G k' a (gram2 (2 ^ S k') f g f g)) as (d & E & Ld & M); [exact La|apply radd_length|exact NZ|].
  exists d. split; [exact E|]. split; [exact Ld|]. split; [exact M|]. intros i Hi.
  assert (X : Cmul (ceval d (P (S k') i)) (RtoC (lam f g (P (S k') i))) = ceval a (P (S k') i)).
  { rewrite <- CL by exact Hi. rewrite <- (ceval_rmul_P roots G (S k')); [|exact Ld|apply radd_length|exact Hi].
    f_equal. exact M. }
  rewrite <- X. pose proof (LP i Hi). destruct (ceval d (P (S k') i)) as [x y]. unfold Cmul, RtoC. cbn [fst snd].
  apply f_equal2; field; lra.
Qed.

Definition gs2 (q : R) : R := q * q * avg k (fun i => / lam f g (P k i)).

Lemma GsNorm_exact q :
  GsNorm_at exactR roots f g q = Ok (Rmax (sqnorm n f + sqnorm n g) (gs2 q)).
Proof.
  destruct (div_gram (radj n f) (radj_length _ _)) as (Ft & EF & LF & _ & VF).
  destruct (div_gram (radj n g) (radj_length _ _)) as (Gt & EG & LG & _ & VG).
  unfold GsNorm_at. cbv zeta.
  rewrite (Adj_exact roots G k f), (Adj_exact roots G k g) by auto. cbn [bind].
  rewrite (Mul_exact roots G k) by (auto; apply radj_length). cbn [bind].
  rewrite (Mul_exact roots G k) by (auto; apply radj_length). cbn [bind].
  rewrite (Add_exact n) by apply rmul_length. cbn [bind].
  change (radd n (rmul n f (radj n f)) (rmul n g (radj n g))) with (gram2 n f g f g).
  rewrite EF. cbn [bind]. rewrite EG. cbn [bind].
  pose proof (Sqnorm_exact f g) as S1. pose proof (Sqnorm_exact Ft Gt) as S2. rewrite Lf, Lg in S1. rewrite LF, LG in S2.
  refine (eq_trans (Biggest_exact (Sqnorm exactR [f; g]) (q * q * Sqnorm exactR [Ft; Gt])) _).
  replace (Rmax (Sqnorm exactR [f; g]) (q * q * Sqnorm exactR [Ft; Gt]))
    with (Rmax (sqnorm n f + sqnorm n g) (q * q * (sqnorm n Ft + sqnorm n Gt)))
    by (exact (f_equal2 (fun a b => Rmax a (q * q * b)) (eq_sym S1) (eq_sym S2))).
  do 2 f_equal. unfold gs2. f_equal.
  rewrite <- !(parseval roots G k) by assumption. rewrite <- avg_plus. apply avg_ext. intros i Hi.
  rewrite VF, VG by exact Hi. rewrite !(ceval_radj_P roots G k) by assumption. pose proof (lam_pos i Hi) as HL.
  set (l := lam f g (P k i)) in *.
  assert (X : l = Csqnorm (ceval f (P k i)) + Csqnorm (ceval g (P k i))) by reflexivity.
  destruct (ceval f (P k i)) as [a b]. destruct (ceval g (P k i)) as [c d]. unfold Csqnorm in X |- *.
  unfold Cmul, Cconj, RtoC. cbn [fst snd] in *.
  match goal with |- ?x = _ => replace x with ((a * a + b * b + (c * c + d * d)) * (/ l * / l)) by ring end.
  rewrite <- X. field. lra.
Qed.

Lemma ceval_const q i : ceval (rconst n q) (P k i) = RtoC q.
Proof. apply ceval_rconst. apply pow2_ge1. Qed.

Lemma gdist_avg (F' G' c : list R) : length F' = n -> length G' = n -> length c = n ->
  gdist n f g F' G' c = avg k (fun i =>
    Csqnorm (Csub (ceval F' (P k i)) (Cmul (ceval c (P k i)) (ceval f (P k i)))) +
    Csqnorm (Csub (ceval G' (P k i)) (Cmul (ceval c (P k i)) (ceval g (P k i))))).
Proof.
  intros LF LG Lc. unfold gdist. rewrite <- !(parseval roots G k) by apply rsub_length. rewrite <- avg_plus.
  apply avg_ext. intros i Hi. rewrite !ceval_rsub by (try assumption; apply rmul_length).
  rewrite !(ceval_rmul_P roots G k) by assumption. reflexivity.
Qed.
Lemma rntru_at q (F' G' : list R) i : length F' = n -> length G' = n -> (i < n)%nat -> rntru n q f g F' G' ->
  Csub (Cmul (ceval f (P k i)) (ceval G' (P k i))) (Cmul (ceval g (P k i)) (ceval F' (P k i))) = RtoC q.
Proof.
  intros LF LG Hi E. rewrite <- !(ceval_rmul_P roots G k) by assumption.
  rewrite <- (ceval_rsub n) by apply rmul_length. rewrite E. apply ceval_const.
Qed.

(** one point: Lagrange's identity *)
Lemma point_id (a b c d F' G' : Cx) q : Csub (Cmul a G') (Cmul b F') = RtoC q ->
  0 < Csqnorm a + Csqnorm b ->
  q * q * / (Csqnorm a + Csqnorm b) <= Csqnorm (Csub F' (Cmul c a)) + Csqnorm (Csub G' (Cmul c b)).
Proof.
  intros E Hp.
  assert (E2 : Csub (Cmul a (Csub G' (Cmul c b))) (Cmul b (Csub F' (Cmul c a))) = RtoC q).
  { rewrite <- E. unfold Csub, Cmul. cbn [fst snd]. apply f_equal2; ring. }
  set (X := Csub F' (Cmul c a)) in *. set (Y := Csub G' (Cmul c b)) in *. clearbody X Y.
  set (l := Csqnorm a + Csqnorm b) in *.
  apply Rmult_le_reg_r with l; [exact Hp|]. replace (q * q * / l * l) with (q * q) by (field; lra).
  assert (E3 : q * q = Csqnorm (Csub (Cmul a Y) (Cmul b X))) by (rewrite E2; unfold Csqnorm, RtoC; cbn [fst snd]; ring).
  rewrite E3. unfold l. clear. destruct a as [a a'], b as [b b'], X as [x x'], Y as [y y'].
  unfold Csqnorm, Csub, Cmul. cbn [fst snd].
  (* the difference is |conj(a) X + conj(b) Y|^2 *)
  pose proof (Rle_0_sqr (a * x + a' * x' + (b * y + b' * y'))) as S1.
  pose proof (Rle_0_sqr (a * x' - a' * x + (b * y' - b' * y))) as S2. unfold Rsqr in *.
  match goal with |- ?s <= ?t => assert (D : t - s = (a * x + a' * x' + (b * y + b' * y')) * (a * x + a' * x' + (b * y + b' * y')) +
    (a * x' - a' * x + (b * y' - b' * y)) * (a * x' - a' * x + (b * y' - b' * y))) by ring end. lra.
Qed.
(** equality when c is the projection *)
Lemma point_eq (a b c F' G' : Cx) q : Csub (Cmul a G') (Cmul b F') = RtoC q ->
  0 < Csqnorm a + Csqnorm b ->
  c = Cmul (Cadd (Cmul F' (Cconj a)) (Cmul G' (Cconj b))) (RtoC (/ (Csqnorm a + Csqnorm b))) ->
  Csqnorm (Csub F' (Cmul c a)) + Csqnorm (Csub G' (Cmul c b)) = q * q * / (Csqnorm a + Csqnorm b).
Proof.
  intros E Hp ->.
  assert (E3 : q * q = Csqnorm (Csub (Cmul a G') (Cmul b F'))) by (rewrite E; unfold Csqnorm, RtoC; cbn [fst snd]; ring).
  rewrite E3. clear E E3. destruct a as [a a'], b as [b b'], F' as [x x'], G' as [y y'].
  unfold Csqnorm, Csub, Cmul, Cadd, Cconj, RtoC in *. cbn [fst snd] in *. field. lra.
Qed.

Lemma gs_dist_exact q (F' G' : list R) : length F' = n -> length G' = n -> rntru n q f g F' G' ->
  gs_dist n f g F' G' (gs2 q).
Proof.
  intros LF LG E. assert (S2 : gs2 q = avg k (fun i => q * q * / lam f g (P k i))).
  { unfold gs2, Babai.avg. rewrite rsum_scal. unfold Rdiv. ring. }
  split.
  - destruct (div_gram (gram2 n F' G' f g) (radd_length _ _ _)) as (c & _ & Lc & _ & V).
    exists c. split; [exact Lc|]. rewrite gdist_avg by assumption. rewrite S2. apply avg_ext. intros i Hi.
    pose proof (V i Hi) as Vi. rewrite (ceval_gram roots G k) in Vi by assumption.
    apply (point_eq _ _ _ _ _ q); [apply rntru_at; assumption|apply lam_pos; assumption|exact Vi].
  - intros c Lc. rewrite gdist_avg by assumption. rewrite S2. apply avg_le. intros i Hi.
    apply (point_id _ _ _ C0); [apply rntru_at; assumption|apply lam_pos; assumption].
Qed.

(** a solution over the reals exists *)
Lemma rntru_exists q : exists F' G', length F' = n /\ length G' = n /\ rntru n q f g F' G'.
Proof.
  set (c := rconst n q).
  assert (Lc : length c = n) by apply rconst_length.
  exists (rsub n (rconst n 0) (rmul n (rmul n (radj n g) h) c)), (rmul n (rmul n (radj n f) h) c).
  split; [apply rsub_length|]. split; [apply rmul_length|]. unfold rntru.
  assert (INJ : forall a b : list R, length a = n -> length b = n -> (forall i, (i < n)%nat -> ceval a (P k i) = ceval b (P k i)) -> a = b).
  { intros a b La Lb H. apply Ok_inj. rewrite <- (IFFT_eval roots G k a), <- (IFFT_eval roots G k b) by auto.
    f_equal. apply map_ext_in. intros z Hz. destruct (in_P z Hz) as (i & Hi & ->). apply H, Hi. }
  apply INJ; [apply rsub_length|apply rconst_length|]. intros i Hi.
  rewrite ceval_rsub by apply rmul_length. rewrite !(ceval_rmul_P roots G k) by (auto using rmul_length, rsub_length, radj_length).
  rewrite ceval_rsub by (apply rconst_length || apply rmul_length).
  rewrite !(ceval_rmul_P roots G k) by (auto using rmul_length, rsub_length, radj_length).
  rewrite !(ceval_radj_P roots G k) by assumption. unfold c. rewrite !ceval_const.
  assert (E : Cmul (RtoC (lam f g (P k i))) (ceval h (P k i)) = RtoC 1).
  { rewrite <- ceval_lam by exact Hi. rewrite <- (ceval_rmul_P roots G k); [|apply radd_length|exact Lh|exact Hi].
    rewrite Inv. apply ceval_const. }
  unfold lam in E. destruct (ceval f (P k i)) as [a a'], (ceval g (P k i)) as [b b'], (ceval h (P k i)) as [x x'].
  unfold Csqnorm, Csub, Cmul, Cconj, RtoC in *. cbn [fst snd] in *.
  pose proof (f_equal fst E) as E1. pose proof (f_equal snd E) as E2. cbn [fst snd] in E1, E2. clear E.
  apply f_equal2.
  - transitivity (q * ((a * a + a' * a' + (b * b + b' * b')) * x - 0 * x')); [ring|]. rewrite E1. ring.
  - transitivity (q * ((a * a + a' * a' + (b * b + b' * b')) * x' + 0 * x)); [ring|]. rewrite E2. ring.
Qed.

(** ** The quotient of reduce *)
(** c (f, g) is the projection of (A, B) *)
Definition proj (A B c : list R) : Prop :=
  length c = n /\ rmul n c (gram2 n f g f g) = gram2 n A B f g.
Lemma proj_exists A B : length A = n -> length B = n -> exists c, proj A B c.
Proof.
  intros LA LB. destruct (div_gram (gram2 n A B f g) (radd_length _ _ _)) as (c & _ & Lc & M & _).
  exists c. split; assumption.
Qed.
Lemma proj_at A B c i : length A = n -> length B = n -> proj A B c -> (i < n)%nat ->
  Cmul (ceval c (P k i)) (RtoC (lam f g (P k i))) =
  Cadd (Cmul (ceval A (P k i)) (Cconj (ceval f (P k i)))) (Cmul (ceval B (P k i)) (Cconj (ceval g (P k i)))).
Proof.
  intros LA LB [Lc E] Hi. rewrite <- ceval_lam by exact Hi. rewrite <- (ceval_rmul_P roots G k); [|exact Lc|apply radd_length|exact Hi].
  rewrite E. apply (ceval_gram roots G k); assumption.
Qed.
(** Pythagoras: for every d *)
Lemma pythagoras A B c d : length A = n -> length B = n -> proj A B c -> length d = n ->
  gdist n f g A B d = gdist n f g A B c +
    avg k (fun i => Csqnorm (Csub (ceval d (P k i)) (ceval c (P k i))) * lam f g (P k i)).
Proof.
  intros LA LB Pc Ld. pose proof Pc as [Lc _]. rewrite !gdist_avg by assumption. rewrite <- avg_plus. apply avg_ext. intros i Hi.
  pose proof (proj_at A B c i LA LB Pc Hi) as E. unfold lam in *.
  destruct (ceval f (P k i)) as [a a'], (ceval g (P k i)) as [b b'], (ceval A (P k i)) as [x x'], (ceval B (P k i)) as [y y'],
    (ceval c (P k i)) as [c1 c2], (ceval d (P k i)) as [d1 d2].
  unfold Csqnorm, Csub, Cmul, Cadd, Cconj, RtoC in *. cbn [fst snd] in *.
  pose proof (f_equal fst E) as E1. pose proof (f_equal snd E) as E2. cbn [fst snd] in E1, E2. clear E.
  set (U := x * a - x' * - a' + (y * b - y' * - b')) in *. set (V := x * - a' + x' * a + (y * - b' + y' * b)) in *.
  set (l := a * a + a' * a' + (b * b + b' * b')) in *.
  assert (E1' : U = c1 * l) by lra. assert (E2' : V = c2 * l) by lra.
  assert (X : forall e1 e2,
    (x - (e1 * a - e2 * a')) * (x - (e1 * a - e2 * a')) + (x' - (e1 * a' + e2 * a)) * (x' - (e1 * a' + e2 * a)) +
    ((y - (e1 * b - e2 * b')) * (y - (e1 * b - e2 * b')) + (y' - (e1 * b' + e2 * b)) * (y' - (e1 * b' + e2 * b)))
    = x * x + x' * x' + y * y + y' * y' - 2 * (e1 * U + e2 * V) + (e1 * e1 + e2 * e2) * l)
    by (intros; unfold U, V, l; ring).
  rewrite !X, E1', E2'. ring.
Qed.
Lemma avg_nonneg h' : (forall i, (i < n)%nat -> 0 <= h' i) -> 0 <= avg k h'.
Proof.
  intros H. replace 0 with (avg k (fun _ => 0)); [apply avg_le; exact H|].
  unfold Babai.avg. rewrite (rsum_ext n _ (fun _ => 0 * 0)) by (intros; ring). rewrite rsum_scal. unfold Rdiv. ring.
Qed.
Lemma Csq_pos z : 0 <= Csqnorm z.
Proof. unfold Csqnorm. pose proof (Rle_0_sqr (fst z)). pose proof (Rle_0_sqr (snd z)). unfold Rsqr in *. lra. Qed.
Lemma proj_min A B c d : length A = n -> length B = n -> proj A B c -> length d = n ->
  gdist n f g A B c <= gdist n f g A B d.
Proof.
  intros LA LB Pc Ld. rewrite (pythagoras A B c d) by assumption.
  assert (0 <= avg k (fun i => Csqnorm (Csub (ceval d (P k i)) (ceval c (P k i))) * lam f g (P k i))); [|lra].
  apply avg_nonneg. intros i Hi. apply Rmult_le_pos; [apply Csq_pos|apply lam_nonneg].
Qed.
Lemma gs_dist_proj q (A B c : list R) : length A = n -> length B = n -> rntru n q f g A B -> proj A B c ->
  gdist n f g A B c = gs2 q.
Proof.
  intros LA LB E Pc. pose proof Pc as [Lc _]. destruct (gs_dist_exact q A B LA LB E) as [(d & Ld & Ed) H].
  pose proof (H c Lc). pose proof (proj_min A B c d LA LB Pc Ld). lra.
Qed.

Lemma wrap_round x : wrap64 (f_to_int exactR (f_round exactR x)) = wrap64 (Rround x).
Proof. cbn [f_to_int f_round exactR]. now rewrite Rtrunc_IZR. Qed.

Lemma quotient_list (A B c : list R) : length A = n -> length B = n -> proj A B c ->
  (faFft <- FFT exactR roots f ;; gaFft <- FFT exactR roots g ;;
   FaFft <- FFT exactR roots A ;; GaFft <- FFT exactR roots B ;;
   ff <- MulFFT exactR faFft (AdjFFT exactR faFft) ;; gg <- MulFFT exactR gaFft (AdjFFT exactR gaFft) ;;
   denFft <- AddFFT exactR ff gg ;;
   Ff <- MulFFT exactR FaFft (AdjFFT exactR faFft) ;; Gg <- MulFFT exactR GaFft (AdjFFT exactR gaFft) ;;
   numFft <- AddFFT exactR Ff Gg ;; kFft <- DivFFT exactR numFft denFft ;;
   k <- IFFT exactR roots kFft ;; Ok (RoundAll exactR k)) = Ok (map (fun x => wrap64 (Rround x)) c).
Proof.
  intros LA LB Pc. pose proof Pc as [Lc _].
  pose proof (gr_len _ G k Hk) as LR.
  rewrite (FFT_eval roots G k f), (FFT_eval roots G k g), (FFT_eval roots G k A), (FFT_eval roots G k B) by auto. cbn [bind].
  assert (LM : forall a : Cx -> Cx, length (map a (roots n)) = n) by (intros; rewrite map_length; exact LR).
  unfold AdjFFT. rewrite !map_map.
  assert (MM : forall a b : Cx -> Cx,
    MulFFT exactR (map a (roots n)) (map b (roots n)) = Ok (map (fun z => Cmul (a z) (b z)) (roots n))).
  { intros a b. rewrite MulFFT_ok by (rewrite !map_length; apply Nat.le_refl). f_equal. apply (zip_map2 Cmul). apply map_length. }
  assert (MA : forall a b : Cx -> Cx,
    AddFFT exactR (map a (roots n)) (map b (roots n)) = Ok (map (fun z => Cadd (a z) (b z)) (roots n))).
  { intros a b. rewrite AddFFT_ok by (rewrite !map_length; reflexivity). f_equal. apply (zip_map2 Cadd). apply map_length. }
  assert (MD : forall a b : Cx -> Cx,
    DivFFT exactR (map a (roots n)) (map b (roots n)) = Ok (map (fun z => Cdiv (a z) (b z)) (roots n))).
  { intros a b. rewrite DivFFT_ok by (rewrite !map_length; reflexivity). f_equal. apply (zip_map2 Cdiv). apply map_length. }
  do 8 (rewrite ?MM, ?MA, ?MD; cbn [bind]).
  match goal with |- context [IFFT exactR roots ?l] => replace l with (map (ceval c) (roots n)) end.
  - pose proof (IFFT_eval roots G k c Hk Lc) as I. rewrite I. cbn [bind]. f_equal. unfold RoundAll.
    apply map_ext. apply wrap_round.
  - apply map_ext_in. intros z Hz. destruct (in_P z Hz) as (i & Hi & ->).
    pose proof (proj_at A B c i LA LB Pc Hi) as E. pose proof (lam_pos i Hi) as HL. unfold lam in *.
    change (c_conj exactR) with Cconj. rewrite <- E.
    destruct (ceval f (P k i)) as [a a'], (ceval g (P k i)) as [b b'], (ceval c (P k i)) as [c1 c2].
    unfold Cdiv, Csqnorm, Cmul, Cadd, Cconj, RtoC in *. cbn [fst snd] in *.
    set (l := a * a + a' * a' + (b * b + b' * b')) in *.
    replace (a * a - a' * - a' + (b * b - b' * - b')) with l by (unfold l; ring).
    replace (a * - a' + a' * a + (b * - b' + b' * b)) with 0 by ring.
    apply f_equal2; field; lra.
Qed.
End K.
End Gs.
