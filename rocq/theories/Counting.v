(** Counting vectors with coefficients modulo q: the lists of all hash points of length n and
    sums over them. *)
From Verif Require Import GoBase Spec.
From Coq Require Import Permutation.

(** z, z+1, ..., z+n-1 *)
Fixpoint zrange (n : nat) (z : Z) : list Z :=
  match n with O => [] | S n => z :: zrange n (z + 1) end.
(** 0 .. q-1 *)
Definition residues : list Z := zrange (Z.to_nat q) 0.
(** the q^n vectors of length n with coefficients in [0,q) *)
Fixpoint points (n : nat) : list (list Z) :=
  match n with
  | O => [[]]
  | S n => flat_map (fun x => map (cons x) (points n)) residues
  end.
Definition point (n : nat) (c : list Z) : Prop :=
  length c = n /\ Forall (fun x => 0 <= x < q) c.

Lemma in_zrange n : forall z x, In x (zrange n z) <-> z <= x < z + Z.of_nat n.
Proof.
  induction n as [|n IH]; intros z x; [cbn; lia|].
  change (In x (zrange (S n) z)) with (z = x \/ In x (zrange n (z + 1))). rewrite IH. lia.
Qed.
Lemma nodup_zrange n : forall z, NoDup (zrange n z).
Proof.
  induction n as [|n IH]; intros z; cbn [zrange]; constructor; [|apply IH].
  rewrite in_zrange. lia.
Qed.
Lemma len_zrange n : forall z, length (zrange n z) = n.
Proof. induction n as [|n IH]; intros z; cbn [zrange length]; [reflexivity|]. now rewrite IH. Qed.
Lemma q_nat : Z.of_nat (Z.to_nat q) = q. Proof. apply Z2Nat.id. unfold q. lia. Qed.
Lemma in_residues x : In x residues <-> 0 <= x < q.
Proof. unfold residues. rewrite in_zrange, q_nat. reflexivity. Qed.
Lemma nodup_residues : NoDup residues. Proof. apply nodup_zrange. Qed.
Lemma len_residues : Z.of_nat (length residues) = q.
Proof. unfold residues. rewrite len_zrange. apply q_nat. Qed.
#[global] Opaque residues.

Lemma in_points n : forall c, In c (points n) <-> point n c.
Proof.
  induction n as [|n IH]; intros c.
  - cbn. unfold point. split.
    + intros [<-|[]]. split; [reflexivity|constructor].
    + intros [L _]. destruct c; [left; reflexivity|discriminate].
  - cbn [points]. rewrite in_flat_map. split.
    + intros (x & Hx & Hc). apply in_map_iff in Hc. destruct Hc as (v & <- & Hv).
      apply IH in Hv. destruct Hv as [L F]. split; [cbn; now rewrite L|].
      constructor; [now apply in_residues|exact F].
    + intros [L F]. destruct c as [|x v]; [discriminate|]. inversion F; subst.
      exists x. split; [now apply in_residues|]. apply in_map. apply IH. split; [now injection L|assumption].
Qed.

Lemma nodup_flat_cons (l : list Z) (vs : list (list Z)) : NoDup l -> NoDup vs ->
  NoDup (flat_map (fun x => map (cons x) vs) l).
Proof.
  intros Nl Nv. induction Nl as [|x l Hx Nl IH]; cbn [flat_map]; [constructor|].
  assert (D : forall a b : list (list Z), NoDup a -> NoDup b -> (forall y, In y a -> ~ In y b) -> NoDup (a ++ b)).
  { clear. intros a b Na Nb D. induction Na as [|y a Hy Na IH]; cbn [app]; [exact Nb|].
    constructor.
    - rewrite in_app_iff. intros [H|H]; [contradiction|]. exact (D y (or_introl eq_refl) H).
    - apply IH. intros z Hz. apply D. now right. }
  apply D; [|exact IH|].
  - clear - Nv. induction Nv as [|v vs Hv Nv IH]; cbn [map]; constructor; [|exact IH].
    rewrite in_map_iff. intros (w & E & Hw). injection E as ->. contradiction.
  - intros y Hy Hy'. apply in_map_iff in Hy. destruct Hy as (v & <- & _).
    apply in_flat_map in Hy'. destruct Hy' as (x' & Hx' & Hv'). apply in_map_iff in Hv'.
    destruct Hv' as (v' & E & _). injection E as -> _. contradiction.
Qed.
Lemma nodup_points n : NoDup (points n).
Proof.
  induction n as [|n IH]; [cbn; constructor; [easy|constructor]|].
  cbn [points]. apply nodup_flat_cons; [apply nodup_residues|exact IH].
Qed.

(** ** Sums over a list *)
Definition zsum {A} (l : list A) (f : A -> Z) : Z := fold_right (fun x acc => f x + acc) 0 l.

Section Sums.
Context {A : Type}.
Implicit Types (l : list A) (f g : A -> Z).
Lemma zsum_ext l f g : (forall x, In x l -> f x = g x) -> zsum l f = zsum l g.
Proof.
  induction l as [|x l IH]; cbn; intros H; [reflexivity|].
  rewrite (H x (or_introl eq_refl)). f_equal. apply IH. intros y Hy. apply H. now right.
Qed.
Lemma zsum_le l f g : (forall x, In x l -> f x <= g x) -> zsum l f <= zsum l g.
Proof.
  induction l as [|x l IH]; cbn; intros H; [lia|].
  pose proof (H x (or_introl eq_refl)). specialize (IH (fun y Hy => H y (or_intror Hy))). unfold zsum in IH. lia.
Qed.
Lemma zsum_nonneg l f : (forall x, In x l -> 0 <= f x) -> 0 <= zsum l f.
Proof.
  induction l as [|x l IH]; cbn; intros H; [lia|].
  pose proof (H x (or_introl eq_refl)). specialize (IH (fun y Hy => H y (or_intror Hy))). unfold zsum in IH. lia.
Qed.
Lemma zsum_add l f g : zsum l (fun x => f x + g x) = zsum l f + zsum l g.
Proof. induction l as [|x l IH]; cbn; [reflexivity|]. unfold zsum in IH. lia. Qed.
Lemma zsum_scale l k f : zsum l (fun x => k * f x) = k * zsum l f.
Proof. induction l as [|x l IH]; cbn; [lia|]. unfold zsum in IH. rewrite IH. lia. Qed.
Lemma zsum_scale_r l k f : zsum l (fun x => f x * k) = zsum l f * k.
Proof. induction l as [|x l IH]; cbn; [lia|]. unfold zsum in IH. rewrite IH. lia. Qed.
Lemma zsum_zero l : zsum l (fun _ => 0) = 0.
Proof. induction l as [|x l IH]; cbn; [reflexivity|]. exact IH. Qed.
Lemma zsum_const l k : zsum l (fun _ => k) = Z.of_nat (length l) * k.
Proof. induction l as [|x l IH]; [reflexivity|]. cbn [zsum fold_right length]. unfold zsum in IH. rewrite IH. lia. Qed.
Lemma zsum_app l l' f : zsum (l ++ l') f = zsum l f + zsum l' f.
Proof. induction l as [|x l IH]; cbn; [reflexivity|]. unfold zsum in IH. rewrite IH. unfold zsum. lia. Qed.
Lemma zsum_perm l l' f : Permutation l l' -> zsum l f = zsum l' f.
Proof. intros P. induction P; cbn; try lia; unfold zsum in *; lia. Qed.
End Sums.
Lemma zsum_map {A B} (h : A -> B) l f : zsum (map h l) f = zsum l (fun x => f (h x)).
Proof. induction l as [|x l IH]; cbn; [reflexivity|]. unfold zsum in IH. now rewrite IH. Qed.
Lemma zsum_swap {A B} (l : list A) (m : list B) (f : A -> B -> Z) :
  zsum l (fun x => zsum m (f x)) = zsum m (fun y => zsum l (fun x => f x y)).
Proof.
  induction l as [|x l IH]; cbn.
  - symmetry. apply zsum_zero.
  - fold (zsum l (fun x => zsum m (f x))). rewrite IH. symmetry.
    exact (zsum_add m (f x) (fun y => zsum l (fun x => f x y))).
Qed.
Lemma zsum_flat {A B} (l : list A) (h : A -> list B) f :
  zsum (flat_map h l) f = zsum l (fun x => zsum (h x) f).
Proof.
  induction l as [|x l IH]; cbn [flat_map]; [reflexivity|]. rewrite zsum_app, IH. reflexivity.
Qed.

Definition b2z (b : bool) : Z := if b then 1 else 0.
Lemma b2z_range b : 0 <= b2z b <= 1. Proof. destruct b; cbn; lia. Qed.

(** ** Sums over all points *)
Definition total (n : nat) (w : list Z -> Z) : Z := zsum (points n) w.

Lemma total_S n w : total (S n) w = zsum residues (fun x => total n (fun v => w (x :: v))).
Proof.
  unfold total. cbn [points]. rewrite zsum_flat. apply zsum_ext. intros x _. apply zsum_map.
Qed.
Lemma total_O w : total 0 w = w []. Proof. unfold total. cbn. lia. Qed.
Lemma total_ext n w w' : (forall v, point n v -> w v = w' v) -> total n w = total n w'.
Proof. intros H. apply zsum_ext. intros v Hv. apply H. now apply in_points. Qed.
Lemma total_le n w w' : (forall v, point n v -> w v <= w' v) -> total n w <= total n w'.
Proof. intros H. apply zsum_le. intros v Hv. apply H. now apply in_points. Qed.
Lemma total_nonneg n w : (forall v, point n v -> 0 <= w v) -> 0 <= total n w.
Proof. intros H. apply zsum_nonneg. intros v Hv. apply H. now apply in_points. Qed.
Lemma total_add n w w' : total n (fun v => w v + w' v) = total n w + total n w'.
Proof. apply zsum_add. Qed.
Lemma total_scale n k w : total n (fun v => k * w v) = k * total n w.
Proof. apply zsum_scale. Qed.

Lemma total_app n m w : total (n + m) w = total n (fun u => total m (fun v => w (u ++ v))).
Proof.
  revert w. induction n as [|n IH]; intros w; cbn [Nat.add].
  - rewrite total_O. reflexivity.
  - rewrite !total_S. apply zsum_ext. intros x _. rewrite IH. reflexivity.
Qed.

(** the product of a function of the coefficients *)
Definition vprod (g : Z -> Z) (v : list Z) : Z := fold_right (fun x acc => g x * acc) 1 v.
Lemma total_prod g n : total n (vprod g) = zsum residues g ^ Z.of_nat n.
Proof.
  induction n as [|n IH]; [rewrite total_O; reflexivity|].
  rewrite total_S, Nat2Z.inj_succ, Z.pow_succ_r by lia.
  rewrite <- IH, <- zsum_scale_r. apply zsum_ext. intros x _.
  rewrite <- (total_scale n (g x)). reflexivity.
Qed.
Lemma total_one n : total n (fun _ => 1) = q ^ Z.of_nat n.
Proof.
  rewrite <- len_residues.
  replace (Z.of_nat (length residues)) with (zsum residues (fun _ => 1)) by (rewrite zsum_const; lia).
  rewrite <- total_prod. apply total_ext. intros v _.
  clear. induction v as [|x v IH]; [reflexivity|].
  cbn [vprod fold_right]. unfold vprod in IH. rewrite <- IH. reflexivity.
Qed.

(** ** Subtracting a fixed vector permutes the points *)
Fixpoint shift (a c : list Z) : list Z :=
  match a, c with
  | y :: a, x :: c => (x - y) mod q :: shift a c
  | _, _ => []
  end.
Lemma qpos : 0 < q. Proof. unfold q. lia. Qed.
Lemma shift_residues y : Permutation (map (fun x => (x - y) mod q) residues) residues.
Proof.
  apply NoDup_Permutation_bis.
  - assert (I : forall l, NoDup l -> (forall x, In x l -> 0 <= x < q) -> NoDup (map (fun x => (x - y) mod q) l)).
    { induction 1 as [|x l Hx Nl IH]; intros R; cbn [map]; constructor.
      - rewrite in_map_iff. intros (x' & E & Hx'). apply Hx.
        replace x with x'; [exact Hx'|].
        pose proof (R x (or_introl eq_refl)). pose proof (R x' (or_intror Hx')).
        pose proof (Z.div_mod (x - y) q ltac:(unfold q; lia)).
        pose proof (Z.div_mod (x' - y) q ltac:(unfold q; lia)).
        unfold q in *. nia.
      - apply IH. intros x' Hx'. apply R. now right. }
    apply I; [apply nodup_residues|]. intros x Hx. now apply in_residues.
  - rewrite map_length. lia.
  - intros x Hx. apply in_map_iff in Hx. destruct Hx as (x' & <- & _).
    apply in_residues. apply Z.mod_pos_bound, qpos.
Qed.
Lemma total_shift : forall n a w, length a = n -> total n (fun v => w (shift a v)) = total n w.
Proof.
  induction n as [|n IH]; intros a w L; destruct a as [|y a]; try discriminate.
  - rewrite !total_O. reflexivity.
  - rewrite !total_S. cbn [shift]. injection L as L.
    rewrite <- (zsum_perm _ _ (fun x => total n (fun v => w (x :: v))) (shift_residues y)), zsum_map.
    apply zsum_ext. intros x _. exact (IH a (fun v => w ((x - y) mod q :: v)) L).
Qed.
Lemma shift_point : forall n a c, length a = n -> length c = n -> point n (shift a c).
Proof.
  induction n as [|n IH]; intros [|y a] [|x c] La Lc; try discriminate; cbn [shift].
  - split; [reflexivity|constructor].
  - injection La as La. injection Lc as Lc. destruct (IH a c La Lc) as [L F].
    split; [cbn; now rewrite L|]. constructor; [|exact F]. apply Z.mod_pos_bound, qpos.
Qed.

(** ** Counting with a boolean predicate *)
Definition hits (n : nat) (p : list Z -> bool) : list (list Z) := filter p (points n).
Lemma hits_count n p : Z.of_nat (length (hits n p)) = total n (fun v => b2z (p v)).
Proof.
  unfold hits, total. induction (points n) as [|v l IH]; [reflexivity|].
  cbn [filter zsum fold_right]. unfold zsum in IH. destruct (p v); cbn [length b2z]; lia.
Qed.
Lemma in_hits n p c : In c (hits n p) <-> point n c /\ p c = true.
Proof. unfold hits. rewrite filter_In, in_points. reflexivity. Qed.
Lemma nodup_hits n p : NoDup (hits n p).
Proof. apply NoDup_filter, nodup_points. Qed.
Lemma hits_max n p l : NoDup l -> (forall c, In c l -> point n c /\ p c = true) ->
  Z.of_nat (length l) <= total n (fun v => b2z (p v)).
Proof.
  intros N H. rewrite <- hits_count. apply inj_le. apply NoDup_incl_length; [exact N|].
  intros c Hc. apply in_hits, H, Hc.
Qed.
