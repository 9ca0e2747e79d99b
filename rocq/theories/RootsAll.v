(** The listed roots are all the complex roots of x^n+1, without repetition. *)
From Coq Require Import Lra.
From Verif Require Import GoBase Util BaseProofs PolyRing Float Fft FftShape SpecFft ExactReal FftProofs.

Lemma C1_neq_0 : C1 <> C0.
Proof. intros H. apply (f_equal fst) in H. cbn in H. lra. Qed.

Lemma Cmul_integral a b : Cmul a b = C0 -> a = C0 \/ b = C0.
Proof.
  intros H.
  assert (N : (Csqnorm a * Csqnorm b = 0)%R).
  { unfold Cmul, C0 in H. pose proof (f_equal fst H) as H1. pose proof (f_equal snd H) as H2.
    cbn [fst snd] in *. unfold Csqnorm.
    set (p := fst a) in *. set (q := snd a) in *. set (r := fst b) in *. set (s := snd b) in *.
    replace ((p * p + q * q) * (r * r + s * s))%R
      with ((p * r - q * s) * (p * r - q * s) + (p * s + q * r) * (p * s + q * r))%R by ring.
    rewrite H1, H2. ring. }
  apply Rmult_integral in N. destruct N as [N|N]; [left|right]; apply Csqnorm_0; exact N.
Qed.

Lemma Csub_0 a b : Csub a b = C0 -> a = b.
Proof.
  intros H. replace a with (Cadd (Csub a b) b) by ring. rewrite H. ring.
Qed.

Lemma Csqr_eq a b : Cmul a a = Cmul b b -> a = b \/ a = Copp b.
Proof.
  intros H. destruct (Cmul_integral (Csub a b) (Cadd a b)) as [E|E].
  - replace (Cmul (Csub a b) (Cadd a b)) with (Csub (Cmul a a) (Cmul b b)) by ring. rewrite H. ring.
  - left. apply Csub_0, E.
  - right. apply Csub_0. rewrite <- E. ring.
Qed.

Lemma Cpow_sqr z n : Cpow (Cmul z z) n = Cpow z (2 * n).
Proof.
  induction n as [|n IH]; [reflexivity|].
  replace (2 * S n)%nat with (S (S (2 * n)))%nat by lia. cbn [Cpow]. rewrite IH. ring.
Qed.

Section All.
Context (roots : nat -> list Cx) (G : good_roots roots).

Lemma roots_all k : (1 <= k)%nat -> forall z, Cpow z (2 ^ k) = Copp C1 -> In z (roots (2 ^ k)%nat).
Proof.
  induction k as [|[|k] IH]; intros Hk z Hz; [lia| |].
  - change (2 ^ 1)%nat with 2%nat in *. rewrite (gr_two _ G). cbn [Cpow] in Hz.
    destruct (Csqr_eq z Ci) as [-> | ->]; [|left; reflexivity|right; left; reflexivity].
    replace (Cmul Ci Ci) with (Copp C1) by (unfold Cmul, Copp, C1, Ci; cbn; apply f_equal2; ring).
    rewrite <- Hz. ring.
  - rewrite pow2_S in Hz |- *. rewrite <- Cpow_sqr in Hz.
    pose proof (gr_len _ G (S k) ltac:(lia)) as L1.
    pose proof (gr_len _ G (S (S k)) ltac:(lia)) as L2. rewrite (pow2_S (S k)) in L2.
    destruct (In_nth _ _ C0 (IH ltac:(lia) _ Hz)) as (i & Hi & E). rewrite L1 in Hi.
    rewrite <- (gr_sqr _ G (S k) i ltac:(lia) Hi) in E. symmetry in E.
    destruct (Csqr_eq _ _ E) as [-> | ->].
    + apply nth_In. lia.
    + rewrite <- (gr_opp _ G (S k) i ltac:(lia) Hi). apply nth_In. lia.
Qed.

Lemma roots_NoDup k : (1 <= k)%nat -> NoDup (roots (2 ^ k)%nat).
Proof.
  induction k as [|[|k] IH]; intros Hk; [lia| |].
  - change (2 ^ 1)%nat with 2%nat. rewrite (gr_two _ G).
    repeat constructor; cbn; [intros [H|[]]|tauto].
    apply (f_equal snd) in H. cbn in H. lra.
  - pose proof (gr_len _ G (S k) ltac:(lia)) as L1.
    pose proof (gr_len _ G (S (S k)) ltac:(lia)) as L2. rewrite (pow2_S (S k)) in L2 |- *.
    specialize (IH ltac:(lia)). rewrite NoDup_nth in IH. rewrite NoDup_nth with (d := C0).
    intros i j Hi Hj E. rewrite L2 in Hi, Hj.
    assert (Sq : forall i, (i < 2 * 2 ^ S k)%nat ->
      Cmul (nth i (roots (2 * 2 ^ S k)%nat) C0) (nth i (roots (2 * 2 ^ S k)%nat) C0)
      = nth (i / 2)%nat (roots (2 ^ S k)%nat) C0).
    { clear - G. intros i Hi. pose proof (Nat.div_mod i 2 ltac:(lia)) as D.
      pose proof (Nat.mod_upper_bound i 2 ltac:(lia)) as M.
      assert (Q : (i / 2 < 2 ^ S k)%nat) by lia.
      rewrite <- (gr_sqr _ G (S k) (i / 2) ltac:(lia) Q).
      destruct (i mod 2)%nat as [|[|?]]; [| |lia].
      - replace i with (2 * (i / 2))%nat at 1 2 by lia. reflexivity.
      - replace i with (2 * (i / 2) + 1)%nat at 1 2 by lia.
        rewrite (gr_opp _ G (S k) _ ltac:(lia) Q). ring. }
    assert (Q : (i / 2 = j / 2)%nat).
    { apply IH.
      - rewrite L1. apply Nat.div_lt_upper_bound; lia.
      - rewrite L1. apply Nat.div_lt_upper_bound; lia.
      - rewrite <- !Sq by assumption. now rewrite E. }
    assert (NZ : forall c, (c < 2 ^ S k)%nat ->
      nth (2 * c) (roots (2 * 2 ^ S k)%nat) C0 <> nth (2 * c + 1) (roots (2 * 2 ^ S k)%nat) C0).
    { intros c Hc H. rewrite (gr_opp _ G (S k) c ltac:(lia) Hc) in H.
      pose proof (gr_unit _ G (S (S k)) (2 * c) ltac:(lia) ltac:(rewrite (pow2_S (S k)); lia)) as U.
      rewrite (pow2_S (S k)) in U. set (w := nth (2 * c) _ C0) in *. clearbody w.
      assert (W : w = C0).
      { destruct w as [x y]. unfold Copp in H. cbn in H. injection H as H1 H2. unfold C0. apply f_equal2; lra. }
      rewrite W in U. apply C1_neq_0. rewrite <- U. ring. }
    pose proof (Nat.div_mod i 2 ltac:(lia)) as Di. pose proof (Nat.mod_upper_bound i 2 ltac:(lia)) as Mi.
    pose proof (Nat.div_mod j 2 ltac:(lia)) as Dj. pose proof (Nat.mod_upper_bound j 2 ltac:(lia)) as Mj.
    rewrite <- Q in Dj. assert (Hc : (i / 2 < 2 ^ S k)%nat) by lia.
    destruct (i mod 2)%nat as [|[|?]], (j mod 2)%nat as [|[|?]]; try lia.
    + exfalso. apply (NZ _ Hc). replace (2 * (i / 2) + 1)%nat with j by lia.
      replace (2 * (i / 2))%nat with i by lia. exact E.
    + exfalso. apply (NZ _ Hc). replace (2 * (i / 2) + 1)%nat with i by lia.
      replace (2 * (i / 2))%nat with j by lia. symmetry. exact E.
Qed.
End All.
