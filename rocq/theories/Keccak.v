(** SHAKE256 (FIPS 202), what golang.org/x/crypto/sha3 computes: one concrete
    [XOF].  The property theorems hold for every XOF; this one is used to run
    the model on signatures recorded in the repository (Recorded.v). *)
From Verif Require Import GoBase Xof.

(** lanes are 64-bit words *)
Definition mask64 : Z := 2 ^ 64 - 1.
Definition rotl (x : Z) (k : Z) : Z :=
  if k =? 0 then x else Z.lor (Z.land (Z.shiftl x k) mask64) (Z.shiftr x (64 - k)).
Definition xor5 (a b c d e : Z) : Z := Z.lxor a (Z.lxor b (Z.lxor c (Z.lxor d e))).
Definition andn (a b : Z) : Z := Z.land (Z.lxor a mask64) b.

(** the rotation offsets, by 5y + x *)
Definition rho : list Z :=
  [0; 1; 62; 28; 27; 36; 44; 6; 55; 20; 3; 10; 43; 25; 39; 41; 45; 15; 21; 8; 18; 2; 61; 56; 14].

(** the round constants *)
Definition round_constants : list Z :=
  [0x0000000000000001; 0x0000000000008082; 0x800000000000808A; 0x8000000080008000;
   0x000000000000808B; 0x0000000080000001; 0x8000000080008081; 0x8000000000008009;
   0x000000000000008A; 0x0000000000000088; 0x0000000080008009; 0x000000008000000A;
   0x000000008000808B; 0x800000000000008B; 0x8000000000008089; 0x8000000000008003;
   0x8000000000008002; 0x8000000000000080; 0x000000000000800A; 0x800000008000000A;
   0x8000000080008081; 0x8000000000008080; 0x0000000080000001; 0x8000000080008008].

Definition lane (a : list Z) (x y : nat) : Z := nth (5 * (y mod 5) + x mod 5) a 0.

(** theta, rho and pi, chi, iota *)
Definition keccak_round (a : list Z) (rc : Z) : list Z :=
  let c := map (fun x => xor5 (lane a x 0) (lane a x 1) (lane a x 2) (lane a x 3) (lane a x 4)) (seq 0 5) in
  let d := map (fun x => Z.lxor (nth ((x + 4) mod 5) c 0) (rotl (nth ((x + 1) mod 5) c 0) 1)) (seq 0 5) in
  let a := map (fun i => Z.lxor (nth i a 0) (nth (i mod 5) d 0)) (seq 0 25) in
  let r := map (fun p => rotl (fst p) (snd p)) (combine a rho) in
  (* B[y][2x+3y] = rot A[x][y], i.e. B[x][y] = rot A[x+3y][x] *)
  let b := map (fun i => let x := (i mod 5)%nat in let y := (i / 5)%nat in lane r (x + 3 * y) x) (seq 0 25) in
  let a := map (fun i => let x := (i mod 5)%nat in let y := (i / 5)%nat in
                 Z.lxor (lane b x y) (andn (lane b (x + 1) y) (lane b (x + 2) y))) (seq 0 25) in
  match a with [] => [] | h :: t => Z.lxor h rc :: t end.
Definition keccak_f (a : list Z) : list Z := fold_left keccak_round round_constants a.

(** bytes to and from little-endian lanes *)
Definition rate : nat := 136.
Definition lane_of_bytes (b : list Z) : Z := fold_right (fun x acc => x + 256 * acc) 0 b.
Definition bytes_of_lane (x : Z) : list Z := map (fun i => Z.land (Z.shiftr x (8 * Z.of_nat i)) 255) (seq 0 8).
Definition absorb_block (a block : list Z) : list Z :=
  keccak_f (map (fun i => Z.lxor (nth i a 0) (lane_of_bytes (firstn 8 (skipn (8 * i) block)))) (seq 0 25)).
Fixpoint absorb (fuel : nat) (a m : list Z) : list Z :=
  match fuel, m with
  | S fuel, _ :: _ => absorb fuel (absorb_block a (firstn rate m)) (skipn rate m)
  | _, _ => a
  end.
(** the padding of SHAKE: 1111 and 10*1 *)
Definition pad (m : list Z) : list Z :=
  let k := (rate - length m mod rate)%nat in
  m ++ if Nat.eqb k 1 then [0x9F] else 0x1F :: repeat 0 (k - 2) ++ [0x80].
Definition squeeze_block (a : list Z) : list Z := firstn rate (concat (map bytes_of_lane a)).

Inductive shake_state : Type :=
| Absorbing (m : list Z)                (* everything written so far *)
| Squeezing (a : list Z) (out : list Z). (* the state and its unread bytes *)

Definition shake_start (m : list Z) : list Z :=
  absorb (S (length m)) (repeat 0 25) (pad m).
(** Write after the first Read panics in the library; the repository never does it. *)
Definition shake_write (s : shake_state) (b : list Z) : shake_state :=
  match s with Absorbing m => Absorbing (m ++ b) | s => s end.
Definition shake_read2 (s : shake_state) : Z * Z * shake_state :=
  let '(a, out) := match s with
                   | Absorbing m => let a := shake_start m in (a, squeeze_block a)
                   | Squeezing a out => (a, out)
                   end in
  let '(a, out) := match out with
                   | _ :: _ :: _ => (a, out)
                   | _ => let a := keccak_f a in (a, squeeze_block a)
                   end in
  match out with
  | x :: y :: out => (Z.land x 255, Z.land y 255, Squeezing a out)
  | _ => (0, 0, s)
  end.

Lemma shake_bytes s : is_byte (fst (fst (shake_read2 s))) /\ is_byte (snd (fst (shake_read2 s))).
Proof.
  assert (L : forall x, is_byte (Z.land x 255)).
  { intro x. unfold is_byte. change 255 with (Z.ones 8). rewrite Z.land_ones by lia.
    change (Z.ones 8) with 255. pose proof (Z.mod_pos_bound x (2 ^ 8) eq_refl). change (2 ^ 8) with 256 in *. lia. }
  assert (B0 : is_byte 0) by (unfold is_byte; lia).
  unfold shake_read2.
  destruct (match s with Absorbing _ => _ | Squeezing _ _ => _ end) as [a out].
  destruct (match out with [] => _ | _ :: _ => _ end) as [a' out'].
  destruct out' as [|x [|y o]]; cbn [fst snd]; split; auto.
Qed.

Definition shake256 : XOF := {|
  xst := shake_state; xnew := Absorbing []; xwrite := shake_write; xread2 := shake_read2;
  xread2_bytes := shake_bytes |}.
