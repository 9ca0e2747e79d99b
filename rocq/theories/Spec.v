(** The specification side: plain mathematics, no reference to the model.
    Everything a property theorem mentions besides the modelled Go functions
    is defined here. *)
From Coq Require Import List ZArith Bool Lia.
Import ListNotations.
Open Scope Z_scope.

(** ** Sums and polynomials with integer coefficients (low degree first). *)

(** sum_{i<n} f i *)
Fixpoint sumn (n : nat) (f : nat -> Z) : Z :=
  match n with O => 0 | S m => sumn m f + f m end.

(** i-th coefficient, 0 beyond the end *)
Definition coef (f : list Z) (i : nat) : Z := nth i f 0.

(** f(x) *)
Definition eval (f : list Z) (x : Z) : Z :=
  sumn (length f) (fun i => coef f i * x ^ Z.of_nat i).

(** k-th coefficient of f*g in Z[x]/(x^n+1) *)
Definition negacyc_coef (n : nat) (f g : list Z) (k : nat) : Z :=
  sumn n (fun i =>
    if Nat.leb i k then coef f i * coef g (k - i)
    else - (coef f i * coef g (n + k - i))).

(** f*g in Z[x]/(x^n+1) *)
Definition negacyc (n : nat) (f g : list Z) : list Z :=
  map (negacyc_coef n f g) (seq 0 n).

(** k-th coefficient of the plain product f*g *)
Definition conv_coef (f g : list Z) (k : nat) : Z :=
  sumn (S k) (fun i => coef f i * coef g (k - i)).

(** coefficientwise operations *)
Definition padd (n : nat) (f g : list Z) : list Z :=
  map (fun i => coef f i + coef g i) (seq 0 n).
Definition psub (n : nat) (f g : list Z) : list Z :=
  map (fun i => coef f i - coef g i) (seq 0 n).
Definition pmod (q : Z) (f : list Z) : list Z := map (fun c => c mod q) f.

(** the constant polynomial c of length n *)
Definition pconst (n : nat) (c : Z) : list Z :=
  map (fun i => if Nat.eqb i 0 then c else 0) (seq 0 n).

(** a(-x) *)
Definition pconj (f : list Z) : list Z :=
  map (fun i => (-1) ^ Z.of_nat i * coef f i) (seq 0 (length f)).
(** a(x^2), of twice the length *)
Definition plift (f : list Z) : list Z :=
  map (fun i => if Nat.even i then coef f (Nat.div2 i) else 0) (seq 0 (2 * length f)).
(** c times a polynomial *)
Definition pscale (c : Z) (f : list Z) : list Z := map (Z.mul c) f.

(** [is_norm k f m]: m is the norm of f, of length 2^k, from Z[x]/(x^(2^k)+1)
    down to Z, by the tower of half-degree rings: the relative norm g of f is
    the polynomial with g(x^2) = f(x) f(-x). *)
Inductive is_norm : nat -> list Z -> Z -> Prop :=
| norm_Z : forall c, is_norm 0 [c] c
| norm_half : forall k f g m,
    length f = (2 ^ S k)%nat -> length g = (2 ^ k)%nat ->
    plift g = negacyc (2 ^ S k) f (pconj f) ->
    is_norm k g m -> is_norm (S k) f m.

(** ** The Falcon parameters q, n and the signature bound for degree 512. *)
Definition q : Z := 12289.
Definition beta2_512 : Z := 34034726.

(** the ten supported degrees *)
Definition valid_degree (n : nat) : Prop :=
  exists k : nat, (1 <= k <= 10)%nat /\ n = (2 ^ k)%nat.

(** representative of c mod q in [-(q-1)/2, (q-1)/2] *)
Definition centred (c : Z) : Z := (c + (q - 1) / 2) mod q - (q - 1) / 2.

(** squared Euclidean norm *)
Definition sqnorm (v : list Z) : Z := fold_right (fun c acc => c * c + acc) 0 v.

(** The Falcon verification equation: s0 = c - s1*h, centred, coefficientwise. *)
Definition falcon_s0 (n : nat) (h c s1 : list Z) : list Z :=
  map centred (psub n c (negacyc n s1 h)).

(** ** The signature code (Falcon spec 3.11.2): sign bit, 7 low bits (most
    significant first), high bits in unary as zeros closed by a one. *)
Definition bit_be (w : nat) (z : Z) : list bool :=
  map (fun i => Z.testbit z (Z.of_nat (w - 1 - i))) (seq 0 w).

Definition code_coef (c : Z) : list bool :=
  (c <? 0) :: bit_be 7 (Z.abs c mod 128)
    ++ repeat false (Z.to_nat (Z.abs c / 128)) ++ [true].

Definition code (v : list Z) : list bool := concat (map code_coef v).

(** the bits of a byte string, most significant bit of each byte first *)
Definition bits_of (x : list Z) : list bool := concat (map (bit_be 8) x).

(** length of the code of v, in bits *)
Definition code_len (v : list Z) : Z :=
  fold_right (fun c acc => 9 + Z.abs c / 128 + acc) 0 v.

(** ** Number theory *)
(** The NTRU equation f*G - g*F = q in Z[x]/(x^n+1) *)
Definition ntru_equation (n : nat) (f g F G : list Z) : Prop :=
  psub n (negacyc n f G) (negacyc n g F) = pconst n q.

(** g is a unit of Z_q[x]/(x^n+1) *)
Definition invertible_mod_q (n : nat) (g : list Z) : Prop :=
  exists u, length u = n /\ pmod q (negacyc n g u) = pconst n 1.

(** ** Hashing to a point *)
(** the coefficients obtained from a sequence of 16-bit words: words below 5q
    are kept and reduced *)
Definition accepted (ws : list Z) : list Z :=
  map (fun w => w mod q) (filter (fun w => w <? 5 * q) ws).

(** ** Decoding, as a relation *)
(** the byte string x, of length at most maxlen, starts with the code of the
    n-coefficient vector v *)
Definition decodes (x : list Z) (maxlen n : Z) (v : list Z) : Prop :=
  Z.of_nat (length x) <= maxlen /\ Z.of_nat (length v) = n /\
  exists rest, bits_of x = code v ++ rest.

(** the representative of z mod 2^16 in [-2^15, 2^15) *)
Definition int16_of (z : Z) : Z := (z + 32768) mod 65536 - 32768.

(** ** The 32-byte-word layout read by VerifyBytes *)
(** sum of the 32 bytes of word w *)
Definition word_total (b : list Z) (w : nat) : Z :=
  sumn 32 (fun k => coef b (w * 32 + k)).
(** a byte as a 32-byte big-endian word; a list of bytes as such words *)
Definition be_word (v : Z) : list Z := repeat 0 31 ++ [v].
Definition pack_words (vs : list Z) : list Z := concat (map be_word vs).
(** a key as bytes, two per coefficient (two's complement, high byte first) *)
Definition key_bytes (h : list Z) : list Z :=
  concat (map (fun c => [(c mod 65536) / 256; c mod 256]) h).
(** what VerifyBytes reads: the sums of the words *)
Definition read_key (b : list Z) : list Z :=
  map (fun j => int16_of (256 * word_total b (2 * j) + word_total b (2 * j + 1))) (seq 0 512).
Definition read_bytes (b : list Z) (from n : nat) : list Z :=
  map (fun i => word_total b (from + i) mod 256) (seq 0 n).
