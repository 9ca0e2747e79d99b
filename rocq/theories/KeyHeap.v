(** GetPrivateKey over an explicit memory of int16 arrays: a slice is a header,
    and the key stores the headers it is given.  Falcon.v models the same
    function on the contents. *)
From Verif Require Import GoBase Util Params Falcon Ntrugen Heap.

(** the backing arrays; an array is its list of int16 values *)
Definition mem := list (list Z).
(** a slice header of []int16: array, offset, length (the capacity is not used) *)
Record sl16 := { a_arr : nat; a_off : nat; a_len : nat }.
(** the elements of a slice *)
Definition contents (m : mem) (s : sl16) : list Z :=
  firstn (a_len s) (skipn (a_off s) (nth (a_arr s) m [])).
(** the header lies within its array: true of every Go slice *)
Definition wf_sl (m : mem) (s : sl16) : Prop :=
  (a_arr s < length m)%nat /\ (a_off s + a_len s <= length (nth (a_arr s) m []))%nat.
(** s[i] = v *)
Definition write (m : mem) (s : sl16) (i : nat) (v : Z) : res mem :=
  if Nat.ltb i (a_len s) then
    Ok (upd m (a_arr s) (upd (nth (a_arr s) m []) (a_off s + i) v))
  else Panic.
(** a history of writes *)
Definition writes (m : mem) (ws : list (sl16 * nat * Z)) : res mem :=
  foldM (fun m w => let '(s, i, v) := w in write m s i v) ws m.

(** falcon.go:133-139: the struct holds slice headers *)
Record HPrivateKey := { hk_n : Z; hk_f : sl16; hk_g : sl16; hk_F : sl16; hk_G : sl16 }.
(** falcon.go:160-175; isValidPolysLength uses the lengths only *)
Definition HGetPrivateKey (n : Z) (f g F G : sl16) : res HPrivateKey :=
  if negb (isValidDegree n) then Err ErrInvalidDegree else
  let z s := repeat 0 (a_len s) in
  ok <- isValidPolysLength n (z f) (z g) (z F) (z G) ;;
  if negb ok then Err ErrInvalidPolysLength else
  Ok {| hk_n := n; hk_f := f; hk_g := g; hk_F := F; hk_G := G |}.
(** the key as its methods read it *)
Definition key_of (m : mem) (k : HPrivateKey) : PrivateKey :=
  {| sk_n := hk_n k; sk_f := contents m (hk_f k); sk_g := contents m (hk_g k);
     sk_F := contents m (hk_F k); sk_G := contents m (hk_G k) |}.
