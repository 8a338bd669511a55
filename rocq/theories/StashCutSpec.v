(** What should be read from a stash file that was cut short. *)
From stdpp Require Import prelude.
From Coq Require Import NArith.
From Verif Require Import Base EncModel EncSpec.
Local Open Scope nat_scope.

(** The keys that have something in the stash, with what they have, in the order of the file. *)
Definition stash_entries (p : eparams) (qs : list part) : list (bytes * list bytes) :=
  omap (fun q => if decide (stashed p q = []) then None else Some (pt_key q, stashed p q)) qs.
(** What the first [n] bytes say of the entries: those that are there; then nothing if the cut
    is between two entries, an empty list if it is in the number of elements and the bytes of it
    that are left are zero.  [None] anywhere else: the end of the entry is missed. *)
Fixpoint cut (p : eparams) (l : list (bytes * list bytes)) (n : nat) : option (list (bytes * list bytes)) :=
  match l with
  | [] => Some []
  | (k, vs) :: l' =>
      let size := kp_key p + 8 + length vs * kp_val p in
      if decide (size <= n) then cons (k, vs) <$> cut p l' (n - size)
      else if decide (n = 0) then Some []
      else if decide (kp_key p <= n < kp_key p + 8 /\ (N.of_nat (length vs) mod 256 ^ N.of_nat (n - kp_key p) = 0)%N)
      then Some [(k, [])] else None
  end.
(** The list of a key. *)
Definition list_of (k : bytes) (l : list (bytes * list bytes)) : option (list bytes) :=
  snd <$> (snd <$> list_find (fun kv => kv.1 = k) l).
