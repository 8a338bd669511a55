(** The files that can be read as a stash, and what they hold. *)
From stdpp Require Import prelude.
From Coq Require Import NArith.
From Verif Require Import Base EncModel StashCutSpec.
Local Open Scope nat_scope.

(** A key, the number of its elements in eight bytes, the elements; again until the end of the
    file.  The last entry may lack bytes of its number, if those that are there are zero; it has
    no elements then. *)
Inductive stash_file (p : eparams) : bytes -> list (bytes * list bytes) -> Prop :=
| sf_end : stash_file p [] []
| sf_entry k vs s l :
    length k = kp_key p -> Forall (fun v => length v = kp_val p) vs -> (N.of_nat (length vs) < 2 ^ 64)%N ->
    stash_file p s l ->
    stash_file p (k ++ le64 (N.of_nat (length vs)) ++ mjoin vs ++ s) ((k, vs) :: l)
| sf_cut k z : length k = kp_key p -> z < 8 -> stash_file p (k ++ replicate z 0%N) [(k, [])].

(** The last list of a key. *)
Definition last_list_of (k : bytes) (l : list (bytes * list bytes)) : option (list bytes) := list_of k (reverse l).
