(** Specification of list allocation, independent of the graph. *)
From stdpp Require Import prelude.
From Coq Require Import ZArith Lia.
From Verif Require Import Base GraphModel GraphSpec AllocModel.
Local Open Scope Z_scope.

(** A list to allocate: its two bins, its length and its index. *)
Record item := Item { it_h0 : nat; it_h1 : nat; it_len : Z; it_idx : nat }.

Definition item_ok (n : nat) (page : Z) (it : item) : Prop :=
  (it_h0 it < n)%nat /\ (it_h1 it < n)%nat /\ 0 <= it_len it <= page.

Fixpoint insert_items (a : allocator) (its : list item) : res allocator :=
  match its with
  | [] => Ok a
  | it :: its' =>
      a' <~ alloc_insert a (it_h0 it) (it_h1 it) (it_len it) (Some (it_idx it));
      insert_items a' its'
  end.

(** An assignment: how many entries of each list go to its first and to its
    second bin. *)
Notation assignment := (list (Z * Z)).

Definition bin_load (its : list item) (xs : assignment) (b : nat) : Z :=
  zsum (zip_with (fun it x => (if bool_decide (it_h0 it = b) then x.1 else 0) +
                              (if bool_decide (it_h1 it = b) then x.2 else 0)) its xs).

Definition parts_ok (its : list item) (xs : assignment) : Prop :=
  Forall2 (fun it x => 0 <= x.1 /\ 0 <= x.2 /\ x.1 + x.2 <= it_len it) its xs.

Definition fits (n : nat) (page : Z) (its : list item) (xs : assignment) : Prop :=
  parts_ok its xs /\ forall b, (b < n)%nat -> bin_load its xs b <= page.

(** Number of entries left outside the table. *)
Definition unplaced (its : list item) (xs : assignment) : Z :=
  zsum (zip_with (fun it x => it_len it - x.1 - x.2) its xs).

(** Bound on the number of augmentations: the total number of entries. *)
Definition alloc_fuel (its : list item) : nat := S (Z.to_nat (zsum (it_len <$> its))).

(** The assignment computed by the allocator, as documented in
    tethys_allocator.cpp:85-88: for the i-th list, the flow and the reciprocal
    flow of the i-th edge. *)
Definition assigned (g : graph) (its : list item) : assignment :=
  (fun e => (e_flow e, e_recf e)) <$> take (length its) (g_edges g).
