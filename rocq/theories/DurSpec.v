(** Specification of what a power failure leaves. *)
From stdpp Require Import prelude.
From Coq Require Import NArith Lia.
From Verif Require Import Base EncModel StoreModel LifeModel.
Local Open Scope nat_scope.

(** What a power failure can leave of a file that has had the contents [past] since it was
    last synchronized ([None]: no file): the length is one that the file had, and each byte
    is one that the file had there (zero where it was shorter).  The writes reach the disk in
    any order and in any pieces. *)
Definition leaves (past : list (option bytes)) (f : option bytes) : Prop :=
  match f with
  | None => None ∈ past
  | Some bs =>
      (exists c, Some c ∈ past /\ length c = length bs) /\
      forall i x, bs !! i = Some x -> exists o, o ∈ past /\ x = default 0%N (default [] o !! i)
  end.

(** The pages of a file. *)
Definition page_of (sz i : nat) (f : bytes) : bytes := take sz (drop (i * sz) f).
(** Each page of [f'] is the one of [f], or zero. *)
Definition whole_pages (sz : nat) (f f' : bytes) : Prop :=
  forall i, i < length f' / sz -> page_of sz i f' = page_of sz i f \/ page_of sz i f' = replicate sz 0%N.
