(** Vocabulary of the statements about the memory accesses of the parallel jobs. *)
From stdpp Require Import prelude.
From Coq Require Import ZArith Lia.
From Verif Require Import Base GraphModel GraphSpec RaceModel.

(** The shared cells: the flow or the reciprocal flow of an edge, the parent edge of a
    vertex. *)
Inductive cell := CFlow (i : nat) (r : bool) | CPar (j : nat).

(** The cell that a job is about to read, or to write. *)
Definition next_read {A} (P : prog A) : option cell :=
  match P with
  | PRdFlow i r _ => Some (CFlow i r)
  | PRdPar j _ => Some (CPar j)
  | _ => None
  end.
Definition next_write {A} (P : prog A) : option cell :=
  match P with
  | PWrFlow i r _ _ => Some (CFlow i r)
  | PWrPar j _ _ => Some (CPar j)
  | _ => None
  end.

(** Job [c'] is about to write a cell that job [c] is about to read or write: a data race
    in the sense of the C++ standard. *)
Definition race (s : pool) (c c' : nat) (x : cell) : Prop :=
  exists P P', jobs s !! c = Some P /\ jobs s !! c' = Some P' /\ c <> c' /\
    next_write P' = Some x /\ (next_read P = Some x \/ next_write P = Some x).

(** The job goes on in the same way whatever it reads. *)
Definition ignores_read {A} (P : prog A) : Prop :=
  match P with
  | PRdFlow _ _ k => forall z z', k z = k z'
  | _ => False
  end.

(** Construction calls whose capacities fit in a size_t. *)
Definition cap_fits (o : gop) : Prop := (a_cap (arc_of o) < 2 ^ 64)%Z.
