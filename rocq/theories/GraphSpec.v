(** Specification of flow networks, independent of the graph implementation. *)
From stdpp Require Import prelude.
From Coq Require Import ZArith Lia.
From Verif Require Import Base GraphModel.
Local Open Scope Z_scope.

Fixpoint zsum (l : list Z) : Z :=
  match l with [] => 0 | x :: l' => x + zsum l' end.

(** A network on [n] inner vertices, a source and a sink is a list of arcs with
    capacities. *)
Record arc := Arc { a_from : vptr; a_to : vptr; a_cap : Z }.

(** A flow assigns a number to each arc, in order. *)
Definition flow := list Z.

(** What enters and what leaves a vertex. *)
Definition inflow (arcs : list arc) (fl : flow) (v : vptr) : Z :=
  zsum (zip_with (fun a x => if bool_decide (a_to a = v) then x else 0) arcs fl).
Definition outflow (arcs : list arc) (fl : flow) (v : vptr) : Z :=
  zsum (zip_with (fun a x => if bool_decide (a_from a = v) then x else 0) arcs fl).

(** Capacity constraint on each arc, conservation at each inner vertex. *)
Definition feasible (arcs : list arc) (fl : flow) : Prop :=
  Forall2 (fun a x => 0 <= x <= a_cap a) arcs fl /\
  (forall i : nat, inflow arcs fl (VInner i) = outflow arcs fl (VInner i)).

(** The value of a flow. *)
Definition value (arcs : list arc) (fl : flow) : Z := outflow arcs fl VSource.

Definition max_flow (arcs : list arc) (fl : flow) : Prop :=
  feasible arcs fl /\ forall fl', feasible arcs fl' -> value arcs fl' <= value arcs fl.

(** Calls of the construction phase. *)
Inductive gop :=
| AddEdge (vi : option nat) (cap : Z) (s e : nat)
| AddFromSource (vi : option nat) (cap : Z) (e : nat)
| AddToSink (vi : option nat) (cap : Z) (s : nat).

Definition run_op (g : graph) (o : gop) : res (eptr * graph) :=
  match o with
  | AddEdge vi c s e => add_edge g vi c s e
  | AddFromSource vi c e => add_edge_from_source g vi c e
  | AddToSink vi c s => add_edge_to_sink g vi c s
  end.

(** Runs a sequence of calls; returns the edge pointers handed to the caller
    and the resulting graph. *)
Fixpoint run_ops (g : graph) (os : list gop) : res (list eptr * graph) :=
  match os with
  | [] => Ok ([], g)
  | o :: os' =>
      r <~ run_op g o;
      r' <~ run_ops r.2 os';
      Ok (r.1 :: r'.1, r'.2)
  end.

(** The network described by a sequence of construction calls. *)
Definition arc_of (o : gop) : arc :=
  match o with
  | AddEdge _ c s e => Arc (VInner s) (VInner e) c
  | AddFromSource _ c e => Arc VSource (VInner e) c
  | AddToSink _ c s => Arc (VInner s) VSink c
  end.

Definition op_ok (n : nat) (o : gop) : Prop :=
  match o with
  | AddEdge _ c s e => 0 <= c /\ (s < n)%nat /\ (e < n)%nat
  | AddFromSource _ c e => 0 <= c /\ (e < n)%nat
  | AddToSink _ c s => 0 <= c /\ (s < n)%nat
  end.

(** Sum of the capacities of the arcs that leave the source: a bound on the
    number of augmentations. *)
Definition source_capacity (arcs : list arc) : Z := outflow arcs (a_cap <$> arcs) VSource.
