(** What a server of Janus that answers several requests at the same time must do. *)
From stdpp Require Import prelude gmap.
From Coq Require Import NArith.
From Verif Require Import Base EncModel KvModel UtilsModel DianaModel JanusModel JanusSpec JanusConcModel.

(** The request has been answered. *)
Definition answered {S} (p : proc S) : Prop := exists r, p = Run (Ret r).
(** A search, sequential or parallel. *)
Definition is_find (o : j_op) : Prop := match o with JFind _ | JFindPar _ _ => True | _ => False end.
Global Instance is_find_dec o : Decision (is_find o).
Proof. destruct o; apply _. Defined.
(** The only waiting that is asked for: a search waits for the end of the requests made
    before it for the same keyword. *)
Definition in_turn {S} (ops : list j_op) (i : nat) (ps : list (proc S)) : Prop :=
  forall j oi oj p, j < i -> ops !! i = Some oi -> ops !! j = Some oj -> is_find oi -> op_kw oj = op_kw oi ->
    ps !! j = Some p -> answered p.
Definition turn_step (S : janus) (ops : list j_op) (x y : list (proc S) * j_server) : Prop :=
  exists i, in_turn ops i x.1 /\ server_step S i x y.
(** Any order at all. *)
Definition any_step (S : janus) (x y : list (proc S) * j_server) : Prop := exists i, server_step S i x y.

(** What the searches returned. *)
Fixpoint found {S} (ops : list j_op) (ps : list (proc S)) : list (option (res (list N))) :=
  match ops, ps with
  | o :: ops', p :: ps' =>
      if decide (is_find o) then match p with Run (Ret r) => Some r | _ => None end :: found ops' ps'
      else found ops' ps'
  | _, _ => []
  end.
