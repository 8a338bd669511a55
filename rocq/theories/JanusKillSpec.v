(** What a Janus client that dies must do. *)
From stdpp Require Import prelude gmap.
From Coq Require Import NArith Lia.
From Verif Require Import Base EncModel DianaModel DianaSpec JanusModel JanusSpec JanusKillModel.

(** The history as the server and a client that never dies see it: a search request made and
    never sent, if something had been written; otherwise nothing. *)
Definition jk_plain (ops : list jk_op) : list j_op :=
  ops ≫= fun o => match o with
  | JKIns kw i => [JIns kw i]
  | JKRem kw i => [JRem kw i]
  | JKFind kw => [JFind kw]
  | JKKill kw 0 => []
  | JKKill kw _ => [JLost kw]
  | JKOff _ _ _ => []
  end.
(** The power of the client does not fail. *)
Definition jk_on (o : jk_op) : Prop := match o with JKOff _ _ _ => False | _ => True end.
(** The answers. *)
Definition jk_answers {S} (outs : list (jk_out S)) : list (list N) :=
  outs ≫= fun x => match x with OFind _ a => [a] | _ => [] end.
(** The tokens that the server holds or can compute for the insertions (the removals). *)
Definition ins_known {S} (x : jk_out S) : list bytes :=
  match x with OIns t => [t] | ORem _ => [] | OFind req _ => request_tokens (jr_ins req) end.
Definition del_known {S} (x : jk_out S) : list bytes :=
  match x with ORem t => [t] | OIns _ => [] | OFind req _ => request_tokens (jr_del req) end.
(** Each update has a token that the server could not know. *)
Definition jk_fresh {S} (outs : list (jk_out S)) : Prop := forall pre post t,
  (outs = pre ++ OIns t :: post -> t ∉ pre ≫= ins_known) /\
  (outs = pre ++ ORem t :: post -> t ∉ pre ≫= del_known).
