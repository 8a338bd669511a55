(** What the clients and servers must do when the power fails. *)
From stdpp Require Import prelude.
From Coq Require Import NArith.
From Verif Require Import Base EncModel DianaModel ConcModel PowerModel.

(** A list of events, oldest first, some of which may be lost: the others are safe. *)
Record memory (A : Type) := Memory { mem_safe : list A; mem_recent : list A }.
Arguments Memory {A}. Arguments mem_safe {A}. Arguments mem_recent {A}.
Definition mem_all {A} (m : memory A) : list A := mem_safe m ++ mem_recent m.
Definition mem_add {A} (m : memory A) (x : A) : memory A := Memory (mem_safe m) (mem_recent m ++ [x]).
Definition mem_save {A} (m : memory A) : memory A := Memory (mem_all m) [].
Definition mem_lose {A} (m : memory A) (kept : nat) : memory A := Memory (mem_safe m ++ take kept (mem_recent m)) [].

(** Number of insertions of a keyword. *)
Definition number (kw : bytes) (l : list bytes) : nat := length (filter (fun k => k = kw) l).
(** The document last written with this keyword and number. *)
Definition last_written {A} (kw : bytes) (i : nat) (l : list (bytes * nat * A)) : option A :=
  last (omap (fun x => if decide (x.1 = (kw, i)) then Some x.2 else None) l).

Section spec.
  Context {P : proto}.
  (** The client remembers the keywords of its insertions, the server the documents that
      arrived, with their keyword and number.  [order n] is the order in which the scheme
      reads [n] numbers. *)
  Definition pspec : Type := memory bytes * memory (bytes * nat * p_doc P).
  Definition spec_step (s : pspec) (o : pop P) : pspec :=
    match o with
    | PIns _ kw doc delivered =>
        (mem_add s.1 kw, if delivered then mem_add s.2 (kw, number kw (mem_all s.1), doc) else s.2)
    | PFind _ kw => s
    | PFlush _ => (s.1, mem_save s.2)
    | PClientOff _ kept => (mem_lose s.1 kept, s.2)
    | PServerOff _ kept => (s.1, mem_lose s.2 kept)
    end.
  Definition spec_run (ops : list (pop P)) : pspec := foldl spec_step (Memory [] [], Memory [] []) ops.
  (** The results of a search. *)
  Definition spec_find (order : nat -> list nat) (s : pspec) (kw : bytes) : list (p_doc P) :=
    omap (fun i => last_written kw i (mem_all s.2)) (order (number kw (mem_all s.1))).

  (** The insertions of a keyword in a history. *)
  Definition p_inserted (kw : bytes) (ops : list (pop P)) : list (p_doc P) :=
    omap (fun o => match o with PIns _ kw' doc _ => if decide (kw' = kw) then Some doc else None | _ => None end) ops.
  Definition p_delivered (kw : bytes) (ops : list (pop P)) : list (p_doc P) :=
    omap (fun o => match o with PIns _ kw' doc true => if decide (kw' = kw) then Some doc else None | _ => None end) ops.
  (** No collision among the update tokens; the counters do not overflow; the documents
      have the right size. *)
  Definition p_no_collision (token : bytes -> nat -> bytes) (ops : list (pop P)) : Prop :=
    forall kw i kw' i', i < length (p_inserted kw ops) -> i' < length (p_inserted kw' ops) ->
      token kw i = token kw' i' -> kw = kw' /\ i = i'.
  Definition p_few (ops : list (pop P)) : Prop := forall kw, (N.of_nat (length (p_inserted kw ops)) < 2 ^ 32)%N.
  Definition p_docs_ok (ok : p_doc P -> Prop) (ops : list (pop P)) : Prop := forall kw, Forall ok (p_inserted kw ops).
  (** The power of the client does not fail; nor does that of the server. *)
  Definition client_on (ops : list (pop P)) : Prop := forall kept, PClientOff P kept ∉ ops.
  Definition server_on (ops : list (pop P)) : Prop := forall kept, PServerOff P kept ∉ ops.
  (** The last answer. *)
  Definition answers (ops : list (pop P)) (kw : bytes) (results : list (p_doc P)) : Prop :=
    exists req, (prun P (pinit P) (ops ++ [PFind P kw])).2 = (prun P (pinit P) ops).2 ++ [OAnswer P req results].
  (** The request of a search. *)
  Definition requests (ops : list (pop P)) (kw : bytes) (req : p_req P) : Prop :=
    exists results, (prun P (pinit P) (ops ++ [PFind P kw])).2 = (prun P (pinit P) ops).2 ++ [OAnswer P req results].
  (** The request of the last insertion of [ops]. *)
  Definition sends (ops : list (pop P)) (token : bytes) (val : p_val P) : Prop :=
    exists outs, (prun P (pinit P) ops).2 = outs ++ [OSent P token val].
  (** The tokens of the insertions. *)
  Definition sent_tokens (ops : list (pop P)) : list bytes :=
    omap (fun o => match o with OSent _ token _ => Some token | _ => None end) (prun P (pinit P) ops).2.
End spec.

(** The documents of Diana have the length of its template argument. *)
Definition d_docs_sized (D : diana) (ops : list (pop (d_proto D))) : Prop :=
  p_docs_ok (P := d_proto D) (fun doc : bytes => length doc = d_len D) ops.
