(** What the calls of a client must do when the connections may break. *)
From stdpp Require Import prelude.
From Coq Require Import NArith.
From Verif Require Import Base EncModel DianaModel ConcModel StreamModel.

Section spec.
  Context {P : proto}.
  Notation entry := (bytes * p_doc P)%type.
  (** A session is running; its stream works; the documents on the way; those that have
      arrived, oldest first. *)
  Record yspec := YSpec { z_session : bool; z_works : bool; z_flight : list entry; z_arrived : list entry }.
  Definition z_send (z : yspec) (l : list entry) : yspec :=
    if z_works z then YSpec (z_session z) true (z_flight z ++ l) (z_arrived z) else z.
  Definition z_read (n : nat) (z : yspec) : yspec :=
    YSpec (z_session z) (z_works z) (drop n (z_flight z)) (z_arrived z ++ take n (z_flight z)).
  Definition z_cut (z : yspec) : yspec := YSpec (z_session z) false [] (z_arrived z).
  Definition z_step (z : yspec) (o : yop P) : yspec :=
    match o with
    | YInsert _ kw doc u =>
        if z_session z then z_send z [(kw, doc)]
        else match u with
             | UOk | UFailed true => YSpec (z_session z) (z_works z) (z_flight z) (z_arrived z ++ [(kw, doc)])
             | UFailed false => z
             end
    | YSession _ kw doc => if z_session z then z_send z [(kw, doc)] else z
    | YList _ l None => if z_session z then z_send z l else z
    | YList _ l (Some k) => if z_session z then z_cut (z_send z (take k l)) else z
    | YStart _ => if z_session z then z else YSpec true true [] (z_arrived z)
    | YEnd _ None => if z_session z then YSpec false (z_works z) [] (z_arrived z ++ z_flight z) else z
    | YEnd _ (Some k) => if z_session z then YSpec false false [] (z_arrived z ++ take k (z_flight z)) else z
    | YSearch _ _ _ _ => z
    | YDestroy _ k => YSpec false false [] (z_arrived z ++ take k (z_flight z))
    | YRead _ => z_read 1 z
    | YBreak _ => z_cut z
    end.
  Definition z_run (ops : list (yop P)) : yspec := foldl z_step (YSpec false false [] []) ops.
  (** The documents of a keyword. *)
  Definition docs_of (kw : bytes) (l : list entry) : list (p_doc P) :=
    omap (fun x => if decide (x.1 = kw) then Some x.2 else None) l.
  Definition arrived_docs (kw : bytes) (ops : list (yop P)) : list (p_doc P) := docs_of kw (z_arrived (z_run ops)).

  (** The insertions asked for. *)
  Definition asked (o : yop P) : list entry :=
    match o with
    | YInsert _ kw doc _ | YSession _ kw doc => [(kw, doc)]
    | YList _ l _ => l
    | _ => []
    end.
  Definition asked_docs (kw : bytes) (ops : list (yop P)) : list (p_doc P) := docs_of kw (ops ≫= asked).
  Definition y_no_collision (token : bytes -> nat -> bytes) (ops : list (yop P)) : Prop :=
    forall kw i kw' i', i < length (asked_docs kw ops) -> i' < length (asked_docs kw' ops) ->
      token kw i = token kw' i' -> kw = kw' /\ i = i'.
  Definition y_few (ops : list (yop P)) : Prop := forall kw, (N.of_nat (length (asked_docs kw ops)) < 2 ^ 32)%N.
  Definition y_docs_ok (ok : p_doc P -> Prop) (ops : list (yop P)) : Prop := forall kw, Forall ok (asked_docs kw ops).

  (** What a call returns after a history. *)
  Definition returns (ops : list (yop P)) (o : yop P) (out : yout P) : Prop :=
    (yrun P (yinit P) (ops ++ [o])).2 = (yrun P (yinit P) ops).2 ++ [out].
  (** A search that is answered completely: the results arrive in any order. *)
  Definition found (ops : list (yop P)) (kw : bytes) (results : list (p_doc P)) : Prop :=
    forall sent, sent ≡ₚ seq 0 (length results) ->
      exists r, returns ops (YSearch P kw sent true) (YResults P r false) /\ r ≡ₚ results.
  (** Operations of a session in progress: no call that starts or ends it, nor destroys the runner. *)
  Definition in_session (ops : list (yop P)) : Prop :=
    Forall (fun o => match o with YStart _ | YEnd _ _ | YDestroy _ _ => False | _ => True end) ops.
  (** No exception, no error in the log. *)
  Definition silent (outs : list (yout P)) : Prop :=
    Forall (fun r => match r with YReturn _ true | YThrow _ | YResults _ _ true => False | _ => True end) outs.
  (** No exception. *)
  Definition no_throw (outs : list (yout P)) : Prop :=
    Forall (fun r => match r with YThrow _ => False | _ => True end) outs.
End spec.

(** The documents of Diana have the length of its template argument. *)
Definition d_asked_sized (D : diana) (ops : list (yop (d_proto D))) : Prop :=
  y_docs_ok (P := d_proto D) (fun doc : bytes => length doc = d_len D) ops.
