(** What is expected of an IO scheduler, independently of how it works. *)
From stdpp Require Import prelude.
From Coq Require Import ZArith.

Section spec.
  Context {req world : Type} (op : req -> world -> world * Z) (follow : req -> list req).

  (** The world and the results after some operations made one after the other. *)
  Fixpoint serial (w : world) (rs : list req) : world * list Z :=
    match rs with
    | [] => (w, [])
    | r :: rs' => let x := op r w in let y := serial x.1 rs' in (y.1, x.2 :: y.2)
    end.

  (** A history of a scheduler: what was accepted, the system calls made with their
      results, the callbacks called with the results they were given.
      - nothing is called that was not accepted, or more often than accepted;
      - a callback is given the result of one system call for its request, and each
        system call was made for a pending or a called request, once;
      - the results and the world are those of the calls, in some serial order. *)
  Definition good_history (w0 w : world) (accepted : list req) (performed called : list (req * Z)) : Prop :=
    exists (pending : list req) (inflight : list (req * Z)),
      accepted ≡ₚ called.*1 ++ pending /\
      performed ≡ₚ called ++ inflight /\
      inflight.*1 ⊆+ pending /\
      serial w0 performed.*1 = (w, performed.*2).

  (** Everything was accepted, performed and reported: the requests [initial] and
      those made by the callbacks. *)
  Definition complete_history (w0 w : world) (initial accepted : list req) (performed called : list (req * Z)) : Prop :=
    performed ≡ₚ called /\ accepted ≡ₚ called.*1 /\
    called.*1 ≡ₚ initial ++ (called.*1 ≫= follow) /\
    serial w0 performed.*1 = (w, performed.*2).
End spec.
