(** Shared vocabulary of the model: outcomes of C++ calls. *)
From stdpp Require Import prelude.
From Coq Require Import ZArith Lia.

(** Kinds of C++ exceptions that the modelled code throws, e.g. std::invalid_argument at
    tethys_graph.cpp:47, std::out_of_range at cuckoo.hpp:366, std::runtime_error at
    awonvm_vector.hpp:214; std::logic_error stands for the other ones. *)
Inductive exn := InvalidArgument | OutOfRange | RuntimeError | LogicError.

(** Outcome of a modelled call.  [UB] is undefined behaviour (for instance an
    unchecked out-of-range [operator[]], as at tethys_graph.cpp:26); [OutOfFuel] marks a
    loop that was cut by the model and is excluded by the theorems. *)
Inductive res (A : Type) :=
| Ok (a : A)
| Throw (e : exn)
| UB
| OutOfFuel.
Arguments Ok {A} a.
Arguments Throw {A} e.
Arguments UB {A}.
Arguments OutOfFuel {A}.

(** Sequence of two calls: an exception of the first one goes through (everywhere in /repo
    without a try block). *)
Definition rbind {A B} (m : res A) (k : A -> res B) : res B :=
  match m with
  | Ok a => k a
  | Throw e => Throw e
  | UB => UB
  | OutOfFuel => OutOfFuel
  end.

(** Notation for [rbind]; no counterpart in the code. *)
Notation "x <~ m ; k" := (rbind m (fun x => k))
  (at level 100, m at next level, right associativity).

(** Unchecked vector access: [operator[]] of std::vector, e.g. tethys_graph.hpp:221-229. *)
Definition vat {A} (l : list A) (i : nat) : res A :=
  match l !! i with Some a => Ok a | None => UB end.

Lemma rbind_ok {A B} (m : res A) (k : A -> res B) b :
  rbind m k = Ok b -> exists a, m = Ok a /\ k a = Ok b.
Proof. destruct m; simpl; try discriminate. eauto. Qed.

Lemma vat_ok {A} (l : list A) i a : vat l i = Ok a <-> l !! i = Some a.
Proof. unfold vat. destruct (l !! i); simpl; split; congruence. Qed.
