(** What the lines that the random database generator logs should say. *)
From stdpp Require Import prelude strings.
From Coq Require Import NArith.
From Verif Require Import DbGenModel GenLogModel.
Local Open Scope N_scope.

(** The calls of the callback among what is seen. *)
Definition calls (es : list gevent) : list (kwd * N) :=
  omap (fun e => match e with GCall k ind => Some (k, ind) | _ => None end) es.
(** Documents of a keyword. *)
Definition held (k : kwd) (cs : list (kwd * N)) : N := N.of_nat (length (filter (fun c => c.1 = k) cs)).
(** Times a keyword is said to be complete. *)
Definition said (k : kwd) (es : list gevent) : nat := length (filter (fun e => e = GCompleted k) es).
(** The numbers handed to the logger with the progress lines. *)
Definition progress (es : list gevent) : list (N * N) :=
  omap (fun e => match e with GProgress docs entries => Some (docs, entries) | _ => None end) es.
(** The smallest number of a list. *)
Definition least (v : list N) (m : N) : Prop := m ∈ v /\ Forall (fun x => m <= x) v.
Definition below_size (size : N) (v : list N) : N := N.of_nat (length (filter (fun x => x < size) v)).

(** What the last line tells about the groups of one size: nothing if there are none. *)
Definition told_text (first : bool) (x : option (N * N * N)) : string :=
  match x with
  | None => ""
  | Some (m, n, k) => (if first then "" else ",") +:+ to_string m +:+ "/" +:+ to_string n +:+ "/" +:+ to_string k
  end.
(** The last line: numbers of complete keywords, and for the five sizes of the random groups
    the least number of documents, the number of groups, and of those that are not full. *)
Definition line (tid c1 c2 c3 c4 c5 : N) (x2 x3 x4 x5 x6 : option (N * N * N)) : string :=
  "Random DB generation: thread " +:+ to_string tid +:+ " completed: (" +:+ to_string c1 +:+ ", " +:+ to_string c2 +:+ ", " +:+
  to_string c3 +:+ ", " +:+ to_string c4 +:+ ", " +:+ to_string c5 +:+ ")" +:+ " min rand: (" +:+
  told_text true x2 +:+ told_text false x3 +:+ told_text false x4 +:+ told_text false x5 +:+ told_text false x6 +:+ ")".
(** [c] keywords of the group have their [size] documents, the next one has some, the others
    none. *)
Definition complete (l : glabel) (size tid : N) (cs : list (kwd * N)) (c : N) : Prop :=
  (forall i, i < c -> held (KGroup l tid i) cs = size) /\ held (KGroup l tid c) cs < size /\
  (forall i, c < i -> held (KGroup l tid i) cs = 0).
(** What is told of [n] groups of [size] documents that hold [v]. *)
Definition tells (size n : N) (v : list N) (x : option (N * N * N)) : Prop :=
  N.of_nat (length v) = n /\
  match x with
  | None => n = 0
  | Some (m, n', k) => n' = n /\ least v m /\ k = below_size size v
  end.
