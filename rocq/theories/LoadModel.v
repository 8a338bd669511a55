(** Model of load_inverted_index of the builders of Tethys and Pluto.
    Sources: lib/include/sse/schemes/tethys/tethys_builder.hpp,
    lib/include/sse/schemes/pluto/pluto_builder.hpp.

    Simplifications.
    - The parser (an empty submodule) is the list of the calls of its callback, in order, and
      how it ends; a file that cannot be opened makes no call and fails.
    - The two counters are only logged and are left out. *)
From stdpp Require Import prelude gmap.
From Coq Require Import NArith Lia.
From Verif Require Import Base EncModel StoreModel KvModel SchemeModel PlutoModel.
Local Open Scope nat_scope.

(** How the parser ends (tethys_builder.hpp:213, 243 and 250, pluto_builder.hpp:185, 211 and
    227): it returns, or an exception comes from it. *)
Inductive pend := PDone | PFails.

Section load.
  Context {B : Type}.
  (** insert_list of the builder (tethys_builder.hpp:221, pluto_builder.hpp:193): the builder
      afterwards and how the call ends. *)
  Variable insert : B -> bytes -> list N -> B * res unit.
  (** The calls of the callback and the result, tethys_builder.hpp:212-255,
      pluto_builder.hpp:184-232: an exception of the callback goes through the parser to the
      try block.  The identifiers, which are unsigned, are converted to 64 bits. *)
  Fixpoint load_file (b : B) (file : list (bytes * list N)) (e : pend) : B * res bool :=
    match file with
    | [] => (b, Ok (match e with PDone => true | PFails => false end))
    | (kw, docs) :: file' =>
        let r := insert b kw docs in
        match r.2 with
        | Ok _ => load_file r.1 file' e
        | Throw _ => (r.1, Ok false)
        | UB => (r.1, UB)
        | OutOfFuel => (r.1, OutOfFuel)
        end
    end.
End load.
(** TethysBuilder::load_inverted_index, tethys_builder.hpp:205-256. *)
Definition tethys_load (sc : scheme) := load_file (tethys_insert sc).
(** PlutoBuilder::load_inverted_index, pluto_builder.hpp:181-233. *)
Definition pluto_load (pp : pparams) := load_file (pluto_insert pp).
