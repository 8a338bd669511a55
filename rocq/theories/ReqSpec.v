(** What is expected of the search requests. *)
From stdpp Require Import prelude gmap.
From Coq Require Import NArith.
From Verif Require Import Base EncModel KvModel SophosModel SophosSpec ReqModel.

(** The state of the client and of the server after a history. *)
Fixpoint so_state (S : sophos) (c : counters) (db : gmap bytes N) (h : list so_op) : counters * gmap bytes N :=
  match h with
  | [] => (c, db)
  | SoIns kw i d :: h' =>
      let r := so_insertion_request S c kw i in so_state S r.1 (if d then so_insert db r.2 else db) h'
  | SoFind _ :: h' => so_state S c db h'
  end.

(** Assumed of the trapdoor permutation: it is defined on the tokens that the client makes,
    and stays defined. *)
Definition tdp_domain (S : sophos) (in_domain : bytes -> bool) : Prop :=
  (forall x, in_domain (so_gen S x) = true) /\
  (forall x, in_domain x = true -> in_domain (so_inv S x) = true) /\
  (forall x, in_domain x = true -> in_domain (so_eval S x) = true).
(** Sizes of the arrays: tokens of [n] bytes, keys of 32 bytes. *)
Definition so_sizes (S : sophos) (n : nat) : Prop :=
  (forall x, length (so_gen S x) = n) /\ (forall x, length x = n -> length (so_inv S x) = n) /\
  (forall x, length (so_kprf S x) = 32).
