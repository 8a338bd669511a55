(** What Sophos must do. *)
From stdpp Require Import prelude gmap.
From Coq Require Import NArith Lia.
From Verif Require Import Base EncModel KvModel SophosModel.

(** A history: insertions, whose request may be lost on the way to the server, and
    searches. *)
Inductive so_op := SoIns (kw : bytes) (index : N) (delivered : bool) | SoFind (kw : bytes).

(** The insertions of a keyword, oldest first. *)
Definition insertions (kw : bytes) (h : list so_op) : list (N * bool) :=
  omap (fun o => match o with
    | SoIns kw' i d => if decide (kw' = kw) then Some (i, d) else None
    | SoFind _ => None end) h.
(** The documents that a search must return: those delivered, newest first. *)
Definition documents (kw : bytes) (h : list so_op) : list N :=
  omap (fun x => if x.2 : bool then Some x.1 else None) (reverse (insertions kw h)).
(** The answers expected for the searches of [ops] made after [past]. *)
Fixpoint so_answers (past ops : list so_op) : list (list N) :=
  match ops with
  | [] => []
  | SoIns kw i d :: ops' => so_answers (past ++ [SoIns kw i d]) ops'
  | SoFind kw :: ops' => documents kw past :: so_answers (past ++ [SoFind kw]) ops'
  end.

(** Running the client and the server. *)
Fixpoint so_run (S : sophos) (c : counters) (db : gmap bytes N) (ops : list so_op) : list (list N) :=
  match ops with
  | [] => []
  | SoIns kw i d :: ops' =>
      let r := so_insertion_request S c kw i in
      so_run S r.1 (if d then so_insert db r.2 else db) ops'
  | SoFind kw :: ops' => so_server_search S db (so_search_request S c kw) :: so_run S c db ops'
  end.

(** What is assumed of the cryptography: inverting then evaluating the trapdoor
    permutation gives the same token back, and no two of the update tokens used in the
    history collide. *)
Definition tdp_ok (S : sophos) : Prop := forall x, so_eval S (so_inv S x) = x.
Definition update_token (S : sophos) (kw : bytes) (i : nat) : bytes :=
  let seed := take 16 (so_hash S kw) in
  so_prf S (so_kprf S seed) (Nat.iter i (so_inv S) (so_gen S seed) ++ [48%N]).
Definition no_collision (S : sophos) (h : list so_op) : Prop :=
  forall kw i kw' i', i < length (insertions kw h) -> i' < length (insertions kw' h) ->
    update_token S kw i = update_token S kw' i' -> kw = kw' /\ i = i'.
(** Fewer insertions per keyword than the width of the counters allows. *)
Definition few_insertions (h : list so_op) : Prop :=
  forall kw, (N.of_nat (length (insertions kw h)) < 2 ^ 32)%N.
