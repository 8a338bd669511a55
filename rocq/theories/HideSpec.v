(** What the server sees, and what it must not learn. *)
From stdpp Require Import prelude gmap.
From Coq Require Import NArith.
From Verif Require Import Base EncModel KvModel SophosModel SophosSpec.

(** A keyed function with outputs of 16 bytes. *)
Definition prf_ok (f : bytes -> bytes -> bytes) : Prop :=
  forall k x, length (f k x) = 16 /\ Forall (fun b => (b < 256)%N) (f k x).
(** [there] and [back] are inverse bijections of these functions: if one of them is chosen
    at random, uniformly, so is its image. *)
Definition bijection (there back : (bytes -> bytes -> bytes) -> bytes -> bytes -> bytes) : Prop :=
  (forall f, prf_ok f -> prf_ok (there f) /\ prf_ok (back f)) /\
  (forall f, prf_ok f -> forall k x, back (there f) k x = f k x /\ there (back f) k x = f k x).

(** Sophos, with another PRF for the update tokens and the masks. *)
Definition with_prf (S : sophos) (f : bytes -> bytes -> bytes) : sophos :=
  Sophos (so_hash S) (so_gen S) (so_inv S) (so_eval S) (so_kprf S) f.

(** What the server sees: the updates sent (delivered or not), the search requests, and the
    answers that it finds. *)
Inductive so_seen := SeenUpdate (u : so_update) | SeenSearch (r : so_search) (answers : list N).
Fixpoint so_view (S : sophos) (c : counters) (db : gmap bytes N) (ops : list so_op) : list so_seen :=
  match ops with
  | [] => []
  | SoIns kw i d :: ops' =>
      let r := so_insertion_request S c kw i in
      SeenUpdate r.2 :: so_view S r.1 (if d then so_insert db r.2 else db) ops'
  | SoFind kw :: ops' =>
      let r := so_search_request S c kw in
      SeenSearch r (so_server_search S db r) :: so_view S c db ops'
  end.

(** What the scheme reveals on purpose: two histories reveal the same if they have the same
    searches at the same places, insertions at the same places, and the same insertions of
    the keywords that are searched later. *)
Fixpoint same_leakage (h h' : list so_op) : Prop :=
  match h, h' with
  | [], [] => True
  | SoFind kw :: t, SoFind kw' :: t' => kw = kw' /\ same_leakage t t'
  | SoIns kw i d :: t, SoIns kw' i' d' :: t' =>
      d = d' /\ (SoFind kw ∈ t \/ SoFind kw' ∈ t' -> kw = kw' /\ i = i') /\ same_leakage t t'
  | _, _ => False
  end.

(** The [n]-th insertion of [kw] comes after the last search of [kw]. *)
Definition hidden (h : list so_op) (kw : bytes) (n : nat) : Prop :=
  exists p i d q, h = p ++ SoIns kw i d :: q /\ length (insertions kw p) = n /\ SoFind kw ∉ q.
(** The inputs of the PRF for that insertion. *)
Definition token_key (S : sophos) (kw : bytes) : bytes := so_kprf S (take 16 (so_hash S kw)).
Definition token_state (S : sophos) (kw : bytes) (n : nat) : bytes :=
  Nat.iter n (so_inv S) (so_gen S (take 16 (so_hash S kw))).
Definition hidden_input (S : sophos) (h : list so_op) (k x : bytes) : Prop :=
  exists kw n b, hidden h kw n /\ k = token_key S kw /\ x = token_state S kw n ++ [b].
(** No two insertions use the same input of the PRF. *)
Definition distinct_inputs (S : sophos) (h : list so_op) : Prop :=
  forall kw n kw' n', n < length (insertions kw h) -> n' < length (insertions kw' h) ->
    token_key S kw = token_key S kw' -> token_state S kw n = token_state S kw' n' -> kw = kw' /\ n = n'.
(** Documents are 64-bit identifiers. *)
Definition docs64 (h : list so_op) : Prop :=
  Forall (fun o => match o with SoIns _ i _ => (i < 2 ^ 64)%N | SoFind _ => True end) h.
