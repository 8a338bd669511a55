(** Servers that choose the operations as they go: one that sees everything, chooses the next
    operation of the client from what it has seen, and may also ask for values of the random
    function.

    Each operation is chosen twice: the client does the left ones, or the right ones.  The
    server must not be able to tell which. *)
From stdpp Require Import prelude gmap.
From Coq Require Import NArith.
From Verif Require Import Base EncModel KvModel SophosModel SophosSpec HideSpec DianaModel DianaSpec HideDSpec
  UtilsModel JanusModel JanusSpec HideJSpec StoreModel SchemeModel SchemeSpec PlutoModel PlutoSpec HideTSpec.
Local Open Scope nat_scope.

(** * Games *)
(** A turn: the client does one of two operations, or the server asks for a value. *)
Inductive move (O Q : Type) := Play (left right : O) | Ask (q : Q).
Arguments Play {O Q} _ _.
Arguments Ask {O Q} _.
(** What the server sees in a turn. *)
Inductive sight (V A : Type) := Saw (v : V) | Told (a : A).
Arguments Saw {V A} _.
Arguments Told {V A} _.

Section game.
  (** Operations, questions, what is seen of an operation, answers, random functions. *)
  Context {O Q V A F : Type}.
  (** What the server sees of the operations of a client, and the answers of the function. *)
  Variables (view : F -> list O -> list V) (ask : F -> Q -> A).
  (** The operations done: the left ones or the right ones. *)
  Definition done_by (right : bool) (ms : list (move O Q)) : list O :=
    omap (fun m => match m with Play o o' => Some (if right then o' else o) | Ask _ => None end) ms.
  (** The turns as they are seen. *)
  Fixpoint sights (f : F) (ms : list (move O Q)) (vs : list V) : list (sight V A) :=
    match ms with
    | [] => []
    | Ask q :: ms' => Told (ask f q) :: sights f ms' vs
    | Play _ _ :: ms' => match vs with [] => [] | v :: vs' => Saw v :: sights f ms' vs' end
    end.
  Definition transcript (right : bool) (f : F) (ms : list (move O Q)) : list (sight V A) :=
    sights f ms (view f (done_by right ms)).
  (** The server chooses the next turn from what it has seen so far, or stops; there are at
      most [n] turns. *)
  Fixpoint game (choose : list (sight V A) -> option (move O Q)) (right : bool) (f : F) (n : nat)
    (ms : list (move O Q)) : list (move O Q) :=
    match n with
    | 0 => ms
    | S n' => match choose (transcript right f ms) with
              | None => ms
              | Some m => game choose right f n' (ms ++ [m])
              end
    end.
End game.

(** * Sophos *)
Definition so_moves := list (move so_op (bytes * bytes)).
Definition so_game_view (S : sophos) (f : bytes -> bytes -> bytes) (h : list so_op) : list so_seen :=
  so_view (with_prf S f) ∅ ∅ h.
Definition so_ask (f : bytes -> bytes -> bytes) (q : bytes * bytes) : bytes := f q.1 q.2.
(** What the server may choose: histories that reveal the same on purpose, and questions about
    inputs that are not those of the insertions to hide. *)
Record so_allowed (S : sophos) (ms : so_moves) : Prop := SoAllowed {
  sa_leak : same_leakage (done_by false ms) (done_by true ms);
  sa_side : forall b, distinct_inputs S (done_by b ms) /\ few_insertions (done_by b ms) /\ docs64 (done_by b ms);
  sa_ask : forall b k x, Ask (k, x) ∈ ms -> ~ hidden_input S (done_by b ms) k x
}.

(** * Diana *)
Definition d_moves := list (move d_op bytes).
Definition d_game_view (D : diana) (g : bytes -> bytes) (h : list d_op) : list (d_seen D) := d_view D g ∅ ∅ h.
Definition d_ask (g : bytes -> bytes) (st : bytes) : bytes := g st.
Record d_allowed (D : diana) (ms : d_moves) : Prop := DAllowed {
  da_leak : d_same_leakage (done_by false ms) (done_by true ms);
  da_side : forall b, distinct_leaves D (done_by b ms) /\ few_leaves (done_by b ms) /\ docs_bytes (d_len D) (done_by b ms);
  da_ask : forall b st, Ask st ∈ ms -> ~ hidden_leaf D (done_by b ms) st
}.

(** * Janus *)
(** The questions are about the generator of the insertions ([false]) or of the removals. *)
Definition j_moves := list (move jh_op (bool * bytes)).
Definition j_gens : Type := (bytes -> bytes) * (bytes -> bytes).
Definition j_game_view (S : janus) (g : j_gens) (h : list jh_op) : list (j_seen S) :=
  j_view S g.1 g.2 j_new_client j_new_server h.
Definition j_ask (g : j_gens) (q : bool * bytes) : bytes := (if q.1 then g.2 else g.1) q.2.
Record j_allowed (S : janus) (ms : j_moves) : Prop := JAllowed {
  ja_leak : j_same_leakage (done_by false ms) (done_by true ms);
  ja_side : forall b, j_distinct_leaves S (done_by b ms);
  ja_few : (N.of_nat (length ms) < 2 ^ 32)%N;
  ja_ask : forall b st, (Ask (false, st) ∈ ms -> ~ j_hidden_ins S (done_by b ms) st) /\
                        (Ask (true, st) ∈ ms -> ~ j_hidden_rem S (done_by b ms) st)
}.
(** Pairs of generators. *)
Definition gens_ok (n m : nat) (g : j_gens) : Prop := prg_ok n g.1 /\ prg_ok m g.2.
Definition gens_bijection (n m : nat) (there back : j_gens -> j_gens) : Prop :=
  (forall g, gens_ok n m g -> gens_ok n m (there g) /\ gens_ok n m (back g)) /\
  (forall g, gens_ok n m g -> forall q,
     j_ask (back (there g)) q = j_ask g q /\ j_ask (there (back g)) q = j_ask g q).

(** * Tethys and Pluto *)
(** The server chooses the keywords that are searched, from the tables and from what it has seen
    of the searches so far. *)
Section searches.
  Context {V : Type}.
  Variable view : list bytes -> V.
  Fixpoint searches (choose : V -> option bytes) (n : nat) (ws : list bytes) : list bytes :=
    match n with
    | 0 => ws
    | S n' => match choose (view ws) with None => ws | Some w => searches choose n' (ws ++ [w]) end
    end.
End searches.
