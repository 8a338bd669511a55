(** What concurrent clients and servers must do. *)
From stdpp Require Import prelude gmap.
From Coq Require Import NArith Lia.
From Verif Require Import Base EncModel KvModel DianaModel ConcModel.

(** Executions: sequences of steps. *)
Fixpoint wrun {P : proto} (w : world P) (ls : list (label P)) : option (world P) :=
  match ls with
  | [] => Some w
  | l :: ls' => w' ← wstep P w l; wrun w' ls'
  end.
(** Nothing inserted, nothing going on. *)
Definition idle (P : proto) : world P := World P ∅ ∅ [] [] [].

(** The documents inserted for a keyword, oldest first: an insertion counts from the
    moment the counter is written. *)
Definition put_docs {P : proto} (kw : bytes) (ls : list (label P)) : list (p_doc P) :=
  omap (fun l => match l with
    | LPut _ _ kw' doc => if decide (kw' = kw) then Some doc else None
    | _ => None end) ls.
(** The request of the insertion number [i] of the keyword has reached the server. *)
Definition arrived {P : proto} (kw : bytes) (i : nat) (ls : list (label P)) : bool :=
  existsb (fun l => match l with
    | LDeliver _ kw' v => bool_decide (kw' = kw /\ v = N.of_nat i)
    | _ => false end) ls.
(** Number of searches. *)
Definition searches {P : proto} (ls : list (label P)) : nat :=
  length (omap (fun l => match l with LSearch _ kw _ => Some kw | _ => None end) ls).
(** Nothing is lost on the way. *)
Definition none_lost {P : proto} (ls : list (label P)) : Prop := forall kw v, LLose P kw v ∉ ls.
(** The jobs of the threads. *)
Definition jobs {P : proto} (ls : list (label P)) : list (list (bytes * p_doc P)) :=
  omap (fun l => match l with LSpawn _ job => Some job | _ => None end) ls.

(** Two threads never have this keyword to insert at the same time; or any keyword. *)
Definition own_keyword {P : proto} (kw : bytes) (w : world P) : Prop :=
  forall t th t' th', w_threads P w !! t = Some th -> w_threads P w !! t' = Some th' ->
    kw ∈ (th_todo P th).*1 -> kw ∈ (th_todo P th').*1 -> t = t'.
Definition own_keywords {P : proto} (w : world P) : Prop := forall kw, own_keyword kw w.
Definition always {P : proto} (Q : world P -> Prop) (ls : list (label P)) : Prop :=
  forall ls1 ls2 w, ls = ls1 ++ ls2 -> wrun (idle P) ls1 = Some w -> Q w.

(** No two update tokens of the execution collide; the counters do not overflow. *)
Definition tokens_differ {P : proto} (token : bytes -> nat -> bytes) (ls : list (label P)) : Prop :=
  forall kw i kw' i', i < length (put_docs kw ls) -> i' < length (put_docs kw' ls) ->
    token kw i = token kw' i' -> kw = kw' /\ i = i'.
Definition few_puts {P : proto} (ls : list (label P)) : Prop :=
  forall kw, (N.of_nat (length (put_docs kw ls)) < 2 ^ 32)%N.
(** The documents have the right size. *)
Definition put_docs_ok {P : proto} (ok : p_doc P -> Prop) (ls : list (label P)) : Prop :=
  forall kw, Forall ok (put_docs kw ls).

(** Documents of Diana. *)
Definition d_doc_ok (D : diana) (doc : p_doc (d_proto D)) : Prop := length (doc : bytes) = d_len D.

(** Among the documents, those that are seen, in the order of the positions. *)
Definition seen {A} (see : nat -> bool) (docs : list A) (positions : list nat) : list A :=
  omap (fun i => if see i then docs !! i else None) positions.
(** The results of a search: in this order, or in any order. *)
Definition same_results {A} (in_order : bool) (l l' : list A) : Prop :=
  if in_order then l = l' else l ≡ₚ l'.
Definition newest_first (n : nat) : list nat := reverse (seq 0 n).
Definition oldest_first (n : nat) : list nat := seq 0 n.

(** An inverted index: the jobs that load_inverted_index makes of it. *)
Definition load_jobs {A} (index : list (bytes * list A)) : list (list (bytes * A)) :=
  (fun x : bytes * list A => (fun doc => (x.1, doc)) <$> x.2) <$> index.
