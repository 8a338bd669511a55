(** What a Janus server must do, and what it does, when its power fails. *)
From stdpp Require Import prelude gmap.
From Coq Require Import NArith Lia.
From Verif Require Import Base EncModel JanusModel JanusSpec JanusDurModel.

(** The history without flushes and power failures. *)
Definition jd_plain (ops : list jd_op) : list j_op :=
  ops ≫= fun o => match o with
  | JDIns kw i => [JIns kw i]
  | JDRem kw i => [JRem kw i]
  | JDFind kw => [JFind kw]
  | JDFlush | JDOff _ _ _ => []
  end.
(** The power fails only when flush_edb has just been called (or the power has just come
    back): the insertions and the removals are safe. *)
Fixpoint jd_safe (flushed : bool) (ops : list jd_op) : Prop :=
  match ops with
  | [] => True
  | JDFlush :: ops' => jd_safe true ops'
  | JDOff _ _ _ :: ops' => flushed = true /\ jd_safe true ops'
  | _ :: ops' => jd_safe false ops'
  end.

(** What each search should return, by the documents inserted and removed; [None] if the
    keyword is one of those, [lost], of which a search was among the last ones before a
    power failure, those that the cache did not keep.  [since]: the keywords searched since
    the last power failure. *)
Fixpoint jd_expected (docs : bytes -> list N) (since lost : list bytes) (ops : list jd_op) : list (option (list N)) :=
  match ops with
  | [] => []
  | JDIns kw i :: ops' => jd_expected (j_docs_step docs (JIns kw i)) since lost ops'
  | JDRem kw i :: ops' => jd_expected (j_docs_step docs (JRem kw i)) since lost ops'
  | JDFind kw :: ops' =>
      (if decide (kw ∈ lost) then None else Some (docs kw)) :: jd_expected docs (since ++ [kw]) lost ops'
  | JDFlush :: ops' => jd_expected docs since lost ops'
  | JDOff _ _ kept :: ops' => jd_expected docs [] (drop kept since ++ lost) ops'
  end.
Definition jd_meets (a : list N) (e : option (list N)) : Prop := forall docs, e = Some docs -> a ≡ₚ docs.

(** What the searches do return: the documents that the last search of the keyword which
    the cache remembers returned, and those inserted since the last search, but for those
    removed since the last search. *)
Record jd_state := JDState {
  on_disk : bytes -> list N;
  written : list (bytes * list N);
  pending : bytes -> list N;
  removed : bytes -> list N }.
Definition upd {A} (f : bytes -> A) (kw : bytes) (v : A) : bytes -> A := fun k => if decide (k = kw) then v else f k.
Definition remembered (disk : bytes -> list N) (ws : list (bytes * list N)) : bytes -> list N :=
  foldl (fun f x => upd f x.1 x.2) disk ws.
Definition jd_answer (st : jd_state) (kw : bytes) : list N :=
  filter (fun i => i ∉ removed st kw) (remembered (on_disk st) (written st) kw ++ pending st kw).
Fixpoint jd_returned (st : jd_state) (ops : list jd_op) : list (list N) :=
  match ops with
  | [] => []
  | JDIns kw i :: ops' =>
      jd_returned (JDState (on_disk st) (written st) (upd (pending st) kw (pending st kw ++ [i])) (removed st)) ops'
  | JDRem kw i :: ops' =>
      jd_returned (JDState (on_disk st) (written st) (pending st) (upd (removed st) kw (removed st kw ++ [i]))) ops'
  | JDFind kw :: ops' =>
      let a := jd_answer st kw in
      a :: jd_returned (JDState (on_disk st) (written st ++ [(kw, a)]) (upd (pending st) kw []) (upd (removed st) kw [])) ops'
  | JDFlush :: ops' => jd_returned st ops'
  | JDOff _ _ kept :: ops' =>
      jd_returned (JDState (remembered (on_disk st) (take kept (written st))) [] (pending st) (removed st)) ops'
  end.
Definition jd_state0 : jd_state := JDState (fun _ => []) [] (fun _ => []) (fun _ => []).
