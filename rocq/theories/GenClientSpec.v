(** What the client programs must insert with the option -r. *)
From stdpp Require Import prelude strings.
From Coq Require Import NArith Lia.
From Verif Require Import Base EncModel DbGenModel ConcModel ConcSpec.

(** The documents of a keyword in a list of pairs. *)
Definition docs_for {K A} `{EqDecision K} (k : K) (l : list (K * A)) : list A :=
  omap (fun x : K * A => if decide (x.1 = k) then Some x.2 else None) l.
(** The keyword is in the list of one thread at most. *)
Definition one_job {A} (kw : bytes) (js : list (list (bytes * A))) : Prop :=
  forall t t' j j', js !! t = Some j -> js !! t' = Some j' -> kw ∈ j.*1 -> kw ∈ j'.*1 -> t = t'.
(** The update tokens do not collide; the counters do not overflow. *)
Definition jobs_tokens_differ {A} (token : bytes -> nat -> bytes) (js : list (list (bytes * A))) : Prop :=
  forall kw i kw' i', i < length (docs_for kw (mjoin js)) -> i' < length (docs_for kw' (mjoin js)) ->
    token kw i = token kw' i' -> kw = kw' /\ i = i'.
Definition jobs_few {A} (js : list (list (bytes * A))) : Prop :=
  forall kw, (N.of_nat (length (docs_for kw (mjoin js))) < 2 ^ 32)%N.

(** A search for [kw] made when the threads are done with the jobs [js] and all their
    requests have arrived may return [results]: [ls1] is what happens before the search
    request, [ls3] what happens afterwards. *)
Definition search_when_done {P : proto} (js : list (list (bytes * p_doc P))) (kw : bytes) (in_order : bool)
    (results : list (p_doc P)) : Prop :=
  exists ls1 ls3 w1 w q,
    wrun (idle P) ls1 = Some w1 /\ jobs ls1 = js /\ none_lost ls1 /\
    Forall (fun th => th_todo P th = []) (w_threads P w1) /\ w_net P w1 = [] /\
    wrun (idle P) (ls1 ++ LSearch P kw in_order :: ls3) = Some w /\ jobs ls3 = [] /\
    w_queries P w !! searches ls1 = Some q /\ q_pending P q = [] /\ q_results P q = results.
(** A search for [kw] made at any time, while the threads insert [js], some of the
    requests being lost perhaps, may return [results]. *)
Definition search_any_time {P : proto} (js : list (list (bytes * p_doc P))) (kw : bytes) (in_order : bool)
    (results : list (p_doc P)) : Prop :=
  exists ls1 ls3 w q,
    wrun (idle P) (ls1 ++ LSearch P kw in_order :: ls3) = Some w /\
    jobs (ls1 ++ LSearch P kw in_order :: ls3) = js /\
    w_queries P w !! searches ls1 = Some q /\ q_pending P q = [] /\ q_results P q = results.
