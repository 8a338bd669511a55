(** What is expected of the loggers, of the benchmarks and of the texts. *)
From stdpp Require Import prelude strings.
From Coq Require Import ZArith NArith Lia.
From Verif Require Import Base EncModel LogModel.
Local Open Scope N_scope.

(** * Loggers *)
(** The program does not take the names that the library uses. *)
Definition ordinary (c : lcall) : Prop :=
  match c with
  | LRegister name => name <> "console"%string /\ name <> "null_logger"%string /\ name <> "benchmark"%string
  | _ => True
  end.
#[global] Instance lcall_eq_dec : EqDecision lcall.
Proof. solve_decision. Defined.
(** The loggers chosen by the calls, in order; a null logger can be asked for only once. *)
Definition choice (cs : list lcall) (c : lcall) : option lgr :=
  match c with
  | LSet (Some n) => Some (Given n)
  | LSet None => if decide (LSet None ∈ cs) then None else Some Null
  | _ => None
  end.
Definition choices (cs : list lcall) : list lgr :=
  omap (fun i => c ← cs !! i; choice (take i cs) c) (seq 0 (length cs)).
(** The files given for the benchmarks. *)
Definition bench_paths (cs : list lcall) : list string :=
  omap (fun c => match c with LBench path => Some path | _ => None end) cs.

(** Two threads access the shared pointer at the same time and one of them assigns it. *)
Definition log_race (s : tstate) : Prop :=
  exists i j pc, i <> j /\ t_pcs s !! i = Some TAssign /\ t_pcs s !! j = Some pc /\
    (pc = TIdle \/ pc = TAssign \/ pc = TRead).

(** * Benchmarks *)
(** The counts given to a benchmark, and the times of its stops. *)
Definition given_counts (cs : list bcall) : list N :=
  omap (fun c => match c with BStopCount count _ | BSetCount count => Some count | BStop _ => None end) cs.
Definition stops (cs : list bcall) : list Z :=
  omap (fun c => match c with BStop now | BStopCount _ now => Some now | BSetCount _ => None end) cs.
(** Characters that may be in a number that is printed: no space, quote, comma or brace. *)
Definition numeral (s : bytes) : Prop := Forall (fun c => c <> 32 /\ c <> 34 /\ c <> 44 /\ c <> 123 /\ c <> 125) s.
(** A message without quotes and braces. *)
Definition plain_message (s : bytes) : Prop := Forall (fun c => c <> 34 /\ c <> 123 /\ c <> 125) s.
