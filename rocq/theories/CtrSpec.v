(** What keyword counters must do. *)
From stdpp Require Import prelude gmap.
From Coq Require Import NArith Lia.
From Verif Require Import Base EncModel KvModel.
Local Open Scope N_scope.

(** Calls on a counter database. *)
Inductive ccall :=
| CGetInc (k : bytes) | CGet (k : bytes) | CIncr (k : bytes) (d : N) | CSet (k : bytes) (v : N) | CRemove (k : bytes).

(** One call, with the answer of the calls that give one. *)
Definition ctr_call (c : counters) (x : ccall) : counters * option N :=
  match x with
  | CGetInc k => let r := ctr_get_and_increment c k in (r.1, Some r.2)
  | CGet k => (c, ctr_get c k)
  | CIncr k d => (ctr_increment c k d, None)
  | CSet k v => (ctr_set c k v, None)
  | CRemove k => (ctr_remove c k, None)
  end.
Fixpoint ctr_calls (c : counters) (xs : list ccall) : counters :=
  match xs with [] => c | x :: xs' => ctr_calls (ctr_call c x).1 xs' end.

(** The value of the counter of [k], read off the history (most recent call first):
    nothing if it was never created or was removed. *)
Fixpoint value (k : bytes) (h : list ccall) : option N :=
  match h with
  | [] => None
  | CGetInc k' :: h => if decide (k' = k) then Some (from_option N.succ 0 (value k h)) else value k h
  | CGet _ :: h => value k h
  | CIncr k' d :: h => if decide (k' = k) then Some (from_option N.succ d (value k h)) else value k h
  | CSet k' v :: h => if decide (k' = k) then Some v else value k h
  | CRemove k' :: h => if decide (k' = k) then None else value k h
  end.

(** No value of the history exceeds the width of the counter. *)
Fixpoint narrow (k : bytes) (h : list ccall) : Prop :=
  match h with
  | [] => True
  | _ :: h' => from_option (fun v => v < 2 ^ 32) True (value k h) /\ narrow k h'
  end.

(** Number of get_and_increment calls on [k] since it was last removed or set. *)
Fixpoint increments (k : bytes) (h : list ccall) : nat :=
  match h with
  | [] => 0
  | CGetInc k' :: h => if decide (k' = k) then S (increments k h) else increments k h
  | CRemove k' :: h => if decide (k' = k) then 0%nat else increments k h
  | _ :: h => increments k h
  end.

(** ** Concurrent calls *)
(** A get_and_increment in progress: before its Get, between its Get and its Put, or
    returned. *)
Inductive cthread := CStart | CRead (r : option N) | CReturned (v : N).
(** One atomic step of one call on the key [k]: rocksdb_wrapper.cpp:105 (Get) and 121
    (Put). *)
Definition cthread_step (k : bytes) (c : counters) (t : cthread) : counters * cthread :=
  match t with
  | CStart => (c, CRead (ctr_get c k))
  | CRead r => (<[k := next_value r]> c, CReturned (next_value r))
  | CReturned v => (c, CReturned v)
  end.
(** A schedule says which call moves. *)
Fixpoint cthreads_run (k : bytes) (sched : list nat) (c : counters) (ts : list cthread) : counters * list cthread :=
  match sched with
  | [] => (c, ts)
  | i :: sched' =>
      match ts !! i with
      | Some t => let r := cthread_step k c t in cthreads_run k sched' r.1 (<[i := r.2]> ts)
      | None => cthreads_run k sched' c ts
      end
  end.
