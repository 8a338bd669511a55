(** Model of the thread-pool IO scheduler.
    Sources: lib/abstractio/thread_pool_aio_scheduler.cpp,
    lib/abstractio/thread_pool_aio_scheduler.hpp and
    lib/include/sse/schemes/abstractio/scheduler.hpp. *)
From stdpp Require Import prelude.
From Coq Require Import ZArith NArith Lia.
From Verif Require Import Base.
Local Open Scope nat_scope.

Section sched.
  (** Requests (a descriptor, a buffer, a length, an offset, the user data and the
      callback), and everything a request reads or writes: files and buffers. *)
  Context {req world : Type}.
  (** The system call pread or pwrite, thread_pool_aio_scheduler.cpp:50 and 83: what
      it does to the world, and what it returns.  System calls are taken to be
      atomic. *)
  Variable op : req -> world -> world * Z.
  (** The requests that the callback of a request submits to the same scheduler,
      thread_pool_aio_scheduler.cpp:60 and 84. *)
  Variable follow : req -> list req.

  (** The threads that submit and those of the shared pool
      (thread_pool_aio_scheduler.cpp:18-26).
      PIdle: in the pool, without a task.
      PPerform: about to make the system call (lines 50, 83).
      PCall: about to call the callback with the result (60, 84).
      PSub pool l: about to submit the requests [l], in a callback if [pool].
      PEnq pool r l: in a submission, after the increment (69, 94) and before
      enqueue (70, 95).
      PLock: about to take the lock (62, 87).  PDec: about to decrement the counter
      (65, 90).  PNotify: about to call notify_all (66, 91).  PUnlock: about to
      release the lock (67, 92).
      PEnd: a submitter that is done. *)
  Inductive thr :=
  | PIdle | PPerform (r : req) | PCall (r : req) (ret : Z)
  | PSub (pool : bool) (l : list req) | PEnq (pool : bool) (r : req) (l : list req)
  | PLock | PDec | PNotify | PUnlock | PEnd.

  (** The thread in wait_completions, thread_pool_aio_scheduler.cpp:33-40.
      QStart: has not called it.  QCheck: about to evaluate the condition of line 35.
      QLock: about to take the lock (36, and when woken up in 37).  QPred: holds the
      lock, about to evaluate the predicate (38).  QSleep: blocked on the condition
      variable.  QDone: returned.
      The lists are ghosts: the requests submitted before the call, and those
      submitted when the condition of line 35 was last evaluated. *)
  Inductive mst :=
  | QStart | QCheck (before : list req) | QLock (before : list req) | QPred (before : list req)
  | QSleep (before : list req) | QDone (before at_return : list req).

  (** Fields of the scheduler, thread_pool_aio_scheduler.hpp:41-44; the queue of the
      shared pool (whose own synchronisation is in PoolModel.v); the world; and
      three ghosts: the requests accepted so far, the system calls made and the
      callbacks called, in order.  The counter is an unbounded integer: its 64 bits
      are not exhausted. *)
  Record pst := PSt {
    a_running : nat; a_lock : bool; a_queue : list req; a_threads : list thr; a_main : mst;
    a_world : world;
    a_submitted : list req; a_performed : list (req * Z); a_called : list (req * Z)
  }.

  (** notify_all, thread_pool_aio_scheduler.cpp:66 and 91. *)
  Definition wake_main (m : mst) : mst := match m with QSleep b => QLock b | _ => m end.

  (** Steps of a thread: the scheduler fields before and after.
      thread_pool_aio_scheduler.cpp:42-99. *)
  Inductive tstep : pst -> thr -> pst -> thr -> Prop :=
  | ts_take n lk r q ts m w sb pf cl :
      tstep (PSt n lk (r :: q) ts m w sb pf cl) PIdle (PSt n lk q ts m w sb pf cl) (PPerform r)
  | ts_perform n lk q ts m w sb pf cl r :
      tstep (PSt n lk q ts m w sb pf cl) (PPerform r)
            (PSt n lk q ts m (op r w).1 sb (pf ++ [(r, (op r w).2)]) cl) (PCall r (op r w).2)
  | ts_call n lk q ts m w sb pf cl r ret :
      tstep (PSt n lk q ts m w sb pf cl) (PCall r ret)
            (PSt n lk q ts m w sb pf (cl ++ [(r, ret)])) (PSub true (follow r))
  | ts_incr n lk q ts m w sb pf cl p r l :
      tstep (PSt n lk q ts m w sb pf cl) (PSub p (r :: l))
            (PSt (S n) lk q ts m w (sb ++ [r]) pf cl) (PEnq p r l)
  | ts_enqueue n lk q ts m w sb pf cl p r l :
      tstep (PSt n lk q ts m w sb pf cl) (PEnq p r l)
            (PSt n lk (q ++ [r]) ts m w sb pf cl) (PSub p l)
  | ts_submitted n lk q ts m w sb pf cl (p : bool) :
      tstep (PSt n lk q ts m w sb pf cl) (PSub p [])
            (PSt n lk q ts m w sb pf cl) (if p then PLock else PEnd)
  | ts_lock n q ts m w sb pf cl :
      tstep (PSt n false q ts m w sb pf cl) PLock (PSt n true q ts m w sb pf cl) PDec
  | ts_dec n lk q ts m w sb pf cl :
      tstep (PSt n lk q ts m w sb pf cl) PDec (PSt (n - 1) lk q ts m w sb pf cl) PNotify
  | ts_notify n lk q ts m w sb pf cl :
      tstep (PSt n lk q ts m w sb pf cl) PNotify (PSt n lk q ts (wake_main m) w sb pf cl) PUnlock
  | ts_unlock n lk q ts m w sb pf cl :
      tstep (PSt n lk q ts m w sb pf cl) PUnlock (PSt n false q ts m w sb pf cl) PIdle.

  (** Steps of the thread in wait_completions, thread_pool_aio_scheduler.cpp:33-40:
      lock and state before and after. *)
  Inductive mstep (n : nat) (sb : list req) : bool -> mst -> bool -> mst -> Prop :=
  | ms_start lk : mstep n sb lk QStart lk (QCheck sb)
  | ms_return lk b : n = 0 -> mstep n sb lk (QCheck b) lk (QDone b sb)
  | ms_enter lk b : n <> 0 -> mstep n sb lk (QCheck b) lk (QLock b)
  | ms_lock b : mstep n sb false (QLock b) true (QPred b)
  | ms_pred_true b : n = 0 -> mstep n sb true (QPred b) false (QCheck b)
  | ms_pred_false b : n <> 0 -> mstep n sb true (QPred b) false (QSleep b).

  (** Changes of part of the state, for the steps below (as in
      thread_pool_aio_scheduler.cpp:33-99). *)
  Definition set_threads (s : pst) (ts : list thr) : pst :=
    PSt (a_running s) (a_lock s) (a_queue s) ts (a_main s) (a_world s)
        (a_submitted s) (a_performed s) (a_called s).
  (** Same, for the thread in wait_completions (33-40). *)
  Definition set_main (s : pst) (lk : bool) (m : mst) : pst :=
    PSt (a_running s) lk (a_queue s) (a_threads s) m (a_world s)
        (a_submitted s) (a_performed s) (a_called s).

  (** Steps of the whole system, without spurious wake-ups:
      thread_pool_aio_scheduler.cpp:33-99. *)
  Inductive pstep : pst -> pst -> Prop :=
  | ps_thread s t1 t t2 s' t' :
      a_threads s = t1 ++ t :: t2 -> tstep s t s' t' -> pstep s (set_threads s' (t1 ++ t' :: t2))
  | ps_main s lk m :
      mstep (a_running s) (a_submitted s) (a_lock s) (a_main s) lk m -> pstep s (set_main s lk m).

  (** With spurious wake-ups of the condition variable, which the wait of
      thread_pool_aio_scheduler.cpp:37 allows. *)
  Inductive pany : pst -> pst -> Prop :=
  | pa_step s s' : pstep s s' -> pany s s'
  | pa_spurious s b : a_main s = QSleep b -> pany s (set_main s (a_lock s) (QLock b)).

  (** The shared pool with [n] threads, submitters with their requests, an idle
      scheduler: thread_pool_aio_scheduler.hpp:41-44, .cpp:18-26. *)
  Definition pinit (n : nat) (subs : list (list req)) (w : world) : pst :=
    PSt 0 false [] (replicate n PIdle ++ (PSub false <$> subs)) QStart w [] [] [].
End sched.
Arguments thr : clear implicits.
Arguments mst : clear implicits.
Arguments pst : clear implicits.

(** get_shared_io_pool, thread_pool_aio_scheduler.cpp:16-26, called by several threads:
    each reads the pointer (line 22), then creates a pool and stores it if it was
    null (23), then reads it again and returns it (25).  [gp_made] counts the pools. *)
Inductive gthr := GRead | GMake | GReturn | GGot (p : nat).
(** The pointer, the number of pools made, and the threads,
    thread_pool_aio_scheduler.cpp:16-26. *)
Record gp := GP { gp_ptr : option nat; gp_made : nat; gp_threads : list gthr }.
(** One step of one thread, thread_pool_aio_scheduler.cpp:22-25. *)
Inductive gstep : gp -> gp -> Prop :=
| g_null made t1 t2 : gstep (GP None made (t1 ++ GRead :: t2)) (GP None made (t1 ++ GMake :: t2))
| g_set p made t1 t2 : gstep (GP (Some p) made (t1 ++ GRead :: t2)) (GP (Some p) made (t1 ++ GReturn :: t2))
| g_make o made t1 t2 : gstep (GP o made (t1 ++ GMake :: t2)) (GP (Some made) (S made) (t1 ++ GReturn :: t2))
| g_return p made t1 t2 : gstep (GP (Some p) made (t1 ++ GReturn :: t2)) (GP (Some p) made (t1 ++ GGot p :: t2)).
(** Comparison of those states (no counterpart in the code). *)
Global Instance gthr_eq_dec : EqDecision gthr.
Proof. solve_decision. Defined.
