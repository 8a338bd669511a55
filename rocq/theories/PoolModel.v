(** Model of the thread pool and of the programs that use it.
    Source: lib/include/sse/schemes/utils/thread_pool.hpp. *)
From stdpp Require Import prelude.
From Coq Require Import Lia.
From Verif Require Import Base.

Section pools.
  (** Tasks, and the results that tasks deliver (an element pushed on a list under a
      mutex, or a call of a callback). *)
  Context {T R : Type}.

  (** What the body of a task does, as far as other threads can see: deliver a result,
      or enqueue a task on the next pool (e.g. sophos_server.cpp:147-207, 332-379). *)
  Inductive act := AEmit (r : R) | AEnq (t : T).

  (** Body of each task; the tasks of this code base are closures over data that does
      not change while the pool runs, e.g. sophos_server.cpp:147-207. *)
  Variable code : T -> list act.

  (** A worker, thread_pool.hpp:78-99.
      WCheck: about to take the lock and to evaluate the predicate of the wait (lines
      84-87).  WSleep: blocked on the condition variable.  WRun: running a task
      (line 97), with what is left of it.  WNotify: in enqueue, after the critical
      section, before notify_one (line 129).  WExit: returned (line 89). *)
  Inductive wk := WCheck | WSleep | WRun (acts : list act) | WNotify (acts : list act) | WExit.

  (** State of a ThreadPool, thread_pool.hpp:53-63.  A group of plain std::threads is
      represented by a stopped pool whose workers start in the middle of a task. *)
  Record pool := Pool { p_queue : list T; p_stop : bool; p_workers : list wk }.

  (** The thread that joins the pools, in the order of the list; join() is
      thread_pool.hpp:133-149: stop under the lock (MJoin to MNotify), notify_all
      (MNotify to MWait), join of the workers (MWait). *)
  Inductive mpc := MJoin (ks : list nat) | MNotify (k : nat) (ks : list nat) | MWait (k : nat) (ks : list nat).

  (** Tasks of pool number i are enqueued on pool number i+1 ([AEnq]).  [s_refused]
      records the calls of enqueue that threw (with the number of pools after the
      one that refused, thread_pool.hpp:123-125). *)
  Record sys := Sys {
    s_pools : list pool; s_main : mpc; s_out : list R; s_refused : list (nat * T) }.

  (** notify_all, thread_pool.hpp:141. *)
  Definition wake (w : wk) : wk := match w with WSleep => WCheck | _ => w end.

  (** Atomic steps of the workers of one pool that concern only this pool:
      thread_pool.hpp:80-98. *)
  Inductive wstep : list T -> bool -> wk -> list R -> list T -> wk -> Prop :=
  | ws_take t q st : wstep (t :: q) st WCheck [] q (WRun (code t))
  | ws_sleep : wstep [] false WCheck [] [] WSleep
  | ws_exit : wstep [] true WCheck [] [] WExit
  | ws_return q st : wstep q st (WRun []) [] q WCheck
  | ws_emit q st r acts : wstep q st (WRun (AEmit r :: acts)) [r] q (WRun acts).

  (** Atomic steps of the whole system, without spurious wake-ups:
      thread_pool.hpp:74-149. *)
  Inductive step : sys -> sys -> Prop :=
  | st_worker pre q st w1 w w2 post m out refu q' w' rs :
      wstep q st w rs q' w' ->
      step (Sys (pre ++ Pool q st (w1 ++ w :: w2) :: post) m out refu)
           (Sys (pre ++ Pool q' st (w1 ++ w' :: w2) :: post) m (out ++ rs) refu)
  (** enqueue, thread_pool.hpp:119-128: critical section. *)
  | st_enq pre q st w1 t acts w2 q' ws' post m out refu :
      step (Sys (pre ++ Pool q st (w1 ++ WRun (AEnq t :: acts) :: w2) :: Pool q' false ws' :: post) m out refu)
           (Sys (pre ++ Pool q st (w1 ++ WNotify acts :: w2) :: Pool (q' ++ [t]) false ws' :: post) m out refu)
  (** enqueue on a stopped pool throws, thread_pool.hpp:123-125; the caller is taken to
      go on (the theorems show when this never happens). *)
  | st_refuse pre q st w1 t acts w2 q' ws' post m out refu :
      step (Sys (pre ++ Pool q st (w1 ++ WRun (AEnq t :: acts) :: w2) :: Pool q' true ws' :: post) m out refu)
           (Sys (pre ++ Pool q st (w1 ++ WRun acts :: w2) :: Pool q' true ws' :: post) m out
              (refu ++ [(length post, t)]))
  (** notify_one, thread_pool.hpp:129. *)
  | st_notify pre q st w1 acts w2 q' st' w1' w2' post m out refu :
      step (Sys (pre ++ Pool q st (w1 ++ WNotify acts :: w2) :: Pool q' st' (w1' ++ WSleep :: w2') :: post) m out refu)
           (Sys (pre ++ Pool q st (w1 ++ WRun acts :: w2) :: Pool q' st' (w1' ++ WCheck :: w2') :: post) m out refu)
  | st_notify_none pre q st w1 acts w2 q' st' ws' post m out refu :
      WSleep ∉ ws' ->
      step (Sys (pre ++ Pool q st (w1 ++ WNotify acts :: w2) :: Pool q' st' ws' :: post) m out refu)
           (Sys (pre ++ Pool q st (w1 ++ WRun acts :: w2) :: Pool q' st' ws' :: post) m out refu)
  (** join, thread_pool.hpp:133-149. *)
  | st_stop pre q st ws post ks out refu :
      step (Sys (pre ++ Pool q st ws :: post) (MJoin (length pre :: ks)) out refu)
           (Sys (pre ++ Pool q true ws :: post) (MNotify (length pre) ks) out refu)
  | st_notify_all pre q st ws post ks out refu :
      step (Sys (pre ++ Pool q st ws :: post) (MNotify (length pre) ks) out refu)
           (Sys (pre ++ Pool q st (wake <$> ws) :: post) (MWait (length pre) ks) out refu)
  | st_joined pre q st ws post ks out refu :
      Forall (fun w => w = WExit) ws ->
      step (Sys (pre ++ Pool q st ws :: post) (MWait (length pre) ks) out refu)
           (Sys (pre ++ Pool q st ws :: post) (MJoin ks) out refu).

  (** A condition variable may also wake a thread up for no reason
      (thread_pool.hpp:85). *)
  Inductive spurious : sys -> sys -> Prop :=
  | sp_wake pre q st w1 w2 post m out refu :
      spurious (Sys (pre ++ Pool q st (w1 ++ WSleep :: w2) :: post) m out refu)
               (Sys (pre ++ Pool q st (w1 ++ WCheck :: w2) :: post) m out refu).

  (** All steps, thread_pool.hpp:74-149. *)
  Definition any_step (s s' : sys) : Prop := step s s' \/ spurious s s'.

  (** Plain std::threads running the given bodies, e.g. sophos_server.cpp:209-218. *)
  Definition threads (bodies : list (list act)) : pool := Pool [] true (WRun <$> bodies).

  (** ThreadPool constructor, thread_pool.hpp:74-101. *)
  Definition new_pool (n : nat) : pool := Pool [] false (replicate n WCheck).
End pools.
Arguments act : clear implicits.
Arguments wk : clear implicits.
Arguments pool : clear implicits.
Arguments sys : clear implicits.
