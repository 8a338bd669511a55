(** Model of power failures for the vectors on disk: the contents that a file has had since it
    was last synchronized with the disk.
    Sources: lib/include/sse/schemes/abstractio/awonvm_vector.hpp,
    lib/abstractio/linux_aio_scheduler.cpp, lib/abstractio/thread_pool_aio_scheduler.cpp.

    Simplifications.
    - fsync succeeds, and makes the entry of the file in its directory durable too.
    - The system calls of the other models are made at once or not at all (VecModel.v). *)
From stdpp Require Import prelude.
From Coq Require Import ZArith NArith Lia.
From Verif Require Import Base EncModel VecModel LifeModel.
Local Open Scope nat_scope.

Section vec.
  (** sizeof(T), and whether m_io_scheduler is set (awonvm_vector.hpp:97): it is by the
      constructor that the stores and builders use (awonvm_vector.hpp:147). *)
  Variables (sz : nat) (sched : bool).
  (** A vector and the contents that its file has had since it was last synchronized, oldest
      first, the present one last (awonvm_vector.hpp:88-98). *)
  Record dvec := DVec { dv_vec : vec; dv_past : list bytes }.
  (** Constructors, awonvm_vector.hpp:103-171: what is found in the file is on the disk. *)
  Definition dv_open (file : bytes) (direct : bool) : dvec := DVec (open_vec sz file direct) [file].
  (** The contents of the file while the scheduler makes the pending writes
      (wait_completions, awonvm_vector.hpp:297 and 315).  The schedulers do not
      synchronize the file (linux_aio_scheduler.cpp:245-281,
      thread_pool_aio_scheduler.cpp:75-99). *)
  Fixpoint wait_past (f : bytes) (pend : list (nat * bytes)) : list bytes :=
    match pend with
    | [] => []
    | w :: pend' => let f' := file_write f w.1 w.2 in f' :: wait_past f' pend'
    end.
  (** commit, awonvm_vector.hpp:291-308: fsync (line 304) is only called without scheduler. *)
  Definition dv_commit (d : dvec) : dvec :=
    let v := dv_vec d in
    if v_committed v then d
    else if sched then DVec (vec_commit v) (dv_past d ++ wait_past (v_file v) (v_pending v))
    else DVec (vec_commit v) [v_file v].
  (** set_use_direct_access, awonvm_vector.hpp:310-331: the scheduler is used without a
      check (line 315). *)
  Definition dv_set_direct (d : dvec) (flag : bool) : dvec * res vout :=
    let v := dv_vec d in
    if bool_decide (flag = v_direct v) then (d, Ok OUnit)
    else if sched then (DVec (vec_set_direct v flag) (dv_past d ++ wait_past (v_file v) (v_pending v)), Ok OUnit)
    else (d, UB).
  (** The calls, awonvm_vector.hpp:194-357; async_push_back throws without scheduler
      (lines 244-246). *)
  Definition dv_call (d : dvec) (c : vcall) : dvec * res vout :=
    match c with
    | VCommit => (dv_commit d, Ok OUnit)
    | VDirect flag => dv_set_direct d flag
    | VAPush _ =>
        if sched then let r := vec_call sz (dv_vec d) c in (DVec r.1 (dv_past d), r.2) else (d, Throw RuntimeError)
    | _ => let r := vec_call sz (dv_vec d) c in (DVec r.1 (dv_past d ++ [v_file r.1]), r.2)
    end.
  (** Successive calls, awonvm_vector.hpp:194-357. *)
  Fixpoint dv_calls (d : dvec) (cs : list vcall) : dvec * list (res vout) :=
    match cs with
    | [] => (d, [])
    | c :: cs' => let r := dv_call d c in let r' := dv_calls r.1 cs' in (r'.1, r.2 :: r'.2)
    end.
End vec.

(** The files at a path during some system calls, oldest first: none of the calls of the
    builders is a synchronization (LifeModel.v, TethysLifeModel.v: utils.cpp:155-170,
    awonvm_vector.hpp:198, 227 and 294-303, and the stream of
    tethys_store_builder.hpp:280-303). *)
Fixpoint path_past (p : path) (d : disk) (ops : list fop) : list (option bytes) :=
  dk_get p d :: match ops with [] => [] | o :: ops' => path_past p (do_op d o) ops' end.
