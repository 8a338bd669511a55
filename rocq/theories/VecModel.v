(** Model of the append-only, write-once vector on disk.
    Source: lib/include/sse/schemes/abstractio/awonvm_vector.hpp. *)
From stdpp Require Import prelude.
From Coq Require Import ZArith NArith Lia.
From Verif Require Import Base EncModel.
Local Open Scope nat_scope.

(** * The file *)
(** pwrite/write of [bs] at offset [off]: a hole is filled with zeros.  The file
    system is taken to be a byte string; failed system calls are not modelled
    (awonvm_vector.hpp:227, submit_pwrite at 279). *)
Definition file_write (f : bytes) (off : nat) (bs : bytes) : bytes :=
  take off (f ++ replicate (off - length f) 0%N) ++ bs ++ drop (off + length bs) f.
(** ftruncate, awonvm_vector.hpp:198. *)
Definition file_truncate (f : bytes) (n : nat) : bytes :=
  take n f ++ replicate (n - length f) 0%N.
(** pread of [n] bytes at [off], awonvm_vector.hpp:349: the bytes read, possibly
    fewer than asked. *)
Definition file_read (f : bytes) (off n : nat) : bytes := take n (drop off f).

(** * The vector *)
(** Fields of awonvm_vector, awonvm_vector.hpp:88-98, with the file behind m_fd,
    the position of the descriptor and the asynchronous writes submitted to the
    scheduler and not performed yet. *)
Record vec := Vec {
  v_file : bytes;
  v_pos : nat;
  v_size : nat;
  v_committed : bool;
  v_direct : bool;
  v_pending : list (nat * bytes)
}.

(** Constructors, awonvm_vector.hpp:103-171, of a vector on an existing file
    ([file = []] if the file is created or empty).  Opening never truncates,
    utils.cpp:160-190. *)
Definition open_vec (sz : nat) (file : bytes) (direct : bool) : vec :=
  if bool_decide (0 < length file) then Vec file 0 (length file / sz) true direct []
  else Vec file 0 0 false direct [].

(** reserve, awonvm_vector.hpp:194-207. *)
Definition vec_reserve (sz : nat) (v : vec) (n : nat) : vec :=
  if bool_decide (v_committed v = false /\ v_size v < n) then
    Vec (file_truncate (v_file v) (n * sz)) (v_pos v) (v_size v) (v_committed v) (v_direct v) (v_pending v)
  else v.

(** push_back, awonvm_vector.hpp:210-240; [al] tells whether the address of the
    argument is aligned.  The value is written at the position of the file
    descriptor (line 227), not at the returned index. *)
Definition vec_push (v : vec) (al : bool) (val : bytes) : vec * res nat :=
  if v_committed v then (v, Throw RuntimeError)
  else if v_direct v && negb al then (v, Throw InvalidArgument)
  else (Vec (file_write (v_file v) (v_pos v) val) (v_pos v + length val) (S (v_size v))
          (v_committed v) (v_direct v) (v_pending v), Ok (v_size v)).

(** async_push_back, awonvm_vector.hpp:242-289: the write is submitted for the
    returned index.  There is no check that the vector is not committed. *)
Definition vec_apush (sz : nat) (v : vec) (val : bytes) : vec * res nat :=
  (Vec (v_file v) (v_pos v) (S (v_size v)) (v_committed v) (v_direct v)
     (v_pending v ++ [(v_size v * sz, val)]), Ok (v_size v)).

(** The scheduler performs one of the pending writes, in any order
    (linux_aio_scheduler.cpp:245-281, thread_pool_aio_scheduler.cpp:75-99). *)
Definition vec_complete (v : vec) (i : nat) : vec :=
  match v_pending v !! i with
  | Some w => Vec (file_write (v_file v) w.1 w.2) (v_pos v) (v_size v) (v_committed v) (v_direct v)
                (delete i (v_pending v))
  | None => v
  end.

(** wait_completions: all the writes still pending are performed
    (awonvm_vector.hpp:188, 297, 315). *)
Definition vec_wait (v : vec) : vec :=
  Vec (foldl (fun f w => file_write f w.1 w.2) (v_file v) (v_pending v))
    (v_pos v) (v_size v) (v_committed v) (v_direct v) [].

(** commit, awonvm_vector.hpp:292-308, with a scheduler. *)
Definition vec_commit (v : vec) : vec :=
  let v' := if v_committed v then v else vec_wait v in
  Vec (v_file v') (v_pos v') (v_size v') true (v_direct v') (v_pending v').

(** set_use_direct_access, awonvm_vector.hpp:310-331: the file is reopened, hence
    the position of the descriptor is reset. *)
Definition vec_set_direct (v : vec) (flag : bool) : vec :=
  if bool_decide (flag = v_direct v) then v
  else let v' := vec_wait v in
       Vec (v_file v') 0 (v_size v') (v_committed v') flag (v_pending v').

(** get, awonvm_vector.hpp:333-357. *)
Definition vec_get (sz : nat) (v : vec) (i : nat) : res bytes :=
  if bool_decide (v_size v < i) then Throw InvalidArgument
  else if negb (v_committed v) then Throw RuntimeError
  else
    let r := file_read (v_file v) (i * sz) sz in
    if bool_decide (length r = sz) then Ok r else Throw RuntimeError.

(** async_get, awonvm_vector.hpp:359-416, and each request of async_gets,
    418-484: what is given to the callback, or the exception thrown at
    submission.  The read is done when it completes; here, at once. *)
Definition vec_async_get (sz : nat) (v : vec) (i : nat) : res (option bytes) :=
  if negb (v_committed v) then Throw RuntimeError
  else if bool_decide (v_size v < i) then Throw InvalidArgument
  else
    let r := file_read (v_file v) (i * sz) sz in
    Ok (if bool_decide (length r = sz) then Some r else None).

(** Destructor, awonvm_vector.hpp:181-192: the file that is left. *)
Definition vec_close (v : vec) : bytes :=
  v_file (if v_committed v then vec_wait v else vec_commit v).

(** Death of the process: the writes that were not performed are lost (no code;
    the destructor of awonvm_vector.hpp:181-192 is not run). *)
Definition vec_crash (v : vec) : bytes := v_file v.

(** Move constructor, awonvm_vector.hpp:172-179: the size and the committed flag
    are not moved; the new vector shares the file and its position. *)
Definition vec_move (v : vec) : vec := Vec (v_file v) (v_pos v) 0 false (v_direct v) (v_pending v).

(** * Calls *)
(** The calls of a user of the vector, and the completion of a write
    (awonvm_vector.hpp:194-357). *)
Inductive vcall :=
| VPush (al : bool) (val : bytes)
| VAPush (val : bytes)
| VReserve (n : nat)
| VCommit
| VDirect (flag : bool)
| VGet (i : nat)
| VComplete (i : nat).

(** What a call answers: an index, a value or nothing (the result types of
    awonvm_vector.hpp:194-357). *)
Inductive vout := OIdx (i : nat) | OVal (b : bytes) | OUnit.

(** Dispatch over the functions above, awonvm_vector.hpp:194-357. *)
Definition vec_call (sz : nat) (v : vec) (c : vcall) : vec * res vout :=
  match c with
  | VPush al val => let r := vec_push v al val in (r.1, i <~ r.2; Ok (OIdx i))
  | VAPush val => let r := vec_apush sz v val in (r.1, i <~ r.2; Ok (OIdx i))
  | VReserve n => (vec_reserve sz v n, Ok OUnit)
  | VCommit => (vec_commit v, Ok OUnit)
  | VDirect flag => (vec_set_direct v flag, Ok OUnit)
  | VGet i => (v, b <~ vec_get sz v i; Ok (OVal b))
  | VComplete i => (vec_complete v i, Ok OUnit)
  end.
(** A sequence of calls, awonvm_vector.hpp:194-357. *)
Fixpoint vec_calls (sz : nat) (v : vec) (cs : list vcall) : vec * list (res vout) :=
  match cs with
  | [] => (v, [])
  | c :: cs' =>
      let r := vec_call sz v c in
      let r' := vec_calls sz r.1 cs' in
      (r'.1, r.2 :: r'.2)
  end.
