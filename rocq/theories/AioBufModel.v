(** Model of the ownership of the buffers in the asynchronous operations of a vector:
    async_push_back, async_get and async_gets of
    lib/include/sse/schemes/abstractio/awonvm_vector.hpp, on top of a scheduler
    (lib/include/sse/schemes/abstractio/scheduler.hpp) that may refuse requests.

    Any number of threads call these functions; the scheduler performs the requests it
    accepted and calls back, in any order; the user of the vector destroys the results
    it receives.  All these steps are interleaved.

    Simplifications.
    - The contents of the buffers and of the file are left out (VecModel.v has them).
    - A buffer is named by the thread, the call and the request it is allocated for:
      an address is not used twice.
    - The checks of the state of the vector (no scheduler, not committed) pass.
    - free and the delete made by unique_ptr (395, 460) are not distinguished, although
      the buffers come from posix_memalign. *)
From stdpp Require Import prelude.
From Coq Require Import Lia.
From Verif Require Import Base.
Local Open Scope nat_scope.

(** The calls: awonvm_vector.hpp:359-416 with an index, 418-484 with the indices of
    the requests, and 242-289. *)
Inductive vcall := AsyncGet (i : nat) | AsyncGets (l : list nat) | AsyncPush.

(** One entry for each buffer a call allocates; [None]: no index to check.
    awonvm_vector.hpp:378-386, 440-450, 258. *)
Definition call_idx (c : vcall) : list (option nat) :=
  match c with AsyncGet i => [Some i] | AsyncGets l => Some <$> l | AsyncPush => [None] end.

(** A buffer: thread and number of the call, and number of the request.
    awonvm_vector.hpp:256-258, 384-386, 448-450. *)
Definition buf : Type := (nat * nat) * nat.

(** How a call ends: it returns, or it throws because of the index (378-382, 441-445),
    of posix_memalign (260-264, 388-392, 452-456) or of the scheduler (281-286,
    409-415, 475-483).  Lines of awonvm_vector.hpp. *)
Inductive vret := ROk | RIndex | RAlloc | RSubmit.
(** Comparison (no counterpart in awonvm_vector.hpp:242-484). *)
Global Instance vret_eq_dec : EqDecision vret.
Proof. solve_decision. Defined.

(** Where a thread is.
    VIdle: between two calls.
    VFill c todo subs: about to treat the next request; buffers allocated so far
    (awonvm_vector.hpp:258, 378-386, 440-471).
    VSub c todo subs acc: in the scheduler, about to treat the requests [todo];
    [acc] were accepted (scheduler.hpp:98-110; awonvm_vector.hpp:279, 406-407, 473).
    VFree c l: the scheduler reported an error, about to free the buffers [l]
    (awonvm_vector.hpp:410, 476-478). *)
Inductive vpc :=
| VIdle
| VFill (c : vcall) (todo : list (option nat)) (subs : list buf)
| VSub (c : vcall) (todo subs : list buf) (acc : nat)
| VFree (c : vcall) (l : list buf).

(** A thread: where it is, the number of calls that ended, the calls it will make
    (callers of awonvm_vector.hpp:242-484). *)
Record vthr := VThr { vt_pc : vpc; vt_n : nat; vt_calls : list vcall }.

(** The buffers that are allocated and not freed; the requests the scheduler
    accepted and has not performed; those performed whose callback was not called,
    and whether all the bytes were read or written; the buffers in the hands of the
    user; the callbacks called; whether memory that is not allocated was used or
    freed (undefined).  Ghosts: all the buffers allocated, how the calls ended.
    awonvm_vector.hpp:242-289 and 359-484. *)
Record vst := VSt {
  b_live : list buf; b_flight : list (buf * vcall); b_arrived : list (buf * vcall * bool);
  b_user : list buf; b_called : list (buf * bool); b_bad : bool;
  b_alloced : list buf; b_ret : list ((nat * nat) * vret); b_threads : list vthr
}.

(** free and delete: undefined if the buffer is not allocated.
    awonvm_vector.hpp:272, 400, 410, 477, and the destructors of the results. *)
Definition v_free (b : buf) (live : list buf) : list buf := filter (.≠ b) live.
(** Whether a use of the buffer is undefined: same lines, and the system calls. *)
Definition v_dead (b : buf) (live : list buf) : bool := bool_decide (b ∉ live).

Section buffers.
  (** m_size (awonvm_vector.hpp:378, 441), taken to be constant. *)
  Variable size : nat.
  (** Whether the scheduler may refuse one request and go on with the next (the loop
      of scheduler.hpp:101-108; linux_aio_scheduler.cpp:219-221), and whether it may
      give up (linux_aio_scheduler.cpp:154-159, 172-182, 201-205), after it accepted
      that many requests, in a call that submits that many. *)
  Variable may_refuse may_abort : nat -> nat -> bool.

  (** End of a call: the next one can start.  awonvm_vector.hpp:288, 416, 484 and the
      lines of [vret]. *)
  Definition v_next (n : nat) (cs : list vcall) : vthr := VThr VIdle (S n) cs.

  (** Steps of thread number [i], awonvm_vector.hpp:242-484 and scheduler.hpp:98-110. *)
  Inductive vtstep (i : nat) : vst -> vthr -> vst -> vthr -> Prop :=
  | vt_start lv fl ar us ca bd al rt ts n c cs :
      vtstep i (VSt lv fl ar us ca bd al rt ts) (VThr VIdle n (c :: cs))
               (VSt lv fl ar us ca bd al rt ts) (VThr (VFill c (call_idx c) []) n cs)
  (** 378-382, 441-445: the test is [index > m_size]. *)
  | vt_index lv fl ar us ca bd al rt ts n c cs x todo subs :
      size < x ->
      vtstep i (VSt lv fl ar us ca bd al rt ts) (VThr (VFill c (Some x :: todo) subs) n cs)
               (VSt lv fl ar us ca bd al (rt ++ [((i, n), RIndex)]) ts) (v_next n cs)
  (** 260-264, 388-392, 452-456: posix_memalign fails. *)
  | vt_alloc_fail lv fl ar us ca bd al rt ts n c cs o todo subs :
      (forall x, o = Some x -> x <= size) ->
      vtstep i (VSt lv fl ar us ca bd al rt ts) (VThr (VFill c (o :: todo) subs) n cs)
               (VSt lv fl ar us ca bd al (rt ++ [((i, n), RAlloc)]) ts) (v_next n cs)
  (** 258, 386, 449-450, 469-470: the buffer is allocated. *)
  | vt_alloc lv fl ar us ca bd al rt ts n c cs o todo subs :
      (forall x, o = Some x -> x <= size) ->
      vtstep i (VSt lv fl ar us ca bd al rt ts) (VThr (VFill c (o :: todo) subs) n cs)
               (VSt (((i, n), length subs) :: lv) fl ar us ca bd
                    (((i, n), length subs) :: al) rt ts)
               (VThr (VFill c todo (subs ++ [((i, n), length subs)])) n cs)
  (** 279, 406-407, 473: the scheduler is called. *)
  | vt_submit lv fl ar us ca bd al rt ts n c cs subs :
      vtstep i (VSt lv fl ar us ca bd al rt ts) (VThr (VFill c [] subs) n cs)
               (VSt lv fl ar us ca bd al rt ts) (VThr (VSub c subs subs 0) n cs)
  (** scheduler.hpp:102-107: a request is accepted. *)
  | vt_accept lv fl ar us ca bd al rt ts n c cs b todo subs acc :
      vtstep i (VSt lv fl ar us ca bd al rt ts) (VThr (VSub c (b :: todo) subs acc) n cs)
               (VSt lv ((b, c) :: fl) ar us ca bd al rt ts) (VThr (VSub c todo subs (S acc)) n cs)
  (** scheduler.hpp:102-107: a request is refused; the loop goes on. *)
  | vt_refuse lv fl ar us ca bd al rt ts n c cs b todo subs acc :
      may_refuse acc (length subs) = true ->
      vtstep i (VSt lv fl ar us ca bd al rt ts) (VThr (VSub c (b :: todo) subs acc) n cs)
               (VSt lv fl ar us ca bd al rt ts) (VThr (VSub c todo subs acc) n cs)
  (** 281, 409, 475: the number of accepted requests is the one expected. *)
  | vt_ok lv fl ar us ca bd al rt ts n c cs subs acc :
      acc = length subs ->
      vtstep i (VSt lv fl ar us ca bd al rt ts) (VThr (VSub c [] subs acc) n cs)
               (VSt lv fl ar us ca bd al (rt ++ [((i, n), ROk)]) ts) (v_next n cs)
  (** 409-410, 475-476: it is not, or the scheduler gave up; all the buffers of the
      call are going to be freed. *)
  | vt_fail lv fl ar us ca bd al rt ts n c cs todo subs acc :
      c <> AsyncPush ->
      (todo = [] /\ acc <> length subs) \/ may_abort acc (length subs) = true ->
      vtstep i (VSt lv fl ar us ca bd al rt ts) (VThr (VSub c todo subs acc) n cs)
               (VSt lv fl ar us ca bd al rt ts) (VThr (VFree c subs) n cs)
  (** 281-286: async_push_back throws at once. *)
  | vt_fail_push lv fl ar us ca bd al rt ts n cs todo subs acc :
      (todo = [] /\ acc <> length subs) \/ may_abort acc (length subs) = true ->
      vtstep i (VSt lv fl ar us ca bd al rt ts) (VThr (VSub AsyncPush todo subs acc) n cs)
               (VSt lv fl ar us ca bd al (rt ++ [((i, n), RSubmit)]) ts) (v_next n cs)
  (** 410, 477: a buffer is freed. *)
  | vt_free lv fl ar us ca bd al rt ts n c cs b l :
      vtstep i (VSt lv fl ar us ca bd al rt ts) (VThr (VFree c (b :: l)) n cs)
               (VSt (v_free b lv) fl ar us ca (bd || v_dead b lv) al rt ts) (VThr (VFree c l) n cs)
  (** 412-414, 480-482: the exception. *)
  | vt_throw lv fl ar us ca bd al rt ts n c cs :
      vtstep i (VSt lv fl ar us ca bd al rt ts) (VThr (VFree c []) n cs)
               (VSt lv fl ar us ca bd al (rt ++ [((i, n), RSubmit)]) ts) (v_next n cs).

  (** The list of threads is replaced (no counterpart in the code of
      awonvm_vector.hpp:242-484). *)
  Definition set_vthreads (s : vst) (ts : list vthr) : vst :=
    VSt (b_live s) (b_flight s) (b_arrived s) (b_user s) (b_called s) (b_bad s)
        (b_alloced s) (b_ret s) ts.

  (** What the callback of a request does: the buffers allocated, those in the hands of
      the user, and whether memory that is not allocated is freed.
      awonvm_vector.hpp:267-274 (push), 394-404 (get), 459-467 (gets: the buffer of a
      failed read is not freed). *)
  Definition v_callback (b : buf) (c : vcall) (ok : bool) (lv us : list buf) : list buf * list buf * bool :=
    match c with
    | AsyncPush => (v_free b lv, us, v_dead b lv)
    | AsyncGet _ => if ok then (lv, b :: us, false) else (v_free b lv, us, v_dead b lv)
    | AsyncGets _ => if ok then (lv, b :: us, false) else (lv, us, false)
    end.

  (** Steps of the system.
      thread: one step of one of the threads.
      perform: the scheduler performs a request in flight, which uses its buffer
      (thread_pool_aio_scheduler.cpp:50, 83; the kernel).
      call: the callback of a request that was performed
      (thread_pool_aio_scheduler.cpp:60, 84; linux_aio_scheduler.cpp:84).
      delete: the user destroys a result (awonvm_vector.hpp:395, 460). *)
  Inductive vstep : vst -> vst -> Prop :=
  | vs_thread s t1 t t2 s' t' :
      b_threads s = t1 ++ t :: t2 -> vtstep (length t1) s t s' t' ->
      vstep s (set_vthreads s' (t1 ++ t' :: t2))
  | vs_perform lv f1 b c f2 ar us ca bd al rt ts ok :
      vstep (VSt lv (f1 ++ (b, c) :: f2) ar us ca bd al rt ts)
            (VSt lv (f1 ++ f2) ((b, c, ok) :: ar) us ca (bd || v_dead b lv) al rt ts)
  | vs_call lv fl a1 b c ok a2 us ca bd al rt ts lv' us' bd' :
      v_callback b c ok lv us = (lv', us', bd') ->
      vstep (VSt lv fl (a1 ++ (b, c, ok) :: a2) us ca bd al rt ts)
            (VSt lv' fl (a1 ++ a2) us' (ca ++ [(b, ok)]) (bd || bd') al rt ts)
  | vs_delete lv fl ar u1 b u2 ca bd al rt ts :
      vstep (VSt lv fl ar (u1 ++ b :: u2) ca bd al rt ts)
            (VSt (v_free b lv) fl ar (u1 ++ u2) ca (bd || v_dead b lv) al rt ts).
End buffers.

(** The threads before their first call (callers of awonvm_vector.hpp:242-484). *)
Definition vinit (progs : list (list vcall)) : vst :=
  VSt [] [] [] [] [] false [] [] ((fun p => VThr VIdle 0 p) <$> progs).
