(** Model of the IO scheduler that uses the kernel's asynchronous IO interface,
    lib/abstractio/linux_aio_scheduler.cpp and .hpp, and of the part of that interface
    it relies on (io_submit, io_getevents of libaio).

    Any number of threads call submit_pread, submit_pwrite or submit_preads; one thread
    runs notify_loop(); one thread calls wait_completions().  Every access to a shared
    variable, and every system call, is a step of its own.

    Simplifications.
    - Callbacks do not submit requests.
    - Memory allocation, the messages printed and the statistics counters are left
      out; so are the descriptor and the direction of a request.
    - io_setup is assumed to succeed (19-39); io_destroy is left out (45). *)
From stdpp Require Import prelude.
From Coq Require Import ZArith NArith Lia.
From Verif Require Import Base.
Local Open Scope N_scope.

(** A request: arguments of submit_pread and submit_pwrite, and of PReadSumission
    (linux_aio_scheduler.hpp:27-44, scheduler.hpp:58-79); [r_id] stands for the
    remaining ones (callback and data). *)
Record lreq := LReq { r_id : N; r_buf : N; r_len : N; r_off : Z }.
(** Comparison of requests (no counterpart in the code). *)
Global Instance lreq_eq_dec : EqDecision lreq.
Proof. solve_decision. Defined.

(** Error code, scheduler.hpp:111. *)
Definition EINVAL_UNALIGNED_BUFFER : Z := 1024.
(** Error code, scheduler.hpp:112. *)
Definition EINVAL_UNALIGNED_ACCESS : Z := 1025.
(** Error code, scheduler.hpp:113. *)
Definition EINVAL_BUFFERSIZE : Z := 1026.
(** Error code, scheduler.hpp:114. *)
Definition EINVAL_INVALID_STATE : Z := 1027.

(** is_aligned, utils/utils.hpp:100-112; [a] is not zero. *)
Definition is_aligned (x a : N) : bool := N.land x (a - 1) =? 0.

(** check_args, linux_aio_scheduler.cpp:94-109; and the same tests in submit_pwrite,
    258-268.  The remainder of the offset is that of a signed type. *)
Definition check_args (page : N) (r : lreq) : Z :=
  if negb (is_aligned (r_buf r) page) then (- EINVAL_UNALIGNED_BUFFER)%Z
  else if negb (r_len r mod 512 =? 0) then (- EINVAL_BUFFERSIZE)%Z
  else if negb (Z.rem (r_off r) 512 =? 0)%Z then (- EINVAL_UNALIGNED_ACCESS)%Z
  else 0%Z.

(** A call of submit_pread or submit_pwrite (165-197, 245-281), or of submit_preads
    (199-242). *)
Inductive lcall := Single (r : lreq) | Batch (rs : list lreq).

(** The requests of a call: its arguments, linux_aio_scheduler.cpp:165-170, 199. *)
Definition call_reqs (c : lcall) : list lreq := match c with Single r => [r] | Batch rs => rs end.

(** Where a submitter is.
    SIdle: between two calls.
    SPrep c todo prep: filling the iocbs (215-228; 178-192 for one request).
    SSubmit c n rem: about to call io_submit with [rem] (129), [n] were to be submitted.
    SWait c n rem: after EAGAIN, about to take the lock (148).
    SSet c n rem: holds the lock, about to set the flag (150).
    SPred c n rem: holds the lock, about to test the flag (151).
    SSleep c n rem: blocked on the condition variable (152).
    SWoken c n rem: woken up, about to take the lock again (152). *)
Inductive spc :=
| SIdle | SPrep (c : lcall) (todo prep : list lreq) | SSubmit (c : lcall) (n : nat) (rem : list lreq)
| SWait (c : lcall) (n : nat) (rem : list lreq) | SSet (c : lcall) (n : nat) (rem : list lreq)
| SPred (c : lcall) (n : nat) (rem : list lreq) | SSleep (c : lcall) (n : nat) (rem : list lreq)
| SWoken (c : lcall) (n : nat) (rem : list lreq).

(** A submitter: where it is, and the calls it will make.  (The callers of
    linux_aio_scheduler.cpp:165-281.) *)
Definition sthr : Type := spc * list lcall.

(** Where notify_loop is, linux_aio_scheduler.cpp:56-92.
    NTop: about to read the stop flag (64).  NCond: about to read one of the two
    counters (65-66), in an unspecified order.  NHaveF, NHaveS: has read the number of
    failed, of submitted queries.  NGet: about to call io_getevents (67).
    NLock: about to take the lock (75).  NSet: about to reset the flag and notify
    (76-78).  NUnlock: about to release the lock (79).
    NCall evs num: about to notify the events left (81-86), [num] was returned.
    NExit: out of the loop. *)
Inductive npc :=
| NTop | NCond | NHaveF (f : N) | NHaveS (sb : N) | NGet
| NLock (evs : list (lreq * Z)) | NSet (evs : list (lreq * Z)) | NUnlock (evs : list (lreq * Z))
| NCall (evs : list (lreq * Z)) (num : Z) | NExit.

(** The thread in wait_completions, linux_aio_scheduler.cpp:111-118. *)
Inductive wpc := WStart | WJoin | WDone.

(** Fields of the scheduler (linux_aio_scheduler.hpp:69-83); the kernel's requests in
    flight and its completion events; ghosts: the requests the kernel accepted, the
    results it computed, the callbacks called, the values returned by the calls. *)
Record lst := LSt {
  l_stop : bool; l_subm : N; l_comp : N; l_fail : N; l_lock : bool; l_waiting : bool;
  l_inflight : list lreq; l_done : list (lreq * Z);
  l_notify : npc; l_threads : list sthr; l_main : wpc;
  l_accepted : list lreq; l_results : list (lreq * Z); l_notified : list (lreq * Z);
  l_returned : list (lcall * Z)
}.

(** notify_all on m_cv_submission, linux_aio_scheduler.cpp:78. *)
Definition wake (t : sthr) : sthr :=
  match t with (SSleep c n rem, cs) => (SWoken c n rem, cs) | _ => t end.

(** Comparison of those states (no counterpart in the code). *)
Global Instance wpc_eq_dec : EqDecision wpc.
Proof. solve_decision. Defined.

Section linux.
  (** m_page_size; the number of events the context can hold (cpp:19-29). *)
  Variable page : N.
  Variable cap : nat.
  (** Whether io_submit may return EAGAIN when that many slots are used; the negative
      values io_getevents may return. *)
  Variable agn : nat -> bool.
  Variable gerr : Z -> Prop.

  (** Steps of a submitter, linux_aio_scheduler.cpp:120-281: kernel and scheduler state
      before and after (the list of threads is replaced by [lstep] below). *)
  Inductive sstep : lst -> sthr -> lst -> sthr -> Prop :=
  (** 172-176, 201-205, 252-256: the stop flag is set. *)
  | ss_stopped sm cp fl lk wt ifl dn nt ts m ac re no rt c cs :
      sstep (LSt true sm cp fl lk wt ifl dn nt ts m ac re no rt) (SIdle, c :: cs)
            (LSt true sm cp fl lk wt ifl dn nt ts m ac re no (rt ++ [(c, (- EINVAL_INVALID_STATE)%Z)])) (SIdle, cs)
  (** The stop flag is not set. *)
  | ss_start sm cp fl lk wt ifl dn nt ts m ac re no rt c cs :
      sstep (LSt false sm cp fl lk wt ifl dn nt ts m ac re no rt) (SIdle, c :: cs)
            (LSt false sm cp fl lk wt ifl dn nt ts m ac re no rt) (SPrep c (call_reqs c) [], cs)
  (** 180-182, 258-268: the arguments are refused, one request. *)
  | ss_refuse_single st sm cp fl lk wt ifl dn nt ts m ac re no rt r prep cs :
      check_args page r <> 0%Z ->
      sstep (LSt st sm cp fl lk wt ifl dn nt ts m ac re no rt) (SPrep (Single r) [r] prep, cs)
            (LSt st sm cp fl lk wt ifl dn nt ts m ac re no (rt ++ [(Single r, check_args page r)])) (SIdle, cs)
  (** 217-219: the arguments are refused, in a batch. *)
  | ss_refuse_batch st sm cp fl lk wt ifl dn nt ts m ac re no rt rs r todo prep cs :
      check_args page r <> 0%Z ->
      sstep (LSt st sm cp fl lk wt ifl dn nt ts m ac re no rt) (SPrep (Batch rs) (r :: todo) prep, cs)
            (LSt st sm cp fl lk wt ifl dn nt ts m ac re no rt) (SPrep (Batch rs) todo prep, cs)
  (** 187-194, 221-228, 273-278: the request is counted and prepared. *)
  | ss_prepare st sm cp fl lk wt ifl dn nt ts m ac re no rt c r todo prep cs :
      check_args page r = 0%Z ->
      sstep (LSt st sm cp fl lk wt ifl dn nt ts m ac re no rt) (SPrep c (r :: todo) prep, cs)
            (LSt st ((sm + 1) mod 2 ^ 64) cp fl lk wt ifl dn nt ts m ac re no rt) (SPrep c todo (prep ++ [r]), cs)
  (** 197, 232, 280: submit_iocbs is called. *)
  | ss_call st sm cp fl lk wt ifl dn nt ts m ac re no rt c prep cs :
      sstep (LSt st sm cp fl lk wt ifl dn nt ts m ac re no rt) (SPrep c [] prep, cs)
            (LSt st sm cp fl lk wt ifl dn nt ts m ac re no rt) (SSubmit c (length prep) prep, cs)
  (** 128, 162: nothing is left. *)
  | ss_return st sm cp fl lk wt ifl dn nt ts m ac re no rt c n cs :
      sstep (LSt st sm cp fl lk wt ifl dn nt ts m ac re no rt) (SSubmit c n [], cs)
            (LSt st sm cp fl lk wt ifl dn nt ts m ac re no (rt ++ [(c, Z.of_nat n)])) (SIdle, cs)
  (** 129-143: io_submit accepts the first requests (at least one). *)
  | ss_accept st sm cp fl lk wt ifl dn nt ts m ac re no rt c n rem1 rem2 cs :
      rem1 <> [] -> (length ifl + length dn + length rem1 <= cap)%nat ->
      sstep (LSt st sm cp fl lk wt ifl dn nt ts m ac re no rt) (SSubmit c n (rem1 ++ rem2), cs)
            (LSt st sm cp fl lk wt (ifl ++ rem1) dn nt ts m (ac ++ rem1) re no rt) (SSubmit c n rem2, cs)
  (** 144: io_submit returns EAGAIN. *)
  | ss_eagain st sm cp fl lk wt ifl dn nt ts m ac re no rt c n rem cs :
      rem <> [] -> agn (length ifl + length dn) = true ->
      sstep (LSt st sm cp fl lk wt ifl dn nt ts m ac re no rt) (SSubmit c n rem, cs)
            (LSt st sm cp fl lk wt ifl dn nt ts m ac re no rt) (SWait c n rem, cs)
  (** 154-159: io_submit returns another error. *)
  | ss_error st sm cp fl lk wt ifl dn nt ts m ac re no rt c n rem cs :
      rem <> [] ->
      sstep (LSt st sm cp fl lk wt ifl dn nt ts m ac re no rt) (SSubmit c n rem, cs)
            (LSt st sm cp ((fl + N.of_nat (length rem)) mod 2 ^ 64) lk wt ifl dn nt ts m ac re no
                 (rt ++ [(c, (-1)%Z)])) (SIdle, cs)
  (** 148-153. *)
  | ss_lock st sm cp fl wt ifl dn nt ts m ac re no rt c n rem cs :
      sstep (LSt st sm cp fl false wt ifl dn nt ts m ac re no rt) (SWait c n rem, cs)
            (LSt st sm cp fl true wt ifl dn nt ts m ac re no rt) (SSet c n rem, cs)
  | ss_set st sm cp fl lk wt ifl dn nt ts m ac re no rt c n rem cs :
      sstep (LSt st sm cp fl lk wt ifl dn nt ts m ac re no rt) (SSet c n rem, cs)
            (LSt st sm cp fl lk true ifl dn nt ts m ac re no rt) (SPred c n rem, cs)
  | ss_sleep st sm cp fl lk ifl dn nt ts m ac re no rt c n rem cs :
      sstep (LSt st sm cp fl lk true ifl dn nt ts m ac re no rt) (SPred c n rem, cs)
            (LSt st sm cp fl false true ifl dn nt ts m ac re no rt) (SSleep c n rem, cs)
  | ss_resume st sm cp fl lk ifl dn nt ts m ac re no rt c n rem cs :
      sstep (LSt st sm cp fl lk false ifl dn nt ts m ac re no rt) (SPred c n rem, cs)
            (LSt st sm cp fl false false ifl dn nt ts m ac re no rt) (SSubmit c n rem, cs)
  | ss_spurious st sm cp fl lk wt ifl dn nt ts m ac re no rt c n rem cs :
      sstep (LSt st sm cp fl lk wt ifl dn nt ts m ac re no rt) (SSleep c n rem, cs)
            (LSt st sm cp fl lk wt ifl dn nt ts m ac re no rt) (SWoken c n rem, cs)
  | ss_relock st sm cp fl wt ifl dn nt ts m ac re no rt c n rem cs :
      sstep (LSt st sm cp fl false wt ifl dn nt ts m ac re no rt) (SWoken c n rem, cs)
            (LSt st sm cp fl true wt ifl dn nt ts m ac re no rt) (SPred c n rem, cs).

  (** The addition of line 87: an int is added to a 64-bit counter. *)
  Definition add_events (cp : N) (num : Z) : N := Z.to_N ((Z.of_N cp + num) mod 2 ^ 64).

  (** The comparison of lines 65-66. *)
  Definition more_to_come (cp fl sm : N) : bool := (cp + fl) mod 2 ^ 64 <? sm.

  (** Steps of notify_loop, linux_aio_scheduler.cpp:64-88. *)
  Inductive nstep : lst -> lst -> Prop :=
  | ns_continue sm cp fl lk wt ifl dn ts m ac re no rt :
      nstep (LSt false sm cp fl lk wt ifl dn NTop ts m ac re no rt)
            (LSt false sm cp fl lk wt ifl dn NGet ts m ac re no rt)
  | ns_stop sm cp fl lk wt ifl dn ts m ac re no rt :
      nstep (LSt true sm cp fl lk wt ifl dn NTop ts m ac re no rt)
            (LSt true sm cp fl lk wt ifl dn NCond ts m ac re no rt)
  | ns_failed st sm cp fl lk wt ifl dn ts m ac re no rt :
      nstep (LSt st sm cp fl lk wt ifl dn NCond ts m ac re no rt)
            (LSt st sm cp fl lk wt ifl dn (NHaveF fl) ts m ac re no rt)
  | ns_submitted st sm cp fl lk wt ifl dn ts m ac re no rt :
      nstep (LSt st sm cp fl lk wt ifl dn NCond ts m ac re no rt)
            (LSt st sm cp fl lk wt ifl dn (NHaveS sm) ts m ac re no rt)
  | ns_decide_f st sm cp fl lk wt ifl dn ts m ac re no rt f :
      nstep (LSt st sm cp fl lk wt ifl dn (NHaveF f) ts m ac re no rt)
            (LSt st sm cp fl lk wt ifl dn (if more_to_come cp f sm then NGet else NExit) ts m ac re no rt)
  | ns_decide_s st sm cp fl lk wt ifl dn ts m ac re no rt sb :
      nstep (LSt st sm cp fl lk wt ifl dn (NHaveS sb) ts m ac re no rt)
            (LSt st sm cp fl lk wt ifl dn (if more_to_come cp fl sb then NGet else NExit) ts m ac re no rt)
  (** 67: some events, at most kMaxNr = 128 (line 17). *)
  | ns_events st sm cp fl lk wt ifl evs dn ts m ac re no rt :
      evs <> [] -> (length evs <= 128)%nat ->
      nstep (LSt st sm cp fl lk wt ifl (evs ++ dn) NGet ts m ac re no rt)
            (LSt st sm cp fl lk wt ifl dn (NLock evs) ts m ac re no rt)
  (** 67: none before the time-out. *)
  | ns_none st sm cp fl lk wt ifl dn ts m ac re no rt :
      nstep (LSt st sm cp fl lk wt ifl dn NGet ts m ac re no rt)
            (LSt st sm cp fl lk wt ifl dn (NCall [] 0) ts m ac re no rt)
  (** 69-72: an error. *)
  | ns_error st sm cp fl lk wt ifl dn ts m ac re no rt e :
      (e < 0)%Z -> gerr e ->
      nstep (LSt st sm cp fl lk wt ifl dn NGet ts m ac re no rt)
            (LSt st sm cp fl lk wt ifl dn (NCall [] e) ts m ac re no rt)
  | ns_lock st sm cp fl wt ifl dn ts m ac re no rt evs :
      nstep (LSt st sm cp fl false wt ifl dn (NLock evs) ts m ac re no rt)
            (LSt st sm cp fl true wt ifl dn (NSet evs) ts m ac re no rt)
  | ns_set st sm cp fl lk wt ifl dn ts m ac re no rt evs :
      nstep (LSt st sm cp fl lk wt ifl dn (NSet evs) ts m ac re no rt)
            (LSt st sm cp fl lk false ifl dn (NUnlock evs) (wake <$> ts) m ac re no rt)
  | ns_unlock st sm cp fl lk wt ifl dn ts m ac re no rt evs :
      nstep (LSt st sm cp fl lk wt ifl dn (NUnlock evs) ts m ac re no rt)
            (LSt st sm cp fl false wt ifl dn (NCall evs (Z.of_nat (length evs))) ts m ac re no rt)
  | ns_call st sm cp fl lk wt ifl dn ts m ac re no rt e evs num :
      nstep (LSt st sm cp fl lk wt ifl dn (NCall (e :: evs) num) ts m ac re no rt)
            (LSt st sm cp fl lk wt ifl dn (NCall evs num) ts m ac re (no ++ [e]) rt)
  | ns_add st sm cp fl lk wt ifl dn ts m ac re no rt num :
      nstep (LSt st sm cp fl lk wt ifl dn (NCall [] num) ts m ac re no rt)
            (LSt st sm (add_events cp num) fl lk wt ifl dn NTop ts m ac re no rt).

  (** Replacing the list of threads (submitters of linux_aio_scheduler.cpp:165-281). *)
  Definition lset_threads (s : lst) (ts : list sthr) : lst :=
    LSt (l_stop s) (l_subm s) (l_comp s) (l_fail s) (l_lock s) (l_waiting s) (l_inflight s) (l_done s)
        (l_notify s) ts (l_main s) (l_accepted s) (l_results s) (l_notified s) (l_returned s).

  (** Steps of the whole: a submitter, notify_loop, wait_completions (113, 115-117), or
      the kernel, that completes a request with any result. *)
  Inductive lstep : lst -> lst -> Prop :=
  | ls_thread s t1 t t2 s' t' :
      l_threads s = t1 ++ t :: t2 -> sstep s t s' t' -> lstep s (lset_threads s' (t1 ++ t' :: t2))
  | ls_notify s s' : nstep s s' -> lstep s s'
  | ls_stop st sm cp fl lk wt ifl dn nt ts ac re no rt :
      lstep (LSt st sm cp fl lk wt ifl dn nt ts WStart ac re no rt)
            (LSt true sm cp fl lk wt ifl dn nt ts WJoin ac re no rt)
  | ls_join st sm cp fl lk wt ifl dn ts ac re no rt :
      lstep (LSt st sm cp fl lk wt ifl dn NExit ts WJoin ac re no rt)
            (LSt st sm cp fl lk wt ifl dn NExit ts WDone ac re no rt)
  | ls_kernel st sm cp fl lk wt ifl1 r ifl2 dn nt ts m ac re no rt z :
      lstep (LSt st sm cp fl lk wt (ifl1 ++ r :: ifl2) dn nt ts m ac re no rt)
            (LSt st sm cp fl lk wt (ifl1 ++ ifl2) (dn ++ [(r, z)]) nt ts m ac (re ++ [(r, z)]) no rt).

  (** A new scheduler, linux_aio_scheduler.cpp:19-39, with its future users. *)
  Definition linit (progs : list (list lcall)) : lst :=
    LSt false 0 0 0 false false [] [] NTop (pair SIdle <$> progs) WStart [] [] [] [].
End linux.
