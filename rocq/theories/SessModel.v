(** Model of the update sessions of the client runners of Sophos and Diana when several threads
    call them: reads and writes of bulk_update_state_, its mutex, the ClientWriter and the
    ClientContext it owns.
    Sources: lib/sophos/sophos_client_runner.cpp, lib/diana/client_runner.cpp,
    lib/include/sse/runners/sophos/sophos_client_runner.hpp,
    lib/include/sse/runners/diana/client_runner.hpp.

    Simplifications.
    - The requests are given: the counters and the tokens are in ConcModel.v.
    - The connections do not break (StreamModel.v): Write returns false only after WritesDone, and
      Finish returns OK.
    - Each access to a member is one step, in an order in which all the threads agree; the
      program has no meaning in C++ as soon as two of them conflict ([race] in SessSpec.v). *)
From stdpp Require Import prelude.
From Verif Require Import Base.
Local Open Scope nat_scope.

Section sess.
  Context {M : Type}.

  (** The calls, with the requests they send: insert (sophos_client_runner.cpp:303-324,
      client_runner.cpp:326-348), insert_in_session for one document (326-341, 350-365) and
      for a list (client_runner.cpp:368-393), start_update_session (343-357, 395-409) and
      end_update_session (359-380, 411-433). *)
  Inductive scall := SInsert (m : M) | SSession (m : M) | SList (ms : list M) | SStart | SEnd.
  (** What the caller sees, and whether an error is written to the log
      (sophos_client_runner.cpp:332-339, client_runner.cpp:371-390). *)
  Inductive sout := SReturn (error : bool) | SThrow.

  (** Where a thread is in its current call; the lines are those of
      sophos_client_runner.cpp.
      - PIdle: before its first access;
      - PUnary: the unary call of line 316 (client_runner.cpp:339);
      - PSession: at the test of is_up (line 332), from insert;
      - PLock, PWriter, PWrite, PUnlock: lines 336 to 340 (client_runner.cpp:360-364 and
        378-392), with the messages not yet written: taking the mutex, reading the pointer
        writer, writing on the ClientWriter found there, releasing the mutex;
      - PStart1 to PStart4: lines 351 to 354 (client_runner.cpp:403-406): new context, call of bulk_insert with
        it, assignment of writer, assignment of is_up;
      - PEnd1 to PEnd7: lines 367 to 377 (client_runner.cpp:419-430): reading writer and
        WritesDone, reading writer and Finish, is_up, context, writer. *)
  Inductive spc :=
  | PIdle
  | PUnary (m : M)
  | PSession (m : M)
  | PLock (ms : list M)
  | PWriter (ms : list M)
  | PWrite (p : nat) (ms : list M)
  | PUnlock (error : bool)
  | PStart1 | PStart2 | PStart3 (p : nat) | PStart4
  | PEnd1 | PEnd2 (p : nat) | PEnd3 | PEnd4 (p : nat) | PEnd5 | PEnd6 | PEnd7.
  (** A thread: the calls still to be returned from, where it is in the first of them, what the
      others returned (callers of the functions cited at [scall]). *)
  Record sthread := SThread { t_todo : list scall; t_pc : spc; t_out : list sout }.

  (** A ClientWriter (the writer of sophos_client_runner.hpp:81-82, client_runner.hpp:99): the messages written, the
      context it was made with, whether WritesDone and Finish were called, whether it was
      destroyed. *)
  Record cwriter := CWriter {
    o_msgs : list M; o_ctx : nat; o_done : bool; o_finished : bool; o_destroyed : bool }.
  (** bulk_update_state_ (sophos_client_runner.hpp:79-89, client_runner.hpp:97-107): the
      pointers are indices; the context of index [c] is alive as long as s_ctx is [Some c].
      All the ClientWriters ever made, the number of contexts made, the unary messages
      received by the server, the threads that run, the groups of threads to be run afterwards,
      what the calls of the previous groups returned. *)
  Record sstate := SState {
    s_writer : option nat; s_up : bool; s_ctx : option nat; s_mtx : option nat;
    s_objs : list cwriter; s_nctx : nat; s_unary : list M;
    s_threads : list sthread; s_later : list (list (list scall)); s_past : list (list (list sout)) }.

  (** A ClientWriter that may be used: it and its context have not been destroyed
      (sophos_client_runner.cpp:337, 367-368). *)
  Definition usable (s : sstate) (p : nat) : option cwriter :=
    match s_objs s !! p with
    | Some o => if o_destroyed o then None else if decide (s_ctx s = Some (o_ctx o)) then Some o else None
    | None => None
    end.
  (** The destructor of a ClientWriter (assignment or reset of writer,
      sophos_client_runner.cpp:352, 377). *)
  Definition destroy (w : option nat) (l : list cwriter) : list cwriter :=
    match w with
    | Some p => alter (fun o => CWriter (o_msgs o) (o_ctx o) (o_done o) (o_finished o) true) p l
    | None => l
    end.
  (** The same members, other threads (sophos_client_runner.hpp:79-89). *)
  Definition with_threads (s : sstate) (ths : list sthread) : sstate :=
    SState (s_writer s) (s_up s) (s_ctx s) (s_mtx s) (s_objs s) (s_nctx s) (s_unary s) ths (s_later s) (s_past s).
  (** The members writer, is_up and context, the ClientWriters and the number of contexts (sophos_client_runner.hpp:81-88). *)
  Definition with_members (s : sstate) (w : option nat) (up : bool) (c : option nat) (objs : list cwriter) (nc : nat)
    : sstate :=
    SState w up c (s_mtx s) objs nc (s_unary s) (s_threads s) (s_later s) (s_past s).
  (** The mutex (sophos_client_runner.hpp:87). *)
  Definition with_mtx (s : sstate) (m : option nat) : sstate :=
    SState (s_writer s) (s_up s) (s_ctx s) m (s_objs s) (s_nctx s) (s_unary s) (s_threads s) (s_later s) (s_past s).
  (** The messages of unary calls (sophos_client_runner.cpp:316). *)
  Definition with_unary (s : sstate) (l : list M) : sstate :=
    SState (s_writer s) (s_up s) (s_ctx s) (s_mtx s) (s_objs s) (s_nctx s) l (s_threads s) (s_later s) (s_past s).
  (** The ClientWriters (sophos_client_runner.hpp:81-82). *)
  Definition with_objs (s : sstate) (l : list cwriter) : sstate :=
    with_members s (s_writer s) (s_up s) (s_ctx s) l (s_nctx s).

  (** What a step does to its thread: it goes on in the same call, or returns from it
      (sophos_client_runner.cpp:303-380). *)
  Inductive snext := Goto (pc : spc) | Return (o : sout).

  (** One access of thread [t], in call [c]; None: it waits for the mutex.  [UB]: a null
      pointer is dereferenced, a destroyed object is used, or Finish is called twice.  The lines are
      cited at [spc]. *)
  Definition access (s : sstate) (t : nat) (c : scall) (pc : spc) : option (res (sstate * snext)) :=
    match pc with
    | PIdle =>
        match c with
        | SInsert m =>
            Some (Ok (s, Goto (match s_writer s with Some _ => PSession m | None => PUnary m end)))
        | SSession m => Some (Ok (s, if s_up s then Goto (PLock [m]) else Return SThrow))
        | SList ms => Some (Ok (s, if s_up s then Goto (PLock ms) else Return SThrow))
        | SStart =>
            Some (Ok (s, match s_writer s with Some _ => Return (SReturn false) | None => Goto PStart1 end))
        | SEnd =>
            Some (Ok (s, match s_writer s with Some _ => Goto PEnd1 | None => Return (SReturn false) end))
        end
    | PUnary m => Some (Ok (with_unary s (s_unary s ++ [m]), Return (SReturn false)))
    | PSession m => Some (Ok (s, if s_up s then Goto (PLock [m]) else Return SThrow))
    | PLock ms =>
        match s_mtx s with
        | Some _ => None
        | None => Some (Ok (with_mtx s (Some t), Goto (match ms with [] => PUnlock false | _ => PWriter ms end)))
        end
    | PWriter ms =>
        match s_writer s with Some p => Some (Ok (s, Goto (PWrite p ms))) | None => Some UB end
    | PWrite p ms =>
        match usable s p, ms with
        | Some o, m :: ms' =>
            if o_done o then Some (Ok (s, Goto (PUnlock true)))
            else Some (Ok (with_objs s (<[p := CWriter (o_msgs o ++ [m]) (o_ctx o) false (o_finished o) false]> (s_objs s)),
                           Goto (match ms' with [] => PUnlock false | _ => PWriter ms' end)))
        | _, _ => Some UB
        end
    | PUnlock e => Some (Ok (with_mtx s None, Return (SReturn e)))
    | PStart1 =>
        Some (Ok (with_members s (s_writer s) (s_up s) (Some (s_nctx s)) (s_objs s) (S (s_nctx s)), Goto PStart2))
    | PStart2 =>
        match s_ctx s with
        | None => Some UB
        | Some x => Some (Ok (with_objs s (s_objs s ++ [CWriter [] x false false false]), Goto (PStart3 (length (s_objs s)))))
        end
    | PStart3 p =>
        Some (Ok (with_members s (Some p) (s_up s) (s_ctx s) (destroy (s_writer s) (s_objs s)) (s_nctx s), Goto PStart4))
    | PStart4 =>
        Some (Ok (with_members s (s_writer s) true (s_ctx s) (s_objs s) (s_nctx s), Return (SReturn false)))
    | PEnd1 => match s_writer s with Some p => Some (Ok (s, Goto (PEnd2 p))) | None => Some UB end
    | PEnd2 p =>
        match usable s p with
        | Some o => Some (Ok (with_objs s (<[p := CWriter (o_msgs o) (o_ctx o) true (o_finished o) false]> (s_objs s)), Goto PEnd3))
        | None => Some UB
        end
    | PEnd3 => match s_writer s with Some p => Some (Ok (s, Goto (PEnd4 p))) | None => Some UB end
    | PEnd4 p =>
        match usable s p with
        | Some o =>
            if o_finished o then Some UB
            else Some (Ok (with_objs s (<[p := CWriter (o_msgs o) (o_ctx o) (o_done o) true false]> (s_objs s)), Goto PEnd5))
        | None => Some UB
        end
    | PEnd5 => Some (Ok (with_members s (s_writer s) false (s_ctx s) (s_objs s) (s_nctx s), Goto PEnd6))
    | PEnd6 => Some (Ok (with_members s (s_writer s) (s_up s) None (s_objs s) (s_nctx s), Goto PEnd7))
    | PEnd7 =>
        Some (Ok (with_members s None (s_up s) (s_ctx s) (destroy (s_writer s) (s_objs s)) (s_nctx s), Return (SReturn false)))
    end.

  (** One step of thread [t] (the functions cited at [scall]). *)
  Definition sstep (s : sstate) (t : nat) : option (res sstate) :=
    match s_threads s !! t with
    | Some (SThread (c :: todo) pc out) =>
        match access s t c pc with
        | Some (Ok (s', Goto pc')) => Some (Ok (with_threads s' (<[t := SThread (c :: todo) pc' out]> (s_threads s'))))
        | Some (Ok (s', Return o)) => Some (Ok (with_threads s' (<[t := SThread todo PIdle (out ++ [o])]> (s_threads s'))))
        | Some UB => Some UB
        | Some _ | None => None
        end
    | _ => None
    end.
  (** All the threads have finished: the next ones start (in load_inverted_index the session is started, then the jobs
      run, then they are joined and the session is ended, sophos_client_runner.cpp:414-421,
      client_runner.cpp:474-481). *)
  Definition sjoin (s : sstate) : option sstate :=
    match s_later s with
    | ps :: later =>
        if bool_decide (Forall (fun th => t_todo th = []) (s_threads s))
        then Some (SState (s_writer s) (s_up s) (s_ctx s) (s_mtx s) (s_objs s) (s_nctx s) (s_unary s)
               ((fun p => SThread p PIdle []) <$> ps) later (s_past s ++ [t_out <$> s_threads s]))
        else None
    | [] => None
    end.
  (** A runner that was just constructed (sophos_client_runner.hpp:79-89), and groups of
      threads that use it one after the other. *)
  Definition sinit (groups : list (list (list scall))) : sstate :=
    SState None false None None [] 0 [] [] groups [].
End sess.
Arguments scall : clear implicits.
Arguments spc : clear implicits.
Arguments sthread : clear implicits.
Arguments cwriter : clear implicits.
Arguments sstate : clear implicits.
Arguments snext : clear implicits.
