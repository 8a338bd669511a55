(** Model of the client runners of Sophos and Diana over connections that may break: unary
    insertions, update sessions, load_inverted_index, searches.
    Sources: lib/sophos/sophos_client_runner.cpp, lib/diana/client_runner.cpp,
    lib/sophos/sophos_server_runner.cpp, lib/diana/server_runner.cpp.

    Simplifications.
    - The calls of the client are made one after the other (ConcModel.v has threads that
      insert at the same time); the jobs of load_inverted_index run one after the other, in
      any order.
    - A stream of gRPC is a queue: what has been written is read by the server in order until
      the stream breaks; then what has not been read is lost and Write returns false.  Finish
      returns OK when the server has read everything and returned OK.
    - The server is set up (RunnerModel.v has the other case), and writes to the databases
      succeed (FaultModel.v).
    - A search of Diana is asynchronous (RunnerModel.v has sync_search). *)
From stdpp Require Import prelude gmap.
From Coq Require Import NArith Lia.
From Verif Require Import Base EncModel KvModel UtilsModel SophosModel DianaModel ConcModel.

Section stream.
  Variable P : proto.
  (** The client: its counters, whether bulk_update_state_.writer is set and whether
      bulk_update_state_.is_up (sophos_client_runner.hpp:78-89, client_runner.hpp:97-107).
      The stream of the session: whether it works, the messages written and not yet read.
      The database of the server. *)
  Record ysys := YSys {
    y_ctr : gmap bytes N; y_writer : bool; y_up : bool;
    y_works : bool; y_flight : list (bytes * p_val P);
    y_db : gmap bytes (p_val P) }.
  (** What happens to a unary call: it succeeds; it fails, and the request may have been
      processed (sophos_client_runner.cpp:316-322, client_runner.cpp:339-346). *)
  Inductive unary := UOk | UFailed (processed : bool).
  (** Calls of the client, and events of the network.
      - YInsert: insert; the outcome is that of the unary call, if there is one;
      - YSession, YList: the two insert_in_session; the second is of Diana only, and
        the stream may break after some of its writes;
      - YStart, YEnd: start_update_session, end_update_session; the stream may break during
        the second, after the server has read some more messages;
      - YSearch: the positions of the results that arrive, in the order they arrive, and
        whether the status is OK;
      - YDestroy: the runner is destroyed and another constructed on the same directory; if a session
        was running its call is cancelled, after the server has read some more messages;
      - YRead: the server reads a message; YBreak: the stream breaks. *)
  Inductive yop :=
  | YInsert (kw : bytes) (doc : p_doc P) (u : unary)
  | YSession (kw : bytes) (doc : p_doc P)
  | YList (l : list (bytes * p_doc P)) (breaks : option nat)
  | YStart
  | YEnd (breaks : option nat)
  | YSearch (kw : bytes) (sent : list nat) (ok : bool)
  | YDestroy (read : nat)
  | YRead
  | YBreak.
  (** What the caller sees (normal return, exception, results), and whether an error is
      written to the log. *)
  Inductive yout :=
  | YReturn (error : bool)
  | YThrow
  | YResults (results : list (p_doc P)) (error : bool)
  | YNothing.

  (** The server reads [n] messages and inserts them (bulk_insert,
      sophos_server_runner.cpp:286-288, server_runner.cpp:333-335). *)
  Definition y_read (n : nat) (s : ysys) : ysys :=
    YSys (y_ctr s) (y_writer s) (y_up s) (y_works s) (drop n (y_flight s))
      (foldl (fun m u => <[u.1 := u.2]> m) (y_db s) (take n (y_flight s))).
  (** The stream breaks: what was not read is lost (see above). *)
  Definition y_break (s : ysys) : ysys :=
    YSys (y_ctr s) (y_writer s) (y_up s) false [] (y_db s).
  (** ClientWriter::Write in insert_in_session (sophos_client_runner.cpp:337,
      client_runner.cpp:361, 385). *)
  Definition y_write (s : ysys) (u : bytes * p_val P) : ysys * bool :=
    if y_works s
    then (YSys (y_ctr s) (y_writer s) (y_up s) (y_works s) (y_flight s ++ [u]) (y_db s), true)
    else (s, false).
  (** std::all_of of client_runner.cpp:380-387: stops at the first failure. *)
  Fixpoint y_write_all (s : ysys) (l : list (bytes * p_val P)) : ysys * bool :=
    match l with
    | [] => (s, true)
    | u :: l' => let r := y_write s u in if r.2 : bool then y_write_all r.1 l' else (r.1, false)
    end.
  (** insertion_request, sophos_client.cpp:114-169, diana_client.hpp:166-207. *)
  Definition y_request (s : ysys) (kw : bytes) (doc : p_doc P) : ysys * (bytes * p_val P) :=
    let v := next_value (ctr_get (y_ctr s) kw) in
    (YSys (<[kw := v]> (y_ctr s)) (y_writer s) (y_up s) (y_works s) (y_flight s) (y_db s), p_update P kw v doc).
  (** bulk_insertion_request, diana_client.hpp:209-251 with get_counters_and_increment: all
      the counters are increased. *)
  Fixpoint y_requests (s : ysys) (l : list (bytes * p_doc P)) : ysys * list (bytes * p_val P) :=
    match l with
    | [] => (s, [])
    | x :: l' =>
        let r := y_request s x.1 x.2 in
        let r' := y_requests r.1 l' in
        (r'.1, r.2 :: r'.2)
    end.
  (** insert_in_session, sophos_client_runner.cpp:326-341, client_runner.cpp:350-365. *)
  Definition y_insert_in_session (s : ysys) (kw : bytes) (doc : p_doc P) : ysys * yout :=
    let r := y_request s kw doc in
    if negb (y_up r.1) then (r.1, YThrow)
    else let w := y_write r.1 r.2 in (w.1, YReturn (negb w.2)).
  (** One call or event; the functions cited at [yop], and insert
      (sophos_client_runner.cpp:303-324, client_runner.cpp:326-348), start_update_session
      (343-357, 395-409), end_update_session (359-380, 411-433), search (273-301,
      286-324), the list version of insert_in_session (client_runner.cpp:368-393), the
      destructors (sophos_client_runner.cpp:235-238, client_runner.cpp:249-254). *)
  Definition ystep (s : ysys) (o : yop) : ysys * yout :=
    match o with
    | YInsert kw doc u =>
        if y_writer s then y_insert_in_session s kw doc
        else
          let r := y_request s kw doc in
          let received := match u with UOk => true | UFailed b => b end in
          (if received
           then YSys (y_ctr r.1) (y_writer r.1) (y_up r.1) (y_works r.1) (y_flight r.1) (<[r.2.1 := r.2.2]> (y_db r.1))
           else r.1,
           YReturn (match u with UOk => false | UFailed _ => true end))
    | YSession kw doc => y_insert_in_session s kw doc
    | YList l breaks =>
        if negb (y_up s) then (s, YThrow)
        else
          let r := y_requests s l in
          match breaks with
          | None => let w := y_write_all r.1 r.2 in (w.1, YReturn (negb w.2))
          | Some k =>
              let w := y_write_all r.1 (take k r.2) in
              let w' := y_write_all (y_break w.1) (drop k r.2) in
              (w'.1, YReturn (negb (w.2 && w'.2)))
          end
    | YStart =>
        if y_writer s then (s, YReturn false)
        else (YSys (y_ctr s) true true true [] (y_db s), YReturn false)
    | YEnd breaks =>
        if negb (y_writer s) then (s, YReturn false)
        else
          let s' := match breaks with
                    | None => y_read (length (y_flight s)) s
                    | Some k => y_break (y_read k s)
                    end in
          (YSys (y_ctr s') false false (y_works s') (y_flight s') (y_db s'), YReturn (negb (y_works s')))
    | YSearch kw sent ok =>
        let req := p_request P kw (ctr_get (y_ctr s) kw) in
        let found := p_accesses P req ≫= p_access P (y_db s) in
        (s, YResults (omap (fun i => found !! i) sent) (negb ok))
    | YDestroy k =>
        let s' := y_break (y_read k s) in
        (YSys (y_ctr s') false false false [] (y_db s'), YNothing)
    | YRead => (y_read 1 s, YNothing)
    | YBreak => (y_break s, YNothing)
    end.
  (** A sequence of calls and events (sophos_client_runner.cpp:273-430,
      client_runner.cpp:286-493). *)
  Fixpoint yrun (s : ysys) (ops : list yop) : ysys * list yout :=
    match ops with
    | [] => (s, [])
    | o :: ops' =>
        let r := ystep s o in
        let r' := yrun r.1 ops' in
        (r'.1, r.2 :: r'.2)
    end.
  (** A new client and a new server (sophos_client_runner.cpp:180-229,
      client_runner.cpp:130-247). *)
  Definition yinit : ysys := YSys ∅ false false false [] ∅.

  (** How load_inverted_index ends: the parser cannot be constructed
      (sophos_client_runner.cpp:385, client_runner.cpp:439); it throws from parse (416, 478) when
      [pending] jobs have not finished; or it succeeds, the stream breaking or not during
      end_update_session. *)
  Inductive yload := LoadNoFile | LoadThrows (pending : nat) | LoadDone (breaks : option nat).
  (** load_inverted_index, sophos_client_runner.cpp:382-430, client_runner.cpp:436-493: the
      calls it makes.  [jobs] are the calls and events of the jobs that the parser has
      enqueued, in the order in which they run.  When the parser throws, the destructor of the
      pool runs the remaining jobs (PoolModel.v) and the session is not ended. *)
  Definition y_load_ops (jobs : list (list yop)) (e : yload) : list yop :=
    match e with
    | LoadNoFile => []
    | LoadThrows _ => YStart :: mjoin jobs
    | LoadDone breaks => YStart :: mjoin jobs ++ [YEnd breaks]
    end.
  (** The local variables of load_inverted_index, in the order of their declarations
      (sophos_client_runner.cpp:385-409, client_runner.cpp:439-471). *)
  Inductive local := LParser | LPool | LCounter | LCallback.
  Local Instance local_eq : EqDecision local := ltac:(solve_decision).
  (** See [local]. *)
  Definition y_locals : list local := [LParser; LPool; LCounter; LCallback].
  (** They are destroyed in the reverse order; the destructor of the pool waits for the
      [pending] jobs, which increase the counter (sophos_client_runner.cpp:400,
      client_runner.cpp:459): undefined behaviour if it is no longer there. *)
  Fixpoint y_destroy (order : list local) (alive : list local) (pending : nat) : res unit :=
    match order with
    | [] => Ok tt
    | o :: order' =>
        _ <~ (if bool_decide (o = LPool) && (0 <? pending)%nat && negb (bool_decide (LCounter ∈ alive)) then UB else Ok tt) ;
        y_destroy order' (filter (fun x => x <> o) alive) pending
    end.
  (** The result of load_inverted_index.  An exception of a job stays in its future
      (sophos_client_runner.cpp:407, client_runner.cpp:469), so that only the parser makes it
      return false (424-428, 487-491).  When the parser succeeds the pool is joined first (418,
      480). *)
  Definition y_load_result (e : yload) : res bool :=
    match e with
    | LoadNoFile => Ok false
    | LoadThrows pending => _ <~ y_destroy (reverse y_locals) y_locals pending ; Ok false
    | LoadDone _ => _ <~ y_destroy (reverse y_locals) y_locals 0 ; Ok true
    end.
  (** The job of a keyword (sophos_client_runner.cpp:394-405): one insertion for each
      document. *)
  Definition y_job (kw : bytes) (docs : list (p_doc P)) : list yop := (fun doc => YSession kw doc) <$> docs.
  (** The job of a keyword (client_runner.cpp:447-466): one list. *)
  Definition y_job_list (kw : bytes) (docs : list (p_doc P)) (breaks : option nat) : list yop :=
    [YList ((fun doc => (kw, doc)) <$> docs) breaks].
End stream.
