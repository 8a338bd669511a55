(** Model of a server of Janus that answers several requests at the same time: the
    accesses to its three databases, one at a time.
    Sources: lib/janus/janus_server.cpp, lib/janus/janus_client.cpp,
    lib/include/sse/schemes/diana/diana_server.hpp,
    lib/include/sse/schemes/utils/rocksdb_wrapper.hpp. *)
From stdpp Require Import prelude gmap.
From Coq Require Import NArith Lia.
From Verif Require Import Base EncModel KvModel UtilsModel DianaModel JanusModel JanusSpec.
Local Open Scope N_scope.

(** The three databases: insertion_server_ and deletion_server_ (their edb_,
    diana_server.hpp:96) and cached_results_edb_, janus_server.hpp:50-53. *)
Inductive jdb := InsDb | DelDb | CacheDb.
(** RockDBWrapper::get, rocksdb_wrapper.hpp (called at diana_server.hpp:87), and the Get
    of RockDBListStore::get, rocksdb_wrapper.hpp:443-469. *)
Definition jget (s : j_server) (x : jdb * bytes) : option bytes :=
  match x.1 with InsDb => js_ins s | DelDb => js_del s | CacheDb => js_cache s end !! x.2.
(** RockDBWrapper::put and remove (called at diana_server.hpp:322 and 89), and
    RockDBListStore::put, rocksdb_wrapper.hpp:471-502; [None] removes. *)
Definition jset (s : j_server) (x : jdb * bytes) (v : option bytes) : j_server :=
  let set m := partial_alter (fun _ => v) x.2 m in
  match x.1 with
  | InsDb => JServer (set (js_ins s)) (js_del s) (js_cache s)
  | DelDb => JServer (js_ins s) (set (js_del s)) (js_cache s)
  | CacheDb => JServer (js_ins s) (js_del s) (set (js_cache s))
  end.

(** The rest of what a thread of the server has to do, as a tree of accesses to the
    databases (each made by one call of RocksDB, as cited at [jget] and [jset]); at the
    end, what the function returns: janus_server.cpp:95-303. *)
Inductive prog :=
| Ret (r : res (list N))
| Get (x : jdb * bytes) (f : option bytes -> prog)
| Put (x : jdb * bytes) (v : option bytes) (p : prog).
(** An access, with the value read or written; [ETau]: none (join of threads,
    diana_server.hpp:310-312). *)
Inductive event := EGet (x : jdb * bytes) (v : option bytes) | EPut (x : jdb * bytes) (v : option bytes) | ETau.
(** Effect of the access on the databases ([jget], [jset]: diana_server.hpp:83-93 and
    315-323). *)
Definition happens (s : j_server) (e : event) (s' : j_server) : Prop :=
  match e with
  | EGet x v => jget s x = v /\ s' = s
  | EPut x v => s' = jset s x v
  | ETau => s' = s
  end.

(** The loop of callbacks of DianaServer::search, diana_server.hpp:172-182, with
    get_unmask and retrieve_entry (110-144, 83-93); [k]: what follows, with the
    results. *)
Fixpoint p_leaves (D : diana) (d : jdb) (del : bool) (leaves : list (N * bytes)) (results : list bytes)
    (k : list bytes -> prog) : prog :=
  match leaves with
  | [] => k results
  | (_, st) :: leaves' =>
      let '(ut, mask) := d_token_mask D st in
      Get (d, ut) (fun r =>
        match r with
        | Some v =>
            let rest := p_leaves D d del leaves' (results ++ [diana_xor_mask v mask]) k in
            if del then Put (d, ut) None rest else rest
        | None => p_leaves D d del leaves' results k
        end)
  end.
(** DianaServer::search, diana_server.hpp:146-183. *)
Definition p_diana (D : diana) (d : jdb) (req : d_search D) (del : bool) (k : list bytes -> prog) : prog :=
  if ds_count req =? 0 then k []
  else match ds_con req with
       | None => Ret (Throw OutOfRange)
       | Some con =>
           match d_eval_range D con 0 (d_max_leaf D con) with
           | Ok leaves => p_leaves D d del leaves [] k
           | Throw e => Ret (Throw e)
           | UB => Ret UB
           | OutOfFuel => Ret OutOfFuel
           end
       end.
(** RockDBListStore::get from what is stored, rocksdb_wrapper.hpp:443-469. *)
Definition cached_list (tag_size : nat) (raw : option bytes) : res (list cached) :=
  match raw with Some raw => deser_loop tag_size (S (length raw)) raw | None => Ok [] end.

Section janus.
  Variable S : janus.

  (** cached_results_edb_.get, janus_server.cpp:132 and 256, and what follows. *)
  Definition p_cache (token : bytes) (k : list cached -> prog) : prog :=
    Get (CacheDb, token) (fun raw =>
      match cached_list (jn_tagsize S) raw with
      | Ok l => k l
      | Throw e => Ret (Throw e)
      | UB => Ret UB
      | OutOfFuel => Ret OutOfFuel
      end).
  (** cached_results_edb_.put, janus_server.cpp:157 and 291. *)
  Definition p_store (token : bytes) (l : list cached) (p : prog) : prog :=
    Put (CacheDb, token) (Some (l ≫= ser_cached)) p.
  (** JanusServer::search, janus_server.cpp:95-161. *)
  Definition p_search (req : j_search S) : prog :=
    p_diana (jn_ins S) InsDb (jr_ins req) true (fun insertions =>
    p_diana (jn_del S) DelDb (jr_del req) true (fun key_shares =>
    p_cache (jr_token req) (fun cached_res_list =>
      let l := j_filter_cache S key_shares cached_res_list ++ j_decrypt S (jr_share req :: key_shares) insertions in
      p_store (jr_token req) l (Ret (Ok l.*1))))).
  (** JanusServer::search_parallel once the threads that look for the key shares are
      joined, janus_server.cpp:205-292, and the list variant, 163-182; the thread of line
      273 is joined at once (277). *)
  Definition p_par_rest (req : j_search S) (threads_count : N) (key_shares : list bytes) : prog :=
    p_cache (jr_token req) (fun cached_res_list =>
      let filtered_cache := j_filter_cache S key_shares cached_res_list in
      p_diana (jn_ins S) InsDb (jr_ins req) false (fun insertions =>
        let new_cache := j_decrypt S (jr_share req :: key_shares) insertions in
        p_store (jr_token req) (new_cache ++ filtered_cache)
          (Ret (Ok (j_par_list threads_count
            (((fun x : cached => (x.1, threads_count)) <$> filtered_cache) ++
             ((fun x : cached => (x.1, 0)) <$> new_cache))))))).
  (** JanusServer::insert and remove, janus_server.cpp:295-303. *)
  Definition p_insert (u : d_update) : prog := Put (InsDb, du_token u) (Some (du_index u)) (Ret (Ok [])).
  Definition p_remove (u : d_update) : prog := Put (DelDb, du_token u) (Some (du_index u)) (Ret (Ok [])).

  (** A request being processed: by one thread, or by the threads of
      deletion_server_.search_parallel (janus_server.cpp:200-203, diana_server.hpp:255-313)
      with the log of the calls of their callbacks. *)
  Inductive proc :=
  | Run (p : prog)
  | Threads (req : j_search S) (threads_count : N) (ths : list d_thread) (log : list (N * bytes * N)).

  (** One access of a thread of deletion_server_.search_parallel: as [d_step], with
      delete_results (diana_server.hpp:83-93 and 267-284). *)
  Inductive thread_step : d_thread -> event -> d_thread -> list (N * bytes * N) -> Prop :=
  | ts_miss t i st rest ut mask : d_token_mask (jn_del S) st = (ut, mask) ->
      thread_step (DThread t None ((i, st) :: rest)) (EGet (DelDb, ut) None) (DThread t None rest) []
  | ts_hit t i st rest ut mask v : d_token_mask (jn_del S) st = (ut, mask) ->
      thread_step (DThread t None ((i, st) :: rest)) (EGet (DelDb, ut) (Some v)) (DThread t (Some (i, ut, mask, v)) rest) []
  | ts_remove t i ut mask v rest :
      thread_step (DThread t (Some (i, ut, mask, v)) rest) (EPut (DelDb, ut) None) (DThread t None rest)
        [(i, diana_xor_mask v mask, t)].
  (** A thread has returned, diana_server.hpp:310-312. *)
  Definition thread_done (th : d_thread) : Prop := dt_removing th = None /\ dt_rest th = [].
  (** One step of a request, janus_server.cpp:95-303: the next access of its thread, or one of the threads of
      the parallel search, or the end of the loop of joins (diana_server.hpp:310-312) once
      they have all returned. *)
  Inductive proc_step : proc -> event -> proc -> Prop :=
  | ps_get x f v : proc_step (Run (Get x f)) (EGet x v) (Run (f v))
  | ps_put x v p : proc_step (Run (Put x v p)) (EPut x v) (Run p)
  | ps_thread req n pre th post log e th' calls :
      thread_step th e th' calls ->
      proc_step (Threads req n (pre ++ th :: post) log) e (Threads req n (pre ++ th' :: post) (log ++ calls))
  | ps_join req n ths log : Forall thread_done ths ->
      proc_step (Threads req n ths log) ETau (Run (p_par_rest req n (d_result_list n log))).

  (** Start of search_parallel, janus_server.cpp:195-203 and diana_server.hpp:255-308 (the
      threads do not depend on the content of the database). *)
  Definition p_par (req : j_search S) (threads_count : N) : proc :=
    match d_search_parallel (jn_del S) ∅ (jr_del req) threads_count with
    | Ok f => Threads req threads_count (dp_threads f) []
    | Throw e => Run (Ret (Throw e))
    | UB => Run (Ret UB)
    | OutOfFuel => Run (Ret OutOfFuel)
    end.

  (** The requests that the client makes for a history, janus_client.cpp:82-175, as
      received by the server.  Those of [JLost] are not. *)
  Fixpoint requests (c : j_client) (ops : list j_op) : list proc :=
    match ops with
    | [] => []
    | JIns kw i :: ops' =>
        let r := j_insertion_request S c kw i in Run (p_insert r.2) :: requests r.1 ops'
    | JRem kw i :: ops' =>
        let r := j_removal_request S c kw i in Run (p_remove r.2) :: requests r.1 ops'
    | JFind kw :: ops' =>
        let r := j_search_request S c kw in Run (p_search r.2) :: requests r.1 ops'
    | JFindPar kw n :: ops' =>
        let r := j_search_request S c kw in p_par r.2 n :: requests r.1 ops'
    | JLost kw :: ops' =>
        let r := j_search_request S c kw in Run (Ret (Ok [])) :: requests r.1 ops'
    end.

  (** The server processes all the requests at the same time, each in its own thread
      (JanusServer has no lock, janus_server.hpp:26-54): request [i] makes a step.
      Simplification: the client makes the requests one after the other. *)
  Inductive server_step (i : nat) : list proc * j_server -> list proc * j_server -> Prop :=
  | ss_step ps s p e p' s' :
      ps !! i = Some p -> proc_step p e p' -> happens s e s' ->
      server_step i (ps, s) (<[i := p']> ps, s').
End janus.
Arguments Run {S} _.
Arguments Threads {S} _ _ _ _.
