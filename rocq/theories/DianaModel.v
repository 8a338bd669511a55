(** Model of Diana.
    Sources: lib/include/sse/schemes/diana/diana_client.hpp,
    lib/include/sse/schemes/diana/diana_server.hpp, lib/diana/diana_common.cpp,
    lib/include/sse/schemes/diana/diana_common.hpp,
    lib/include/sse/schemes/diana/types.hpp. *)
From stdpp Require Import prelude gmap.
From Coq Require Import NArith Lia.
From Verif Require Import Base EncModel KvModel UtilsModel.
Local Open Scope N_scope.

(** The cryptography used by Diana (library sse_crypto, not in the repository):
    Hash::hash; root_prf_.derive_key and kw_token_prf_.prf with the keys of the client;
    RCPrf with a tree of depth kTreeDepth = 48 (diana_client.hpp:54): eval, constrain;
    ConstrainedRCPrf: max_leaf and the value at a leaf; Prg: derive(offset, length).
    [d_len] is sizeof(T), the size of the documents. *)
Record diana := Diana {
  d_hash : bytes -> bytes;
  d_root : bytes -> bytes;
  d_kwtok : bytes -> bytes;
  d_leaf : bytes -> N -> bytes;
  d_con : Type;
  d_constrain : bytes -> N -> N -> d_con;
  d_max_leaf : d_con -> N;
  d_eval : d_con -> N -> bytes;
  d_prg : bytes -> nat -> nat -> bytes;
  d_len : nat }.

Section diana.
  Variable D : diana.

  (** SearchRequest, types.hpp:43-70; [None] is the ConstrainedRCPrf built from {}
      when the keyword is unknown, diana_client.hpp:150-151. *)
  Record d_search := DSearch { ds_token : bytes; ds_con : option (d_con D); ds_count : N }.
  (** UpdateRequest, types.hpp:72-77; the document is the array of its bytes. *)
  Record d_update := DUpdate { du_token : bytes; du_index : bytes }.

  (** gen_update_token_mask, diana_common.cpp:28-37, diana_common.hpp:37-70;
      kUpdateTokenSize is 16 (types.hpp:30). *)
  Definition d_token_mask (st : bytes) : bytes * bytes :=
    (d_prg D st 0 16, d_prg D st 16 (d_len D)).

  (** ** Client *)
  (** DianaClient::get_keyword_index, diana_client.hpp:111-120; kKeywordIndexSize is
      16. *)
  Definition d_keyword_index (kw : bytes) : bytes := take 16 (d_hash D kw).

  (** DianaClient::get_match_count, diana_client.hpp:122-130. *)
  Definition d_get_match_count (c : counters) (kw : bytes) : N :=
    match ctr_get c kw with Some v => v | None => 0 end.

  (** DianaClient::search_request, diana_client.hpp:132-164; add_count is a uint32_t. *)
  Definition d_search_request (c : counters) (kw : bytes) : d_search :=
    let kw_index := d_keyword_index kw in
    match ctr_get c kw with
    | None => DSearch [] None 0
    | Some kw_counter =>
        DSearch (d_kwtok D kw_index) (Some (d_constrain D (d_root D kw_index) 0 kw_counter))
          ((kw_counter + 1) mod 2 ^ 32)
    end.

  (** The request for one leaf, diana_client.hpp:188-203 and 231-245. *)
  Definition d_make_update (kw : bytes) (kw_counter : N) (index : bytes) : d_update :=
    let st := d_leaf D (d_root D (d_keyword_index kw)) kw_counter in
    let '(token, mask) := d_token_mask st in
    DUpdate token (diana_xor_mask index mask).

  (** DianaClient::insertion_request, diana_client.hpp:166-207. *)
  Definition d_insertion_request (c : counters) (kw : bytes) (index : bytes) : counters * d_update :=
    let '(c', kw_counter) := ctr_get_and_increment c kw in
    (c', d_make_update kw kw_counter index).

  (** DianaClient::get_counters_and_increment, diana_client.hpp:253-278. *)
  Fixpoint d_get_counters (c : counters) (l : list (bytes * bytes)) : counters * list (bytes * bytes * N) :=
    match l with
    | [] => (c, [])
    | (kw, index) :: l' =>
        let '(c', kw_counter) := ctr_get_and_increment c kw in
        let '(c'', res) := d_get_counters c' l' in
        (c'', (kw, index, kw_counter) :: res)
    end.

  (** DianaClient::bulk_insertion_request, diana_client.hpp:209-251. *)
  Definition d_bulk_request (c : counters) (l : list (bytes * bytes)) : counters * list d_update :=
    let '(c', counter_list) := d_get_counters c l in
    (c', (fun x => d_make_update x.1.1 x.2 x.1.2) <$> counter_list).

  (** DianaClient::remove_keyword, diana_client.hpp:280-284. *)
  Definition d_remove_keyword (c : counters) (kw : bytes) : counters := ctr_remove c kw.

  (** ** Server *)
  (** The database of the server (a RockDBWrapper), diana_server.hpp:96. *)
  Notation edb := (gmap bytes bytes).

  (** DianaServer::insert, diana_server.hpp:315-323. *)
  Definition d_insert (db : edb) (u : d_update) : edb := <[du_token u := du_index u]> db.

  (** DianaServer::retrieve_entry, diana_server.hpp:83-93. *)
  Definition d_retrieve_entry (db : edb) (key : bytes) (delete_key : bool) : edb * option bytes :=
    match db !! key with
    | Some v => (if delete_key then delete key db else db, Some v)
    | None => (db, None)
    end.

  (** DianaServer::get_unmask, diana_server.hpp:110-144. *)
  Definition d_get_unmask (db : edb) (st : bytes) (delete_key : bool) : edb * option bytes :=
    let '(ut, mask) := d_token_mask st in
    let '(db', r) := d_retrieve_entry db ut delete_key in
    (db', (fun index => diana_xor_mask index mask) <$> r).

  (** ConstrainedRCPrf::eval_range(min, max, callback) (library sse_crypto; called at
      diana_server.hpp:182 and 283): the
      callback is called with each leaf of the range and its value, in order; a range
      outside the leaves of the constrained PRF is refused.  Given here by the list of
      the arguments of the callback. *)
  Definition d_eval_range (con : d_con D) (min max : N) : res (list (N * bytes)) :=
    if (max <? min) || (d_max_leaf D con <? max) then Throw OutOfRange
    else Ok ((fun i => (min + N.of_nat i, d_eval D con (min + N.of_nat i))) <$>
             seq 0 (N.to_nat (max - min + 1))).

  (** Calls of the eval_callback of DianaServer::search, diana_server.hpp:172-180. *)
  Fixpoint d_search_loop (db : edb) (leaves : list (N * bytes)) (delete_results : bool) : edb * list bytes :=
    match leaves with
    | [] => (db, [])
    | (_, st) :: leaves' =>
        let '(db', r) := d_get_unmask db st delete_results in
        let '(db'', rs) := d_search_loop db' leaves' delete_results in
        (db'', match r with Some index => index :: rs | None => rs end)
    end.

  (** DianaServer::search with a callback, diana_server.hpp:160-183: arguments of the
      calls of the callback, and the database after the search. *)
  Definition d_server_search (db : edb) (req : d_search) (delete_results : bool) : res (edb * list bytes) :=
    if ds_count req =? 0 then Ok (db, [])
    else match ds_con req with
         | None => Throw OutOfRange
         | Some con =>
             leaves <~ d_eval_range con 0 (d_max_leaf D con);
             Ok (d_search_loop db leaves delete_results)
         end.
  (** DianaServer::search returning a list, diana_server.hpp:146-158: push_back in the
      callback. *)
  Definition d_server_search_list (db : edb) (req : d_search) (delete_results : bool) : res (edb * list bytes) :=
    r <~ d_server_search db req delete_results;
    Ok (r.1, foldl (fun results i => results ++ [i]) [] r.2).

  (** *** Parallel search *)
  (** Loop that starts the threads, diana_server.hpp:294-308: number, first and last
      leaf of each thread; [n] threads are left to start. *)
  Fixpoint d_ranges (n : nat) (t step remaining min max count : N) : list (N * N * N) :=
    match n with
    | O => []
    | S n' =>
        let max := if t <? remaining then max + 1 else max in
        (t, min, N.min max count - 1) :: d_ranges n' (t + 1) step remaining max (max + step) count
    end.

  (** A thread of search_parallel, in the job of diana_server.hpp:267-284: its number,
      the entry found that it is about to remove (leaf, update token, mask, stored
      value), and the leaves to come. *)
  Record d_thread := DThread {
    dt_id : N; dt_removing : option (N * bytes * bytes * bytes); dt_rest : list (N * bytes) }.
  (** All the threads, the database, and the calls of the callback so far (leaf,
      document, thread number), diana_server.hpp:255-313. *)
  Record d_par := DPar { dp_db : edb; dp_threads : list d_thread; dp_log : list (N * bytes * N) }.

  (** One thread makes one access to the database: edb_.get (diana_server.hpp:87), or
      edb_.remove (line 89); the call of the callback is put with the last access that
      precedes it (each callback writes to data of its own thread or of its own
      leaf). *)
  Inductive d_step (del : bool) : d_par -> d_par -> Prop :=
  | dst_miss db pre t i st rest post log ut mask :
      d_token_mask st = (ut, mask) -> db !! ut = None ->
      d_step del (DPar db (pre ++ DThread t None ((i, st) :: rest) :: post) log)
                 (DPar db (pre ++ DThread t None rest :: post) log)
  | dst_hit db pre t i st rest post log ut mask v :
      d_token_mask st = (ut, mask) -> db !! ut = Some v -> del = false ->
      d_step del (DPar db (pre ++ DThread t None ((i, st) :: rest) :: post) log)
                 (DPar db (pre ++ DThread t None rest :: post) (log ++ [(i, diana_xor_mask v mask, t)]))
  | dst_hit_del db pre t i st rest post log ut mask v :
      d_token_mask st = (ut, mask) -> db !! ut = Some v -> del = true ->
      d_step del (DPar db (pre ++ DThread t None ((i, st) :: rest) :: post) log)
                 (DPar db (pre ++ DThread t (Some (i, ut, mask, v)) rest :: post) log)
  | dst_remove db pre t i ut mask v rest post log :
      d_step del (DPar db (pre ++ DThread t (Some (i, ut, mask, v)) rest :: post) log)
                 (DPar (delete ut db) (pre ++ DThread t None rest :: post)
                       (log ++ [(i, diana_xor_mask v mask, t)])).

  (** The jobs: eval_range on each range, diana_server.hpp:283. *)
  Fixpoint d_jobs (con : d_con D) (ranges : list (N * N * N)) : res (list d_thread) :=
    match ranges with
    | [] => Ok []
    | (t, min, max) :: ranges' =>
        leaves <~ d_eval_range con min max;
        ths <~ d_jobs con ranges';
        Ok (DThread t None leaves :: ths)
    end.

  (** search_parallel with a thread-local callback, diana_server.hpp:255-313: the state
      when all the threads are started; they are all joined (lines 310-312).  Without
      threads, the division of line 290 is undefined. *)
  Definition d_search_parallel (db : edb) (req : d_search) (threads_count : N) : res d_par :=
    if ds_count req =? 0 then Ok (DPar db [] [])
    else
      let threads := N.min threads_count (ds_count req) in
      if threads =? 0 then UB
      else match ds_con req with
           | None => Throw OutOfRange
           | Some con =>
               let step := ds_count req / threads in
               let remaining := ds_count req mod threads in
               ths <~ d_jobs con (d_ranges (N.to_nat threads) 0 step remaining 0 step (ds_count req));
               Ok (DPar db ths [])
           end.
  (** All the threads have returned, so that join does, diana_server.hpp:310-312. *)
  Definition d_finished (s : d_par) : Prop :=
    Forall (fun th => dt_removing th = None /\ dt_rest th = []) (dp_threads s).

  (** List variant, diana_server.hpp:185-218: one list per thread, spliced in the order
      of the threads. *)
  Definition d_result_list (threads_count : N) (log : list (N * bytes * N)) : list bytes :=
    (N.of_nat <$> seq 0 (N.to_nat threads_count)) ≫= fun t =>
      (fun e => e.1.2) <$> filter (fun e : N * bytes * N => e.2 = t) log.
  (** Vector variant, diana_server.hpp:220-240; new elements are value-initialised. *)
  Definition d_result_vector (results : list bytes) (add_count : N) (log : list (N * bytes * N)) : list bytes :=
    let results := if N.of_nat (length results) <? add_count
                   then results ++ replicate (N.to_nat add_count - length results) (replicate (d_len D) 0)
                   else results in
    foldl (fun r e => if e.1.1 <? N.of_nat (length r) then <[N.to_nat e.1.1 := e.1.2]> r else r) results log.
  (** Basic callback variant, diana_server.hpp:242-253: the arguments of the calls. *)
  Definition d_result_callback (log : list (N * bytes * N)) : list bytes := (fun e => e.1.2) <$> log.
End diana.
Arguments DSearch {D} _ _ _.
Arguments ds_token {D} _.
Arguments ds_con {D} _.
Arguments ds_count {D} _.
