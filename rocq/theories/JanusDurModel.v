(** Model of power failures of a Janus server: what it has written and deleted in its
    three databases since the last flush may be lost, in each of them separately.
    Sources: lib/janus/janus_server.cpp,
    lib/include/sse/schemes/janus/janus_server.hpp,
    lib/include/sse/schemes/diana/diana_server.hpp,
    lib/include/sse/schemes/utils/rocksdb_wrapper.hpp.

    Simplifications.
    - The operations are made one after the other, with the sequential search only
      (JanusConcModel.v has the interleavings, JanusModel.v the parallel search).
    - The client (janus_client.cpp) loses nothing.
    - A failed Put, Delete or Flush is not modelled here (FaultModel.v). *)
From stdpp Require Import prelude gmap.
From Coq Require Import NArith Lia.
From Verif Require Import Base EncModel KvModel UtilsModel DianaModel JanusModel.

(** A write to a database: Put (rocksdb_wrapper.hpp:183-201, 471-502) or Delete (204-220). *)
Inductive jd_write := WPut (key v : bytes) | WDel (key : bytes).
(** Its effect, rocksdb_wrapper.hpp:183-220, 471-502. *)
Definition wr_apply (m : gmap bytes bytes) (w : jd_write) : gmap bytes bytes :=
  match w with WPut key v => <[key := v]> m | WDel key => delete key m end.
(** A database: what is on the disk, and the writes made since, oldest first.  The writes
    have the default options (rocksdb_wrapper.hpp:189, 208, 217, 489): they are appended to
    a log which is not synchronized. *)
Record dlog := DLog { dl_disk : gmap bytes bytes; dl_log : list jd_write }.
(** What Get reads, rocksdb_wrapper.hpp:148-180, 421-469. *)
Definition dl_now (l : dlog) : gmap bytes bytes := foldl wr_apply (dl_disk l) (dl_log l).
(** A Put or a Delete, rocksdb_wrapper.hpp:183-220, 471-502. *)
Definition dl_write (l : dlog) (w : jd_write) : dlog := DLog (dl_disk l) (dl_log l ++ [w]).
(** RockDBWrapper::flush, rocksdb_wrapper.hpp:222-235: everything is on the disk. *)
Definition dl_flush (l : dlog) : dlog := DLog (dl_now l) [].
(** The power fails and comes back: the log is replayed when the database is opened
    (rocksdb_wrapper.hpp:122, 400), up to the last record that had reached the disk; the first
    [kept] ones had. *)
Definition dl_power (l : dlog) (kept : nat) : dlog := DLog (foldl wr_apply (dl_disk l) (take kept (dl_log l))) [].
(** A new database, rocksdb_wrapper.hpp:70-134. *)
Definition dl_empty : dlog := DLog ∅ [].

Section diana.
  Variable D : diana.
  (** DianaServer::get_unmask that deletes what it finds, diana_server.hpp:110-144, with
      retrieve_entry (83-93). *)
  Definition dd_get_unmask (l : dlog) (st : bytes) : dlog * option bytes :=
    let '(ut, mask) := d_token_mask D st in
    match dl_now l !! ut with
    | Some v => (dl_write l (WDel ut), Some (diana_xor_mask v mask))
    | None => (l, None)
    end.
  (** Calls of the eval_callback of DianaServer::search, diana_server.hpp:172-180. *)
  Fixpoint dd_search_loop (l : dlog) (leaves : list (N * bytes)) : dlog * list bytes :=
    match leaves with
    | [] => (l, [])
    | (_, st) :: leaves' =>
        let '(l', r) := dd_get_unmask l st in
        let '(l'', rs) := dd_search_loop l' leaves' in
        (l'', match r with Some index => index :: rs | None => rs end)
    end.
  (** DianaServer::search(req, true), diana_server.hpp:146-183. *)
  Definition dd_search (l : dlog) (req : d_search D) : res (dlog * list bytes) :=
    if (ds_count req =? 0)%N then Ok (l, [])
    else match ds_con req with
         | None => Throw OutOfRange
         | Some con =>
             leaves <~ d_eval_range D con 0 (d_max_leaf D con);
             Ok (dd_search_loop l leaves)
         end.
End diana.

Section janus.
  Variable S : janus.
  (** The three databases of JanusServer, janus_server.hpp:50-53. *)
  Record jd_server := JD { jd_ins : dlog; jd_del : dlog; jd_cache : dlog }.
  (** JanusServer::insert, janus_server.cpp:295-298 (DianaServer::insert,
      diana_server.hpp:315-323). *)
  Definition jd_insert (s : jd_server) (u : d_update) : jd_server :=
    JD (dl_write (jd_ins s) (WPut (du_token u) (du_index u))) (jd_del s) (jd_cache s).
  (** JanusServer::remove, janus_server.cpp:300-303. *)
  Definition jd_remove (s : jd_server) (u : d_update) : jd_server :=
    JD (jd_ins s) (dl_write (jd_del s) (WPut (du_token u) (du_index u))) (jd_cache s).
  (** JanusServer::search, janus_server.cpp:95-161. *)
  Definition jd_search (s : jd_server) (req : j_search S) : res (jd_server * list N) :=
    ri <~ dd_search (jn_ins S) (jd_ins s) (jr_ins req);
    rd <~ dd_search (jn_del S) (jd_del s) (jr_del req);
    cached_res_list <~ list_get (jn_tagsize S) (dl_now (jd_cache s)) (jr_token req);
    let old := j_filter_cache S rd.2 cached_res_list in
    let new := j_decrypt S (jr_share req :: rd.2) ri.2 in
    Ok (JD ri.1 rd.1 (dl_write (jd_cache s) (WPut (jr_token req) ((old ++ new) ≫= ser_cached))), (old ++ new).*1).
  (** JanusServer::flush_edb, janus_server.cpp:305-309: the cache is not flushed. *)
  Definition jd_flush_edb (s : jd_server) : jd_server :=
    JD (dl_flush (jd_ins s)) (dl_flush (jd_del s)) (jd_cache s).
  (** The power of the server fails and comes back (janus_server.cpp:85-93): the writes kept
      in each database. *)
  Definition jd_power (s : jd_server) (kept_ins kept_del kept_cache : nat) : jd_server :=
    JD (dl_power (jd_ins s) kept_ins) (dl_power (jd_del s) kept_del) (dl_power (jd_cache s) kept_cache).
  (** A new server, janus_server.cpp:85-93. *)
  Definition jd_new : jd_server := JD dl_empty dl_empty dl_empty.

  (** What happens: insertion_request (janus_client.cpp:132-151) and insert;
      removal_request (153-175) and remove; search_request (82-130) and search; flush_edb;
      a power failure of the server. *)
  Inductive jd_op :=
  | JDIns (kw : bytes) (index : N)
  | JDRem (kw : bytes) (index : N)
  | JDFind (kw : bytes)
  | JDFlush
  | JDOff (kept_ins kept_del kept_cache : nat).
  (** One of them, and the answer of the search if it is one (janus_client.cpp:82-175,
      janus_server.cpp:85-161, 295-309). *)
  Definition jd_step (c : j_client) (s : jd_server) (o : jd_op) : res (j_client * jd_server * list (list N)) :=
    match o with
    | JDIns kw i => let r := j_insertion_request S c kw i in Ok (r.1, jd_insert s r.2, [])
    | JDRem kw i => let r := j_removal_request S c kw i in Ok (r.1, jd_remove s r.2, [])
    | JDFind kw =>
        let r := j_search_request S c kw in
        a <~ jd_search s r.2;
        Ok (r.1, a.1, [a.2])
    | JDFlush => Ok (c, jd_flush_edb s, [])
    | JDOff ki kd kc => Ok (c, jd_power s ki kd kc, [])
    end.
  (** A sequence of them (janus_client.cpp:82-175, janus_server.cpp:85-161, 295-309), and
      the answers of its searches. *)
  Fixpoint jd_run (c : j_client) (s : jd_server) (ops : list jd_op) : res (j_client * jd_server * list (list N)) :=
    match ops with
    | [] => Ok (c, s, [])
    | o :: ops' =>
        r <~ jd_step c s o;
        r' <~ jd_run r.1.1 r.1.2 ops';
        Ok (r'.1, r.2 ++ r'.2)
    end.
End janus.
