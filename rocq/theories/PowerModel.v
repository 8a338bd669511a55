(** Model of power failures: what the clients and servers of Sophos and Diana have written
    is lost if the operating system had not written it to the disk.
    Sources: lib/utils/rocksdb_wrapper.cpp,
    lib/include/sse/schemes/utils/rocksdb_wrapper.hpp, lib/sophos/sophos_client.cpp,
    lib/sophos/sophos_server.cpp, lib/include/sse/schemes/diana/diana_client.hpp,
    lib/include/sse/schemes/diana/diana_server.hpp, lib/diana/server_runner.cpp.

    Simplifications.
    - The operations are made one after the other (ConcModel.v has the interleavings), and
      a request is delivered at once or lost.
    - Nothing is deleted.
    - A failed Put or Flush is not modelled here (FaultModel.v). *)
From stdpp Require Import prelude gmap.
From Coq Require Import NArith Lia.
From Verif Require Import Base EncModel KvModel UtilsModel SophosModel DianaModel ConcModel.

Section store.
  Context {V : Type}.
  (** A database of RocksDB: what is on the disk, and the Puts made since, oldest first.
      The Puts have the default options (rocksdb_wrapper.cpp:120, 152, 170,
      rocksdb_wrapper.hpp:189): they are appended to a log which is not synchronized. *)
  Record wlog := WLog { wl_disk : gmap bytes V; wl_cache : list (bytes * V) }.
  (** What Get reads, rocksdb_wrapper.cpp:85-99, 105, rocksdb_wrapper.hpp:148-180. *)
  Definition wl_now (l : wlog) : gmap bytes V := foldl (fun m x => <[x.1 := x.2]> m) (wl_disk l) (wl_cache l).
  (** Put, rocksdb_wrapper.cpp:120, rocksdb_wrapper.hpp:183-201. *)
  Definition wl_put (l : wlog) (key : bytes) (v : V) : wlog := WLog (wl_disk l) (wl_cache l ++ [(key, v)]).
  (** RockDBWrapper::flush, rocksdb_wrapper.hpp:222-235: everything is on the disk. *)
  Definition wl_flush (l : wlog) : wlog := WLog (wl_now l) [].
  (** The power fails and comes back: the log is replayed when the database is opened
      (rocksdb_wrapper.cpp:72, rocksdb_wrapper.hpp:122), up to the last record that had
      reached the disk; the first [kept] ones had. *)
  Definition wl_power (l : wlog) (kept : nat) : wlog := WLog (wl_now (WLog (wl_disk l) (take kept (wl_cache l)))) [].
  (** A new database, rocksdb_wrapper.cpp:27-83, rocksdb_wrapper.hpp:70-134. *)
  Definition wl_empty : wlog := WLog ∅ [].
End store.
Arguments wlog : clear implicits.

Section system.
  Variable P : proto.
  (** The counters of the client (counter_map_, sophos_client.hpp:90,
      diana_client.hpp:88) and the database of the server (edb_, sophos_server.hpp:68,
      diana_server.hpp:96). *)
  Record psys := PSys { ps_ctr : wlog N; ps_db : wlog (p_val P) }.
  (** What happens: an insertion, whose request may be lost; a search; the flush of the
      server; a power failure of the client, or of the server. *)
  Inductive pop :=
  | PIns (kw : bytes) (doc : p_doc P) (delivered : bool)
  | PFind (kw : bytes)
  | PFlush
  | PClientOff (kept : nat)
  | PServerOff (kept : nat).
  (** What is seen of it: the request of an insertion, that of a search and its results. *)
  Inductive pout :=
  | OSent (token : bytes) (val : p_val P)
  | OAnswer (req : p_req P) (results : list (p_doc P))
  | ONone.

  (** PIns: insertion_request (sophos_client.cpp:114-169, diana_client.hpp:166-207) and, if
      it arrives, SophosServer::insert (sophos_server.cpp:484-491) or DianaServer::insert
      (diana_server.hpp:315-323).
      PFind: search_request (sophos_client.cpp:83-112, diana_client.hpp:132-164) and search
      (sophos_server.cpp:46-89, diana_server.hpp:146-183).
      PFlush: flush_edb (diana_server.hpp:325-329), at the end of bulk_insert
      (server_runner.cpp:341) and in the destructor of DianaImpl (98); the server of Sophos
      never does it, and the clients do not either.
      PClientOff, PServerOff: see [wl_power]. *)
  Definition pstep (s : psys) (o : pop) : psys * pout :=
    match o with
    | PIns kw doc delivered =>
        let v := next_value (ctr_get (wl_now (ps_ctr s)) kw) in
        let u := p_update P kw v doc in
        (PSys (wl_put (ps_ctr s) kw v) (if delivered then wl_put (ps_db s) u.1 u.2 else ps_db s), OSent u.1 u.2)
    | PFind kw =>
        let req := p_request P kw (ctr_get (wl_now (ps_ctr s)) kw) in
        (s, OAnswer req (p_accesses P req ≫= p_access P (wl_now (ps_db s))))
    | PFlush => (PSys (ps_ctr s) (wl_flush (ps_db s)), ONone)
    | PClientOff kept => (PSys (wl_power (ps_ctr s) kept) (ps_db s), ONone)
    | PServerOff kept => (PSys (ps_ctr s) (wl_power (ps_db s) kept), ONone)
    end.
  (** A sequence of operations (sophos_client_runner.cpp:273-324,
      client_runner.cpp:286-348). *)
  Fixpoint prun (s : psys) (ops : list pop) : psys * list pout :=
    match ops with
    | [] => (s, [])
    | o :: ops' =>
        let r := pstep s o in
        let r' := prun r.1 ops' in
        (r'.1, r.2 :: r'.2)
    end.
  (** Nothing inserted yet (rocksdb_wrapper.cpp:27-83, rocksdb_wrapper.hpp:70-134). *)
  Definition pinit : psys := PSys wl_empty wl_empty.
End system.
