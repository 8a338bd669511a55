(** Successive builders of Tethys over the same files: the table, the stash and the
    database of the counters, which insert_list writes before the store is built.
    Sources: lib/include/sse/schemes/tethys/tethys_builder.hpp,
    lib/include/sse/schemes/tethys/tethys_client.hpp,
    lib/include/sse/schemes/tethys/tethys_server.hpp. *)
From stdpp Require Import prelude gmap.
From Coq Require Import ZArith NArith.
From Verif Require Import Base EncModel StoreModel VecModel LifeModel TethysLifeModel KvModel SchemeModel.

(** What is on disk: the files of the store and the counters (tethys_builder.hpp:46-47,
    tethys_client.hpp:74-75). *)
Record tdisk := TDisk { td_files : disk; td_counters : counters }.

(** The calls of a process that uses a builder.  CInsert: insert_list
    (tethys_builder.hpp:78-125); [set] tells if RocksDB accepts the write of the counter, the
    answer of which is ignored (line 124).  CBuild: build (lines 68-75); the process may
    die after some of its system calls. *)
Inductive tcall :=
| CInsert (kw : bytes) (ids : list N) (set : bool)
| CBuild (dies : option nat).

(** insert_list, tethys_builder.hpp:78-125, on the counters of the disk: RocksDB writes them
    at once (the process may die, not the machine). *)
Definition t_insert (sc : scheme) (b : sbuilder) (d : tdisk) (kw : bytes) (ids : list N) (set : bool)
  : sbuilder * tdisk * res unit :=
  let r := tethys_insert sc (TB b (td_counters d)) kw ids in
  (tb_store r.1, TDisk (td_files d) (if set then tb_counters r.1 else td_counters d), r.2).

(** The calls of a process, one after the other (tethys_builder.hpp:62-125); the caller
    catches the exceptions and goes on. [cut] is the way the stream of the stash cuts what it
    writes. *)
Fixpoint t_calls (fuel : nat) (sc : scheme) (cut : bytes -> list bytes) (b : sbuilder) (d : tdisk)
  (cs : list tcall) : tdisk * list (res unit) :=
  match cs with
  | [] => (d, [])
  | CInsert kw ids set :: cs' =>
      let r := t_insert sc b d kw ids set in
      let r' := t_calls fuel sc cut r.1.1 r.1.2 cs' in
      (r'.1, r.2 :: r'.2)
  | CBuild None :: cs' =>
      let t := build_io fuel (sc_store sc) cut b (td_files d) in
      let r' := t_calls fuel sc cut t.1 (TDisk (do_ops (td_files d) t.2.1) (td_counters d)) cs' in
      (r'.1, t.2.2 :: r'.2)
  | CBuild (Some k) :: _ =>
      let t := build_io fuel (sc_store sc) cut b (td_files d) in
      (TDisk (do_ops (td_files d) (take k t.2.1)) (td_counters d), [])
  end.

(** A process: the constructor (tethys_builder.hpp:50-60) opens the database of the counters
    as it is, then the calls; the answers. *)
Definition t_process (fuel : nat) (sc : scheme) (cut : bytes -> list bytes) (d : tdisk) (cs : list tcall)
  : tdisk * list (res unit) :=
  match new_store_builder (sc_store sc) with
  | Ok b => t_calls fuel sc cut b d cs
  | _ => (d, [])
  end.

(** A search (tethys_client.hpp:100-182, tethys_server.hpp:41-71): the client loads the counters
    and the stash, the server opens the table, without stash. *)
Definition t_search (sc : scheme) (d : tdisk) (w : bytes) : res (list N) :=
  m <~ match dk_stash (td_files d) with None => Ok ∅ | Some b => deserialize_map (sp_enc (sc_store sc)) b end;
  s <~ open_disk (sp_enc (sc_store sc)) (dk_set Stash None (td_files d));
  let c := TC m (td_counters d) in
  bs <~ tethys_server_search sc s (tethys_search_request sc c w);
  tethys_decode sc c bs.
