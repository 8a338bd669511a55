(** Model of a Janus client that dies, or whose power fails: its three counter maps are
    separate databases, written one after the other.
    Sources: lib/janus/janus_client.cpp, lib/include/sse/schemes/janus/janus_client.hpp,
    lib/include/sse/schemes/diana/diana_client.hpp, lib/utils/rocksdb_wrapper.cpp.

    Simplifications.
    - The operations are made one after the other, with the sequential search only.
    - The process dies only in search_request, which is never sent then.  (The two other
      requests write once: to die after the write is to lose the request.)
    - The server (janus_server.cpp) loses nothing: see JanusDurModel.v. *)
From stdpp Require Import prelude gmap.
From Coq Require Import NArith Lia.
From Verif Require Import Base EncModel KvModel UtilsModel DianaModel JanusModel.

(** The counter maps: counter_map_ of insertion_client_ and of deletion_client_
    (diana_client.hpp:88) and search_counter_map_ (janus_client.hpp:88-91). *)
Inductive jk_map := InsMap | DelMap | SearchMap.
(** A write: Put (rocksdb_wrapper.cpp:120, 170) or Delete (187). *)
Inductive jk_write := KSet (key : bytes) (v : N) | KRem (key : bytes).
(** Its effect, rocksdb_wrapper.cpp:101-190. *)
Definition kw_apply (c : counters) (w : jk_write) : counters :=
  match w with KSet key v => <[key := v]> c | KRem key => delete key c end.
(** The writes made to each map, oldest first; the client never flushes them
    (janus_client.cpp:58-175). *)
Record jk_client := JK { jk_ins : list jk_write; jk_del : list jk_write; jk_search : list jk_write }.
(** What the maps contain, rocksdb_wrapper.cpp:85-99. *)
Definition jk_now (c : jk_client) : j_client :=
  JClient (foldl kw_apply ∅ (jk_ins c)) (foldl kw_apply ∅ (jk_del c)) (foldl kw_apply ∅ (jk_search c)).
(** A write to one of them, rocksdb_wrapper.cpp:101-190. *)
Definition jk_put (c : jk_client) (x : jk_map * jk_write) : jk_client :=
  match x.1 with
  | InsMap => JK (jk_ins c ++ [x.2]) (jk_del c) (jk_search c)
  | DelMap => JK (jk_ins c) (jk_del c ++ [x.2]) (jk_search c)
  | SearchMap => JK (jk_ins c) (jk_del c) (jk_search c ++ [x.2])
  end.
(** The power of the client fails and comes back: the writes kept by each map
    (rocksdb_wrapper.cpp:72, 120, 170, 187: the writes are not synchronized). *)
Definition jk_power (c : jk_client) (kept_ins kept_del kept_search : nat) : jk_client :=
  JK (take kept_ins (jk_ins c)) (take kept_del (jk_del c)) (take kept_search (jk_search c)).

Section janus.
  Variable S : janus.
  (** The writes of search_request, in their order: set (janus_client.cpp:116-119), then
      remove_keyword of the insertions (122-124) and of the removals (125-127). *)
  Definition jk_search_writes (c : j_client) (kw : bytes) : list (jk_map * jk_write) :=
    let search_counter := j_search_counter c kw in
    let m_kw := meta_keyword kw search_counter in
    let n_ins := ds_count (d_search_request (jn_ins S) (jc_ins c) m_kw) in
    let n_del := ds_count (d_search_request (jn_del S) (jc_del c) m_kw) in
    (if (0 <? n_ins)%N || (0 <? n_del)%N then [(SearchMap, KSet kw ((search_counter + 1) mod 2 ^ 32)%N)] else []) ++
    (if (0 <? n_ins)%N then [(InsMap, KRem m_kw)] else []) ++
    (if (0 <? n_del)%N then [(DelMap, KRem m_kw)] else []).
  (** search_request, janus_client.cpp:82-130: the maps after [n] of its writes. *)
  Definition jk_search_request (c : jk_client) (kw : bytes) (n : nat) : jk_client :=
    foldl jk_put c (take n (jk_search_writes (jk_now c) kw)).
  (** insertion_request, janus_client.cpp:132-151, with that of Diana
      (diana_client.hpp:166-207). *)
  Definition jk_insertion_request (c : jk_client) (kw : bytes) (index : N) : jk_client * d_update :=
    let m_kw := meta_keyword kw (j_search_counter (jk_now c) kw) in
    (jk_put c (InsMap, KSet m_kw (next_value (ctr_get (jc_ins (jk_now c)) m_kw))),
     (j_insertion_request S (jk_now c) kw index).2).
  (** removal_request, janus_client.cpp:153-175. *)
  Definition jk_removal_request (c : jk_client) (kw : bytes) (index : N) : jk_client * d_update :=
    let m_kw := meta_keyword kw (j_search_counter (jk_now c) kw) in
    (jk_put c (DelMap, KSet m_kw (next_value (ctr_get (jc_del (jk_now c)) m_kw))),
     (j_removal_request S (jk_now c) kw index).2).

  (** What happens: an insertion, a removal, a search (janus_client.cpp:82-175); a
      search_request in which the client dies after [n] writes, and the client opened again;
      a power failure of the client. *)
  Inductive jk_op :=
  | JKIns (kw : bytes) (index : N)
  | JKRem (kw : bytes) (index : N)
  | JKFind (kw : bytes)
  | JKKill (kw : bytes) (n : nat)
  | JKOff (kept_ins kept_del kept_search : nat).
  (** What the server receives and answers (types.hpp:27-51). *)
  Inductive jk_out :=
  | OIns (token : bytes)
  | ORem (token : bytes)
  | OFind (req : j_search S) (answer : list N).
  (** One of them (janus_client.cpp:82-175, janus_server.cpp:95-161, 295-303). *)
  Definition jk_step (c : jk_client) (s : j_server) (o : jk_op) : res (jk_client * j_server * list jk_out) :=
    match o with
    | JKIns kw i => let r := jk_insertion_request c kw i in Ok (r.1, j_insert s r.2, [OIns (du_token r.2)])
    | JKRem kw i => let r := jk_removal_request c kw i in Ok (r.1, j_remove s r.2, [ORem (du_token r.2)])
    | JKFind kw =>
        let req := (j_search_request S (jk_now c) kw).2 in
        a <~ j_server_search S s req;
        Ok (jk_search_request c kw 3, a.1, [OFind req a.2])
    | JKKill kw n => Ok (jk_search_request c kw n, s, [])
    | JKOff ki kd ks => Ok (jk_power c ki kd ks, s, [])
    end.
  (** A sequence of them (janus_client.cpp:82-175, janus_server.cpp:95-161, 295-303). *)
  Fixpoint jk_run (c : jk_client) (s : j_server) (ops : list jk_op) : res (jk_client * j_server * list jk_out) :=
    match ops with
    | [] => Ok (c, s, [])
    | o :: ops' =>
        r <~ jk_step c s o;
        r' <~ jk_run r.1.1 r.1.2 ops';
        Ok (r'.1, r.2 ++ r'.2)
    end.
  (** New maps (janus_client.cpp:58-73). *)
  Definition jk_new : jk_client := JK [] [] [].
End janus.
Arguments OIns {S} _.
Arguments ORem {S} _.
Arguments OFind {S} _ _.
