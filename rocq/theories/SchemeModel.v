(** Model of the Tethys scheme: builder, client and server.
    Sources: lib/include/sse/schemes/tethys/tethys_builder.hpp,
    lib/include/sse/schemes/tethys/tethys_client.hpp,
    lib/include/sse/schemes/tethys/tethys_server.hpp,
    lib/include/sse/schemes/tethys/types.hpp and
    lib/include/sse/schemes/tethys/details/tethys_utils.hpp. *)
From stdpp Require Import prelude gmap.
From Coq Require Import ZArith NArith Lia.
From Verif Require Import Base GraphModel AllocModel EncModel StoreModel KvModel.
Local Open Scope nat_scope.

(** The keyed functions of the scheme: master_prf.prf (tethys_builder.hpp:89-90)
    and crypto::Hash::hash with the size of a core key (tethys_utils.hpp:25-26). *)
Record scheme := Scheme {
  sc_store : sparams;
  sc_prf : bytes -> bytes;
  sc_hash : bytes -> bytes
}.

(** tethys_utils.hpp:12-29 *)
Definition derive_core_key (sc : scheme) (token : bytes) (block_count : nat) : bytes :=
  sc_hash sc (token ++ le64 (N.of_nat block_count)).

(** IdentityHasher, types.hpp:47-59: the two halves of a 16-byte key. *)
Definition identity_hasher (key : bytes) : N * N :=
  (le_val (take 8 key), le_val (take 8 (drop 8 key))).

(** kMaxListSize, tethys_store_builder.hpp:50-51. *)
Definition max_list_size (p : eparams) : nat := bucket_size p - list_control p.

(** Fields of GenericTethysBuilder, tethys_builder.hpp:46-48. *)
Record tbuilder := TB { tb_store : sbuilder; tb_counters : counters }.

(** The loop of insert_list, tethys_builder.hpp:92-110: returns the store builder
    and the block counter and incomplete block at the end of the loop. *)
Fixpoint insert_blocks (sc : scheme) (token : bytes) (b : sbuilder) (block_counter : nat)
  (block : list bytes) (ids : list N) : sbuilder * res (nat * list bytes) :=
  match ids with
  | [] => (b, Ok (block_counter, block))
  | id :: ids' =>
      let block' := block ++ [le64 id] in
      if bool_decide (length block' = max_list_size (sp_enc (sc_store sc))) then
        let r := store_insert (sc_store sc) b (derive_core_key sc token block_counter) block' in
        match r.2 with
        | Ok _ => insert_blocks sc token r.1 (S block_counter) [] ids'
        | Throw e => (r.1, Throw e)
        | UB => (r.1, UB)
        | OutOfFuel => (r.1, OutOfFuel)
        end
      else insert_blocks sc token b block_counter block' ids'
  end.

(** GenericTethysBuilder::insert_list, tethys_builder.hpp:78-125. *)
Definition tethys_insert (sc : scheme) (b : tbuilder) (keyword : bytes) (ids : list N)
  : tbuilder * res unit :=
  let token := sc_prf sc keyword in
  let r := insert_blocks sc token (tb_store b) 0 [] ids in
  match r.2 with
  | Ok (bc, block) =>
      let r' := store_insert (sc_store sc) r.1 (derive_core_key sc token bc) block in
      match r'.2 with
      | Ok _ => (TB r'.1 (ctr_set (tb_counters b) keyword (N.of_nat (bc + 1))), Ok tt)
      | Throw e => (TB r'.1 (tb_counters b), Throw e)
      | UB => (TB r'.1 (tb_counters b), UB)
      | OutOfFuel => (TB r'.1 (tb_counters b), OutOfFuel)
      end
  | Throw e => (TB r.1 (tb_counters b), Throw e)
  | UB => (TB r.1 (tb_counters b), UB)
  | OutOfFuel => (TB r.1 (tb_counters b), OutOfFuel)
  end.

(** GenericTethysBuilder::build, tethys_builder.hpp:68-75; flushing the counters
    has no effect in the model. *)
Definition tethys_build (fuel : nat) (sc : scheme) (b : tbuilder) : tbuilder * res sfiles :=
  let r := store_build fuel (sc_store sc) (tb_store b) in
  (TB r.1 (tb_counters b), r.2).

(** SearchRequest, types.hpp:25-29. *)
Record sreq := SReq { sr_token : bytes; sr_count : N }.

(** Fields of TethysClient, tethys_client.hpp:74-78, without the keys. *)
Record tclient := TC { tc_stash : gmap bytes (list bytes); tc_counters : counters }.

(** Constructor and load_stash, tethys_client.hpp:81-116. *)
Definition open_client (sc : scheme) (c : counters) (f : sfiles) : res tclient :=
  m <~ match sf_stash f with None => Ok ∅ | Some b => deserialize_map (sp_enc (sc_store sc)) b end;
  Ok (TC m c).

(** Constructor of TethysServer, tethys_server.hpp:42-46: a store without stash. *)
Definition open_server (f : sfiles) : store := Store (sf_table f) ∅.

(** TethysClient::search_request, tethys_client.hpp:119-139. *)
Definition tethys_search_request (sc : scheme) (c : tclient) (keyword : bytes) : sreq :=
  SReq (sc_prf sc keyword) (default 0%N (ctr_get (tc_counters c) keyword)).

(** KeyedBucketPair, types.hpp:40-45. *)
Definition kbp : Type := bytes * ((bytes * nat) * (bytes * nat)).

(** The loop of TethysServer::search, tethys_server.hpp:56-67: one pair of buckets for
    each counter value in [l]. *)
Fixpoint server_loop (sc : scheme) (s : store) (token : bytes) (l : list nat) : res (list kbp) :=
  match l with
  | [] => Ok []
  | i :: l' =>
      let key := derive_core_key sc token i in
      b <~ get_buckets (sc_store sc) s key;
      bs <~ server_loop sc s token l';
      Ok ((key, b) :: bs)
  end.
(** TethysServer::search, tethys_server.hpp:49-71. *)
Definition tethys_server_search (sc : scheme) (s : store) (r : sreq) : res (list kbp) :=
  server_loop sc s (sr_token r) (seq 0 (N.to_nat (sr_count r))).

(** TethysClient::decode_search_results, tethys_client.hpp:151-182; an identifier
    is the uint64_t behind its eight bytes. *)
Fixpoint tethys_decode (sc : scheme) (c : tclient) (l : list kbp) : res (list N) :=
  match l with
  | [] => Ok []
  | (key, b) :: l' =>
      r <~ decode_list (sc_store sc) key b.1.1 b.1.2 b.2.1 b.2.2;
      rs <~ tethys_decode sc c l';
      Ok ((le_val <$> r ++ default [] (tc_stash c !! key)) ++ rs)
  end.
