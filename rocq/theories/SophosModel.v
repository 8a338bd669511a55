(** Model of the Sophos scheme.
    Sources: lib/sophos/sophos_client.cpp, lib/sophos/sophos_server.cpp,
    lib/sophos/sophos_common.cpp. *)
From stdpp Require Import prelude gmap.
From Coq Require Import NArith Lia.
From Verif Require Import Base EncModel KvModel UtilsModel PoolModel.
Local Open Scope N_scope.

(** The primitives of the crypto library that Sophos uses (not in the repository; called
    at sophos_client.cpp:77-169, sophos_common.cpp:18-31, sophos_server.cpp:60-86):
    the hash, TdpInverse::generate_array (with the key of the client), one inversion
    and one evaluation of the trapdoor permutation, the derivation PRF of the client,
    and crypto::Prf<kUpdateTokenSize> as a function of its key. *)
Record sophos := Sophos {
  so_hash : bytes -> bytes;
  so_gen : bytes -> bytes;
  so_inv : bytes -> bytes;
  so_eval : bytes -> bytes;
  so_kprf : bytes -> bytes;
  so_prf : bytes -> bytes -> bytes }.

Section sophos.
  Variable S : sophos.

  (** SearchRequest, sophos_common.hpp:42-47. *)
  Record so_search := SoSearch { ss_token : bytes; ss_key : bytes; ss_count : N }.
  (** UpdateRequest, sophos_common.hpp:50-54. *)
  Record so_update := SoUpdate { su_token : bytes; su_index : N }.

  (** gen_update_token_masks, sophos_common.cpp:18-31; '0' and '1' are 48 and 49. *)
  Definition gen_update_token_masks (key st : bytes) : bytes * bytes :=
    (so_prf S key (st ++ [48]), so_prf S key (st ++ [49])).

  (** SophosClient::get_keyword_index, sophos_client.cpp:77-81. *)
  Definition so_keyword_index (kw : bytes) : bytes := take 16 (so_hash S kw).

  (** TdpInverse::invert_mult: iteration; called at sophos_client.cpp:101 and 142. *)
  Definition invert_mult (st : bytes) (n : N) : bytes := Nat.iter (N.to_nat n) (so_inv S) st.
  (** Tdp::eval with a count: iteration; called at sophos_server.cpp:186 and 198. *)
  Definition eval_mult (st : bytes) (n : N) : bytes := Nat.iter (N.to_nat n) (so_eval S) st.

  (** SophosClient::search_request, sophos_client.cpp:83-112.  When the keyword is
      unknown the token and the key are left uninitialised: here empty; ReqModel.v has what
      the memory contains. *)
  Definition so_search_request (c : counters) (kw : bytes) : so_search :=
    let seed := so_keyword_index kw in
    match ctr_get c kw with
    | None => SoSearch [] [] 0
    | Some kw_counter =>
        SoSearch (invert_mult (so_gen S seed) kw_counter) (so_kprf S seed) ((kw_counter + 1) mod 2 ^ 32)
    end.

  (** SophosClient::insertion_request, sophos_client.cpp:115-169. *)
  Definition so_insertion_request (c : counters) (kw : bytes) (index : N) : counters * so_update :=
    let seed := so_keyword_index kw in
    let '(c', kw_counter) := ctr_get_and_increment c kw in
    let st0 := so_gen S seed in
    let st := if kw_counter =? 0 then st0 else invert_mult st0 kw_counter in
    let deriv_key := so_kprf S seed in
    let '(token, mask) := gen_update_token_masks deriv_key st in
    (c', SoUpdate token (xor_mask index mask)).

  (** The database of the server (a RockDBWrapper), sophos_server.hpp:68. *)
  Notation edb := (gmap bytes N).

  (** SophosServer::insert, sophos_server.cpp:484-491. *)
  Definition so_insert (db : edb) (u : so_update) : edb := <[su_token u := su_index u]> db.

  (** Body of the loop of SophosServer::search, sophos_server.cpp:61-83: derivation,
      look-up and unmasking of one token; nothing if the token is not found. *)
  Definition so_access (db : edb) (key st : bytes) : list N :=
    let '(ut, mask) := gen_update_token_masks key st in
    match db !! ut with
    | Some r => [xor_mask r mask]
    | None => []
    end.

  (** Loop of SophosServer::search, sophos_server.cpp:60-86. *)
  Fixpoint so_search_loop (n : nat) (db : edb) (key st : bytes) : list N :=
    match n with
    | O => []
    | Datatypes.S n' => so_access db key st ++ so_search_loop n' db key (so_eval S st)
    end.

  (** SophosServer::search, sophos_server.cpp:46-89. *)
  Definition so_server_search (db : edb) (r : so_search) : list N :=
    so_search_loop (N.to_nat (ss_count r)) db (ss_key r) (ss_token r).

  (** SophosServer::search_callback, sophos_server.cpp:91-127: the sequence of calls of
      the callback (same loop, the callback replaces push_back). *)
  Definition so_server_search_callback (db : edb) (r : so_search) : list N :=
    so_search_loop (N.to_nat (ss_count r)) db (ss_key r) (ss_token r).

  (** ** Parallel searches *)
  (** The loop of rsa_job, sophos_server.cpp:197-203 (also 289-293, 378-382, 463-467):
      [for (i = index + N; i < max; i += N)], giving the tokens in order.  With N = 0
      it does not terminate, hence the fuel. *)
  Fixpoint rsa_loop (fuel : nat) (i max N : N) (st : bytes) : res (list bytes) :=
    if i <? max then
      match fuel with
      | O => OutOfFuel
      | Datatypes.S fuel' =>
          let st' := eval_mult st N in
          l <~ rsa_loop fuel' (i + N) max N st' ; Ok (st' :: l)
      end
    else Ok [].
  (** rsa_job, sophos_server.cpp:182-204 (also 275-294, 365-383, 449-468): the tokens that
      one thread derives.  [index] and [N] are uint8_t. *)
  Definition rsa_job (st : bytes) (index max N : N) : res (list bytes) :=
    let local_st := if index =? 0 then st else eval_mult st index in
    l <~ rsa_loop (N.to_nat max) (index + N) max N local_st ;
    Ok ((if index <? max then [local_st] else []) ++ l).

  (** The tokens of all the threads, sophos_server.cpp:212-214: the thread number and
      the number of threads are converted to uint8_t by the call. *)
  Fixpoint rsa_jobs (st : bytes) (max : N) (n_threads : N) (ts : list N) : res (list (list bytes)) :=
    match ts with
    | [] => Ok []
    | t :: ts' =>
        l <~ rsa_job st (t mod 2 ^ 8) max (n_threads mod 2 ^ 8) ;
        ls <~ rsa_jobs st max n_threads ts' ;
        Ok (l :: ls)
    end.
  (** Thread numbers 0, 1, ..., n-1: the loop of sophos_server.cpp:212. *)
  Definition thread_ids (n : N) : list N := N.of_nat <$> seq 0 (N.to_nat n).

  (** A task of the pools: derive and look up a token, or call the callback
      (sophos_server.cpp:147-177, 332-360). *)
  Inductive so_task := TAccess (st : bytes) | TPost (v : N).

  (** Task bodies of search_parallel, sophos_server.cpp:147-177. *)
  Definition parallel_code (db : edb) (key : bytes) (t : so_task) : list (act so_task N) :=
    match t with TAccess st => AEmit <$> so_access db key st | TPost _ => [] end.
  (** Task bodies of search_parallel_callback, sophos_server.cpp:332-360: the access
      job enqueues the callback on the second pool. *)
  Definition parallel_callback_code (db : edb) (key : bytes) (t : so_task) : list (act so_task N) :=
    match t with
    | TAccess st => (fun v => AEnq (TPost v)) <$> so_access db key st
    | TPost v => [AEmit v]
    end.

  (** What an RSA thread does with its tokens: access_pool.enqueue,
      sophos_server.cpp:194 and 202 (also 375 and 381). *)
  Definition enq_tokens (l : list bytes) : list (act so_task N) := (fun st => AEnq (TAccess st)) <$> l.
  (** In the light variants, derive_access, sophos_server.cpp:239-270 (also 416-444). *)
  Definition access_tokens (db : edb) (key : bytes) (l : list bytes) : list (act so_task N) :=
    l ≫= fun st => AEmit <$> so_access db key st.

  (** SophosServer::search_parallel, sophos_server.cpp:129-223, with [n_rsa] =
      max(hardware_concurrency, 2): the initial state of its threads and pool.  The
      main thread joins the RSA threads, then the pool. *)
  Definition so_search_parallel (r : so_search) (n_rsa access_threads : N) : res (sys so_task N) :=
    ls <~ rsa_jobs (ss_token r) (ss_count r) n_rsa (thread_ids n_rsa) ;
    Ok (Sys [threads (enq_tokens <$> ls);
             new_pool (N.to_nat access_threads)] (MJoin [0; 1]%nat) [] []).

  (** SophosServer::search_parallel_callback, sophos_server.cpp:312-400. *)
  Definition so_search_parallel_callback (r : so_search) (n_rsa access_threads post_threads : N)
      : res (sys so_task N) :=
    ls <~ rsa_jobs (ss_token r) (ss_count r) n_rsa (thread_ids n_rsa) ;
    Ok (Sys [threads (enq_tokens <$> ls);
             new_pool (N.to_nat access_threads); new_pool (N.to_nat post_threads)]
            (MJoin [0; 1; 2]%nat) [] []).

  (** SophosServer::search_parallel_light, sophos_server.cpp:225-310, and
      search_parallel_light_callback, 402-482: each thread derives its tokens and
      pushes the results (or calls the callback) itself. *)
  Definition so_search_parallel_light (db : edb) (r : so_search) (thread_count : N)
      : res (sys so_task N) :=
    ls <~ rsa_jobs (ss_token r) (ss_count r) thread_count (thread_ids thread_count) ;
    Ok (Sys [threads (access_tokens db (ss_key r) <$> ls)]
            (MJoin [0]%nat) [] []).
End sophos.
