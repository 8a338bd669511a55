(** Model of the search requests, with the memory they are made from and the exceptions of
    the trapdoor permutation.
    Sources: lib/sophos/sophos_client.cpp:83-112, lib/sophos/sophos_client_runner.cpp:269-301,
    lib/sophos/sophos_server_runner.cpp:158-245, lib/sophos/sophos_server.cpp:46-482,
    lib/include/sse/schemes/diana/diana_client.hpp:132-164, lib/diana/client_runner.cpp:286-324. *)
From stdpp Require Import prelude gmap.
From Coq Require Import NArith Lia.
From Verif Require Import Base EncModel KvModel UtilsModel PoolModel SophosModel DianaModel RunnerModel.
Local Open Scope N_scope.

Section sophos.
  Variable S : sophos.
  (** Evaluation of the trapdoor permutation on a string that may not be a token: [false]
      if the library throws (Tdp::eval of sse_crypto, called at sophos_server.cpp:85, 186,
      198, 279, 290, 369, 379, 453, 464). *)
  Variable in_domain : bytes -> bool.

  (** SophosClient::search_request, sophos_client.cpp:83-112: the fields token and
      derivation_key of the local variable are not initialised (line 87; the struct of
      sophos_common.hpp:42-47 has no initialisers); [mem_token] and [mem_key] are what the
      memory holds there. *)
  Definition so_search_request_mem (mem_token mem_key : bytes) (c : counters) (kw : bytes) : so_search :=
    let seed := so_keyword_index S kw in
    match ctr_get c kw with
    | None => SoSearch mem_token mem_key 0
    | Some kw_counter =>
        SoSearch (invert_mult S (so_gen S seed) kw_counter) (so_kprf S seed) ((kw_counter + 1) mod 2 ^ 32)
    end.

  (** SophosClientRunner::search, sophos_client_runner.cpp:269-301: the message that is sent
      to the server; there is always one. *)
  Definition so_sent (mem_token mem_key : bytes) (c : counters) (kw : bytes) : list so_smsg :=
    [so_search_to_message (so_search_request_mem mem_token mem_key c kw)].

  (** One evaluation, sophos_server.cpp:85. *)
  Definition so_eval_r (st : bytes) : res bytes :=
    if in_domain st then Ok (so_eval S st) else Throw RuntimeError.
  (** Tdp::eval with a count, sophos_server.cpp:186 and 198: iteration. *)
  Fixpoint so_eval_mult_r (n : nat) (st : bytes) : res bytes :=
    match n with
    | O => Ok st
    | Datatypes.S n' => st' <~ so_eval_r st ; so_eval_mult_r n' st'
    end.

  (** SophosServer::search and search_callback, sophos_server.cpp:46-127. *)
  Fixpoint so_search_loop_r (n : nat) (db : gmap bytes N) (key st : bytes) : res (list N) :=
    match n with
    | O => Ok []
    | Datatypes.S n' =>
        let l := so_access S db key st in
        st' <~ so_eval_r st ;
        l' <~ so_search_loop_r n' db key st' ;
        Ok (l ++ l')
    end.

  (** rsa_job, sophos_server.cpp:182-204 (also 275-294, 365-383, 449-468).  An exception
      leaves the function of a std::thread: the process is terminated. *)
  Fixpoint rsa_loop_r (fuel : nat) (i max N : N) (st : bytes) : res (list bytes) :=
    if i <? max then
      match fuel with
      | O => OutOfFuel
      | Datatypes.S fuel' =>
          st' <~ so_eval_mult_r (N.to_nat N) st ;
          l <~ rsa_loop_r fuel' (i + N) max N st' ; Ok (st' :: l)
      end
    else Ok [].
  (** The body of rsa_job, sophos_server.cpp:182-204: the first evaluations, then the loop. *)
  Definition rsa_job_r (st : bytes) (index max N : N) : res (list bytes) :=
    local_st <~ (if index =? 0 then Ok st else so_eval_mult_r (N.to_nat index) st) ;
    l <~ rsa_loop_r (N.to_nat max) (index + N) max N local_st ;
    Ok ((if index <? max then [local_st] else []) ++ l).
  (** All the threads, sophos_server.cpp:206-214 (also 296-303, 385-392, 470-477). *)
  Fixpoint rsa_jobs_r (st : bytes) (max : N) (n_threads : N) (ts : list N) : res (list (list bytes)) :=
    match ts with
    | [] => Ok []
    | t :: ts' =>
        l <~ rsa_job_r st (t mod 2 ^ 8) max (n_threads mod 2 ^ 8) ;
        ls <~ rsa_jobs_r st max n_threads ts' ;
        Ok (l :: ls)
    end.

  (** The tokens looked up by SophosImpl::sync_search (sophos_server_runner.cpp:158-193:
      search_parallel, with max(hardware_concurrency, 2) threads, sophos_server.cpp:209-210). *)
  Definition so_sync_tokens (hw : N) (r : so_search) : res (list bytes) :=
    let n := N.max hw 2 in
    ls <~ rsa_jobs_r (ss_token r) (ss_count r) n (thread_ids n) ;
    Ok (concat ls).
  (** The results of SophosImpl::sync_search, sophos_server_runner.cpp:158-193, in the order of the tokens (the threads of the
      pool may permute them). *)
  Definition so_sync_search (hw : N) (db : gmap bytes N) (r : so_search) : res (list N) :=
    ts <~ so_sync_tokens hw r ;
    Ok (ts ≫= so_access S db (ss_key r)).
  (** SophosImpl::async_search, sophos_server_runner.cpp:196-245: parallel from 40 results
      on, light parallel from 2 on (both start hardware_concurrency threads), else
      sequential. *)
  Definition so_async_search (hw : N) (db : gmap bytes N) (r : so_search) : res (list N) :=
    if 2 <=? ss_count r then
      ls <~ rsa_jobs_r (ss_token r) (ss_count r) hw (thread_ids hw) ;
      Ok (concat ls ≫= so_access S db (ss_key r))
    else so_search_loop_r (N.to_nat (ss_count r)) db (ss_key r) (ss_token r).
End sophos.

Section diana.
  Variable D : diana.
  (** DianaClientRunner::search, client_runner.cpp:286-324: the requests that are sent;
      none if the count is 0 (lines 300-302).  The request for an unknown keyword is made
      of zeros and of an empty PRF (diana_client.hpp:150-151), and the wrapping, which
      is done before the test (lines 297-298), is that of the library. *)
  Definition d_sent (c : counters) (kw : bytes) : list (d_search D) :=
    let r := d_search_request D c kw in
    if ds_count r =? 0 then [] else [r].
End diana.
