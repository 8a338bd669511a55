(** Model of the clients and servers of Sophos and Diana used concurrently: several
    threads of the client insert, the requests travel, the server answers searches while
    it receives updates.
    Sources: lib/sophos/sophos_client.cpp, lib/sophos/sophos_server.cpp,
    lib/sophos/sophos_client_runner.cpp, lib/sophos/sophos_server_runner.cpp,
    lib/include/sse/schemes/diana/diana_client.hpp,
    lib/include/sse/schemes/diana/diana_server.hpp, lib/diana/client_runner.cpp,
    lib/diana/server_runner.cpp, lib/utils/rocksdb_wrapper.cpp. *)
From stdpp Require Import prelude gmap.
From Coq Require Import NArith Lia.
From Verif Require Import Base EncModel KvModel UtilsModel SophosModel DianaModel.

(** What the two schemes have in common.  [p_update kw v doc]: the update request for the
    counter value [v] (sophos_client.cpp:122-168, diana_client.hpp:188-203 and 231-245), a
    token and a masked document.  [p_request kw r]: the search request when the counter
    has been found to be [r] (sophos_client.cpp:87-111, diana_client.hpp:140-163).
    [p_accesses]: the keys of the look-ups made by a search, in the order of the
    sequential search (sophos_server.cpp:60-86, diana_server.hpp:172-182).  [p_access]:
    one look-up, with what it adds to the results (sophos_server.cpp:61-83,
    diana_server.hpp:110-144 with delete_key false).  [p_doc_eq] is only used to check the
    labels below. *)
Record proto := Proto {
  p_doc : Type;
  p_doc_eq : EqDecision p_doc;
  p_val : Type;
  p_req : Type;
  p_acc : Type;
  p_update : bytes -> N -> p_doc -> bytes * p_val;
  p_request : bytes -> option N -> p_req;
  p_accesses : p_req -> list p_acc;
  p_access : gmap bytes p_val -> p_acc -> list p_doc }.

(** ** Sophos *)
(** The request of SophosClient::insertion_request once the counter is known,
    sophos_client.cpp:122-168. *)
Definition so_make_update (S : sophos) (kw : bytes) (kw_counter index : N) : bytes * N :=
  let seed := so_keyword_index S kw in
  let st0 := so_gen S seed in
  let st := if (kw_counter =? 0)%N then st0 else invert_mult S st0 kw_counter in
  let '(token, mask) := gen_update_token_masks S (so_kprf S seed) st in
  (token, xor_mask index mask).
(** SophosClient::search_request once the counter is known, sophos_client.cpp:87-111. *)
Definition so_make_request (S : sophos) (kw : bytes) (r : option N) : so_search :=
  match r with
  | None => SoSearch [] [] 0
  | Some kw_counter =>
      let seed := so_keyword_index S kw in
      SoSearch (invert_mult S (so_gen S seed) kw_counter) (so_kprf S seed) ((kw_counter + 1) mod 2 ^ 32)%N
  end.
(** The search tokens of the loop of sophos_server.cpp:60-86. *)
Fixpoint so_tokens (S : sophos) (n : nat) (st : bytes) : list bytes :=
  match n with
  | O => []
  | Datatypes.S n' => st :: so_tokens S n' (so_eval S st)
  end.
(** The look-ups of SophosServer::search, sophos_server.cpp:46-89. *)
Definition so_accesses (S : sophos) (r : so_search) : list (bytes * bytes) :=
  (fun st => (ss_key r, st)) <$> so_tokens S (N.to_nat (ss_count r)) (ss_token r).
(** Sophos as an instance: sophos_client.cpp:83-169, sophos_server.cpp:46-89. *)
Definition so_proto (S : sophos) : proto :=
  {| p_doc := N; p_doc_eq := _; p_val := N; p_req := so_search; p_acc := bytes * bytes;
     p_update := so_make_update S; p_request := so_make_request S;
     p_accesses := so_accesses S; p_access := fun db a => so_access S db a.1 a.2 |}.

(** ** Diana *)
(** DianaClient::search_request once the counter is known, diana_client.hpp:140-163. *)
Definition d_make_request (D : diana) (kw : bytes) (r : option N) : d_search D :=
  match r with
  | None => DSearch [] None 0
  | Some kw_counter =>
      let kw_index := d_keyword_index D kw in
      DSearch (d_kwtok D kw_index) (Some (d_constrain D (d_root D kw_index) 0 kw_counter))
        ((kw_counter + 1) mod 2 ^ 32)%N
  end.
(** The leaves whose value the callback of DianaServer::search receives,
    diana_server.hpp:167-182; nothing when the range is refused or when there is no
    match. *)
Definition d_accesses (D : diana) (req : d_search D) : list bytes :=
  if (ds_count req =? 0)%N then [] else
  match ds_con req with
  | None => []
  | Some con =>
      match d_eval_range D con 0 (d_max_leaf D con) with Ok l => l.*2 | _ => [] end
  end.
(** Diana as an instance: diana_client.hpp:132-207, diana_server.hpp:110-183. *)
Definition d_proto (D : diana) : proto :=
  {| p_doc := bytes; p_doc_eq := _; p_val := bytes; p_req := d_search D; p_acc := bytes;
     p_update := fun kw v doc => let u := d_make_update D kw v doc in (du_token u, du_index u);
     p_request := d_make_request D; p_accesses := d_accesses D;
     p_access := fun db st => match (d_get_unmask D db st false).2 with Some x => [x] | None => [] end |}.

Section world.
  Variable P : proto.
  (** Comparison of documents (sophos_common.hpp:39, diana_client.hpp:52), for
      the labels only. *)
  Local Instance p_doc_eq_dec : EqDecision (p_doc P) := p_doc_eq P.

  (** A thread of the client that inserts documents one after the other: a caller of
      insert or insert_in_session, or a job of load_inverted_index
      (sophos_client_runner.cpp:394-405, client_runner.cpp:447-466).  [th_read] is the
      counter value computed by get_and_increment between its Get and its Put
      (rocksdb_wrapper.cpp:101-132). *)
  Record thread := Thread { th_todo : list (bytes * p_doc P); th_read : option N }.
  (** A search being answered by the server (sophos_server.cpp:46-482,
      diana_server.hpp:146-313): the keyword (not known to the server, kept
      here to state the properties), whether the look-ups are made in order (search and
      search_callback) or not (parallel searches), the look-ups still to be made, the
      results so far. *)
  Record query := Query {
    q_kw : bytes; q_in_order : bool; q_pending : list (p_acc P); q_results : list (p_doc P) }.
  (** A request on its way from the client to the server (sophos_common.hpp:50-54,
      types.hpp:72-77), with its keyword and counter
      (not in the message, kept here to tell the messages apart). *)
  Record message := Message { m_kw : bytes; m_ctr : N; m_token : bytes; m_val : p_val P }.
  (** Counters of the client (sophos_client.hpp, diana_client.hpp: counter_map_),
      database of the server (sophos_server.hpp:68, diana_server.hpp:96), threads,
      network, searches. *)
  Record world := World {
    w_ctr : counters; w_db : gmap bytes (p_val P);
    w_threads : list thread; w_net : list message; w_queries : list query }.

  (** One step; see [wstep] for the lines of code. *)
  Inductive label :=
  | LSpawn (job : list (bytes * p_doc P))
  | LGet (t : nat)
  | LPut (t : nat) (kw : bytes) (doc : p_doc P)
  | LDeliver (kw : bytes) (v : N)
  | LLose (kw : bytes) (v : N)
  | LSearch (kw : bytes) (in_order : bool)
  | LAccess (q : nat) (j : nat).

  (** The first message with this keyword and counter, and the others (used for the
      deliveries, sophos_server_runner.cpp:273-276). *)
  Fixpoint take_message (kw : bytes) (v : N) (l : list message) : option (message * list message) :=
    match l with
    | [] => None
    | m :: l' =>
        if decide (m_kw m = kw /\ m_ctr m = v) then Some (m, l')
        else match take_message kw v l' with Some (m', l'') => Some (m', m :: l'') | None => None end
    end.

  (** LSpawn: a new thread starts (ThreadPool::enqueue in load_inverted_index,
      sophos_client_runner.cpp:406, client_runner.cpp:467; any caller).
      LGet, LPut: the two accesses to the database of get_and_increment,
      rocksdb_wrapper.cpp:105 and 120; the document and its keyword are those at the head
      of the thread.  After the Put the request is built and sent
      (sophos_client_runner.cpp:326-341, client_runner.cpp:350-393): that is, put on the
      network, from where it is delivered at any later time, in any order
      (SophosServer::insert, sophos_server.cpp:484-491, diana_server.hpp:315-323), or
      lost.
      LSearch: the client builds a search request, with one Get of the counter
      (sophos_client.cpp:83-112, diana_client.hpp:132-164), and the server receives it.
      LAccess: the server makes one of the pending look-ups of a search: the first one if
      they are made in order.
      Simplification: each look-up and each Put of RocksDB is atomic; the requests are not
      delivered twice; the results are not deleted. *)
  Definition wstep (w : world) (l : label) : option world :=
    match l with
    | LSpawn job =>
        Some (World (w_ctr w) (w_db w) (w_threads w ++ [Thread job None]) (w_net w) (w_queries w))
    | LGet t =>
        match w_threads w !! t with
        | Some (Thread ((kw, doc) :: todo) None) =>
            Some (World (w_ctr w) (w_db w)
              (<[t := Thread ((kw, doc) :: todo) (Some (next_value (ctr_get (w_ctr w) kw)))]> (w_threads w))
              (w_net w) (w_queries w))
        | _ => None
        end
    | LPut t kw doc =>
        match w_threads w !! t with
        | Some (Thread ((kw', doc') :: todo) (Some v)) =>
            if decide (kw' = kw /\ doc' = doc) then
              let u := p_update P kw' v doc' in
              Some (World (<[kw' := v]> (w_ctr w)) (w_db w)
                (<[t := Thread todo None]> (w_threads w))
                (w_net w ++ [Message kw' v u.1 u.2]) (w_queries w))
            else None
        | _ => None
        end
    | LDeliver kw v =>
        match take_message kw v (w_net w) with
        | Some (m, net) =>
            Some (World (w_ctr w) (<[m_token m := m_val m]> (w_db w)) (w_threads w) net (w_queries w))
        | None => None
        end
    | LLose kw v =>
        match take_message kw v (w_net w) with
        | Some (_, net) => Some (World (w_ctr w) (w_db w) (w_threads w) net (w_queries w))
        | None => None
        end
    | LSearch kw in_order =>
        Some (World (w_ctr w) (w_db w) (w_threads w) (w_net w)
          (w_queries w ++ [Query kw in_order (p_accesses P (p_request P kw (ctr_get (w_ctr w) kw))) []]))
    | LAccess q j =>
        match w_queries w !! q with
        | Some (Query kw in_order pending results) =>
            if in_order && negb (j =? 0) then None else
            match pending !! j with
            | Some a =>
                Some (World (w_ctr w) (w_db w) (w_threads w) (w_net w)
                  (<[q := Query kw in_order (delete j pending) (results ++ p_access P (w_db w) a)]> (w_queries w)))
            | None => None
            end
        | None => None
        end
    end.
End world.
