(** Model of the clients and servers when RocksDB reports errors.
    Sources: lib/utils/rocksdb_wrapper.cpp,
    lib/include/sse/schemes/utils/rocksdb_wrapper.hpp, and the callers in
    lib/sophos, lib/include/sse/schemes/diana, lib/janus.
    In the other models RocksDB never fails; here every call carries its outcome.  The
    code only looks at Status::ok(), so a read that fails for any reason is the same as a
    missing key. *)
From stdpp Require Import prelude gmap.
From Coq Require Import NArith Lia.
From Verif Require Import Base EncModel KvModel UtilsModel SophosModel DianaModel JanusModel.
Local Open Scope N_scope.

(** Outcome of DB::Put or DB::Delete (called at rocksdb_wrapper.cpp:120, 152, 170, 187 and
    rocksdb_wrapper.hpp:189, 208, 217): success, or an error reported before or after the
    change reached the database. *)
Inductive wres := WOk | WLost | WLanded.
(** The change is in the database; the status is looked at as s.ok(),
    rocksdb_wrapper.cpp:123. *)
Definition landed (w : wres) : bool := match w with WLost => false | _ => true end.
(** Status::ok(), returned at rocksdb_wrapper.cpp:131, 163, 181. *)
Definition w_ok (w : wres) : bool := match w with WOk => true | _ => false end.

(** DB::Get followed by the test of its status, rocksdb_wrapper.cpp:89-98 and
    rocksdb_wrapper.hpp:148-162: [failed] is an error other than NotFound. *)
Definition f_get {V} (db : gmap bytes V) (k : bytes) (failed : bool) : option V :=
  if failed then None else db !! k.
(** RockDBWrapper::put, rocksdb_wrapper.hpp:183-201: the database afterwards; the status
    returned is not looked at by the callers modelled below. *)
Definition f_put {V} (db : gmap bytes V) (k : bytes) (v : V) (w : wres) : gmap bytes V :=
  if landed w then <[k := v]> db else db.
(** RockDBWrapper::remove, rocksdb_wrapper.hpp:203-211, and RocksDBCounter::remove_key,
    rocksdb_wrapper.cpp:185-190: the database afterwards. *)
Definition f_remove {V} (db : gmap bytes V) (k : bytes) (w : wres) : gmap bytes V :=
  if landed w then delete k db else db.

(** RocksDBCounter::get_and_increment, rocksdb_wrapper.cpp:101-132: [None] is "return
    false". *)
Definition f_get_and_increment (c : counters) (k : bytes) (failed : bool) (w : wres) : counters * option N :=
  let v := next_value (f_get c k failed) in
  (f_put c k v w, if w_ok w then Some v else None).

Section f_sophos.
  Variable S : sophos.

  (** SophosClient::search_request, sophos_client.cpp:83-112. *)
  Definition f_so_search_request (c : counters) (kw : bytes) (failed : bool) : so_search :=
    let seed := so_keyword_index S kw in
    match f_get c kw failed with
    | None => SoSearch [] [] 0
    | Some kw_counter =>
        SoSearch (invert_mult S (so_gen S seed) kw_counter) (so_kprf S seed) ((kw_counter + 1) mod 2 ^ 32)
    end.

  (** SophosClient::insertion_request, sophos_client.cpp:115-169: the counters, even when
      the call throws. *)
  Definition f_so_insertion_request (c : counters) (kw : bytes) (index : N) (failed : bool) (w : wres)
      : counters * res so_update :=
    let seed := so_keyword_index S kw in
    let '(c', success) := f_get_and_increment c kw failed w in
    match success with
    | None => (c', Throw RuntimeError)
    | Some kw_counter =>
        let st0 := so_gen S seed in
        let st := if kw_counter =? 0 then st0 else invert_mult S st0 kw_counter in
        let '(token, mask) := gen_update_token_masks S (so_kprf S seed) st in
        (c', Ok (SoUpdate token (xor_mask index mask)))
    end.

  (** SophosServer::insert, sophos_server.cpp:484-491. *)
  Definition f_so_insert (db : gmap bytes N) (u : so_update) (w : wres) : gmap bytes N :=
    f_put db (su_token u) (su_index u) w.

  (** Loop of SophosServer::search, sophos_server.cpp:60-86; [failed i] tells whether the
      i-th look-up fails. *)
  Fixpoint f_so_search_loop (n i : nat) (failed : nat -> bool) (db : gmap bytes N) (key st : bytes) : list N :=
    match n with
    | O => []
    | Datatypes.S n' =>
        let '(ut, mask) := gen_update_token_masks S key st in
        match f_get db ut (failed i) with
        | Some r => [xor_mask r mask]
        | None => []
        end ++ f_so_search_loop n' (Datatypes.S i) failed db key (so_eval S st)
    end.
  (** SophosServer::search, sophos_server.cpp:46-89. *)
  Definition f_so_server_search (db : gmap bytes N) (r : so_search) (failed : nat -> bool) : list N :=
    f_so_search_loop (N.to_nat (ss_count r)) 0 failed db (ss_key r) (ss_token r).
End f_sophos.

Section f_diana.
  Variable D : diana.

  (** DianaClient::search_request, diana_client.hpp:132-164. *)
  Definition f_d_search_request (c : counters) (kw : bytes) (failed : bool) : d_search D :=
    let kw_index := d_keyword_index D kw in
    match f_get c kw failed with
    | None => DSearch [] None 0
    | Some kw_counter =>
        DSearch (d_kwtok D kw_index) (Some (d_constrain D (d_root D kw_index) 0 kw_counter))
          ((kw_counter + 1) mod 2 ^ 32)
    end.

  (** DianaClient::insertion_request, diana_client.hpp:166-207. *)
  Definition f_d_insertion_request (c : counters) (kw index : bytes) (failed : bool) (w : wres)
      : counters * res d_update :=
    let '(c', success) := f_get_and_increment c kw failed w in
    (c', match success with
         | None => Throw RuntimeError
         | Some kw_counter => Ok (d_make_update D kw kw_counter index)
         end).

  (** DianaClient::get_counters_and_increment, diana_client.hpp:253-278: the first failure
      throws, and the counters incremented before stay so. *)
  Fixpoint f_d_get_counters (c : counters) (l : list (bytes * bytes * (bool * wres)))
      : counters * res (list (bytes * bytes * N)) :=
    match l with
    | [] => (c, Ok [])
    | (kw, index, (failed, w)) :: l' =>
        let '(c', success) := f_get_and_increment c kw failed w in
        match success with
        | None => (c', Throw RuntimeError)
        | Some kw_counter =>
            let '(c'', r) := f_d_get_counters c' l' in
            (c'', (r <~ r; Ok ((kw, index, kw_counter) :: r)))
        end
    end.
  (** DianaClient::bulk_insertion_request, diana_client.hpp:209-251. *)
  Definition f_d_bulk_request (c : counters) (l : list (bytes * bytes * (bool * wres)))
      : counters * res (list d_update) :=
    let '(c', r) := f_d_get_counters c l in
    (c', (counter_list <~ r; Ok ((fun x => d_make_update D x.1.1 x.2 x.1.2) <$> counter_list))).

  (** DianaServer::insert, diana_server.hpp:315-323. *)
  Definition f_d_insert (db : gmap bytes bytes) (u : d_update) (w : wres) : gmap bytes bytes :=
    f_put db (du_token u) (du_index u) w.

  (** DianaServer::retrieve_entry, diana_server.hpp:83-93. *)
  Definition f_d_retrieve_entry (db : gmap bytes bytes) (key : bytes) (delete_key : bool) (failed : bool) (w : wres)
      : gmap bytes bytes * option bytes :=
    match f_get db key failed with
    | Some v => (if delete_key then f_remove db key w else db, Some v)
    | None => (db, None)
    end.
  (** DianaServer::get_unmask, diana_server.hpp:110-144. *)
  Definition f_d_get_unmask (db : gmap bytes bytes) (st : bytes) (delete_key : bool) (failed : bool) (w : wres)
      : gmap bytes bytes * option bytes :=
    let '(ut, mask) := d_token_mask D st in
    let '(db', r) := f_d_retrieve_entry db ut delete_key failed w in
    (db', (fun index => diana_xor_mask index mask) <$> r).
  (** Calls of the eval_callback of DianaServer::search, diana_server.hpp:172-180;
      [failed i] and [w i] are the outcomes for the leaf [i]. *)
  Fixpoint f_d_search_loop (db : gmap bytes bytes) (leaves : list (N * bytes)) (delete_results : bool)
      (failed : N -> bool) (w : N -> wres) : gmap bytes bytes * list bytes :=
    match leaves with
    | [] => (db, [])
    | (i, st) :: leaves' =>
        let '(db', r) := f_d_get_unmask db st delete_results (failed i) (w i) in
        let '(db'', rs) := f_d_search_loop db' leaves' delete_results failed w in
        (db'', match r with Some index => index :: rs | None => rs end)
    end.
  (** DianaServer::search, diana_server.hpp:146-183. *)
  Definition f_d_server_search (db : gmap bytes bytes) (req : d_search D) (delete_results : bool)
      (failed : N -> bool) (w : N -> wres) : res (gmap bytes bytes * list bytes) :=
    if ds_count req =? 0 then Ok (db, [])
    else match ds_con req with
         | None => Throw OutOfRange
         | Some con =>
             leaves <~ d_eval_range D con 0 (d_max_leaf D con);
             Ok (f_d_search_loop db leaves delete_results failed w)
         end.
End f_diana.

Section f_janus.
  Variable S : janus.

  (** The search counter, janus_client.cpp:84-87 (also 135-138 and 156-159). *)
  Definition f_j_search_counter (c : j_client) (kw : bytes) (failed : bool) : N :=
    default 0 (f_get (jc_search c) kw failed).

  (** JanusClient::search_request, janus_client.cpp:82-130; [w] is the outcome of
      search_counter_map_.set on line 118, which is not looked at.  Simplified: the other
      accesses succeed. *)
  Definition f_j_search_request (c : j_client) (kw : bytes) (failed : bool) (w : wres) : j_client * j_search S :=
    let search_counter := f_j_search_counter c kw failed in
    let m_kw := meta_keyword kw search_counter in
    let ins_req := d_search_request (jn_ins S) (jc_ins c) m_kw in
    let del_req := d_search_request (jn_del S) (jc_del c) m_kw in
    let first_key_share := pe_share0 S (jn_pekey S m_kw) (ds_count del_req) in
    let some := (0 <? ds_count ins_req) || (0 <? ds_count del_req) in
    (JClient (if 0 <? ds_count ins_req then d_remove_keyword (jc_ins c) m_kw else jc_ins c)
             (if 0 <? ds_count del_req then d_remove_keyword (jc_del c) m_kw else jc_del c)
             (if some then f_put (jc_search c) kw ((search_counter + 1) mod 2 ^ 32) w else jc_search c),
     JSearch (jn_kwtok S kw) ins_req del_req first_key_share).

  (** JanusClient::insertion_request, janus_client.cpp:132-151.  Simplified: the accesses
      of the Diana client succeed. *)
  Definition f_j_insertion_request (c : j_client) (kw : bytes) (index : N) (failed : bool) : j_client * d_update :=
    let m_kw := meta_keyword kw (f_j_search_counter c kw failed) in
    let ct := pe_enc S (jn_pekey S m_kw) index (j_tag S kw index) in
    let '(ci, u) := d_insertion_request (jn_ins S) (jc_ins c) m_kw ct in
    (JClient ci (jc_del c) (jc_search c), u).
End f_janus.
