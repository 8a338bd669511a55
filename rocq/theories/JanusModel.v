(** Model of Janus.
    Sources: lib/janus/janus_client.cpp, lib/janus/janus_server.cpp,
    lib/include/sse/schemes/janus/janus_server.hpp,
    lib/include/sse/schemes/janus/types.hpp, and the list store of
    lib/include/sse/schemes/utils/rocksdb_wrapper.hpp. *)
From stdpp Require Import prelude gmap.
From Coq Require Import NArith Lia.
From Verif Require Import Base EncModel KvModel UtilsModel DianaModel.
Local Open Scope N_scope.

(** ** RockDBListStore with the serializer of the Janus cache *)
(** cached_result_type, janus_server.hpp:24: a document (uint64_t) and a tag. *)
Notation cached := (N * bytes)%type.

Section list_store.
  (** punct::kTagSize, the size of the tags (library sse_crypto). *)
  Variable tag_size : nat.

  (** serialize, janus_server.cpp:19-29: the bytes of the document (little endian) and
      the tag. *)
  Definition ser_cached (x : cached) : bytes := le64 x.1 ++ x.2.
  (** deserialize, janus_server.cpp:30-67: [None] is "return false"; the test on lines
      34-35 uses sizeof(kTagSize), which is 8, instead of kTagSize; copying past the end
      of the string is undefined. *)
  Definition deser_cached (s : bytes) : res (option (cached * bytes)) :=
    if (length s <? 8 + 8)%nat then Ok None
    else if (length s <? 8 + tag_size)%nat then UB
    else Ok (Some ((le_val (take 8 s), take tag_size (drop 8 s)), drop (8 + tag_size) s)).
  (** RockDBListStore::put, rocksdb_wrapper.hpp:471-502. *)
  Definition list_put (db : gmap bytes bytes) (key : bytes) (data : list cached) : gmap bytes bytes :=
    <[key := data ≫= ser_cached]> db.
  (** Loop of RockDBListStore::get, rocksdb_wrapper.hpp:463-466. *)
  Fixpoint deser_loop (fuel : nat) (s : bytes) : res (list cached) :=
    match fuel with
    | O => OutOfFuel
    | S fuel' =>
        r <~ deser_cached s;
        match r with
        | None => Ok []
        | Some (elt, s') => data <~ deser_loop fuel' s'; Ok (elt :: data)
        end
    end.
  (** RockDBListStore::get, rocksdb_wrapper.hpp:443-469 (the overload of 421-440 does
      the same): the list is emptied first, so that it is empty if the key is
      absent. *)
  Definition list_get (db : gmap bytes bytes) (key : bytes) : res (list cached) :=
    match db !! key with
    | Some raw => deser_loop (S (length raw)) raw
    | None => Ok []
    end.
End list_store.

(** The cryptography of Janus (library sse_crypto, used at janus_client.cpp:82-175 and
    janus_server.cpp:95-292): the two instances of Diana (on
    ciphertexts, and on key shares); the PRFs kw_token_prf_, tag_prf_ and
    punct_enc_master_prf_.derive_key with the keys of the client; puncturable
    encryption: encrypt, initial_keyshare, inc_puncture, extract_tag (of a key share, of
    a ciphertext), and decryption with a list of key shares. *)
Record janus := Janus {
  jn_ins : diana;
  jn_del : diana;
  jn_kwtok : bytes -> bytes;
  jn_tag : bytes -> bytes;
  jn_pekey : bytes -> bytes;
  pe_enc : bytes -> N -> bytes -> bytes;
  pe_share0 : bytes -> N -> bytes;
  pe_punct : bytes -> N -> bytes -> bytes;
  pe_share_tag : bytes -> bytes;
  pe_ct_tag : bytes -> bytes;
  pe_dec : list bytes -> bytes -> option N;
  jn_tagsize : nat }.

Section janus.
  Variable S : janus.

  (** The three counter maps of JanusClient, janus_client.hpp:88-91. *)
  Record j_client := JClient { jc_ins : counters; jc_del : counters; jc_search : counters }.
  (** The three databases of JanusServer, janus_server.hpp:50-53. *)
  Record j_server := JServer { js_ins : gmap bytes bytes; js_del : gmap bytes bytes; js_cache : gmap bytes bytes }.
  (** janus::SearchRequest, types.hpp:27-51. *)
  Record j_search := JSearch {
    jr_token : bytes; jr_ins : d_search (jn_ins S); jr_del : d_search (jn_del S); jr_share : bytes }.

  (** The search counter, janus_client.cpp:84-87 (also 135-138 and 156-159). *)
  Definition j_search_counter (c : j_client) (kw : bytes) : N := default 0 (ctr_get (jc_search c) kw).

  (** JanusClient::search_request, janus_client.cpp:82-130. *)
  Definition j_search_request (c : j_client) (kw : bytes) : j_client * j_search :=
    let search_counter := j_search_counter c kw in
    let m_kw := meta_keyword kw search_counter in
    let ins_req := d_search_request (jn_ins S) (jc_ins c) m_kw in
    let del_req := d_search_request (jn_del S) (jc_del c) m_kw in
    let first_key_share := pe_share0 S (jn_pekey S m_kw) (ds_count del_req) in
    let some := (0 <? ds_count ins_req) || (0 <? ds_count del_req) in
    (JClient (if 0 <? ds_count ins_req then d_remove_keyword (jc_ins c) m_kw else jc_ins c)
             (if 0 <? ds_count del_req then d_remove_keyword (jc_del c) m_kw else jc_del c)
             (if some then ctr_set (jc_search c) kw (search_counter + 1) else jc_search c),
     JSearch (jn_kwtok S kw) ins_req del_req first_key_share).

  (** The tag of a document, janus_client.cpp:146-147 and 169-170. *)
  Definition j_tag (kw : bytes) (index : N) : bytes := jn_tag S (keyword_doc_string kw index).

  (** JanusClient::insertion_request, janus_client.cpp:132-151. *)
  Definition j_insertion_request (c : j_client) (kw : bytes) (index : N) : j_client * d_update :=
    let m_kw := meta_keyword kw (j_search_counter c kw) in
    let ct := pe_enc S (jn_pekey S m_kw) index (j_tag kw index) in
    let '(ci, u) := d_insertion_request (jn_ins S) (jc_ins c) m_kw ct in
    (JClient ci (jc_del c) (jc_search c), u).

  (** JanusClient::removal_request, janus_client.cpp:153-175; n_del is a uint32_t. *)
  Definition j_removal_request (c : j_client) (kw : bytes) (index : N) : j_client * d_update :=
    let m_kw := meta_keyword kw (j_search_counter c kw) in
    let n_del := d_get_match_count (jc_del c) m_kw in
    let ks := pe_punct S (jn_pekey S m_kw) ((n_del + 1) mod 2 ^ 32) (j_tag kw index) in
    let '(cd, u) := d_insertion_request (jn_del S) (jc_del c) m_kw ks in
    (JClient (jc_ins c) cd (jc_search c), u).

  (** JanusServer::insert, janus_server.cpp:295-298. *)
  Definition j_insert (s : j_server) (u : d_update) : j_server :=
    JServer (d_insert (js_ins s) u) (js_del s) (js_cache s).
  (** JanusServer::remove, janus_server.cpp:300-303. *)
  Definition j_remove (s : j_server) (u : d_update) : j_server :=
    JServer (js_ins s) (d_insert (js_del s) u) (js_cache s).

  (** Filtering of the cached elements, janus_server.cpp:113-121 and 135-145 (also 242-268): those
      whose tag is not among the tags of the new key shares. *)
  Definition j_filter_cache (key_shares : list bytes) (l : list cached) : list cached :=
    filter (fun x : cached => x.2 ∉ (pe_share_tag S <$> key_shares)) l.
  (** Decryption of the new elements, janus_server.cpp:148-154 (also 216-232). *)
  Definition j_decrypt (key_shares : list bytes) (cts : list bytes) : list cached :=
    omap (fun ct => (fun r => (r, pe_ct_tag S ct)) <$> pe_dec S key_shares ct) cts.

  (** JanusServer::search, janus_server.cpp:95-161. *)
  Definition j_server_search (s : j_server) (req : j_search) : res (j_server * list N) :=
    ri <~ d_server_search_list (jn_ins S) (js_ins s) (jr_ins req) true;
    rd <~ d_server_search_list (jn_del S) (js_del s) (jr_del req) true;
    cached_res_list <~ list_get (jn_tagsize S) (js_cache s) (jr_token req);
    let old := j_filter_cache rd.2 cached_res_list in
    let new := j_decrypt (jr_share req :: rd.2) ri.2 in
    Ok (JServer ri.1 rd.1 (list_put (js_cache s) (jr_token req) (old ++ new)), (old ++ new).*1).

  (** JanusServer::search_parallel with a callback that takes the thread number,
      janus_server.cpp:195-292.  First the parallel search for the key shares (lines
      201-203), whose threads run before the call returns. *)
  Definition j_par_start (s : j_server) (req : j_search) (threads_count : N) : res d_par :=
    d_search_parallel (jn_del S) (js_del s) (jr_del req) threads_count.
  (** The rest of search_parallel, janus_server.cpp:205-292, from a final state [f] of the
      threads of [j_par_start]: the thread of line 273 is joined on line 277 before the
      sequential search of lines 284-285, which does not delete.  Result: the arguments
      of the calls of the callback. *)
  Definition j_par_finish (s : j_server) (req : j_search) (threads_count : N) (f : d_par)
      : res (j_server * list (N * N)) :=
    let key_shares := d_result_list threads_count (dp_log f) in
    cached_res_list <~ list_get (jn_tagsize S) (js_cache s) (jr_token req);
    let filtered_cache := j_filter_cache key_shares cached_res_list in
    ri <~ d_server_search (jn_ins S) (js_ins s) (jr_ins req) false;
    let new_cache := j_decrypt (jr_share req :: key_shares) ri.2 in
    Ok (JServer ri.1 (dp_db f) (list_put (js_cache s) (jr_token req) (new_cache ++ filtered_cache)),
        ((fun x : cached => (x.1, threads_count)) <$> filtered_cache) ++
        ((fun x : cached => (x.1, 0)) <$> new_cache)).
  (** The list variant, janus_server.cpp:163-182: one list per thread number, spliced in
      order. *)
  Definition j_par_list (threads_count : N) (calls : list (N * N)) : list N :=
    (N.of_nat <$> seq 0 (N.to_nat (threads_count + 1))) ≫= fun t =>
      fst <$> filter (fun x : N * N => x.2 = t) calls.
  (** The variant with a basic callback, janus_server.cpp:184-193. *)
  Definition j_par_callback (calls : list (N * N)) : list N := calls.*1.
End janus.
Arguments JSearch {S} _ _ _ _.
Arguments jr_token {S} _.
Arguments jr_ins {S} _.
Arguments jr_del {S} _.
Arguments jr_share {S} _.
