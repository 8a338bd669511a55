(** Model of the Pluto scheme: builder, server and client, over its two hash tables.
    Sources: lib/include/sse/schemes/pluto/pluto_builder.hpp,
    lib/include/sse/schemes/pluto/pluto_server.hpp,
    lib/include/sse/schemes/pluto/pluto_client.hpp,
    lib/include/sse/schemes/pluto/types.hpp,
    lib/include/sse/schemes/pluto/rocksdb_store.hpp and
    lib/pluto/rocksdb_store.cpp. *)
From stdpp Require Import prelude gmap.
From Coq Require Import ZArith NArith Lia.
From Verif Require Import Base EncModel StoreModel KvModel SchemeModel VecModel CuckooModel.
Local Open Scope nat_scope.

(** The hash table of the scheme: the cuckoo table of DefaultPlutoParams
    (types.hpp:78-130), with the size of its tables, its search depth and the number
    of elements it reserves, or the RocksDB database of RocksDBPlutoParams
    (rocksdb_store.hpp:116-144). *)
Inductive ht_kind := KCuckoo (size depth max_n : nat) | KRocks.

(** The Params argument of the templates, with the keyed functions shared with
    Tethys: pluto_builder.hpp:15-32, types.hpp:83-98, rocksdb_store.hpp:121-136. *)
Record pparams := PPar { pp_sc : scheme; pp_ht : ht_kind }.

(** Encoder parameters of the Tethys store of the scheme, types.hpp:83-90. *)
Definition pp_enc (pp : pparams) : eparams := sp_enc (sc_store (pp_sc pp)).

(** kCuckooListLength, types.hpp:100-107: what is left of a page by the key. *)
Definition cuckoo_list_length (p : eparams) : nat := bucket_size p - key_entries p.

(** Length of the array ht_value_type: types.hpp:109, rocksdb_store.hpp:140. *)
Definition p_vlen (pp : pparams) : nat :=
  match pp_ht pp with
  | KCuckoo _ _ _ => cuckoo_list_length (pp_enc pp)
  | KRocks => max_list_size (pp_enc pp)
  end.

(** kPlutoListLength: types.hpp:127-129, rocksdb_store.hpp:138. *)
Definition p_len (pp : pparams) : nat :=
  match pp_ht pp with
  | KCuckoo _ _ _ =>
      if bool_decide (cuckoo_list_length (pp_enc pp) < max_list_size (pp_enc pp))
      then cuckoo_list_length (pp_enc pp) else max_list_size (pp_enc pp)
  | KRocks => max_list_size (pp_enc pp)
  end.

(** * Hash tables *)
(** ht_builder_type: types.hpp:110-116, rocksdb_store.hpp:87-113.  RocksDB is a
    finite map whose writes succeed. *)
Inductive ht_builder := BCuckoo (b : cbuilder) | BRocks (m : gmap bytes bytes).

(** Constructor on fresh files, pluto_builder.hpp:77. *)
Definition ht_new (pp : pparams) : ht_builder :=
  match pp_ht pp with
  | KCuckoo size depth max_n => BCuckoo (cb_new (kp_page (pp_enc pp)) size depth max_n [])
  | KRocks => BRocks ∅
  end.

(** insert: cuckoo.hpp:147-178 with the hasher of types.hpp:63-75 (the same function
    as [oceanus_hash]), rocksdb_store.hpp:43-63. *)
Definition ht_insert (h : ht_builder) (key val : bytes) : ht_builder * res unit :=
  match h with
  | BCuckoo b => let r := cb_insert oceanus_hash b key val in (BCuckoo r.1, r.2)
  | BRocks m => (BRocks (<[key := val]> m), Ok tt)
  end.

(** What the committed table leaves on disk: cuckoo.hpp:186-243,
    rocksdb_store.cpp:101-114. *)
Inductive ht_files := FCuckoo (file : bytes) | FRocks (m : gmap bytes bytes).

(** commit: cuckoo.hpp:186-243, rocksdb_store.cpp:101-114 (a flush). *)
Definition ht_commit (pp : pparams) (h : ht_builder) : ht_builder * res ht_files :=
  match h with
  | BCuckoo b =>
      let r := cb_commit (kp_page (pp_enc pp)) b [] in
      (BCuckoo r.1.1, _ <~ r.2; Ok (FCuckoo r.1.2))
  | BRocks m => (h, Ok (FRocks m))
  end.

(** ht_type: types.hpp:119-125, rocksdb_store.hpp:143. *)
Inductive htable := TCuckoo (t : ctable) | TRocks (m : gmap bytes bytes).

(** Constructor, pluto_server.hpp:46. *)
Definition ht_open (pp : pparams) (f : ht_files) : res htable :=
  match f with
  | FCuckoo file => t <~ ct_open (kp_page (pp_enc pp)) file; Ok (TCuckoo t)
  | FRocks m => Ok (TRocks m)
  end.

(** get: cuckoo.hpp:339-367, rocksdb_store.hpp:65-84 (the memcpy of line 78 reads the
    whole array, out of bounds if the value is shorter). *)
Definition ht_get (pp : pparams) (t : htable) (key : bytes) : res bytes :=
  match t with
  | TCuckoo t => ct_get (kp_page (pp_enc pp)) oceanus_hash t key
  | TRocks m =>
      match m !! key with
      | Some v => if bool_decide (length v < 8 * p_vlen pp) then UB else Ok (take (8 * p_vlen pp) v)
      | None => Throw OutOfRange
      end
  end.

(** * Builder *)
(** Fields of PlutoBuilder, pluto_builder.hpp:53-67, without the keys and the
    counters that are only printed. *)
Record pbuilder := PB { pb_store : sbuilder; pb_ht : ht_builder; pb_complete : N }.

(** Constructor, pluto_builder.hpp:70-81. *)
Definition pluto_new (pp : pparams) : res pbuilder :=
  s <~ new_store_builder (sc_store (pp_sc pp));
  Ok (PB s (ht_new pp) 0).

(** The memory of an array [v = {0x00}] on which a block was copied,
    pluto_builder.hpp:147-148, as serialised by types.hpp:49-53 and
    rocksdb_store.hpp:49-50. *)
Definition ht_value (pp : pparams) (block : list N) : bytes :=
  mjoin (le64 <$> block) ++ replicate (8 * (p_vlen pp - length block)) 0%N.

(** The loop of insert_list, pluto_builder.hpp:135-159: the block counter and the
    incomplete block at its end. *)
Fixpoint p_blocks (pp : pparams) (token : bytes) (b : pbuilder) (bc : nat) (block : list N)
  (ids : list N) : pbuilder * res (nat * list N) :=
  match ids with
  | [] => (b, Ok (bc, block))
  | id :: ids' =>
      let block' := block ++ [id] in
      if bool_decide (length block' = p_len pp) then
        let r := ht_insert (pb_ht b) (derive_core_key (pp_sc pp) token bc) (ht_value pp block') in
        let b' := PB (pb_store b) r.1 (pb_complete b + 1) in
        match r.2 with
        | Ok _ => p_blocks pp token b' (S bc) [] ids'
        | Throw e => (b', Throw e)
        | UB => (b', UB)
        | OutOfFuel => (b', OutOfFuel)
        end
      else p_blocks pp token b bc block' ids'
  end.

(** insert_list, pluto_builder.hpp:122-178. *)
Definition pluto_insert (pp : pparams) (b : pbuilder) (keyword : bytes) (ids : list N)
  : pbuilder * res unit :=
  let token := sc_prf (pp_sc pp) keyword in
  let r := p_blocks pp token b 1 [] ids in
  match r.2 with
  | Ok (_, block) =>
      if bool_decide (0 < length block) then
        let s := store_insert (sc_store (pp_sc pp)) (pb_store r.1)
                   (derive_core_key (pp_sc pp) token 0) (le64 <$> block) in
        (PB s.1 (pb_ht r.1) (pb_complete r.1), s.2)
      else (r.1, Ok tt)
  | Throw e => (r.1, Throw e)
  | UB => (r.1, UB)
  | OutOfFuel => (r.1, OutOfFuel)
  end.

(** n_full_blocks, pluto_builder.hpp:95, with the arithmetic of size_t.  (A block
    length of zero, a constant division by zero, does not compile.) *)
Definition n_full_blocks (pp : pparams) (n_elts : N) : N :=
  (1 + ((n_elts + (2 ^ 64 - 1)) mod 2 ^ 64) / N.of_nat (p_len pp))%N.

(** The loop over the dummy blocks, pluto_builder.hpp:97-103; [rand i] is the i-th
    random key. *)
Fixpoint fill_dummies (pp : pparams) (rand : nat -> bytes) (n i : nat) (h : ht_builder)
  : ht_builder * res unit :=
  match n with
  | O => (h, Ok tt)
  | S n' =>
      let r := ht_insert h (rand i) (ht_value pp []) in
      match r.2 with
      | Ok _ => fill_dummies pp rand n' (S i) r.1
      | e => (r.1, e)
      end
  end.

(** build, pluto_builder.hpp:84-119; [fuel] bounds the augmentations of the
    allocation of the store. *)
Definition pluto_build (fuel : nat) (pp : pparams) (rand : nat -> bytes) (n_elts : N) (b : pbuilder)
  : pbuilder * res (ht_files * sfiles) :=
  let d := fill_dummies pp rand (N.to_nat (n_full_blocks pp n_elts - pb_complete b)) 0 (pb_ht b) in
  match d.2 with
  | Ok _ =>
      let c := ht_commit pp d.1 in
      match c.2 with
      | Ok hf =>
          let s := store_build fuel (sc_store (pp_sc pp)) (pb_store b) in
          (PB s.1 c.1 (pb_complete b), sf <~ s.2; Ok (hf, sf))
      | Throw e => (PB (pb_store b) c.1 (pb_complete b), Throw e)
      | UB => (PB (pb_store b) c.1 (pb_complete b), UB)
      | OutOfFuel => (PB (pb_store b) c.1 (pb_complete b), OutOfFuel)
      end
  | Throw e => (PB (pb_store b) d.1 (pb_complete b), Throw e)
  | UB => (PB (pb_store b) d.1 (pb_complete b), UB)
  | OutOfFuel => (PB (pb_store b) d.1 (pb_complete b), OutOfFuel)
  end.

(** * Server *)
(** Fields of PlutoServer, pluto_server.hpp:38-39. *)
Record pserver := PS { ps_store : store; ps_ht : htable }.

(** Constructor, pluto_server.hpp:43-48: a store without stash. *)
Definition pluto_open_server (pp : pparams) (f : ht_files * sfiles) : res pserver :=
  t <~ ht_open pp f.1;
  Ok (PS (Store (sf_table f.2) ∅) t).

(** deserialize, types.hpp:55-61: the identifiers of an array. *)
Definition ht_ids (pp : pparams) (v : bytes) : list N := le_val <$> chunks 8 (p_vlen pp) v.

(** The loop of search, pluto_server.hpp:56-69, with a 32-bit counter. *)
Fixpoint p_loop (fuel : nat) (pp : pparams) (t : htable) (token : bytes) (i : N) : res (list N) :=
  match fuel with
  | O => OutOfFuel
  | S fuel' =>
      match ht_get pp t (derive_core_key (pp_sc pp) token (N.to_nat i)) with
      | Ok v => rs <~ p_loop fuel' pp t token (incr32 i); Ok (ht_ids pp v ++ rs)
      | Throw OutOfRange => Ok []
      | Throw e => Throw e
      | UB => UB
      | OutOfFuel => OutOfFuel
      end
  end.

(** PlutoServer::search, pluto_server.hpp:50-77: complete_lists and
    tethys_bucket_pair, types.hpp:19-24. *)
Definition pluto_server_search (fuel : nat) (pp : pparams) (s : pserver) (token : bytes)
  : res (list N * kbp) :=
  ids <~ p_loop fuel pp (ps_ht s) token 1;
  let key := derive_core_key (pp_sc pp) token 0 in
  b <~ get_buckets (sc_store (pp_sc pp)) (ps_store s) key;
  Ok (ids, (key, b)).

(** * Client *)
(** Constructor and load_stash, pluto_client.hpp:71-105: the same code as the client
    of Tethys, without counters. *)
Definition pluto_open_client (pp : pparams) (f : ht_files * sfiles) : res tclient :=
  open_client (pp_sc pp) ∅ f.2.

(** search_request, pluto_client.hpp:107-115. *)
Definition pluto_search_request (pp : pparams) (keyword : bytes) : bytes :=
  sc_prf (pp_sc pp) keyword.

(** decode_search_results, pluto_client.hpp:117-135. *)
Definition pluto_decode (pp : pparams) (c : tclient) (r : list N * kbp) : res (list N) :=
  ids <~ tethys_decode (pp_sc pp) c [r.2];
  Ok (ids ++ r.1).
