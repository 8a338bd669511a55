(** Model of the Tethys store builder and of the store.
    Sources: lib/include/sse/schemes/tethys/tethys_store_builder.hpp and
    lib/include/sse/schemes/tethys/tethys_store.hpp. *)
From stdpp Require Import prelude gmap.
From Coq Require Import ZArith NArith Lia.
From Verif Require Import Base GraphModel AllocModel EncModel.
Local Open Scope nat_scope.

(** The encoder of the pages: plain (EncodeSeparateEncoder) or wrapped in
    EncryptEncoder with a key, tethys_store_builder.hpp:35 and
    encode_encrypt.hpp:20-45. *)
Inductive cipher := Plain | Encrypted (ks : keystream) (k : bytes).

(** Parameters: the template parameters, the number of pages
    [params.graph_size(kBucketSize)] (tethys_store_builder.hpp:25-28; its
    floating-point computation, tethys_allocator.cpp:11-16, is in FloatModel.v, any
    value is allowed here), the hash function TethysHasher and the encoder. *)
Record sparams := SPar {
  sp_enc : eparams;
  sp_n : nat;
  sp_hash : bytes -> N * N;
  sp_cipher : cipher
}.

(** kBucketSize, tethys_store_builder.hpp:49 *)
Definition bucket_size (p : eparams) : nat := kp_page p / kp_val p.

(** Fields of TethysStoreBuilder, tethys_store_builder.hpp:75-79. *)
Record sbuilder := SB {
  sb_alloc : allocator;
  sb_data : list (bytes * list bytes);
  sb_built : bool
}.

(** Constructor, tethys_store_builder.hpp:93-97. *)
Definition new_store_builder (sp : sparams) : res sbuilder :=
  a <~ new_allocator (sp_n sp) (Z.of_nat (bucket_size (sp_enc sp)));
  Ok (SB a [] false).

(** Reduction of the two hashes to a position in each half of the table,
    tethys_store_builder.hpp:129-134 and tethys_store.hpp:236-241.  A reduction
    modulo zero is undefined. *)
Definition positions (size : nat) (h : N * N) : res (nat * nat) :=
  let half := size / 2 in
  let rest := size - half in
  if bool_decide (half = 0) then UB
  else if bool_decide (rest = 0) then UB
  else Ok (N.to_nat (h.1 mod N.of_nat half), half + N.to_nat (h.2 mod N.of_nat rest)).

(** insert_list, tethys_store_builder.hpp:105-140.  The data is recorded before
    the allocator may refuse the list.  Simplified: the sum of line 136 is taken
    without overflow. *)
Definition store_insert (sp : sparams) (b : sbuilder) (key : bytes) (vals : list bytes)
  : sbuilder * res unit :=
  if sb_built b then (b, Throw RuntimeError)
  else
    let data := sb_data b ++ [(key, vals)] in
    let index := length data - 1 in
    match (h <~ positions (sp_n sp) (sp_hash sp key);
           alloc_insert (sb_alloc b) h.1 h.2
             (Z.of_nat (length vals) + Z.of_nat (list_control (sp_enc sp))) (Some index)) with
    | Ok a => (SB a data (sb_built b), Ok tt)
    | Throw e => (SB (sb_alloc b) data (sb_built b), Throw e)
    | UB => (b, UB)
    | OutOfFuel => (b, OutOfFuel)
    end.

(** The loops over the edges of a vertex, tethys_store_builder.hpp:205-227
    ([o = Incoming]) and 230-250 ([o = Outgoing]). *)
Fixpoint encode_edges (p : eparams) (data : list (bytes * list bytes)) (es : list edge)
  (o : orientation) (l : list eptr) (buf : bytes) (wrt : nat) : res (bytes * nat) :=
  match l with
  | [] => Ok (buf, wrt)
  | q :: l' =>
      e <~ vat es (ep_idx q);
      match e_val e with
      | None => encode_edges p data es o l' buf wrt
      | Some i =>
          d <~ vat data i;
          r <~ encode p buf wrt d.1 d.2 (ainfo_of e o);
          if bool_decide (kp_page p < wrt + r.2) then Throw OutOfRange
          else encode_edges p data es o l' r.1 (wrt + r.2)
      end
  end.

(** finish_block_encoding of the chosen encoder; also returns the nonces given
    to the cipher.  encode_separate.hpp:154-167, encode_encrypt.hpp:61-91. *)
Definition finish_with (sp : sparams) (buf : bytes) (index wrt remaining : nat)
  : res (bytes * nat * list bytes) :=
  match sp_cipher sp with
  | Plain => r <~ finish_block buf wrt remaining; Ok (r, [])
  | Encrypted ks k =>
      r <~ enc_finish_block ks k (sp_enc sp) buf index wrt remaining;
      Ok (r, [nonce_of index])
  end.

(** One iteration of the loop over the vertices, tethys_store_builder.hpp:192-261. *)
Definition build_page (sp : sparams) (data : list (bytes * list bytes)) (es : list edge)
  (index : nat) (v : vertex) : res (bytes * list bytes) :=
  let p := sp_enc sp in
  r1 <~ encode_edges p data es Incoming (v_in v) (replicate (kp_page p) 255%N) 0;
  r2 <~ encode_edges p data es Outgoing (v_out v) r1.1 r1.2;
  f <~ finish_with sp r2.1 index r2.2 (kp_page p - r2.2);
  if bool_decide (kp_page p < r2.2 + f.1.2) then Throw OutOfRange
  else Ok (f.1.1, f.2).

(** The whole loop, tethys_store_builder.hpp:192-269; [table] is the vector of
    pages on disk (its own model is in VecModel.v), [used] the nonces. *)
Fixpoint build_pages (sp : sparams) (data : list (bytes * list bytes)) (g : graph)
  (l : list nat) (table : list bytes) (used : list bytes) : res (list bytes * list bytes) :=
  match l with
  | [] => Ok (table, used)
  | i :: l' =>
      v <~ vat (g_verts g) i;
      r <~ build_page sp data (g_edges g) i v;
      let storage_index := length table in
      if bool_decide (storage_index = i) then
        build_pages sp data g l' (table ++ [r.1]) (used ++ r.2)
      else Throw RuntimeError
  end.

(** The loop over the stashed edges, tethys_store_builder.hpp:286-300.  The stash
    encoder is EncodeSeparateEncoder in both cases (encode_encrypt.hpp:93-98). *)
Fixpoint build_stash (p : eparams) (data : list (bytes * list bytes)) (es : list edge)
  (l : list eptr) : res bytes :=
  match l with
  | [] => Ok []
  | q :: l' =>
      e <~ vat es (ep_idx q);
      match e_val e with
      | None => build_stash p data es l'
      | Some i =>
          d <~ vat data i;
          b <~ serialize_key_value p d.1 d.2 (ainfo_of e Incoming);
          bs <~ build_stash p data es l';
          Ok (b ++ bs)
      end
  end.

(** What build() leaves on disk: the committed table and, if it was written, the
    stash file; [sf_used] is the list of the nonces given to the cipher
    (tethys_store_builder.hpp:190-306). *)
Record sfiles := SFiles { sf_table : list bytes; sf_stash : option bytes; sf_used : list bytes }.

(** The part of build() that follows the allocation,
    tethys_store_builder.hpp:190-306. *)
Definition write_files (sp : sparams) (data : list (bytes * list bytes)) (a : allocator)
  : res sfiles :=
  g <~ get_allocation_graph a;
  t <~ build_pages sp data g (seq 0 (sp_n sp)) [] [];
  s <~ get_stashed_edges a;
  if bool_decide (0 < length s) then
    b <~ build_stash (sp_enc sp) data (g_edges g) s;
    Ok (SFiles t.1 (Some b) t.2)
  else Ok (SFiles t.1 None t.2).

(** build, tethys_store_builder.hpp:167-310.  [fuel] bounds the augmentations of
    the allocation. *)
Definition store_build (fuel : nat) (sp : sparams) (b : sbuilder) : sbuilder * res sfiles :=
  if sb_built b then (b, Throw RuntimeError)
  else match allocate fuel (sb_alloc b) with
  | Ok a =>
      match write_files sp (sb_data b) a with
      | Ok f => (SB a (sb_data b) true, Ok f)
      | Throw e => (SB a (sb_data b) false, Throw e)
      | UB => (b, UB)
      | OutOfFuel => (b, OutOfFuel)
      end
  | Throw e => (b, Throw e)
  | UB => (b, UB)
  | OutOfFuel => (b, OutOfFuel)
  end.

(** Fields of TethysStore, tethys_store.hpp:110-113. *)
Record store := Store { st_table : list bytes; st_stash : gmap bytes (list bytes) }.

(** Constructor and load_stash, tethys_store.hpp:50-65, 121-160, of a store whose
    stash file does not exist unless the build wrote it. *)
Definition open_store (p : eparams) (f : sfiles) : res store :=
  m <~ match sf_stash f with None => Ok ∅ | Some b => deserialize_map p b end;
  Ok (Store (sf_table f) m).

(** get_buckets, tethys_store.hpp:226-247. *)
Definition get_buckets (sp : sparams) (s : store) (key : bytes)
  : res ((bytes * nat) * (bytes * nat)) :=
  h <~ positions (length (st_table s)) (sp_hash sp key);
  b0 <~ vat (st_table s) h.1;
  b1 <~ vat (st_table s) h.2;
  Ok ((b0, h.1), (b1, h.2)).

(** decode_list, tethys_store.hpp:191-201, with the decoder of [sp_cipher]. *)
Definition decode_list (sp : sparams) (key b0 : bytes) (i0 : nat) (b1 : bytes) (i1 : nat)
  : res (list bytes) :=
  match sp_cipher sp with
  | Plain => decode_buckets (sp_enc sp) key b0 b1
  | Encrypted ks k => dec_decode_buckets ks k (sp_enc sp) key b0 i0 b1 i1
  end.

(** get_list, tethys_store.hpp:254-277. *)
Definition get_list (sp : sparams) (s : store) (key : bytes) : res (list bytes) :=
  let stash_res := default [] (st_stash s !! key) in
  b <~ get_buckets sp s key;
  r <~ decode_list sp key b.1.1 b.1.2 b.2.1 b.2.2;
  Ok (r ++ stash_res).
