(** Specification of the Pluto scheme: a map from keywords to identifiers, and the
    answer the scheme really gives. *)
From stdpp Require Import prelude gmap.
From Coq Require Import ZArith NArith Lia.
From Verif Require Import Base EncModel EncSpec StoreModel StoreSpec KvModel SchemeModel SchemeSpec
  VecModel CuckooModel PlutoModel.
From Verif Require CuckooSpec.
Local Open Scope nat_scope.

(** A list cut in blocks of length [L], and what remains of it. *)
Definition blocks (L : nat) (ids : list N) : list (list N) :=
  (fun i => take L (drop (i * L) ids)) <$> seq 0 (length ids / L).
Definition rest (L : nat) (ids : list N) : list N := drop (length ids / L * L) ids.

(** Number of complete blocks in a database, and of its elements. *)
Definition n_blocks (L : nat) (db : database) : nat := sum_list ((fun x => length x.2 / L) <$> db).
Definition n_elements (db : database) : nat := sum_list ((fun x => length x.2) <$> db).

(** Keys of the complete blocks of a keyword. *)
Definition full_keys (pp : pparams) (w : bytes) (ids : list N) : list bytes :=
  block_key (pp_sc pp) w <$> seq 1 (length ids / p_len pp).
(** All the keys a search for the keyword may look at. *)
Definition search_keys (pp : pparams) (db : database) (w : bytes) : list bytes :=
  block_key (pp_sc pp) w <$>
    seq 0 (S (S (length (ids_of w db) / p_len pp))).

(** The same, as keywords and numbers. *)
Definition search_uses (pp : pparams) (db : database) (ws : list bytes) : list (bytes * nat) :=
  w ← ws; (fun i => (w, i)) <$> seq 0 (S (S (length (ids_of w db) / p_len pp))).

(** The number of dummy blocks and their keys. *)
Definition n_dummies (pp : pparams) (n_elts : N) (db : database) : nat :=
  N.to_nat (n_full_blocks pp n_elts - N.of_nat (n_blocks (p_len pp) db)).
Definition dummy_keys (pp : pparams) (rand : nat -> bytes) (n_elts : N) (db : database) : list bytes :=
  rand <$> seq 0 (n_dummies pp n_elts db).

(** The keys of the blocks given to the hash table, in order. *)
Definition table_keys (pp : pparams) (rand : nat -> bytes) (n_elts : N) (db : database) : list bytes :=
  mjoin ((fun x => full_keys pp x.1 x.2) <$> db) ++ dummy_keys pp rand n_elts db.

(** The insertions that the hash table could not place. *)
Definition ht_spilled (h : ht_builder) : list N :=
  match h with BCuckoo b => cb_spilled b | BRocks _ => [] end.
Definition lost_keys (keys : list bytes) (h : ht_builder) : list bytes :=
  omap (fun i => keys !! N.to_nat i) (ht_spilled h).

Record pluto_ok (pp : pparams) (rand : nat -> bytes) (n_elts : N) (db : database)
    (ws : list bytes) : Prop := PlutoOk {
  po_words : words (pp_enc pp);
  po_key : 0 < kp_key (pp_enc pp);
  po_block : 0 < max_list_size (pp_enc pp);
  po_size : 2 <= sp_n (sc_store (pp_sc pp));
  po_cipher : cipher_ok (sp_cipher (sc_store (pp_sc pp)));
  po_hash : forall x, length (sc_hash (pp_sc pp) x) = kp_key (pp_enc pp);
  po_rand : forall i, length (rand i) = kp_key (pp_enc pp);
  po_keywords : NoDup db.*1;
  po_ws : NoDup ws /\ db.*1 ⊆ ws;
  po_ids : Forall (fun x => Forall (fun id => (id < 2 ^ 64)%N) x.2) db;
  (** block counters are 32-bit *)
  po_short : Forall (fun x => (N.of_nat (S (S (length x.2 / p_len pp))) < 2 ^ 32)%N) db;
  (** neither the derivation of the keys nor the generator collide on the keys in
      use or looked for *)
  po_derive : derive_ok (pp_sc pp) ws (search_uses pp db ws);
  po_dummies : NoDup (dummy_keys pp rand n_elts db) /\
    forall k, k ∈ mjoin (search_keys pp db <$> ws) -> k ∉ dummy_keys pp rand n_elts db;
  (** the cuckoo table exists, can number its values, and its mark for an empty slot
      is not one of the keys *)
  po_cuckoo : forall size depth max_n, pp_ht pp = KCuckoo size depth max_n ->
    0 < size /\ (N.of_nat (length (table_keys pp rand n_elts db)) <= no_index)%N /\
    CuckooSpec.ff_key (kp_key (pp_enc pp)) ∉
      mjoin (search_keys pp db <$> ws) ++ dummy_keys pp rand n_elts db
}.

(** The blocks that come before the first lost one. *)
Fixpoint surviving (lost : list bytes) (keys : list bytes) (bs : list (list N)) : list (list N) :=
  match keys, bs with
  | k :: keys', b :: bs' => if decide (k ∈ lost) then [] else b :: surviving lost keys' bs'
  | _, _ => []
  end.

(** The answer to a search: the incomplete block, then every block that can be reached,
    padded with zeros up to the length of the arrays of the hash table. *)
Definition answer (pp : pparams) (lost : list bytes) (w : bytes) (ids : list N) : list N :=
  rest (p_len pp) ids ++
  mjoin ((fun b => b ++ replicate (p_vlen pp - p_len pp) 0%N) <$>
           surviving lost (full_keys pp w ids) (blocks (p_len pp) ids)).

Fixpoint pluto_insert_db (pp : pparams) (b : pbuilder) (db : database) : pbuilder * list (res unit) :=
  match db with
  | [] => (b, [])
  | x :: db' =>
      let r := pluto_insert pp b x.1 x.2 in
      let r' := pluto_insert_db pp r.1 db' in
      (r'.1, r.2 :: r'.2)
  end.

(** A search: the request of the client, the answer of the server, its decoding. *)
Definition pluto_search (fuel : nat) (pp : pparams) (c : tclient) (s : pserver) (w : bytes)
  : res (list N) :=
  r <~ pluto_server_search fuel pp s (pluto_search_request pp w);
  pluto_decode pp c r.

(** The whole life of a database. *)
Definition pluto_search_after (fuel : nat) (pp : pparams) (rand : nat -> bytes) (n_elts : N)
    (db : database) (w : bytes) : res (list N) :=
  b0 <~ pluto_new pp;
  f <~ (pluto_build fuel pp rand n_elts (pluto_insert_db pp b0 db).1).2;
  c <~ pluto_open_client pp f;
  s <~ pluto_open_server pp f;
  pluto_search fuel pp c s w.

(** How many blocks the hash table holds after the build: the occupied slots of the
    cuckoo table, the entries of the database. *)
Definition stored_blocks (h : ht_builder) : nat :=
  match h with
  | BCuckoo b => length (CuckooSpec.contents (cb_alloc b))
  | BRocks m => size m
  end.
