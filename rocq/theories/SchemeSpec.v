(** Specification of the Tethys scheme: a map from keywords to identifiers. *)
From stdpp Require Import prelude gmap.
From Coq Require Import ZArith NArith Lia.
From Verif Require Import Base EncModel EncSpec StoreModel StoreSpec KvModel SchemeModel.
Local Open Scope nat_scope.

Notation database := (list (bytes * list N)).

(** The identifiers of a keyword. *)
Definition ids_of (w : bytes) (db : database) : list N :=
  match list_find (fun x => x.1 = w) db with Some (_, x) => x.2 | None => [] end.

(** The key of a block: the hash of the token of the keyword followed by the number of
    the block, on eight bytes, the least significant one first. *)
Definition key_input (sc : scheme) (w : bytes) (i : nat) : bytes :=
  sc_prf sc w ++ ((fun j => ((N.of_nat i / 256 ^ N.of_nat j) mod 256)%N) <$> seq 0 8).
Definition block_key (sc : scheme) (w : bytes) (i : nat) : bytes := sc_hash sc (key_input sc w i).

(** Keys of the blocks of a list, the last and incomplete one included. *)
Definition block_keys (sc : scheme) (w : bytes) (ids : list N) : list bytes :=
  block_key sc w <$> seq 0 (S (length ids / max_list_size (sp_enc (sc_store sc)))).

(** What is asked of the cryptography, for the keywords [ws] and the blocks [uses]
    (keyword and number): tokens have 16 bytes, they are distinct for distinct
    keywords, and the hash function does not collide on the strings given to it. *)
Record derive_ok (sc : scheme) (ws : list bytes) (uses : list (bytes * nat)) : Prop := DeriveOk {
  do_length : forall w, length (sc_prf sc w) = 16;
  do_prf : NoDup (sc_prf sc <$> ws);
  do_hash : forall u v, u ∈ uses -> v ∈ uses ->
    sc_hash sc (key_input sc u.1 u.2) = sc_hash sc (key_input sc v.1 v.2) ->
    key_input sc u.1 u.2 = key_input sc v.1 v.2
}.

(** The blocks of a database. *)
Definition uses_of (sc : scheme) (db : database) : list (bytes * nat) :=
  x ← db; (fun i => (x.1, i)) <$> seq 0 (S (length x.2 / max_list_size (sp_enc (sc_store sc)))).

Record scheme_ok (sc : scheme) (db : database) : Prop := SchemeOk {
  so_words : words (sp_enc (sc_store sc));
  so_block : 0 < max_list_size (sp_enc (sc_store sc));
  so_size : 2 <= sp_n (sc_store sc);
  so_cipher : cipher_ok (sp_cipher (sc_store sc));
  so_hash : forall x, length (sc_hash sc x) = kp_key (sp_enc (sc_store sc));
  so_keywords : NoDup db.*1;
  so_ids : Forall (fun x => Forall (fun id => (id < 2 ^ 64)%N) x.2) db;
  (** block counters are 32-bit *)
  so_short : Forall (fun x => (N.of_nat (S (length x.2 / max_list_size (sp_enc (sc_store sc)))) < 2 ^ 32)%N) db;
  so_derive : derive_ok sc db.*1 (uses_of sc db)
}.

(** A list that fills its blocks exactly is only followed by empty lists. *)
Definition full_lists_last (sc : scheme) (db : database) : Prop :=
  forall i j x y, i < j -> db !! i = Some x -> db !! j = Some y ->
    length x.2 mod max_list_size (sp_enc (sc_store sc)) = 0 -> y.2 = [].

Fixpoint insert_db (sc : scheme) (b : tbuilder) (db : database) : tbuilder * list (res unit) :=
  match db with
  | [] => (b, [])
  | x :: db' =>
      let r := tethys_insert sc b x.1 x.2 in
      let r' := insert_db sc r.1 db' in
      (r'.1, r.2 :: r'.2)
  end.

(** A search: the request of the client, the answer of the server, its decoding. *)
Definition tethys_search (sc : scheme) (c : tclient) (s : store) (w : bytes) : res (list N) :=
  bs <~ tethys_server_search sc s (tethys_search_request sc c w);
  tethys_decode sc c bs.

(** The whole life of a database. *)
Definition search_after (fuel : nat) (sc : scheme) (db : database) (w : bytes) : res (list N) :=
  sb <~ new_store_builder (sc_store sc);
  let b := (insert_db sc (TB sb ∅) db).1 in
  f <~ (tethys_build fuel sc b).2;
  c <~ open_client sc (tb_counters b) f;
  tethys_search sc c (open_server f) w.
