(** Specification of the files of a builder of Pluto. *)
From stdpp Require Import prelude gmap.
From Coq Require Import ZArith NArith Lia.
From Verif Require Import Base EncModel StoreModel KvModel SchemeModel SchemeSpec VecModel CuckooModel PlutoModel PlutoSpec
  LifeModel LifeSpec TethysLifeModel PlutoLifeModel.
Local Open Scope nat_scope.

(** The disk when the process dies after [k] of the things done to it. *)
Definition pdies (d : pdisk) (ops : list pop) (k : nat) : pdisk := do_pops d (take k ops).
(** No file of any kind. *)
Definition blank : pdisk := PDisk no_files ∅.
(** The lists of a database, inserted one after the other. *)
Definition pl_inserts (db : database) : list pcall := (fun x => PInsert x.1 x.2) <$> db.

(** The files of the hash table that the server of these parameters opens. *)
Definition ht_on_disk (pp : pparams) (d : pdisk) : ht_files :=
  match pp_ht pp with
  | KCuckoo _ _ _ => FCuckoo (content Tab (pk_fs d))
  | KRocks => FRocks (pk_rocks d)
  end.

(** The complete blocks of a database, with their keys. *)
Definition full_pairs (pp : pparams) (db : database) : list (bytes * bytes) :=
  x ← db; imap (fun i b => (block_key (pp_sc pp) x.1 (S i), ht_value pp b)) (blocks (p_len pp) x.2).
(** The dummy blocks of a build. *)
Definition dummy_pairs (pp : pparams) (rand : nat -> bytes) (n_elts : N) (db : database) : list (bytes * bytes) :=
  (fun k => (k, ht_value pp [])) <$> dummy_keys pp rand n_elts db.
(** Writes to a map, in order. *)
Definition put_all (m : gmap bytes bytes) (kvs : list (bytes * bytes)) : gmap bytes bytes :=
  foldl (fun m kv => <[kv.1 := kv.2]> m) m kvs.

(** The client and the server opened on what is on disk, and a search. *)
Definition pl_search_at (fuel : nat) (pp : pparams) (d : pdisk) (w : bytes) : res (list N) :=
  c <~ open_client (pp_sc pp) ∅ (SFiles [] (dk_stash (pk_fs d)) []);
  s <~ pl_open_server pp d;
  pluto_search fuel pp c s w.

(** The files of the earlier database that a later builder finds are all there. *)
Definition same_files (d d' : pdisk) : Prop :=
  content Tab (pk_fs d') = content Tab (pk_fs d) /\ content Pages (pk_fs d') = content Pages (pk_fs d) /\
  dk_stash (pk_fs d') = dk_stash (pk_fs d) /\ pk_rocks d' = pk_rocks d.
