(** The files of a builder of Pluto, system call by system call: what is on disk if the
    process dies, if a build throws, if it is repeated, or if the builder is never built.
    Sources: lib/include/sse/schemes/pluto/pluto_builder.hpp,
    lib/include/sse/schemes/pluto/pluto_server.hpp,
    lib/include/sse/schemes/pluto/types.hpp,
    lib/include/sse/schemes/pluto/rocksdb_store.hpp, lib/pluto/rocksdb_store.cpp. *)
From stdpp Require Import prelude gmap.
From Coq Require Import ZArith NArith Lia.
From Verif Require Import Base EncModel StoreModel KvModel SchemeModel VecModel CuckooModel PlutoModel
  LifeModel TethysLifeModel.
Local Open Scope nat_scope.

(** * The disk *)
(** The files of the cuckoo table and of the Tethys store (pluto_builder.hpp:54-55), and
    the database of GenericRocksDBStore (rocksdb_store.hpp:39), empty if it does not
    exist yet (rocksdb_store.cpp:9 and 44: create_if_missing). *)
Record pdisk := PDisk { pk_fs : disk; pk_rocks : gmap bytes bytes }.
(** What changes them: the system calls of the files, and the calls to DB::Put,
    rocksdb_store.hpp:52, which are done at once or not at all and survive the process. *)
Inductive pop := PFile (o : fop) | PPut (key val : bytes).
(** Their effect (see do_op; rocksdb_store.hpp:52). *)
Definition do_pop (d : pdisk) (o : pop) : pdisk :=
  match o with
  | PFile o => PDisk (do_op (pk_fs d) o) (pk_rocks d)
  | PPut key val => PDisk (pk_fs d) (<[key := val]> (pk_rocks d))
  end.
(** A sequence of them (pluto_builder.hpp:84-178). *)
Definition do_pops (d : pdisk) (os : list pop) : pdisk := foldl do_pop d os.

(** * The hash table *)
(** Size of an entry of the table, types.hpp:81. *)
Definition ht_page (pp : pparams) : nat := kp_page (pp_enc pp).
(** Constructor on what is on disk, pluto_builder.hpp:77; cuckoo.hpp:111-124,
    rocksdb_store.cpp:77-99. *)
Definition ht_new_on (pp : pparams) (d : pdisk) : ht_builder * list pop :=
  match pp_ht pp with
  | KCuckoo size depth max_n =>
      let r := life_new (ht_page pp) size depth max_n (pk_fs d) in (BCuckoo r.1, PFile <$> r.2)
  | KRocks => (BRocks (pk_rocks d), [])
  end.
(** insert (see ht_insert): cuckoo.hpp:147-178, rocksdb_store.hpp:43-63. *)
Definition ht_insert_pops (h : ht_builder) (key val : bytes) : list pop :=
  match h with
  | BCuckoo b => PFile <$> insert_ops b key val
  | BRocks _ => [PPut key val]
  end.
(** commit (see ht_commit): cuckoo.hpp:186-243, rocksdb_store.cpp:101-114. *)
Definition ht_commit_on (pp : pparams) (h : ht_builder) (d : pdisk) : ht_builder * list pop * res unit :=
  match h with
  | BCuckoo b =>
      let r := cb_commit (ht_page pp) b (content Tab (pk_fs d)) in
      (BCuckoo r.1.1, PFile <$> commit_ops (ht_page pp) b (content Tab (pk_fs d)), r.2)
  | BRocks _ => (h, [], Ok tt)
  end.

(** * The builder *)
(** Constructor, pluto_builder.hpp:70-81: the builder of the store opens no file. *)
Definition pl_new (pp : pparams) (d : pdisk) : res (pbuilder * list pop) :=
  s <~ new_store_builder (sc_store (pp_sc pp));
  Ok (PB s (ht_new_on pp d).1 0, (ht_new_on pp d).2).

(** The loop of insert_list, pluto_builder.hpp:135-159 (see p_blocks). *)
Fixpoint p_block_pops (pp : pparams) (token : bytes) (h : ht_builder) (bc : nat) (block : list N)
  (ids : list N) : list pop :=
  match ids with
  | [] => []
  | id :: ids' =>
      let block' := block ++ [id] in
      if bool_decide (length block' = p_len pp) then
        let key := derive_core_key (pp_sc pp) token bc in
        ht_insert_pops h key (ht_value pp block') ++
        match ht_insert h key (ht_value pp block') with
        | (h', Ok _) => p_block_pops pp token h' (S bc) [] ids'
        | _ => []
        end
      else p_block_pops pp token h bc block' ids'
  end.

(** The loop over the dummy blocks, pluto_builder.hpp:97-103 (see fill_dummies). *)
Fixpoint fill_pops (pp : pparams) (rand : nat -> bytes) (n i : nat) (h : ht_builder) : list pop :=
  match n with
  | O => []
  | S n' =>
      ht_insert_pops h (rand i) (ht_value pp []) ++
      match ht_insert h (rand i) (ht_value pp []) with
      | (h', Ok _) => fill_pops pp rand n' (S i) h'
      | _ => []
      end
  end.

(** build, pluto_builder.hpp:84-119 (see pluto_build). *)
Definition pl_build (fuel : nat) (pp : pparams) (cut : bytes -> list bytes) (rand : nat -> bytes) (n_elts : N)
  (b : pbuilder) (d : pdisk) : pbuilder * list pop * res unit :=
  let n := N.to_nat (n_full_blocks pp n_elts - pb_complete b) in
  let f := fill_dummies pp rand n 0 (pb_ht b) in
  let o1 := fill_pops pp rand n 0 (pb_ht b) in
  match f.2 with
  | Ok _ =>
      let c := ht_commit_on pp f.1 (do_pops d o1) in
      let o2 := o1 ++ c.1.2 in
      match c.2 with
      | Ok _ =>
          let s := build_io fuel (sc_store (pp_sc pp)) cut (pb_store b) (pk_fs (do_pops d o2)) in
          (PB s.1 c.1.1 (pb_complete b), o2 ++ (PFile <$> s.2.1), s.2.2)
      | e => (PB (pb_store b) c.1.1 (pb_complete b), o2, e)
      end
  | e => (PB (pb_store b) f.1 (pb_complete b), o1, e)
  end.

(** Calls of the user of a builder, pluto_builder.hpp:46-50; [rand] gives the random keys
    drawn by this call of build, line 99. *)
Inductive pcall := PInsert (keyword : bytes) (ids : list N) | PBuild (rand : nat -> bytes).
(** A call (pluto_builder.hpp:84-178): the builder after it, what it does to the disk and
    its answer. *)
Definition pl_call (fuel : nat) (pp : pparams) (cut : bytes -> list bytes) (n_elts : N) (b : pbuilder) (d : pdisk)
  (c : pcall) : pbuilder * list pop * res unit :=
  match c with
  | PInsert kw ids =>
      let r := pluto_insert pp b kw ids in
      (r.1, p_block_pops pp (sc_prf (pp_sc pp) kw) (pb_ht b) 1 [] ids, r.2)
  | PBuild rand => pl_build fuel pp cut rand n_elts b d
  end.
(** Successive calls (pluto_builder.hpp:84-178); the user catches the exceptions. *)
Fixpoint pl_calls (fuel : nat) (pp : pparams) (cut : bytes -> list bytes) (n_elts : N) (b : pbuilder) (d : pdisk)
  (cs : list pcall) : pbuilder * list pop * list (res unit) :=
  match cs with
  | [] => (b, [], [])
  | c :: cs' =>
      let r := pl_call fuel pp cut n_elts b d c in
      let r' := pl_calls fuel pp cut n_elts r.1.1 (do_pops d r.1.2) cs' in
      (r'.1.1, r.1.2 ++ r'.1.2, r.2 :: r'.2)
  end.
(** A builder constructed on a disk and the calls made to it (pluto_builder.hpp:70-178). *)
Definition pl_life (fuel : nat) (pp : pparams) (cut : bytes -> list bytes) (n_elts : N) (d : pdisk) (cs : list pcall)
  : res (pbuilder * list pop * list (res unit)) :=
  n <~ pl_new pp d;
  let r := pl_calls fuel pp cut n_elts n.1 (do_pops d n.2) cs in
  Ok (r.1.1, n.2 ++ r.1.2, r.2).
(** The destructors of the members, pluto_builder.hpp:54-55: that of the cuckoo builder
    commits the table (cuckoo.hpp:132-138), those of the RocksDB database and of the
    builder of the store write nothing. *)
Definition pl_end (pp : pparams) (b : pbuilder) (d : pdisk) : list pop :=
  match pb_ht b with
  | BCuckoo cb => PFile <$> (life_end (ht_page pp) cb (pk_fs d)).1
  | BRocks _ => []
  end.

(** * The server *)
(** Constructor on what is on disk, pluto_server.hpp:43-48: the store is opened first,
    with an empty path for its stash (tethys_store.hpp:121-160). *)
Definition pl_open_server (pp : pparams) (d : pdisk) : res pserver :=
  s <~ open_disk (pp_enc pp) (dk_set Stash None (pk_fs d));
  t <~ ht_open pp (match pp_ht pp with
                   | KCuckoo _ _ _ => FCuckoo (content Tab (pk_fs d))
                   | KRocks => FRocks (pk_rocks d)
                   end);
  Ok (PS s t).
