(** Model of the key-value stores that the schemes keep on disk.
    Sources: lib/utils/rocksdb_wrapper.cpp and
    lib/include/sse/schemes/utils/rocksdb_wrapper.hpp.
    RocksDB itself is taken to be a finite map whose operations succeed: a failed
    Put is only logged by the code. *)
From stdpp Require Import prelude gmap.
From Coq Require Import ZArith NArith Lia.
From Verif Require Import Base EncModel.
Local Open Scope N_scope.

(** Database behind RocksDBCounter, rocksdb_wrapper.hpp:250-283.  Simplified: the
    value is the uint32_t itself rather than its four bytes (every writer stores
    sizeof(uint32_t) bytes, rocksdb_wrapper.cpp:118, 150, 168); RawModel.v has the bytes and
    C108_refines the correspondence. *)
Notation counters := (gmap bytes N).

(** Unsigned 32-bit increment, rocksdb_wrapper.cpp:113 and 145. *)
Definition incr32 (v : N) : N := (v + 1) mod 2 ^ 32.

(** RocksDBCounter::get, rocksdb_wrapper.cpp:85-99; [None] is "not found". *)
Definition ctr_get (c : counters) (k : bytes) : option N := c !! k.

(** The value computed by get_and_increment from what it read,
    rocksdb_wrapper.cpp:110-117. *)
Definition next_value (r : option N) : N :=
  match r with Some v => incr32 v | None => 0 end.

(** RocksDBCounter::get_and_increment, rocksdb_wrapper.cpp:101-132. *)
Definition ctr_get_and_increment (c : counters) (k : bytes) : counters * N :=
  let v := next_value (c !! k) in (<[k := v]> c, v).

(** RocksDBCounter::increment, rocksdb_wrapper.cpp:134-164. *)
Definition ctr_increment (c : counters) (k : bytes) (default_value : N) : counters :=
  <[k := match c !! k with Some v => incr32 v | None => default_value end]> c.

(** RocksDBCounter::set, rocksdb_wrapper.cpp:166-182; the argument is a uint32_t. *)
Definition ctr_set (c : counters) (k : bytes) (v : N) : counters :=
  <[k := v mod 2 ^ 32]> c.

(** RocksDBCounter::remove_key, rocksdb_wrapper.cpp:185-190. *)
Definition ctr_remove (c : counters) (k : bytes) : counters := delete k c.
