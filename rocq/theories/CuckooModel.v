(** Model of the cuckoo hash table on disk (Oceanus).
    Sources: lib/oceanus/cuckoo.cpp,
    lib/include/sse/schemes/oceanus/details/cuckoo.hpp,
    lib/include/sse/schemes/oceanus/cuckoo.hpp,
    lib/include/sse/schemes/oceanus/oceanus.hpp,
    lib/include/sse/schemes/oceanus/types.hpp. *)
From stdpp Require Import prelude.
From Coq Require Import ZArith NArith Lia.
From Verif Require Import Base EncModel VecModel.
Local Open Scope nat_scope.

(** * The allocator *)
(** The placeholder ~0UL for an empty slot: details/cuckoo.hpp:40, 59-62. *)
Definition no_index : N := (2 ^ 64 - 1)%N.

(** CuckooValue, details/cuckoo.hpp:37-41, with the two words of CuckooKey,
    types.hpp:60-71. *)
Record cval := CVal { cv_h0 : N; cv_h1 : N; cv_index : N }.
(** Comparison and default value of [cval], for the proofs (no counterpart in the code). *)
#[global] Instance cval_eq_dec : EqDecision cval.
Proof. solve_decision. Defined.
(** Some value (no counterpart in the code). *)
#[global] Instance cval_inhabited : Inhabited cval := populate (CVal 0 0 0).

(** Default value of a slot, details/cuckoo.hpp:40 and types.hpp:63. *)
Definition cv_empty : cval := CVal no_index no_index no_index.
(** is_empty_placeholder, details/cuckoo.hpp:59-62. *)
Definition is_empty (i : N) : bool := bool_decide (i = no_index).
(** h[table_index], cuckoo.cpp:31; [false] is table 0. *)
Definition cv_h (t : bool) (v : cval) : N := if t then cv_h1 v else cv_h0 v.

(** The fields of CuckooAllocator, details/cuckoo.hpp:83-87. *)
Record calloc := CAlloc { ca_size : nat; ca_depth : nat; ca_t0 : list cval; ca_t1 : list cval }.

(** Constructor, details/cuckoo.hpp:47-51.  The size, computed with doubles from
    the number of elements (15-18, see FloatModel.v), is a parameter. *)
Definition ca_new (size depth : nat) : calloc :=
  CAlloc size depth (replicate size cv_empty) (replicate size cv_empty).

(** tables[table_index], cuckoo.cpp:24-25. *)
Definition ca_table (t : bool) (a : calloc) : list cval := if t then ca_t1 a else ca_t0 a.
(** Assignment in one of the tables, cuckoo.cpp:33. *)
Definition ca_set (t : bool) (loc : nat) (v : cval) (a : calloc) : calloc :=
  if t then CAlloc (ca_size a) (ca_depth a) (ca_t0 a) (<[loc := v]> (ca_t1 a))
  else CAlloc (ca_size a) (ca_depth a) (<[loc := v]> (ca_t0 a)) (ca_t1 a).

(** The loop of insert, cuckoo.cpp:28-40; [n] is what remains of the search
    depth.  The remainder by an empty table (line 31) is undefined. *)
Fixpoint ca_walk (n : nat) (t : bool) (v : cval) (a : calloc) : res (calloc * N) :=
  match n with
  | O => Ok (a, cv_index v)
  | S n' =>
      if is_empty (cv_index v) then Ok (a, cv_index v)
      else if bool_decide (ca_size a = 0) then UB
      else
        let loc := N.to_nat (cv_h t v mod N.of_nat (ca_size a))%N in
        old <~ vat (ca_table t a) loc;
        ca_walk n' (negb t) old (ca_set t loc v a)
  end.

(** CuckooAllocator::insert, cuckoo.cpp:10-44. *)
Definition ca_insert (a : calloc) (h : N * N) (index : N) : res (calloc * N) :=
  if bool_decide (index = no_index) then Throw InvalidArgument
  else ca_walk (ca_depth a) false (CVal h.1 h.2 index) a.

(** * The builder *)
(** Fields of CuckooBuilder, cuckoo.hpp:60-68; [n_elements] is never used. *)
Record cbuilder := CBuilder {
  cb_alloc : calloc;
  cb_data : vec;
  cb_spilled : list N;
  cb_committed : bool
}.

(** Constructor, cuckoo.hpp:111-124, on a value file with the given content. *)
Definition cb_new (sz size depth max_n : nat) (value_file : bytes) : cbuilder :=
  CBuilder (ca_new size depth) (vec_reserve sz (open_vec sz value_file false) max_n) [] false.

(** insert, cuckoo.hpp:147-178.  Keys and values are given serialised; [hash] is
    the CuckooHasher.  The second component is the answer. *)
Definition cb_insert (hash : bytes -> N * N) (b : cbuilder) (key val : bytes)
  : cbuilder * res unit :=
  if cb_committed b then (b, Throw RuntimeError)
  else
    match vec_push (cb_data b) false (key ++ val) with
    | (d, Ok ptr) =>
        match ca_insert (cb_alloc b) (hash key) (N.of_nat ptr) with
        | Ok (a, spill) =>
            (CBuilder a d (if is_empty spill then cb_spilled b else cb_spilled b ++ [spill]) false,
             Ok tt)
        | Throw e => (CBuilder (cb_alloc b) d (cb_spilled b) false, Throw e)
        | UB => (b, UB)
        | OutOfFuel => (b, OutOfFuel)
        end
    | (d, Throw e) => (CBuilder (cb_alloc b) d (cb_spilled b) false, Throw e)
    | (d, UB) => (b, UB)
    | (d, OutOfFuel) => (b, OutOfFuel)
    end.

(** One table written to the file, cuckoo.hpp:213-238. *)
Fixpoint cb_write (sz : nat) (data : vec) (slots : list cval) (out : vec) : vec * res unit :=
  match slots with
  | [] => (out, Ok tt)
  | s :: slots' =>
      match (if is_empty (cv_index s) then Ok (replicate sz 255%N)
             else vec_get sz data (N.to_nat (cv_index s))) with
      | Ok pl =>
          match vec_push out false pl with
          | (out', Ok _) => cb_write sz data slots' out'
          | (out', Throw e) => (out', Throw e)
          | (out', UB) => (out', UB)
          | (out', OutOfFuel) => (out', OutOfFuel)
          end
      | Throw e => (out, Throw e)
      | UB => (out, UB)
      | OutOfFuel => (out, OutOfFuel)
      end
  end.

(** commit, cuckoo.hpp:186-243, given the content of the file of the table: the
    builder, the file of the table once its vector is destroyed (also when an
    exception goes through), and the outcome.  The value file is removed, which
    is in LifeModel.v. *)
Definition cb_commit (sz : nat) (b : cbuilder) (table_file : bytes)
  : cbuilder * bytes * res unit :=
  if cb_committed b then (b, table_file, Ok tt)
  else
    let data := vec_commit (cb_data b) in
    let b' := CBuilder (cb_alloc b) data (cb_spilled b) true in
    let out := vec_reserve sz (open_vec sz table_file false) (2 * ca_size (cb_alloc b)) in
    match cb_write sz data (ca_t0 (cb_alloc b)) out with
    | (out1, Ok _) =>
        let r := cb_write sz data (ca_t1 (cb_alloc b)) out1 in
        (b', vec_close r.1, r.2)
    | (out1, e) => (b', vec_close out1, e)
    end.

(** * The table *)
(** Fields of CuckooHashTable, cuckoo.hpp:297-300. *)
Record ctable := CTable { ct_vec : vec; ct_size : nat }.

(** Constructor, cuckoo.hpp:303-330. *)
Definition ct_open (sz : nat) (file : bytes) : res ctable :=
  let v := open_vec sz file false in
  if negb (v_committed v) then Throw RuntimeError
  else if bool_decide (v_size v mod 2 <> 0) then Throw RuntimeError
  else Ok (CTable v (v_size v / 2)).

(** match_key, details/cuckoo.hpp:20-32. *)
Definition match_key (pl key : bytes) : bool := bool_decide (take (length key) pl = key).

(** The first slot of a key, cuckoo.hpp:349 and 393. *)
Definition ct_loc0 (hash : bytes -> N * N) (t : ctable) (key : bytes) : nat :=
  N.to_nat ((hash key).1 mod N.of_nat (ct_size t))%N.
(** The second slot of a key, cuckoo.hpp:359-361 and 394. *)
Definition ct_loc1 (hash : bytes -> N * N) (t : ctable) (key : bytes) : nat :=
  N.to_nat ((hash key).2 mod N.of_nat (ct_size t))%N + ct_size t.

(** get, cuckoo.hpp:339-367.  The remainder by zero is undefined. *)
Definition ct_get (sz : nat) (hash : bytes -> N * N) (t : ctable) (key : bytes) : res bytes :=
  if bool_decide (ct_size t = 0) then UB
  else
    pl0 <~ vec_get sz (ct_vec t) (ct_loc0 hash t key);
    if match_key pl0 key then Ok (drop (length key) pl0)
    else
      pl1 <~ vec_get sz (ct_vec t) (ct_loc1 hash t key);
      if match_key pl1 key then Ok (drop (length key) pl1)
      else Throw OutOfRange.

(** OceanusCuckooHasher, oceanus.hpp:33-45: the 16 bytes of the key are copied into two
    words, on a little-endian machine. *)
Definition oceanus_hash (key : bytes) : N * N :=
  (le_val (take 8 key), le_val (take 8 (drop 8 key))).
