(** Model of the wrappers of RocksDB down to the bytes that are stored.
    Sources: lib/include/sse/schemes/utils/rocksdb_wrapper.hpp,
    lib/utils/rocksdb_wrapper.cpp and lib/include/sse/schemes/pluto/rocksdb_store.hpp.

    Simplifications.
    - RocksDB is a finite map from strings to strings whose calls succeed (FaultModel.v has
      the errors).
    - An object is its bytes; sizeof(V) is a number given with each call. *)
From stdpp Require Import prelude gmap.
From Coq Require Import NArith Lia.
From Verif Require Import Base EncModel.
Local Open Scope N_scope.

(** The database behind the wrappers, rocksdb_wrapper.hpp:66, 282 and 337. *)
Notation raw := (gmap bytes bytes).

(** memcpy of [n] bytes from value.data(), rocksdb_wrapper.hpp:158 and 177,
    rocksdb_wrapper.cpp:95, 111, 143, rocksdb_store.hpp:85: a std::string has a null
    character behind its bytes; reading further is undefined. *)
Definition copy_out (n : nat) (value : bytes) : res bytes :=
  if (n <=? length value + 1)%nat then Ok (take n (value ++ [0])) else UB.

(** * RocksDBCounter *)
(** RocksDBCounter::get, rocksdb_wrapper.cpp:85-99: [None] is "return false". *)
Definition rc_get (db : raw) (key : bytes) : res (option N) :=
  match db !! key with
  | Some data => b <~ copy_out 4 data; Ok (Some (le_val b))
  | None => Ok None
  end.
(** RocksDBCounter::get_and_increment, rocksdb_wrapper.cpp:101-132. *)
Definition rc_get_and_increment (db : raw) (key : bytes) : res (raw * N) :=
  r <~ rc_get db key;
  let val := match r with Some val => (val + 1) mod 2 ^ 32 | None => 0 end in
  Ok (<[key := le_bytes 4 val]> db, val).
(** RocksDBCounter::increment, rocksdb_wrapper.cpp:134-164. *)
Definition rc_increment (db : raw) (key : bytes) (default_value : N) : res raw :=
  r <~ rc_get db key;
  let val := match r with Some val => (val + 1) mod 2 ^ 32 | None => default_value end in
  Ok (<[key := le_bytes 4 val]> db).
(** RocksDBCounter::set, rocksdb_wrapper.cpp:166-182. *)
Definition rc_set (db : raw) (key : bytes) (val : N) : raw := <[key := le_bytes 4 val]> db.
(** RocksDBCounter::remove_key, rocksdb_wrapper.cpp:185-190. *)
Definition rc_remove (db : raw) (key : bytes) : raw := delete key db.

(** A call of a member function of RocksDBCounter, rocksdb_wrapper.hpp:260-268; the
    arguments that are uint32_t are less than 2^32. *)
Inductive rcall :=
| RGet (key : bytes)
| RGetInc (key : bytes)
| RInc (key : bytes) (default_value : N)
| RSet (key : bytes) (val : N)
| RRemove (key : bytes).
(** What it answers: the value, if there is one (rocksdb_wrapper.hpp:260-268). *)
Definition rc_call (db : raw) (c : rcall) : res (raw * option N) :=
  match c with
  | RGet key => r <~ rc_get db key; Ok (db, r)
  | RGetInc key => r <~ rc_get_and_increment db key; Ok (r.1, Some r.2)
  | RInc key d => db' <~ rc_increment db key d; Ok (db', None)
  | RSet key val => Ok (rc_set db key val, None)
  | RRemove key => Ok (rc_remove db key, None)
  end.
(** Several calls (rocksdb_wrapper.hpp:260-268). *)
Fixpoint rc_calls (db : raw) (cs : list rcall) : res (raw * list (option N)) :=
  match cs with
  | [] => Ok (db, [])
  | c :: cs' =>
      r <~ rc_call db c;
      r' <~ rc_calls r.1 cs';
      Ok (r'.1, r.2 :: r'.2)
  end.

(** * RockDBWrapper *)
(** The Slice of a pointer and a key_length that is a uint8_t, rocksdb_wrapper.hpp:170 and
    215, 447: [mem] is what is behind the pointer, [len] the argument, which is converted. *)
Definition ptr_key (mem : bytes) (len : N) : res bytes :=
  let n := N.to_nat (len mod 256) in
  if (n <=? length mem)%nat then Ok (take n mem) else UB.

(** A call of a member function of RockDBWrapper, rocksdb_wrapper.hpp:44-60: get of a
    string, get of an array or of a pointer into an object of [size] bytes, put, remove of an
    array or of a pointer. *)
Inductive wcall :=
| WGetStr (key : bytes)
| WGet (key : bytes) (size : nat)
| WGetPtr (mem : bytes) (len : N) (size : nat)
| WPut (key : bytes) (data : bytes)
| WRemove (key : bytes)
| WRemovePtr (mem : bytes) (len : N).
(** What it answers: the bytes copied to the object, if the key is found
    (rocksdb_wrapper.hpp:44-60). *)
Definition w_call (db : raw) (c : wcall) : res (raw * option bytes) :=
  match c with
  | WGetStr key =>                    (* rocksdb_wrapper.hpp:141-146 *)
      Ok (db, db !! key)
  | WGet key size =>                  (* rocksdb_wrapper.hpp:148-162 *)
      match db !! key with Some v => b <~ copy_out size v; Ok (db, Some b) | None => Ok (db, None) end
  | WGetPtr mem len size =>           (* rocksdb_wrapper.hpp:164-181 *)
      key <~ ptr_key mem len;
      match db !! key with Some v => b <~ copy_out size v; Ok (db, Some b) | None => Ok (db, None) end
  | WPut key data =>                  (* rocksdb_wrapper.hpp:183-201 *)
      Ok (<[key := data]> db, None)
  | WRemove key =>                    (* rocksdb_wrapper.hpp:203-211 *)
      Ok (delete key db, None)
  | WRemovePtr mem len =>             (* rocksdb_wrapper.hpp:213-220 *)
      key <~ ptr_key mem len; Ok (delete key db, None)
  end.
(** Several calls (rocksdb_wrapper.hpp:44-60). *)
Fixpoint w_calls (db : raw) (cs : list wcall) : res (raw * list (option bytes)) :=
  match cs with
  | [] => Ok (db, [])
  | c :: cs' =>
      r <~ w_call db c;
      r' <~ w_calls r.1 cs';
      Ok (r'.1, r.2 :: r'.2)
  end.

(** * RockDBListStore *)
Section lists.
  Context {T : Type}.
  (** serialize and deserialize of the Serializer, rocksdb_wrapper.hpp:285-292; [None] is
      "return false", otherwise the element and where the iterator is then. *)
  Variable ser : T -> bytes.
  Variable deser : bytes -> res (option (T * bytes)).

  (** RockDBListStore::put of an array, rocksdb_wrapper.hpp:471-502. *)
  Definition l_put (db : raw) (key : bytes) (data : list T) : raw := <[key := data ≫= ser]> db.
  (** The loop of rocksdb_wrapper.hpp:434-436 and 463-466. *)
  Fixpoint l_loop (fuel : nat) (s : bytes) : res (list T) :=
    match fuel with
    | O => OutOfFuel
    | S fuel' =>
        r <~ deser s;
        match r with
        | None => Ok []
        | Some (elt, s') => data <~ l_loop fuel' s'; Ok (elt :: data)
        end
    end.
  (** What is left in [data] and what is returned, rocksdb_wrapper.hpp:424-440, 452-469: the
      list is emptied first. *)
  Definition l_read (db : raw) (key : bytes) : res (bool * list T) :=
    match db !! key with
    | Some s => data <~ l_loop (S (length s)) s; Ok (true, data)
    | None => Ok (false, [])
    end.
  (** get of a string, rocksdb_wrapper.hpp:419-440. *)
  Definition l_get_str (db : raw) (key : bytes) : res (bool * list T) := l_read db key.
  (** get of a pointer, rocksdb_wrapper.hpp:442-469: key_length is a uint8_t. *)
  Definition l_get_ptr (db : raw) (mem : bytes) (len : N) : res (bool * list T) :=
    key <~ ptr_key mem len; l_read db key.
  (** get of an array of N bytes, rocksdb_wrapper.hpp:308-312: its size is passed for
      key_length. *)
  Definition l_get (db : raw) (key : bytes) : res (bool * list T) :=
    l_get_ptr db key (N.of_nat (length key)).
End lists.

(** * GenericRocksDBStore of Pluto *)
(** insert, rocksdb_store.hpp:45-64: the values are eight bytes each (index_type). *)
Definition g_insert (db : raw) (key : bytes) (value : list N) : raw := <[key := value ≫= le64]> db.
(** get of an array of [n] values, rocksdb_store.hpp:66-91. *)
Definition g_get (db : raw) (key : bytes) (n : nat) : res (list N) :=
  match db !! key with
  | Some value =>
      b <~ copy_out (n * 8) value;
      Ok (le_val <$> chunks 8 n b)
  | None => Throw OutOfRange
  end.
