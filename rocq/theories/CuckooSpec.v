(** Specification of the cuckoo allocator and of the table built with it. *)
From stdpp Require Import prelude.
From Coq Require Import ZArith NArith Lia.
From Verif Require Import Base EncModel VecModel CuckooModel.
Local Open Scope nat_scope.

(** * Allocator *)
(** Successive insertions: the allocator and what each insertion returned. *)
Fixpoint ca_inserts (a : calloc) (l : list ((N * N) * N)) : res (calloc * list N) :=
  match l with
  | [] => Ok (a, [])
  | (h, i) :: l' =>
      r <~ ca_insert a h i;
      r' <~ ca_inserts r.1 l';
      Ok (r'.1, r.2 :: r'.2)
  end.

(** What an insertion asks to store. *)
Definition asked (x : (N * N) * N) : cval := CVal x.1.1 x.1.2 x.2.

(** A slot: a table and a position; what it holds, if anything. *)
Definition holds (a : calloc) (s : bool * nat) (v : cval) : Prop :=
  (if s.1 then ca_t1 a else ca_t0 a) !! s.2 = Some v /\ cv_index v <> no_index.
(** The slot is one of the two slots of the value. *)
Definition admissible (size : nat) (s : bool * nat) (v : cval) : Prop :=
  N.of_nat s.2 = ((if s.1 then cv_h1 v else cv_h0 v) mod N.of_nat size)%N.

Definition full (v : cval) : Prop := cv_index v <> no_index.
#[global] Instance full_dec v : Decision (full v).
Proof. unfold full. apply _. Defined.

(** All the values held by the two tables. *)
Definition contents (a : calloc) : list cval := filter full (ca_t0 a ++ ca_t1 a).
(** The values reported as spilled by the insertions. *)
Definition reported (outs : list N) : list N := filter (fun i => i <> no_index) outs.

(** A walk of evictions: starting from state [a] with value [v] to be put in table
    [t], the values found in the slots visited are [found], and [u] is left over in
    state [a']. *)
Inductive eviction : calloc -> bool -> cval -> list cval -> calloc -> cval -> Prop :=
| ev_nil a t v : eviction a t v [] a v
| ev_cons a t v old found a1 a2 u s :
    s.1 = t -> admissible (ca_size a) s v ->
    (if t then ca_t1 a else ca_t0 a) !! s.2 = Some old ->
    a1 = CAlloc (ca_size a) (ca_depth a)
           (if t then ca_t0 a else <[s.2 := v]> (ca_t0 a))
           (if t then <[s.2 := v]> (ca_t1 a) else ca_t1 a) ->
    eviction a1 (negb t) old found a2 u ->
    eviction a t v (old :: found) a2 u.

(** * Builder *)
Fixpoint cb_inserts (hash : bytes -> N * N) (b : cbuilder) (kvs : list (bytes * bytes))
  : cbuilder * list (res unit) :=
  match kvs with
  | [] => (b, [])
  | (k, v) :: kvs' =>
      let r := cb_insert hash b k v in
      let r' := cb_inserts hash r.1 kvs' in
      (r'.1, r.2 :: r'.2)
  end.

(** Building a table on fresh files: the builder after the insertions, what they
    answered, and the file of the table. *)
Definition cb_build (sz size depth max_n : nat) (hash : bytes -> N * N)
    (kvs : list (bytes * bytes)) : cbuilder * list (res unit) * (bytes * res unit) :=
  let r := cb_inserts hash (cb_new sz size depth max_n []) kvs in
  let c := cb_commit sz r.1 [] in
  (r.1, r.2, (c.1.2, c.2)).

(** The key made of 0xFF bytes. *)
Definition ff_key (ksz : nat) : bytes := replicate ksz 255%N.
(** The pairs have keys and values of the right sizes. *)
Definition kv_ok (ksz vsz : nat) (kvs : list (bytes * bytes)) : Prop :=
  Forall (fun kv => length kv.1 = ksz /\ length kv.2 = vsz) kvs.
