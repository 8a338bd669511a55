(** Specification of the files of a builder of Oceanus. *)
From stdpp Require Import prelude.
From Coq Require Import ZArith NArith Lia.
From Verif Require Import Base EncModel VecModel CuckooModel CuckooSpec LifeModel.
Local Open Scope nat_scope.

(** No file. *)
Definition no_files : disk := Disk None None None None.

(** Insertions, and a whole build. *)
Definition inserts (kvs : list (bytes * bytes)) : list bcall := (fun kv => BInsert kv.1 kv.2) <$> kvs.
Definition build (kvs : list (bytes * bytes)) : list bcall := inserts kvs ++ [BCommit].

(** The disk when the process dies after [k] of its system calls. *)
Definition dies (d : disk) (ops : list fop) (k : nat) : disk := do_ops d (take k ops).

(** The keys that the filling of the files imitates: 0xFF in a free slot of the
    table, 0 in a slot that was reserved and not written. *)
Definition zero_key (ksz : nat) : bytes := replicate ksz 0%N.
Definition plain_key (ksz : nat) (key : bytes) : Prop :=
  length key = ksz /\ key <> ff_key ksz /\ key <> zero_key ksz.
(** Nothing in either file. *)
Definition clean (d : disk) : Prop := content Tmp d = [] /\ content Tab d = [].
