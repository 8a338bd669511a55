(** What searches must find after several builders have used the same files. *)
From stdpp Require Import prelude gmap.
From Coq Require Import ZArith NArith.
From Verif Require Import Base EncModel StoreModel StoreSpec VecModel LifeModel TethysLifeModel TethysLifeSpec KvModel
  SchemeModel SchemeSpec TethysCtrModel.

(** A search of [w] finds these documents, in some order. *)
Definition t_found (sc : scheme) (d : tdisk) (w : bytes) (ids : list N) : Prop :=
  exists r, t_search sc d w = Ok r /\ r ≡ₚ ids.

(** The calls that insert the lists of a database. *)
Definition inserts (db : database) (sets : list bool) : list tcall :=
  zip_with (fun x set => CInsert x.1 x.2 set) db sets.

(** Number of documents in a block, and of blocks of a list: a last block, possibly empty, follows the
    complete ones. *)
Definition block_length (sc : scheme) : nat := max_list_size (sp_enc (sc_store sc)).
Definition blocks (sc : scheme) (ids : list N) : nat := S (length ids / block_length sc).

(** No table and no stash yet. *)
Definition no_store (d : tdisk) : Prop := content Pages (td_files d) = [] /\ dk_stash (td_files d) = None.

(** The counters are 32-bit numbers, and the keys of the blocks they announce do not collide with each
    other nor with those of the database. *)
Definition separated (sc : scheme) (db : database) (c : counters) : Prop :=
  exists ws uses, derive_ok sc ws uses /\ db.*1 ⊆ ws /\ uses_of sc db ⊆ uses /\
    forall w n, c !! w = Some n -> (n < 2 ^ 32)%N /\ w ∈ ws /\ forall i, i < N.to_nat n -> (w, i) ∈ uses.

(** The calls of a process that dies before it builds anything. *)
Definition no_build (cs : list tcall) : Prop := Forall (fun c => match c with CInsert _ _ _ => True | CBuild _ => False end) cs.
