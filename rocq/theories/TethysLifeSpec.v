(** Specification of the files of a builder of Tethys. *)
From stdpp Require Import prelude gmap.
From Coq Require Import ZArith NArith Lia.
From Verif Require Import Base EncModel EncSpec StoreModel StoreSpec VecModel LifeModel LifeSpec TethysLifeModel.
Local Open Scope nat_scope.

(** The stream may cut what it writes in any way, but writes all of it in order. *)
Definition cuts (cut : bytes -> list bytes) : Prop := forall b, mjoin (cut b) = b.

(** The builder in which the lists have been inserted. *)
Definition loaded (sp : sparams) (kvs : list (bytes * list bytes)) (b : sbuilder) : Prop :=
  exists b0, new_store_builder sp = Ok b0 /\ b = (run_inserts sp b0 kvs).1.

(** An answer made of values of the key, each at most as often as it was inserted. *)
Definition part_of (sp : sparams) (kvs : list (bytes * list bytes)) (key : bytes) (r : list bytes) : Prop :=
  r ⊆+ values_of key (accepted (sp_enc sp) kvs).
