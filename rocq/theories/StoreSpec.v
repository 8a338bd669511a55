(** Specification of the Tethys store: a finite map from keys to lists. *)
From stdpp Require Import prelude gmap.
From Coq Require Import ZArith NArith Lia.
From Verif Require Import Base EncModel EncSpec StoreModel.
Local Open Scope nat_scope.

(** Insertions one after the other, going on after a refusal. *)
Fixpoint run_inserts (sp : sparams) (b : sbuilder) (kvs : list (bytes * list bytes))
  : sbuilder * list (res unit) :=
  match kvs with
  | [] => (b, [])
  | kv :: kvs' =>
      let r := store_insert sp b kv.1 kv.2 in
      let r' := run_inserts sp r.1 kvs' in
      (r'.1, r.2 :: r'.2)
  end.

(** Lists that a page can hold with their control words. *)
Definition admissible (p : eparams) (kv : bytes * list bytes) : Prop :=
  length kv.2 + list_control p <= bucket_size p.
Global Instance admissible_dec p kv : Decision (admissible p kv).
Proof. unfold admissible. apply _. Defined.

Definition accepted (p : eparams) (kvs : list (bytes * list bytes)) : list (bytes * list bytes) :=
  filter (admissible p) kvs.

(** The values of a key. *)
Definition values_of (k : bytes) (kvs : list (bytes * list bytes)) : list bytes :=
  match list_find (fun kv => kv.1 = k) kvs with Some (_, kv) => kv.2 | None => [] end.

(** The only thing asked of the keystream: it has the requested length. *)
Definition cipher_ok (c : cipher) : Prop :=
  match c with Plain => True | Encrypted ks _ => forall k n l, length (ks k n l) = l end.

Record db_ok (sp : sparams) (kvs : list (bytes * list bytes)) : Prop := DbOk {
  dk_words : words (sp_enc sp);
  dk_size : 2 <= sp_n sp;
  dk_cipher : cipher_ok (sp_cipher sp);
  dk_objs : Forall (fun kv => obj_ok (sp_enc sp) kv.1 kv.2) kvs;
  dk_keys : NoDup (accepted (sp_enc sp) kvs).*1
}.

(** The accepted empty lists, if any, were inserted after the other ones. *)
Definition empty_lists_last (p : eparams) (kvs : list (bytes * list bytes)) : Prop :=
  exists a1 a2, accepted p kvs = a1 ++ a2 /\ Forall (fun kv => kv.2 <> []) a1 /\
    Forall (fun kv => kv.2 = []) a2.

(** Enough fuel for the allocation: the entries asked for. *)
Definition store_fuel (p : eparams) (kvs : list (bytes * list bytes)) : nat :=
  S (foldr (fun kv s => length kv.2 + list_control p + s) 0 (accepted p kvs)).

(** Insert, build, open and look a key up. *)
Definition lookup_after (sp : sparams) (kvs : list (bytes * list bytes)) (k : bytes)
  : res (list bytes) :=
  b0 <~ new_store_builder sp;
  f <~ (store_build (store_fuel (sp_enc sp) kvs) sp (run_inserts sp b0 kvs).1).2;
  s <~ open_store (sp_enc sp) f;
  get_list sp s k.
