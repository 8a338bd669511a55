(** Final theorems about the Tethys store (properties C15, C16, C56). *)
From stdpp Require Import prelude gmap.
From Coq Require Import ZArith NArith Lia.
From Verif Require Import Base GraphModel EncModel EncSpec EncProofs StoreModel StoreSpec
  StoreProofs StoreTheorems Props_Enc.
Local Open Scope nat_scope.

(** ** C15: what was inserted is what is found. *)
Theorem C15_store_lookup :
  forall sp kvs b0,
    db_ok sp kvs -> new_store_builder sp = Ok b0 ->
    Forall (fun kv => kv.2 <> []) (accepted (sp_enc sp) kvs) ->
    exists b2 f s,
      (** a list is refused exactly when it is too long for a page *)
      (run_inserts sp b0 kvs).2 =
        ((fun kv => if decide (admissible (sp_enc sp) kv) then Ok tt else Throw InvalidArgument) <$> kvs) /\
      (forall fuel, store_fuel (sp_enc sp) kvs <= fuel ->
         store_build fuel sp (run_inserts sp b0 kvs).1 = (b2, Ok f)) /\
      open_store (sp_enc sp) f = Ok s /\
      forall k, exists r, get_list sp s k = Ok r /\ r ≡ₚ values_of k (accepted (sp_enc sp) kvs).
Proof.
  intros sp kvs b0 Hdb Hb Hne. apply store_correct; auto.
  exists (accepted (sp_enc sp) kvs), []. rewrite app_nil_r. auto.
Qed.
Print Assumptions C15_store_lookup.

(** An encrypted store of four pages and a plain store of two pages in which all
    lists compete for the same bins, so that part of them is stashed; a fourth
    list is too long. *)
Definition ex_long : bytes * list bytes := (ex_key 9, ex_val <$> (N.of_nat <$> seq 0 11)).
Definition ex_db : list (bytes * list bytes) := ex_kvs ++ [ex_long].
Definition ex_sp2 : sparams := SPar ex_p 2 (fun _ => (0, 0)%N) Plain.
Example ex_db_ok : db_ok ex_sp ex_db /\ db_ok ex_sp2 ex_db /\
  Forall (fun kv => kv.2 <> []) (accepted ex_p ex_db) /\ accepted ex_p ex_db = ex_kvs.
Proof.
  assert (HN : NoDup (accepted ex_p ex_db).*1).
  { apply (bool_decide_unpack _). by vm_compute. }
  assert (HO : Forall (fun kv => obj_ok ex_p kv.1 kv.2) ex_db).
  { repeat constructor; try done; apply le64_length. }
  split_and!.
  - split; [apply ex_p_words|simpl; lia|exact ex_ks_length|exact HO|exact HN].
  - split; [apply ex_p_words|simpl; lia|done|exact HO|exact HN].
  - assert (E : accepted ex_p ex_db = ex_kvs) by by vm_compute. rewrite E.
    repeat constructor; done.
  - by vm_compute.
Qed.
Example ex_db_stashed :
  (b0 <~ new_store_builder ex_sp2;
   f <~ (store_build (store_fuel ex_p ex_db) ex_sp2 (run_inserts ex_sp2 b0 ex_db).1).2;
   Ok (bool_decide (is_Some (sf_stash f)))) = Ok true.
Proof. by vm_compute. Qed.

(** ** C16: empty lists. *)
(** The property is false: a list is lost when an empty list, inserted before it,
    shares its page. *)
Theorem C16_empty_list_refuted :
  exists sp kvs k0 k r,
    db_ok sp ((k0, []) :: kvs) /\ k <> k0 /\
    lookup_after sp kvs k = Ok r /\ r <> [] /\
    lookup_after sp ((k0, []) :: kvs) k = Ok [].
Proof.
  exists ex_sp2, [(ex_key 2, ex_val <$> [7; 8]%N)], (ex_key 1), (ex_key 2). eexists.
  split; [|split; [done|]; split; [by vm_compute|]; split; [done|by vm_compute]].
  split; [apply ex_p_words|simpl; lia|done| |].
  - repeat constructor; try done; apply le64_length.
  - apply (bool_decide_unpack _). by vm_compute.
Qed.
Print Assumptions C16_empty_list_refuted.

(** It holds when the empty lists are inserted after all the others. *)
Theorem C16_empty_lists_last :
  forall sp kvs b0,
    db_ok sp kvs -> new_store_builder sp = Ok b0 -> empty_lists_last (sp_enc sp) kvs ->
    exists b2 f s,
      (forall fuel, store_fuel (sp_enc sp) kvs <= fuel ->
         store_build fuel sp (run_inserts sp b0 kvs).1 = (b2, Ok f)) /\
      open_store (sp_enc sp) f = Ok s /\
      forall k, exists r, get_list sp s k = Ok r /\ r ≡ₚ values_of k (accepted (sp_enc sp) kvs).
Proof.
  intros sp kvs b0 Hdb Hb Hne. destruct (store_correct sp kvs b0 Hdb Hb Hne) as (b2 & f & s & _ & H).
  eauto.
Qed.
Print Assumptions C16_empty_lists_last.
Example ex_last : empty_lists_last ex_p (ex_kvs ++ [(ex_key 10, []); (ex_key 11, [])]) /\
  db_ok ex_sp (ex_kvs ++ [(ex_key 10, []); (ex_key 11, [])]).
Proof.
  split.
  - exists ex_kvs, [(ex_key 10, []); (ex_key 11, [])]. split; [by vm_compute|].
    split; repeat constructor; done.
  - split; [apply ex_p_words|simpl; lia|exact ex_ks_length| |].
    + repeat constructor; try done; apply le64_length.
    + apply (bool_decide_unpack _). by vm_compute.
Qed.

(** ** C56: life cycle of the builder. *)
(** Once built, both operations are refused and change nothing; before, an
    insertion never fails otherwise than by refusing a list that is too long, and
    a refused list changes the result of no lookup (it is absent from
    [accepted] in C15). *)
Theorem C56_built_is_final :
  forall fuel sp b b' f,
    store_build fuel sp b = (b', Ok f) ->
    forall fuel' k v, store_insert sp b' k v = (b', Throw RuntimeError) /\
      store_build fuel' sp b' = (b', Throw RuntimeError).
Proof.
  intros fuel sp b b' f H fuel' k v. assert (Hb : sb_built b' = true).
  { unfold store_build in H. destruct (sb_built b); [done|].
    destruct (AllocModel.allocate fuel (sb_alloc b)); try done.
    destruct (write_files sp (sb_data b) a); by simplify_eq. }
  unfold store_insert, store_build. by rewrite Hb.
Qed.
Print Assumptions C56_built_is_final.
