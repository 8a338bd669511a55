(** Final theorems about the Tethys scheme (property C17). *)
From stdpp Require Import prelude gmap.
From Coq Require Import ZArith NArith Lia.
From Verif Require Import Base EncModel EncSpec EncProofs StoreModel StoreSpec KvModel
  SchemeModel SchemeSpec SchemeProofs Props_Enc.
Local Open Scope nat_scope.

(** ** C17: a search returns exactly the identifiers of the keyword. *)
(** Proved for the databases in which a list that fills its last block exactly is
    only followed by empty lists (in particular, for all the databases none of
    whose lists has a length multiple of the block length): the scheme stores an
    empty last block in that case, see the refutation below. *)
Theorem C17_search :
  forall sc db sb,
    scheme_ok sc db -> full_lists_last sc db -> new_store_builder (sc_store sc) = Ok sb ->
    exists b f c,
      insert_db sc (TB sb ∅) db = (b, replicate (length db) (Ok tt)) /\
      (exists fuel, forall fuel', fuel <= fuel' -> (tethys_build fuel' sc b).2 = Ok f) /\
      open_client sc (tb_counters b) f = Ok c /\
      forall w, exists r, tethys_search sc c (open_server f) w = Ok r /\ r ≡ₚ ids_of w db.
Proof. intros sc db sb Hok Hf Hb. by apply scheme_correct. Qed.
Print Assumptions C17_search.
(** The same with the counters as the build leaves them, for the client of that process. *)
Theorem C17_after_build :
  forall sc db sb,
    scheme_ok sc db -> full_lists_last sc db -> new_store_builder (sc_store sc) = Ok sb ->
    exists f, exists fuel, forall fuel', fuel <= fuel' -> exists b c,
      tethys_build fuel' sc (insert_db sc (TB sb ∅) db).1 = (b, Ok f) /\
      open_client sc (tb_counters b) f = Ok c /\
      forall w, exists r, tethys_search sc c (open_server f) w = Ok r /\ r ≡ₚ ids_of w db.
Proof.
  intros sc db sb Hok Hf Hb. destruct (C17_search sc db sb Hok Hf Hb) as (b & f & c & H1 & (fuel & H2) & H3 & H4).
  exists f, fuel. intros fuel' Hle. specialize (H2 fuel' Hle). rewrite H1. cbn [fst].
  exists (tethys_build fuel' sc b).1, c. split; [by rewrite <- H2, <- surjective_pairing|]. split; [done|done].
Qed.
Print Assumptions C17_after_build.

(** An insertion that fails leaves the counters as they were. *)
Theorem C17_failed sc b w ids b' r :
  tethys_insert sc b w ids = (b', r) -> r <> Ok tt -> tb_counters b' = tb_counters b.
Proof.
  unfold tethys_insert. destruct (insert_blocks sc _ (tb_store b) 0 [] ids) as [s1 r1]. cbn [fst snd].
  destruct r1 as [[bc block]| | |]; try (intros [= <- <-]; done).
  destruct (store_insert (sc_store sc) s1 _ block) as [s2 r2]. cbn [fst snd].
  destruct r2; intros [= <- <-]; done.
Qed.
Print Assumptions C17_failed.

Lemma insert_blocks_count sc token ids : forall b n block b' n' block',
  let m := max_list_size (sp_enc (sc_store sc)) in
  length block < m -> insert_blocks sc token b n block ids = (b', Ok (n', block')) ->
  n' = n + (length block + length ids) / m /\ length block' = (length block + length ids) mod m.
Proof.
  induction ids as [|id ids IH]; intros b n block b' n' block' m Hb H; cbn [insert_blocks] in H.
  - injection H as <- <- <-. cbn [length]. rewrite Nat.add_0_r, Nat.div_small, Nat.mod_small by done. lia.
  - fold m in H. rewrite app_length in H. cbn [length] in H. case_bool_decide as E.
    + destruct (store_insert _ b _ _) as [s1 [u| | |]]; cbn [fst snd] in H; try done.
      apply IH in H as [H1 H2]; [|cbn; fold m; lia]. fold m in H1, H2. cbn [length] in *.
      replace (length block + S (length ids)) with (length ids + 1 * m) by lia.
      rewrite Nat.div_add, Nat.mod_add by lia. rewrite H2, H1, Nat.add_0_l. split; [lia|done].
    + apply IH in H; [|rewrite app_length; cbn [length]; fold m; lia]. fold m in H.
      rewrite app_length in H. cbn [length] in *. by replace (length block + S (length ids)) with (length block + 1 + length ids) by lia.
Qed.
(** An insertion that succeeds sets the counter of its keyword, and no other, to one more than the
    number of full blocks (the counters have 32 bits). *)
Theorem C17_counter sc b w ids b' :
  0 < max_list_size (sp_enc (sc_store sc)) -> tethys_insert sc b w ids = (b', Ok tt) ->
  tb_counters b' !! w = Some (N.of_nat (length ids / max_list_size (sp_enc (sc_store sc)) + 1) mod 2 ^ 32)%N /\
  forall w', w' <> w -> tb_counters b' !! w' = tb_counters b !! w'.
Proof.
  intros Hm. unfold tethys_insert. destruct (insert_blocks sc _ (tb_store b) 0 [] ids) as [s1 r1] eqn:E. cbn [fst snd].
  destruct r1 as [[n block]| | |]; try done. apply insert_blocks_count in E as [-> _]; [|done].
  destruct (store_insert (sc_store sc) s1 _ block) as [s2 r2]. cbn [fst snd].
  destruct r2; try done. intros [= <-]. cbn [tb_counters length]. unfold ctr_set. split.
  - by rewrite lookup_insert.
  - intros w' Hw. by rewrite lookup_insert_ne.
Qed.
Print Assumptions C17_counter.

(** The two positions of a 16-byte key are its two halves. *)
Theorem C17_identity_hasher :
  forall a b, (a < 2 ^ 64)%N -> (b < 2 ^ 64)%N -> identity_hasher (le64 a ++ le64 b) = (a, b).
Proof.
  intros a b Ha Hb. unfold identity_hasher. pose proof (le64_val a Ha) as Va. pose proof (le64_val b Hb) as Vb.
  assert (length (le64 a) = 8 /\ length (le64 b) = 8) as [La Lb] by (rewrite !le64_length; done).
  rewrite (take_app_alt _ _ 8), (drop_app_alt _ _ 8), (take_ge (le64 b)) by lia. by rewrite Va, Vb.
Qed.
Print Assumptions C17_identity_hasher.
Example C17_identity_hasher_example : identity_hasher (le64 (2 ^ 64 - 1) ++ le64 77) = (2 ^ 64 - 1, 77)%N.
Proof. by apply C17_identity_hasher. Qed.

(** A scheme over encrypted pages of 128 bytes, with blocks of 10 identifiers:
    one list of three blocks, one short list, one list of exactly one block and
    an empty one. *)
Definition ex_sc (n : nat) : scheme :=
  Scheme (SPar ex_p n identity_hasher (Encrypted ex_ks [1%N; 2%N]))
    (fun w => replicate 8 0%N ++ le64 (le_val w)) (fun x => take 16 (drop 8 x ++ replicate 16 0%N)).
Definition ex_list (n : nat) : list N := N.of_nat <$> seq 100 n.
Definition ex_tdb : database :=
  [([1%N], ex_list 23); ([2%N], ex_list 3); ([3%N], ex_list 10); ([4%N], [])].
Lemma ex_hash_length x : length (take 16 (drop 8 x ++ replicate 16 0%N)) = 16.
Proof. rewrite take_length, app_length, replicate_length. lia. Qed.
Lemma derive_ok_check sc ws uses :
  (forall w, length (sc_prf sc w) = 16) -> NoDup (sc_prf sc <$> ws) ->
  Forall (fun u => Forall (fun v =>
    sc_hash sc (key_input sc u.1 u.2) = sc_hash sc (key_input sc v.1 v.2) ->
    key_input sc u.1 u.2 = key_input sc v.1 v.2) uses) uses ->
  derive_ok sc ws uses.
Proof.
  intros H1 H2 H3. split; [done|done|]. intros u v Hu Hv.
  rewrite Forall_forall in H3. specialize (H3 u Hu). rewrite Forall_forall in H3. by apply H3.
Qed.
Ltac derive_ok_tac :=
  apply derive_ok_check;
  [ intros w; simpl; by rewrite le64_length
  | apply (bool_decide_unpack _); by vm_compute
  | apply (bool_decide_unpack _); by vm_compute ].
Example ex_scheme_ok : scheme_ok (ex_sc 4) ex_tdb /\ full_lists_last (ex_sc 4) ex_tdb.
Proof.
  split.
  - split; try done.
    + vm_compute. lia.
    + simpl. lia.
    + exact ex_ks_length.
    + intros x. apply ex_hash_length.
    + apply (bool_decide_unpack _). by vm_compute.
    + apply (bool_decide_unpack _). by vm_compute.
    + apply (bool_decide_unpack _). by vm_compute.
    + derive_ok_tac.
  - intros i j x y Hij Hi Hj Hm. unfold ex_tdb in Hi, Hj.
    destruct i as [|[|[|[|i]]]]; simplify_eq/=; try discriminate Hm.
    + destruct j as [|[|[|[|j]]]]; simplify_eq/=; try lia. done.
    + destruct j as [|[|[|[|j]]]]; simplify_eq/=; lia.
Qed.
Example ex_search : search_after 100 (ex_sc 4) ex_tdb [2%N] = Ok [100; 101; 102]%N.
Proof. by vm_compute. Qed.

(** Insertions of a short and of a long list in a builder that was built fail. *)
Example C17_failed_example a d c :
  let b := TB (SB a d true) c in
  tethys_insert (ex_sc 4) b [1%N] [5%N] = (b, Throw RuntimeError) /\
  tethys_insert (ex_sc 4) b [1%N] (ex_list 12) = (b, Throw RuntimeError).
Proof. split; vm_compute; reflexivity. Qed.
(** A list of one identifier takes one block; one of twelve takes two. *)
Example C17_counter_example :
  match new_store_builder (sc_store (ex_sc 4)) with
  | Ok sb =>
      let r1 := tethys_insert (ex_sc 4) (TB sb ∅) [1%N] [5%N] in
      let r2 := tethys_insert (ex_sc 4) (fst r1) [2%N] (ex_list 12) in
      snd r1 = Ok tt /\ snd r2 = Ok tt /\
      tb_counters (fst r2) !! [1%N] = Some 1%N /\ tb_counters (fst r2) !! [2%N] = Some 2%N
  | _ => False
  end.
Proof. vm_compute. repeat split. Qed.
(** The property is false: when the length of a list is a multiple of the block
    length, the documents of another keyword may be lost. *)
Theorem C17_multiple_refuted :
  exists sc db w,
    scheme_ok sc db /\ ids_of w db <> [] /\ search_after 100 sc db w = Ok [].
Proof.
  exists (ex_sc 2), [([1%N], ex_list 10); ([2%N], [7%N; 8%N])], [2%N].
  split; [|split; [done|by vm_compute]].
  split; try done.
  - vm_compute. lia.
  - exact ex_ks_length.
  - intros x. apply ex_hash_length.
  - apply (bool_decide_unpack _). by vm_compute.
  - apply (bool_decide_unpack _). by vm_compute.
  - apply (bool_decide_unpack _). by vm_compute.
  - derive_ok_tac.
Qed.
Print Assumptions C17_multiple_refuted.
