(** Final theorems about the Pluto scheme (properties C29 and C30). *)
From stdpp Require Import prelude gmap.
From Coq Require Import ZArith NArith Lia.
From Verif Require Import Base EncModel EncSpec EncProofs VecModel CuckooModel.
From Verif Require CuckooSpec.
From Verif Require Import StoreModel StoreSpec KvModel SchemeModel SchemeSpec PlutoModel PlutoSpec
  PlutoProofs Props_Enc Props_Scheme.
Local Open Scope nat_scope.
Local Arguments N.of_nat : simpl never.
Local Arguments N.modulo : simpl never.
Local Arguments N.mul : simpl never.
Local Arguments N.div : simpl never.

(** ** C29: a search returns exactly the identifiers of the keyword. *)
(** What a search returns, whatever the hash table: the incomplete block, and the
    complete blocks that come before the first block lost by the hash table, each
    padded with zeros. *)
Theorem C29_search :
  forall pp rand n_elts db ws b0,
    pluto_ok pp rand n_elts db ws -> pluto_new pp = Ok b0 ->
    exists b b' f c s,
      pluto_insert_db pp b0 db = (b, replicate (length db) (Ok tt)) /\
      (exists fuel, forall fuel', fuel <= fuel' -> pluto_build fuel' pp rand n_elts b = (b', Ok f)) /\
      pluto_open_client pp f = Ok c /\ pluto_open_server pp f = Ok s /\
      forall w, w ∈ ws -> exists r,
        (exists fuel, forall fuel', fuel <= fuel' -> pluto_search fuel' pp c s w = Ok r) /\
        r ≡ₚ answer pp (lost_keys (table_keys pp rand n_elts db) (pb_ht b')) w (ids_of w db).
Proof.
  intros pp rand n_elts db ws b0 Hok Hb.
  destruct (pluto_correct pp rand n_elts db ws Hok b0 Hb) as (b & b' & f & c & s & H1 & H2 & H3 & H4 & _ & H5).
  exists b, b', f, c, s. by split_and!.
Qed.
Print Assumptions C29_search.

Lemma surviving_nil ks bs : length ks = length bs -> surviving [] ks bs = bs.
Proof.
  revert ks. induction bs as [|b bs IH]; intros [|k ks] H; simpl in *; try lia; [done|].
  f_equal. apply IH. lia.
Qed.

Lemma answer_exact pp w ids : 0 < p_len pp -> p_vlen pp = p_len pp -> answer pp [] w ids ≡ₚ ids.
Proof.
  intros HL E. unfold answer. rewrite E, Nat.sub_diag.
  rewrite surviving_nil.
  - destruct (blocks_all (p_len pp) ids HL) as [_ H].
    transitivity (rest (p_len pp) ids ++ mjoin (blocks (p_len pp) ids)).
    + apply Permutation_app; [done|]. apply reflexive_eq. f_equal.
      rewrite (list_fmap_ext _ id); [apply list_fmap_id|]. intros _ b _. simpl. by rewrite app_nil_r.
    + rewrite Permutation_app_comm. by rewrite H.
  - rewrite blocks_length. unfold full_keys. by rewrite fmap_length, seq_length.
Qed.

(** With the RocksDB table, the search is correct for every list length. *)
Theorem C29_rocksdb :
  forall pp rand n_elts db ws b0,
    pluto_ok pp rand n_elts db ws -> pp_ht pp = KRocks -> pluto_new pp = Ok b0 ->
    exists b b' f c s,
      pluto_insert_db pp b0 db = (b, replicate (length db) (Ok tt)) /\
      (exists fuel, forall fuel', fuel <= fuel' -> pluto_build fuel' pp rand n_elts b = (b', Ok f)) /\
      pluto_open_client pp f = Ok c /\ pluto_open_server pp f = Ok s /\
      forall w, w ∈ ws -> exists r,
        (exists fuel, forall fuel', fuel <= fuel' -> pluto_search fuel' pp c s w = Ok r) /\
        r ≡ₚ ids_of w db.
Proof.
  intros pp rand n_elts db ws b0 Hok Hk Hb.
  destruct (pluto_correct pp rand n_elts db ws Hok b0 Hb) as (b & b' & f & c & s & H1 & H2 & H3 & H4 & _ & H5).
  exists b, b', f, c, s. split_and!; auto. intros w Hw. destruct (H5 w Hw) as (r & Hr & Pr).
  exists r. split; [done|]. rewrite Pr.
  assert (Hh : ht_spilled (pb_ht b') = []).
  { destruct H2 as [fuel H2]. specialize (H2 fuel (le_n _)).
    assert (Hr0 : exists m, pb_ht b0 = BRocks m).
    { unfold pluto_new in Hb. apply rbind_ok in Hb as (sb & _ & Hb). injection Hb as <-. simpl.
      unfold ht_new. rewrite Hk. eauto. }
    assert (Hblk : forall token ids b bc block, (exists m, pb_ht b = BRocks m) ->
      exists m, pb_ht (p_blocks pp token b bc block ids).1 = BRocks m).
    { intros token ids. induction ids as [|id ids IH]; intros q bc block [m Hm]; simpl; [eauto|].
      case_bool_decide; [|eauto]. rewrite Hm. cbn [ht_insert fst snd]. apply IH. simpl. eauto. }
    assert (Hins : forall d q, (exists m, pb_ht q = BRocks m) -> exists m, pb_ht (pluto_insert_db pp q d).1 = BRocks m).
    { intros d. induction d as [|x d IH]; intros q Hq; simpl; [done|]. apply IH. unfold pluto_insert.
      pose proof (Hblk (sc_prf (pp_sc pp) x.1) x.2 q 1 [] Hq) as Hx.
      destruct ((p_blocks pp (sc_prf (pp_sc pp) x.1) q 1 [] x.2).2) as [[bc bl]| | |]; try done.
      case_bool_decide; done. }
    specialize (Hins db b0 Hr0). rewrite H1 in Hins. simpl in Hins. destruct Hins as [m Hm].
    assert (Hfill : forall n i m, exists m', fill_dummies pp rand n i (BRocks m) = (BRocks m', Ok tt)).
    { intros n. induction n as [|n IH]; intros i m'; simpl; [eauto|apply IH]. }
    unfold pluto_build in H2. rewrite Hm in H2.
    destruct (Hfill (N.to_nat (n_full_blocks pp n_elts - pb_complete b)) 0 m) as [m' Em].
    rewrite Em in H2. cbn [fst snd ht_commit] in H2. by injection H2 as <- _. }
  unfold lost_keys. rewrite Hh. apply answer_exact.
  - rewrite p_len_max by apply Hok. apply Hok.
  - unfold p_vlen, p_len. by rewrite Hk.
Qed.
Print Assumptions C29_rocksdb.

(** With the cuckoo table, the search is correct for the lists that do not fill a
    block. *)
Theorem C29_short :
  forall pp rand n_elts db ws b0,
    pluto_ok pp rand n_elts db ws -> pluto_new pp = Ok b0 ->
    exists b b' f c s,
      pluto_insert_db pp b0 db = (b, replicate (length db) (Ok tt)) /\
      (exists fuel, forall fuel', fuel <= fuel' -> pluto_build fuel' pp rand n_elts b = (b', Ok f)) /\
      pluto_open_client pp f = Ok c /\ pluto_open_server pp f = Ok s /\
      forall w, w ∈ ws -> length (ids_of w db) < p_len pp -> exists r,
        (exists fuel, forall fuel', fuel <= fuel' -> pluto_search fuel' pp c s w = Ok r) /\
        r ≡ₚ ids_of w db.
Proof.
  intros pp rand n_elts db ws b0 Hok Hb.
  destruct (pluto_correct pp rand n_elts db ws Hok b0 Hb) as (b & b' & f & c & s & H1 & H2 & H3 & H4 & _ & H5).
  exists b, b', f, c, s. split_and!; auto. intros w Hw Hl. destruct (H5 w Hw) as (r & Hr & Pr).
  exists r. split; [done|]. rewrite Pr. unfold answer.
  destruct (blocks_short _ _ Hl) as [-> ->]. destruct (full_keys pp w (ids_of w db)); simpl; by rewrite app_nil_r.
Qed.
Print Assumptions C29_short.

(** The zeros that come with each block of a cuckoo table: with 16-byte keys, four. *)
Lemma padding_cuckoo pp size depth max_n :
  pp_ht pp = KCuckoo size depth max_n -> 0 < max_list_size (pp_enc pp) ->
  p_vlen pp - p_len pp = key_entries (pp_enc pp) + 2 * len_entries (pp_enc pp).
Proof.
  intros E HM. rewrite p_len_max by done. unfold p_vlen. rewrite E.
  unfold cuckoo_list_length, max_list_size, list_control, ctl_half in *. lia.
Qed.

(** Otherwise the property is false of every database, every keyword that fills a
    block not lost by the table and every page size: the document 0, which was not
    inserted, is returned. *)
Theorem C29_cuckoo_wrong :
  forall pp size depth max_n rand n_elts db ws b0,
    pp_ht pp = KCuckoo size depth max_n ->
    pluto_ok pp rand n_elts db ws -> pluto_new pp = Ok b0 ->
    exists b b' f c s,
      pluto_insert_db pp b0 db = (b, replicate (length db) (Ok tt)) /\
      (exists fuel, forall fuel', fuel <= fuel' -> pluto_build fuel' pp rand n_elts b = (b', Ok f)) /\
      pluto_open_client pp f = Ok c /\ pluto_open_server pp f = Ok s /\
      forall w, w ∈ ws -> p_len pp <= length (ids_of w db) -> 0%N ∉ ids_of w db ->
        block_key (pp_sc pp) w 1 ∉
          lost_keys (table_keys pp rand n_elts db) (pb_ht b') ->
        exists r,
          (exists fuel, forall fuel', fuel <= fuel' -> pluto_search fuel' pp c s w = Ok r) /\
          0%N ∈ r /\ ~ r ≡ₚ ids_of w db.
Proof.
  intros pp size depth max_n rand n_elts db ws b0 Hk Hok Hb.
  destruct (pluto_correct pp rand n_elts db ws Hok b0 Hb) as (b & b' & f & c & s & H1 & H2 & H3 & H4 & _ & H5).
  exists b, b', f, c, s. split_and!; auto. intros w Hw Hl H0 Hlost. destruct (H5 w Hw) as (r & Hr & Pr).
  assert (HL : 0 < p_len pp) by (rewrite p_len_max by apply Hok; apply Hok).
  assert (Hz : 0%N ∈ r).
  { rewrite Pr. unfold answer. rewrite (padding_cuckoo pp size depth max_n Hk (po_block _ _ _ _ _ Hok)).
    apply elem_of_app. right. unfold full_keys. rewrite <- (blocks_length (p_len pp)).
    assert (Hbs : blocks (p_len pp) (ids_of w db) <> []).
    { intros E. pose proof (blocks_length (p_len pp) (ids_of w db)) as E'. rewrite E in E'. simpl in E'.
      symmetry in E'. apply Nat.div_small_iff in E'; lia. }
    destruct (blocks (p_len pp) (ids_of w db)) as [|b1 bs]; [done|].
    cbn [length seq]. rewrite fmap_cons. cbn [surviving]. rewrite decide_False by exact Hlost.
    csimpl. apply elem_of_app. left. apply elem_of_app. right.
    apply elem_of_replicate. split; [done|].
    assert (0 < len_entries (pp_enc pp)); [|lia].
    unfold len_entries. destruct (po_words _ _ _ _ _ Hok) as (-> & _). simpl. lia. }
  exists r. split_and!; auto. intros P. apply H0. by rewrite <- P.
Qed.
Print Assumptions C29_cuckoo_wrong.

(** Pages of 128 bytes: blocks of 10 identifiers, arrays of 14 (cuckoo) or 10
    (RocksDB).  Keys are the keyword, the block counter and zeros. *)
Definition ex_psc (n : nat) : scheme :=
  Scheme (SPar ex_p n identity_hasher (Encrypted ex_ks [1%N; 2%N]))
    (fun w => replicate 8 0%N ++ le64 (le_val w)) (fun x => take 16 (drop 8 x ++ replicate 16 0%N)).
Definition ex_rand (i : nat) : bytes := take 16 ([7%N; 7%N; N.of_nat i] ++ replicate 16 9%N).
Lemma ex_rand_length i : length (ex_rand i) = 16.
Proof. done. Qed.
Definition ex_pdb : database :=
  [([1%N], ex_list 23); ([2%N], ex_list 3); ([3%N], ex_list 10); ([4%N], [])].
Definition ex_ws : list bytes := [[1%N]; [2%N]; [3%N]; [4%N]; [5%N]].

Ltac pluto_ok_tac :=
  split;
  first [ done
    | exact ex_ks_length
    | intros x; apply ex_hash_length
    | simpl; lia
    | apply (bool_decide_unpack _); by vm_compute
    | split; apply (bool_decide_unpack _); by vm_compute
    | derive_ok_tac
    | split; [apply (bool_decide_unpack _); by vm_compute|];
        apply Forall_forall; apply (bool_decide_unpack _); by vm_compute
    | intros ? ? ? E; vm_compute in E; simplify_eq; split_and!;
        [lia|vm_compute; discriminate|apply (bool_decide_unpack _); by vm_compute] ].

Example ex_pluto_rocks : pluto_ok (PPar (ex_psc 4) KRocks) ex_rand 40 ex_pdb ex_ws.
Proof. pluto_ok_tac. Qed.
Example ex_pluto_cuckoo : pluto_ok (PPar (ex_psc 4) (KCuckoo 5 6 5)) ex_rand 40 ex_pdb ex_ws.
Proof. pluto_ok_tac. Qed.
Example ex_pluto_search :
  pluto_search_after 100 (PPar (ex_psc 4) KRocks) ex_rand 40 ex_pdb [3%N] = Ok (ex_list 10).
Proof. by vm_compute. Qed.

(** Witnesses: four documents 0 that no one inserted; a keyword whose documents are
    all lost although every insertion and the build succeeded. *)
Theorem C29_padding_refuted :
  exists pp rand n_elts db ws w r,
    pluto_ok pp rand n_elts db ws /\ w ∈ ws /\
    pluto_search_after 100 pp rand n_elts db w = Ok r /\ ~ r ≡ₚ ids_of w db.
Proof.
  exists (PPar (ex_psc 4) (KCuckoo 5 6 5)), ex_rand, 40%N, ex_pdb, ex_ws, [3%N], (ex_list 10 ++ replicate 4 0%N).
  split; [exact ex_pluto_cuckoo|]. split; [apply (bool_decide_unpack _); by vm_compute|].
  split; [by vm_compute|]. intros P. by apply Permutation_length in P.
Qed.
Print Assumptions C29_padding_refuted.

Theorem C29_spill_refuted :
  exists pp rand n_elts db ws w,
    pluto_ok pp rand n_elts db ws /\ w ∈ ws /\ ids_of w db <> [] /\
    pluto_search_after 100 pp rand n_elts db w = Ok [].
Proof.
  exists (PPar (ex_psc 4) (KCuckoo 1 1 5)), ex_rand, 20%N, [([1%N], ex_list 10); ([2%N], ex_list 10)],
    [[1%N]; [2%N]], [1%N].
  split; [pluto_ok_tac|]. split; [apply (bool_decide_unpack _); by vm_compute|].
  split; [done|by vm_compute].
Qed.
Print Assumptions C29_spill_refuted.

(** ** C30: the number of blocks of the hash table depends on the declared number of
    elements only. *)
Lemma n_blocks_le L db : 0 < L -> n_blocks L db * L <= n_elements db.
Proof.
  intros HL. unfold n_blocks, n_elements. induction db as [|x db IH]; csimpl; [lia|].
  pose proof (Nat.mul_div_le (length x.2) L ltac:(lia)). lia.
Qed.

Lemma table_keys_length pp rand n_elts db :
  0 < p_len pp -> (n_elts < 2 ^ 64)%N -> (N.of_nat (n_elements db) <= n_elts)%N ->
  N.of_nat (length (table_keys pp rand n_elts db)) = n_full_blocks pp n_elts.
Proof.
  intros HL Hn Hdb.
  assert (Hlen : length (mjoin ((fun x => full_keys pp x.1 x.2) <$> db)) = n_blocks (p_len pp) db).
  { unfold n_blocks, full_keys. clear. induction db as [|x db IH]; csimpl; [done|].
    by rewrite app_length, fmap_length, seq_length, IH. }
  unfold table_keys, dummy_keys, n_dummies. rewrite app_length, Hlen, fmap_length, seq_length.
  assert (N.of_nat (n_blocks (p_len pp) db) <= n_full_blocks pp n_elts)%N; [|lia].
  pose proof (n_blocks_le (p_len pp) db HL) as Hb. unfold n_full_blocks.
  destruct (decide (n_elts = 0%N)) as [->|Hz].
  - assert (Ez : n_blocks (p_len pp) db = 0) by nia. rewrite Ez. apply N.le_0_l.
  - assert (Em : ((n_elts + (2 ^ 64 - 1)) mod 2 ^ 64 = n_elts - 1)%N).
    { replace (n_elts + (2 ^ 64 - 1))%N with ((n_elts - 1) + 1 * 2 ^ 64)%N by lia.
      rewrite N.mod_add by done. apply N.mod_small. lia. }
    rewrite Em.
    assert (N.of_nat (n_blocks (p_len pp) db) <= n_elts / N.of_nat (p_len pp))%N.
    { apply N.div_le_lower_bound; [lia|]. rewrite <- Nat2N.inj_mul. lia. }
    assert (n_elts / N.of_nat (p_len pp) <= 1 + (n_elts - 1) / N.of_nat (p_len pp))%N; [|lia].
    transitivity ((n_elts - 1 + 1 * N.of_nat (p_len pp)) / N.of_nat (p_len pp))%N.
    + apply N.div_le_mono; lia.
    + rewrite N.div_add by lia. lia.
Qed.

(** The blocks given to the hash table: those it holds and those it lost. *)
Theorem C30_blocks :
  forall pp rand n_elts db ws b0 b outs,
    pluto_ok pp rand n_elts db ws -> pluto_new pp = Ok b0 ->
    (n_elts < 2 ^ 64)%N -> (N.of_nat (n_elements db) <= n_elts)%N ->
    pluto_insert_db pp b0 db = (b, outs) ->
    exists fuel, forall fuel', fuel <= fuel' ->
      exists b' f, pluto_build fuel' pp rand n_elts b = (b', Ok f) /\
        N.of_nat (stored_blocks (pb_ht b') + length (ht_spilled (pb_ht b'))) =
          (if decide (n_elts = 0) then 1 + (2 ^ 64 - 1) / N.of_nat (p_len pp)
           else 1 + (n_elts - 1) / N.of_nat (p_len pp))%N.
Proof.
  intros pp rand n_elts db ws b0 b outs Hok Hb Hn Hdb Hins.
  destruct (pluto_correct pp rand n_elts db ws Hok b0 Hb) as (b1 & b' & f & c & s & H1 & [fuel H2] & _ & _ & H5 & _).
  rewrite H1 in Hins. injection Hins as -> _. exists fuel. intros fuel' Hf.
  exists b', f. split; [by apply H2|]. rewrite H5, table_keys_length; [|rewrite p_len_max by apply Hok; apply Hok|done|done].
  unfold n_full_blocks. case_decide as Hz; [by subst|].
  replace (n_elts + (2 ^ 64 - 1))%N with ((n_elts - 1) + 1 * 2 ^ 64)%N by lia.
  rewrite N.mod_add by done. by rewrite N.mod_small by lia.
Qed.
Print Assumptions C30_blocks.

(** Two databases of any shape, with the RocksDB table: the same number of entries. *)
Theorem C30_rocksdb :
  forall pp n_elts rand1 db1 ws1 rand2 db2 ws2 b0 b1 o1 b2 o2,
    pp_ht pp = KRocks -> pluto_new pp = Ok b0 -> (n_elts < 2 ^ 64)%N ->
    pluto_ok pp rand1 n_elts db1 ws1 -> (N.of_nat (n_elements db1) <= n_elts)%N ->
    pluto_ok pp rand2 n_elts db2 ws2 -> (N.of_nat (n_elements db2) <= n_elts)%N ->
    pluto_insert_db pp b0 db1 = (b1, o1) -> pluto_insert_db pp b0 db2 = (b2, o2) ->
    exists fuel, forall fuel', fuel <= fuel' ->
      exists b1' f1 b2' f2 m1 m2,
        pluto_build fuel' pp rand1 n_elts b1 = (b1', Ok f1) /\
        pluto_build fuel' pp rand2 n_elts b2 = (b2', Ok f2) /\
        f1.1 = FRocks m1 /\ f2.1 = FRocks m2 /\ size m1 = size m2.
Proof.
  intros pp n_elts rand1 db1 ws1 rand2 db2 ws2 b0 b1 o1 b2 o2 Hk Hb Hn Hok1 Hd1 Hok2 Hd2 E1 E2.
  destruct (C30_blocks pp rand1 n_elts db1 ws1 b0 b1 o1 Hok1 Hb Hn Hd1 E1) as [fu1 H1].
  destruct (C30_blocks pp rand2 n_elts db2 ws2 b0 b2 o2 Hok2 Hb Hn Hd2 E2) as [fu2 H2].
  exists (fu1 + fu2). intros fuel Hf.
  destruct (H1 fuel ltac:(lia)) as (b1' & f1 & B1 & S1). destruct (H2 fuel ltac:(lia)) as (b2' & f2 & B2 & S2).
  rewrite <- S2 in S1. apply Nat2N.inj in S1.
  assert (Hblk : forall token ids b bc block, (exists m, pb_ht b = BRocks m) ->
    exists m, pb_ht (p_blocks pp token b bc block ids).1 = BRocks m).
  { intros token ids. induction ids as [|id ids IH]; intros q bc block [m Hm]; simpl; [eauto|].
    case_bool_decide; [|eauto]. rewrite Hm. cbn [ht_insert fst snd]. apply IH. simpl. eauto. }
  assert (Hins : forall d q, (exists m, pb_ht q = BRocks m) -> exists m, pb_ht (pluto_insert_db pp q d).1 = BRocks m).
  { intros d. induction d as [|x d IH]; intros q Hq; simpl; [done|]. apply IH. unfold pluto_insert.
    pose proof (Hblk (sc_prf (pp_sc pp) x.1) x.2 q 1 [] Hq) as Hx.
    destruct ((p_blocks pp (sc_prf (pp_sc pp) x.1) q 1 [] x.2).2) as [[bc bl]| | |]; try done.
    case_bool_decide; done. }
  assert (Hr0 : exists m, pb_ht b0 = BRocks m).
  { unfold pluto_new in Hb. apply rbind_ok in Hb as (sb & _ & Hb). injection Hb as <-. simpl.
    unfold ht_new. rewrite Hk. eauto. }
  assert (Hfill : forall rand n i m, exists m', fill_dummies pp rand n i (BRocks m) = (BRocks m', Ok tt)).
  { intros rand n. induction n as [|n IH]; intros i m'; simpl; [eauto|apply IH]. }
  assert (Hbuild : forall rand b b' f, (exists m, pb_ht b = BRocks m) ->
    pluto_build fuel pp rand n_elts b = (b', Ok f) -> exists m, pb_ht b' = BRocks m /\ f.1 = FRocks m).
  { intros rand b b' f [m Hm] HB. unfold pluto_build in HB. rewrite Hm in HB.
    destruct (Hfill rand (N.to_nat (n_full_blocks pp n_elts - pb_complete b)) 0 m) as [m' Em].
    rewrite Em in HB. cbn [fst snd ht_commit] in HB. injection HB as <- HB.
    apply rbind_ok in HB as (sf & _ & HB). injection HB as <-. simpl. eauto. }
  pose proof (Hins db1 b0 Hr0) as G1. rewrite E1 in G1. pose proof (Hins db2 b0 Hr0) as G2. rewrite E2 in G2.
  destruct (Hbuild _ _ _ _ G1 B1) as (m1 & M1 & F1). destruct (Hbuild _ _ _ _ G2 B2) as (m2 & M2 & F2).
  exists b1', f1, b2', f2, m1, m2. split_and!; auto. rewrite M1, M2 in S1. simpl in S1. lia.
Qed.
Print Assumptions C30_rocksdb.

Example ex_pluto_declared : (N.of_nat (n_elements ex_pdb) <= 40)%N.
Proof. by vm_compute. Qed.

(** The cuckoo table may hold a different number of blocks: those of one database
    all find a slot, those of the other do not. *)
Theorem C30_spill_refuted :
  exists pp n_elts rand db1 ws1 db2 ws2 b0 b1 f1 b2 f2,
    pluto_new pp = Ok b0 /\
    pluto_ok pp rand n_elts db1 ws1 /\ (N.of_nat (n_elements db1) <= n_elts)%N /\
    pluto_ok pp rand n_elts db2 ws2 /\ (N.of_nat (n_elements db2) <= n_elts)%N /\
    pluto_build 100 pp rand n_elts (pluto_insert_db pp b0 db1).1 = (b1, Ok f1) /\
    pluto_build 100 pp rand n_elts (pluto_insert_db pp b0 db2).1 = (b2, Ok f2) /\
    stored_blocks (pb_ht b1) <> stored_blocks (pb_ht b2).
Proof.
  exists (PPar (ex_psc 4) (KCuckoo 2 1 5)), 20%N, ex_rand,
    [([1%N], ex_list 10); ([3%N], ex_list 10)], [[1%N]; [3%N]],
    [([1%N], ex_list 10); ([2%N], ex_list 10)], [[1%N]; [2%N]].
  do 5 eexists. split; [vm_compute; reflexivity|]. split; [pluto_ok_tac|].
  split; [by vm_compute|]. split; [pluto_ok_tac|]. split; [by vm_compute|].
  split; [vm_compute; reflexivity|]. split; [vm_compute; reflexivity|]. by vm_compute.
Qed.
Print Assumptions C30_spill_refuted.

(** A builder declared for zero elements: the subtraction wraps, and build() inserts a
    number of dummy blocks that no memory can hold. *)
Theorem C30_zero_elements :
  forall pp, 0 < p_len pp -> (N.of_nat (p_len pp) <= 2 ^ 14)%N -> (2 ^ 49 <= n_full_blocks pp 0)%N.
Proof.
  intros pp HL H. unfold n_full_blocks. rewrite N.add_0_l, N.mod_small by done.
  transitivity ((2 ^ 64 - 1) / N.of_nat (p_len pp))%N; [|lia].
  apply N.div_le_lower_bound; [lia|]. nia.
Qed.
Print Assumptions C30_zero_elements.
Example ex_pluto_len : 0 < p_len (PPar (ex_psc 4) KRocks) /\ (N.of_nat (p_len (PPar (ex_psc 4) KRocks)) <= 2 ^ 14)%N.
Proof. by vm_compute; split; [lia|]. Qed.
