(** Final theorems about the cuckoo hash table (properties C19 to C22). *)
From stdpp Require Import prelude.
From Coq Require Import ZArith NArith Lia.
From Verif Require Import Base EncModel VecModel CuckooModel CuckooSpec CuckooProofs.
Local Open Scope nat_scope.
Local Arguments N.of_nat : simpl never.
Local Arguments N.modulo : simpl never.
Local Arguments N.to_nat : simpl never.
Local Arguments N.pow : simpl never.

(** Four values for two tables of two slots; the first three have the same slots. *)
Definition ex_cvals : list ((N * N) * N) := [((0, 3), 0); ((2, 1), 1); ((4, 5), 2); ((1, 0), 3)]%N.

(** ** C19: nothing is lost or duplicated. *)
(** What is stored and what was reported as spilled is what was inserted, and every
    value sits in one of its two slots. *)
Theorem C19_conserved :
  forall size depth l,
    0 < size -> Forall (fun x => x.2 <> no_index) l ->
    exists a outs sp,
      ca_inserts (ca_new size depth) l = Ok (a, outs) /\
      length outs = length l /\
      reported outs = cv_index <$> sp /\
      sp ++ contents a ≡ₚ asked <$> l /\
      forall s v, holds a s v -> admissible size s v.
Proof.
  intros size depth l Hs HF.
  destruct (ca_inserts_spec l (ca_new size depth) (ca_new_wf size depth) Hs HF) as
    (a & outs & sp & E & W & S' & HL & HR & _ & HP).
  exists a, outs, sp. split_and!; auto.
  - rewrite contents_new, app_nil_r in HP. by rewrite HP.
  - intros s v Hh. pose proof (wf_adm _ W s v Hh) as H. by rewrite S' in H.
Qed.
Print Assumptions C19_conserved.

(** Each value inserted is in exactly one slot, or was reported as spilled. *)
Theorem C19_exactly_one :
  forall size depth l,
    0 < size -> Forall (fun x => x.2 <> no_index) l -> NoDup l.*2 ->
    exists a outs,
      ca_inserts (ca_new size depth) l = Ok (a, outs) /\
      (forall s v, holds a s v -> exists x, x ∈ l /\ v = asked x) /\
      forall x, x ∈ l ->
        (x.2 ∈ outs /\ forall s v, holds a s v -> cv_index v <> x.2) \/
        (x.2 ∉ outs /\ exists s, holds a s (asked x) /\ admissible size s (asked x) /\
           forall s' v, holds a s' v -> cv_index v = x.2 -> s' = s).
Proof.
  intros size depth l Hs HF ND.
  destruct (C19_conserved size depth l Hs HF) as (a & outs & sp & E & HL & HR & HP & HA).
  exists a, outs. split; [done|].
  assert (NDs : NoDup (cv_index <$> sp ++ contents a)).
  { rewrite HP, <- list_fmap_compose. erewrite list_fmap_ext; [exact ND|]. by intros i [[]]. }
  rewrite fmap_app in NDs. apply NoDup_app in NDs as (_ & Nd & Nc).
  assert (Ho : forall i, i <> no_index -> i ∈ outs <-> i ∈ cv_index <$> sp).
  { intros i Hi. rewrite <- HR. unfold reported. rewrite elem_of_list_filter. tauto. }
  split.
  - intros s v Hh. assert (Hv : v ∈ sp ++ contents a).
    { apply elem_of_app. right. apply holds_contents. eauto. }
    rewrite HP in Hv. apply elem_of_list_fmap in Hv as (x & -> & Hx). eauto.
  - intros x Hx. assert (Hi : x.2 <> no_index) by (by apply (proj1 (Forall_forall _ _) HF)).
    assert (Hv : asked x ∈ sp ++ contents a).
    { rewrite HP. apply elem_of_list_fmap. eauto. }
    apply elem_of_app in Hv as [Hv|Hv].
    + left. assert (Hin : x.2 ∈ cv_index <$> sp) by (apply elem_of_list_fmap; by exists (asked x)).
      split; [by apply Ho|]. intros s v Hh Ev. apply (Nd _ Hin). rewrite <- Ev.
      apply elem_of_list_fmap. exists v. split; [done|]. apply holds_contents. eauto.
    + right. apply holds_contents in Hv as Hv'. destruct Hv' as [s Hh]. split.
      * rewrite Ho by done. intros Hin. apply (Nd _ Hin). apply elem_of_list_fmap. by exists (asked x).
      * exists s. split_and!; auto. intros s' v Hh' Ev. by eapply nodup_slot.
Qed.
Print Assumptions C19_exactly_one.
Example ex_vals_ok : Forall (fun x => x.2 <> no_index) ex_cvals /\ NoDup ex_cvals.*2 /\
  (exists a, ca_inserts (ca_new 2 3) ex_cvals = Ok (a, [no_index; no_index; 2; no_index])%N) /\
  (exists a, ca_inserts (ca_new 2 0) ex_cvals = Ok (a, [0; 1; 2; 3])%N).
Proof.
  split_and!.
  - repeat constructor; simpl; done.
  - apply (bool_decide_unpack _). by vm_compute.
  - eexists. vm_compute. reflexivity.
  - eexists. vm_compute. reflexivity.
Qed.

(** ** C20: one insertion. *)
(** After any insertions, an insertion is a walk of at most [max_search_depth]
    evictions; it reports a spill only if all of them found an occupied slot and the
    depth is exhausted; without a spill, the tables hold what they held and the new
    value, and only the last slot visited was empty. *)
Theorem C20_walk :
  forall size depth l a outs h i,
    0 < size -> ca_inserts (ca_new size depth) l = Ok (a, outs) -> i <> no_index ->
    exists a' u found,
      ca_insert a h i = Ok (a', cv_index u) /\
      eviction a false (asked (h, i)) found a' u /\
      length found <= depth /\
      (cv_index u <> no_index ->
         length found = depth /\ Forall full found /\
         asked (h, i) :: contents a ≡ₚ u :: contents a') /\
      (cv_index u = no_index ->
         (exists found', found = found' ++ [u] /\ Forall full found') /\
         asked (h, i) :: contents a ≡ₚ contents a').
Proof.
  intros size depth l a outs h i Hs Ha Hi.
  destruct (ca_inserts_inv l (ca_new size depth) a outs (ca_new_wf size depth) Hs Ha) as (W0 & S0 & D0).
  simpl in S0, D0. unfold ca_insert. rewrite bool_decide_eq_false_2 by done.
  destruct (ca_walk_spec (ca_depth a) false (CVal h.1 h.2 i) a W0 ltac:(lia) ltac:(done)) as
    (a' & u & found & E & W & _ & _ & Ev & HL & H1 & H2 & _ & HP).
  exists a', u, found. rewrite ne_full in HP by done. rewrite D0 in E, HL, H1. split_and!; auto.
  - by rewrite D0.
  - intros Hu. destruct (H1 Hu) as [HE HF]. split_and!; auto. by rewrite ne_full in HP by done.
  - intros Hu. assert (Hn : ~ full u) by (unfold full; tauto). rewrite ne_empty in HP by done.
    split; [by apply H2|done].
Qed.
Print Assumptions C20_walk.
Example ex_walk : exists a outs a1 a2, ca_inserts (ca_new 2 3) [((4, 5), 2); ((2, 1), 1)]%N = Ok (a, outs) /\
  ca_insert a (1, 2)%N 7%N = Ok (a1, no_index)%N /\ ca_insert a (6, 1)%N 7%N = Ok (a2, 7)%N /\
  contents a = [CVal 2 1 1; CVal 4 5 2]%N.
Proof. do 4 eexists. split_and!; vm_compute; reflexivity. Qed.

(** ** C21: lookups. *)
(** For every list of pairs, even with repeated keys, every hash function, table
    size and depth: a lookup answers with a value inserted for the key at a position
    that was not spilled, and throws only if all the positions of the key were
    spilled (in particular if there is none).  The key made of 0xFF is left out, unless it was
    inserted and not spilled. *)
Theorem C21_lookup :
  forall ksz vsz size depth max_n hash kvs,
    0 < ksz -> 0 < size -> kv_ok ksz vsz kvs -> (N.of_nat (length kvs) <= no_index)%N ->
    exists b outs file t,
      cb_build (ksz + vsz) size depth max_n hash kvs = (b, outs, (file, Ok tt)) /\
      Forall (fun o => o = Ok tt) outs /\
      ct_open (ksz + vsz) file = Ok t /\
      forall key, length key = ksz ->
        (key <> ff_key ksz \/ exists i v, kvs !! i = Some (key, v) /\ N.of_nat i ∉ cb_spilled b) ->
        match ct_get (ksz + vsz) hash t key with
        | Ok v => exists i, kvs !! i = Some (key, v) /\ N.of_nat i ∉ cb_spilled b
        | Throw e => e = OutOfRange /\
            forall i v, kvs !! i = Some (key, v) -> N.of_nat i ∈ cb_spilled b
        | _ => False
        end.
Proof. apply build_spec. Qed.
Print Assumptions C21_lookup.

(** With distinct keys: the value if the pair was not spilled, an exception
    otherwise and for the keys that were not inserted. *)
Theorem C21_distinct :
  forall ksz vsz size depth max_n hash kvs,
    0 < ksz -> 0 < size -> kv_ok ksz vsz kvs -> (N.of_nat (length kvs) <= no_index)%N ->
    NoDup kvs.*1 ->
    exists b outs file t,
      cb_build (ksz + vsz) size depth max_n hash kvs = (b, outs, (file, Ok tt)) /\
      Forall (fun o => o = Ok tt) outs /\
      ct_open (ksz + vsz) file = Ok t /\
      (forall i k v, kvs !! i = Some (k, v) -> N.of_nat i ∉ cb_spilled b ->
         ct_get (ksz + vsz) hash t k = Ok v) /\
      (forall i k v, kvs !! i = Some (k, v) -> N.of_nat i ∈ cb_spilled b -> k <> ff_key ksz ->
         ct_get (ksz + vsz) hash t k = Throw OutOfRange) /\
      (forall k, length k = ksz -> k <> ff_key ksz -> k ∉ kvs.*1 ->
         ct_get (ksz + vsz) hash t k = Throw OutOfRange).
Proof.
  intros ksz vsz size depth max_n hash kvs Hk Hs HK HN ND.
  destruct (build_spec ksz vsz size depth max_n hash kvs Hk Hs HK HN) as (b & outs & file & t & E1 & E2 & E3 & HG).
  exists b, outs, file, t. split_and!; auto.
  - intros i k v Hi Hns. pose proof (Forall_lookup_1 _ _ _ _ HK Hi) as [Lk _]. simpl in Lk.
    specialize (HG k Lk ltac:(right; eauto)). destruct (ct_get _ hash t k) as [v'|e| |]; try done.
    + destruct HG as (j & Hj & _). f_equal.
      assert (i = j) as <-.
      { eapply (NoDup_lookup kvs.*1 i j k); [done|..]; rewrite list_lookup_fmap; [by rewrite Hi|by rewrite Hj]. }
      rewrite Hi in Hj. by injection Hj.
    + destruct HG as [_ HG]. by destruct (Hns (HG i v Hi)).
  - intros i k v Hi Hsp Hkf. pose proof (Forall_lookup_1 _ _ _ _ HK Hi) as [Lk _]. simpl in Lk.
    specialize (HG k Lk (or_introl Hkf)). destruct (ct_get _ hash t k) as [v'|e| |]; try done.
    + destruct HG as (j & Hj & Hns).
      assert (i = j) as <-.
      { eapply (NoDup_lookup kvs.*1 i j k); [done|..]; rewrite list_lookup_fmap; [by rewrite Hi|by rewrite Hj]. }
      done.
    + by destruct HG as [-> _].
  - intros k Lk Hkf Hk'. specialize (HG k Lk (or_introl Hkf)). destruct (ct_get _ hash t k) as [v'|e| |]; try done.
    + destruct HG as (j & Hj & _). exfalso. apply Hk'. apply elem_of_list_fmap. exists (k, v'). split; [done|].
      by eapply elem_of_list_lookup_2.
    + by destruct HG as [-> _].
Qed.
Print Assumptions C21_distinct.

(** Pairs with keys of two bytes, hashed to their bytes, and values of one byte. *)
Definition ex_chash (k : bytes) : N * N := (nth 0 k 0, nth 1 k 0)%N.
Definition ex_ckvs : list (bytes * bytes) := [([0; 3], [10]); ([2; 1], [11]); ([4; 5], [12]); ([1; 0], [13])]%N.
Example ex_ckvs_ok : kv_ok 2 1 ex_ckvs /\ NoDup ex_ckvs.*1 /\ ff_key 2 ∉ ex_ckvs.*1 /\
  cb_spilled (cb_build 3 2 3 2 ex_chash ex_ckvs).1.1 = [2]%N /\
  cb_spilled (cb_build 3 4 3 2 ex_chash ex_ckvs).1.1 = [].
Proof.
  split_and!; [repeat constructor|apply (bool_decide_unpack _); by vm_compute..| |]; by vm_compute.
Qed.

(** A table is never written over a file that is not empty: the commit fails and the file stays as
    it was. *)
Theorem C21_existing sz b file b' file' r :
  cb_committed b = false -> ca_t0 (cb_alloc b) <> [] -> file <> [] ->
  cb_commit sz b file = (b', file', r) -> file' = file /\ r <> Ok tt.
Proof.
  intros Hb Ht Hf. unfold cb_commit. rewrite Hb.
  assert (Ho : open_vec sz file false = Vec file 0 (length file / sz) true false []).
  { unfold open_vec. rewrite bool_decide_true; [done|]. destruct file; [done|]. cbn. lia. }
  rewrite Ho. unfold vec_reserve. cbn [v_committed]. rewrite bool_decide_false by (by intros []).
  destruct (ca_t0 (cb_alloc b)) as [|s l]; [done|]. cbn [cb_write].
  destruct (if is_empty (cv_index s) then _ else _) as [pl| | |]; cbn [vec_push v_committed];
    intros [= <- <- <-]; done.
Qed.
Print Assumptions C21_existing.
Example C21_existing_example : exists b' file' r,
  cb_commit 3 (CBuilder (ca_new 2 3) (open_vec 3 [] false) [] false) [1; 2; 3]%N = (b', file', r) /\
  file' = [1; 2; 3]%N /\ r = Throw RuntimeError.
Proof. eexists _, _, _. split; [vm_compute; reflexivity|]. split; reflexivity. Qed.

(** A key that was never inserted is found: the key made of 0xFF, in any table that
    has an empty slot for it. *)
Theorem C21_absent_refuted :
  exists ksz vsz size depth hash kvs file t v,
    kv_ok ksz vsz kvs /\ NoDup kvs.*1 /\ ff_key ksz ∉ kvs.*1 /\
    (cb_build (ksz + vsz) size depth 1 hash kvs).2 = (file, Ok tt) /\
    ct_open (ksz + vsz) file = Ok t /\ ct_get (ksz + vsz) hash t (ff_key ksz) = Ok v.
Proof.
  exists 16, 8, 2, 4, oceanus_hash, [(replicate 16 0%N, replicate 8 7%N)]. do 3 eexists.
  split_and!; [repeat constructor|apply (bool_decide_unpack _); by vm_compute..| | |].
  - vm_compute. reflexivity.
  - vm_compute. reflexivity.
  - vm_compute. reflexivity.
Qed.
Print Assumptions C21_absent_refuted.
(** The two hashes of a 16-byte Oceanus key are its two halves: every bit of the key
    counts, and keys with the same two hashes are equal. *)
Theorem C21_oceanus_hash :
  forall a b, (a < 2 ^ 64)%N -> (b < 2 ^ 64)%N -> oceanus_hash (le64 a ++ le64 b) = (a, b).
Proof.
  intros a b Ha Hb. unfold oceanus_hash. pose proof (EncProofs.le64_val a Ha) as Va. pose proof (EncProofs.le64_val b Hb) as Vb.
  assert (length (le64 a) = 8 /\ length (le64 b) = 8) as [La Lb] by (rewrite !EncProofs.le64_length; done).
  rewrite (take_app_alt _ _ 8), (drop_app_alt _ _ 8), (take_ge (le64 b)) by lia. by rewrite Va, Vb.
Qed.
Print Assumptions C21_oceanus_hash.
Example C21_oceanus_hash_example : oceanus_hash (le64 (2 ^ 64 - 1) ++ le64 77) = (2 ^ 64 - 1, 77)%N.
Proof. by apply C21_oceanus_hash. Qed.

(** ** C22: no key is lost. *)
(** Every key is found when nothing was spilled. *)
Theorem C22_no_spill :
  forall ksz vsz size depth max_n hash kvs,
    0 < ksz -> 0 < size -> kv_ok ksz vsz kvs -> (N.of_nat (length kvs) <= no_index)%N ->
    exists b outs file t,
      cb_build (ksz + vsz) size depth max_n hash kvs = (b, outs, (file, Ok tt)) /\
      ct_open (ksz + vsz) file = Ok t /\
      (cb_spilled b = [] -> forall k v, (k, v) ∈ kvs ->
         exists v', ct_get (ksz + vsz) hash t k = Ok v' /\ (k, v') ∈ kvs).
Proof.
  intros ksz vsz size depth max_n hash kvs Hk Hs HK HN.
  destruct (build_spec ksz vsz size depth max_n hash kvs Hk Hs HK HN) as (b & outs & file & t & E1 & E2 & E3 & HG).
  exists b, outs, file, t. split_and!; auto. intros Hsp k v Hin.
  pose proof (proj1 (Forall_forall _ _) HK _ Hin) as [Lk _]. simpl in Lk.
  apply elem_of_list_lookup in Hin as [i Hi].
  specialize (HG k Lk ltac:(right; exists i, v; rewrite Hsp; split; [done|apply not_elem_of_nil])). destruct (ct_get _ hash t k) as [v'|e| |]; try done.
  - destruct HG as (j & Hj & _). exists v'. split; [done|]. by eapply elem_of_list_lookup_2.
  - destruct HG as [_ HG].
    specialize (HG i v Hi). rewrite Hsp in HG. by apply elem_of_nil in HG.
Qed.
Print Assumptions C22_no_spill.

(** Otherwise a key whose insertion was accepted cannot be looked up. *)
Theorem C22_refuted :
  exists ksz vsz size depth hash kvs b file t k v,
    kv_ok ksz vsz kvs /\ NoDup kvs.*1 /\ ff_key ksz ∉ kvs.*1 /\
    cb_build (ksz + vsz) size depth 2 hash kvs = (b, replicate (length kvs) (Ok tt), (file, Ok tt)) /\
    ct_open (ksz + vsz) file = Ok t /\ (k, v) ∈ kvs /\
    ct_get (ksz + vsz) hash t k = Throw OutOfRange.
Proof.
  exists 2, 1, 2, 3, ex_chash, ex_ckvs. do 3 eexists. exists [4; 5]%N, [12]%N.
  split_and!; [repeat constructor|apply (bool_decide_unpack _); by vm_compute..| | | |].
  - vm_compute. reflexivity.
  - vm_compute. reflexivity.
  - right. right. left.
  - vm_compute. reflexivity.
Qed.
Print Assumptions C22_refuted.
