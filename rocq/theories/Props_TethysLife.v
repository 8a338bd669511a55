(** C84-C86: the files of a builder of Tethys when the process dies, when a build
    is refused and tried again, and when an older stash is there. *)
From stdpp Require Import prelude gmap.
From Coq Require Import ZArith NArith Lia.
From Verif Require Import Base GraphModel AllocModel EncModel EncSpec EncProofs EncStash StoreModel StoreSpec
  StoreProofs StoreTheorems VecModel VecProofs LifeModel LifeSpec LifeProofs TethysLifeModel TethysLifeSpec
  TethysLifeProofs Props_Enc Props_Store.
Local Open Scope nat_scope.

(** ** C84: the process dies during a build. *)
(** The system calls of a build, all done, leave the files of [store_build]; a store
    opened on them finds the lists. *)
Theorem C84_complete :
  forall sp kvs b fuel cut d,
    db_ok sp kvs -> empty_lists_last (sp_enc sp) kvs -> 0 < kp_page (sp_enc sp) ->
    loaded sp kvs b -> store_fuel (sp_enc sp) kvs <= fuel -> cuts cut ->
    content Pages d = [] -> dk_stash d = None ->
    let t := build_io fuel sp cut b d in
    let d' := do_ops d t.2.1 in
    exists f s,
      t.2.2 = Ok tt /\ store_build fuel sp b = (t.1, Ok f) /\
      content Pages d' = mjoin (sf_table f) /\ dk_stash d' = sf_stash f /\
      open_disk (sp_enc sp) d' = Ok s /\ open_store (sp_enc sp) f = Ok s /\
      forall key, exists r, get_list sp s key = Ok r /\ r ≡ₚ values_of key (accepted (sp_enc sp) kvs).
Proof.
  intros sp kvs b fuel cut d Hdb Hne Hp Hl Hfu Hcut HP HS t d'.
  destruct (build_io_ok sp kvs b Hdb Hne Hl) as (b2 & f & s & E1 & E2 & HL & HF & Hst & Es & Hg).
  specialize (E2 fuel cut d Hfu HP). unfold d', t. rewrite E2. cbn [fst snd]. exists f, s.
  set (ops := build_ops sp cut f).
  pose proof (dk_size _ _ Hdb) as Hn.
  assert (HD : dies d ops (length ops) = do_ops d ops) by (unfold dies; by rewrite take_ge).
  assert (Hlo : 2 + length (sf_table f) <= length ops).
  { unfold ops. rewrite build_ops_split, app_length, head_length. lia. }
  assert (EP : content Pages (do_ops d ops) = mjoin (sf_table f)).
  { destruct (pages_at_death sp cut f d (length ops) HP HL HF) as [[? _]|[_ E]]; [lia|].
    fold ops in E. rewrite HD in E. by rewrite partial_all in E by lia. }
  assert (ES : dk_stash (do_ops d ops) = sf_stash f).
  { destruct (stash_at_death sp cut f d (length ops) Hcut) as [[E [E'|E']]|(w & m & Ew & E & _ & Hm)];
      fold ops in E; rewrite HD in E.
    - by rewrite E, HS, E'.
    - fold ops in E'. lia.
    - rewrite E, Ew. fold ops in Hm. by rewrite take_ge by auto. }
  split; [done|]. split; [by apply E1|]. split; [done|]. split; [done|].
  split; [|split; [done|exact Hg]].
  rewrite (open_disk_pages _ _ (sf_table f) Hp ltac:(lia) HF EP), ES. exact Es.
Qed.
Print Assumptions C84_complete.

(** Wherever the process dies, the store cannot be opened because nothing was
    written, or reading a stash that was begun and not finished is undefined, or the
    store opens and answers every key with part of its list.  The lists of a store
    with encrypted pages are only spoken of once all the pages are written. *)
Theorem C84_interrupted :
  forall sp kvs b fuel cut d k,
    db_ok sp kvs -> empty_lists_last (sp_enc sp) kvs -> 0 < kp_page (sp_enc sp) ->
    loaded sp kvs b -> store_fuel (sp_enc sp) kvs <= fuel -> cuts cut ->
    content Pages d = [] -> dk_stash d = None ->
    sp_cipher sp = Plain \/ 2 + sp_n sp <= k ->
    let ops := (build_io fuel sp cut b d).2.1 in
    let d' := dies d ops k in
    match open_disk (sp_enc sp) d' with
    | Ok s => forall key, exists r, get_list sp s key = Ok r /\ part_of sp kvs key r
    | Throw e => e = RuntimeError /\ content Pages d' = []
    | UB => k < length ops /\ exists w, dk_stash d' = Some w /\ w <> []
    | OutOfFuel => False
    end.
Proof.
  intros sp kvs b fuel cut d k Hdb Hne Hp Hl Hfu Hcut HP HS Hk ops d'.
  destruct (build_io_ok sp kvs b Hdb Hne Hl) as (b2 & f & s & E1 & E2 & HL & HF & Hst & Es & Hg).
  specialize (E2 fuel cut d Hfu HP). unfold d', ops. rewrite E2. cbn [fst snd].
  pose proof (dk_size _ _ Hdb) as Hn. destruct (dk_words _ _ Hdb) as (Hv & _ & H8 & _).
  set (o := build_ops sp cut f).
  destruct (pages_at_death sp cut f d k HP HL HF) as [[Hk2 EP]|[Hk2 EP]]; fold o in EP.
  { unfold open_disk. rewrite EP. done. }
  set (T := partial (kp_page (sp_enc sp)) (sf_table f) (k - 2)) in *.
  assert (HT : length T = sp_n sp) by (unfold T; by rewrite partial_len).
  rewrite (open_disk_pages _ _ T Hp ltac:(lia) (partial_sizes _ _ _ HF) EP).
  unfold open_store in Es.
  assert (Hlook : forall m m', s = Store (sf_table f) m ->
    (forall key, default [] (m' !! key) = default [] (m !! key) \/ default [] (m' !! key) = []) ->
    forall key, exists r, get_list sp (Store T m') key = Ok r /\ part_of sp kvs key r).
  { intros m m' -> Hm key. destruct (Hg key) as (r & Hr & Hperm).
    destruct (get_list_partial sp (Store (sf_table f) m) (Store T m') key r (k - 2) H8 eq_refl) as (r' & Hr' & Hsub).
    - destruct Hk as [Hk|Hk]; [by left|]. right. unfold T. cbn [st_table]. apply partial_all. lia.
    - apply Hm.
    - done.
    - exists r'. split; [done|]. unfold part_of. rewrite <- Hperm. by apply sublist_submseteq. }
  destruct (stash_at_death sp cut f d k Hcut) as [[E _]|(w & m & Ew & E & _ & Hmm)]; fold o in E; rewrite E.
  - rewrite HS. cbn [rbind]. apply rbind_ok in Es as (m & Em & Es). injection Es as <-.
    apply (Hlook m); [done|]. intros key. right. by rewrite lookup_empty.
  - fold o in Hmm. rewrite Ew in Es, Hst. destruct Hst as (es & -> & Hfine & Hnd).
    unfold deserialize_map in Es |- *. rewrite deserialize_loop_ok in Es by (done || lia). cbn [rbind] in Es.
    injection Es as <-. fold (load es) in Hlook.
    pose proof (deserialize_cut (sp_enc sp) es m (S (length (take m (entries_bytes es)))) ltac:(lia) Hfine ltac:(lia)) as HC.
    destruct (deserialize_loop _ _ _) as [kvs'|e| |]; cbn [rbind]; [|done| |done].
    + destruct HC as [j Hj]. apply (Hlook (load es)); [done|]. intros key.
      apply (load_cut es kvs' j Hnd Hj key).
    + split.
      * destruct (decide (k < length o)); [done|]. specialize (Hmm ltac:(lia)). lia.
      * exists (take m (entries_bytes es)). split; [done|]. intros E0. assert (HL0 : length (take m (entries_bytes es)) = 0) by by rewrite E0.
        rewrite take_length in HL0. lia.
Qed.
Print Assumptions C84_interrupted.

(** The encrypted store of two pages and the lists of C15, of which a part is
    stashed; the stream writes the stash in two pieces. *)
Definition ex_sp3 : sparams := SPar ex_p 2 (fun _ => (0, 0)%N) (Encrypted ex_ks [1%N; 2%N]).
Definition ex_cut (b : bytes) : list bytes := [take 30 b; drop 30 b].
Example ex_life_ok : forall sp, sp = ex_sp2 \/ sp = ex_sp3 ->
  db_ok sp ex_db /\ empty_lists_last (sp_enc sp) ex_db /\ 0 < kp_page (sp_enc sp) /\ cuts ex_cut /\
  exists b, loaded sp ex_db b.
Proof.
  intros sp Hsp. destruct ex_db_ok as (_ & D2 & Hne & _).
  assert (HE : sp_enc sp = ex_p) by by destruct Hsp as [-> | ->].
  split.
  { destruct Hsp as [-> | ->]; [done|]. destruct D2 as [A B C D E]. split; auto. exact ex_ks_length. }
  rewrite HE. split.
  { exists (accepted ex_p ex_db), []. rewrite app_nil_r. auto. }
  split; [simpl; lia|]. split.
  { intros b. unfold ex_cut. simpl. by rewrite app_nil_r, take_drop. }
  destruct Hsp as [-> | ->]; (eexists; eexists; split; [by vm_compute|reflexivity]).
Qed.
(** The builders. *)
Definition ex_loaded (sp : sparams) : res sbuilder :=
  b0 <~ new_store_builder sp; Ok (run_inserts sp b0 ex_db).1.
Lemma ex_loaded_ok sp b : ex_loaded sp = Ok b -> loaded sp ex_db b.
Proof. intros E. apply rbind_ok in E as (b0 & E0 & E). injection E as <-. by exists b0. Qed.
Example C84_ex :
  (b <~ ex_loaded ex_sp2;
   let ops := (build_io 1000 ex_sp2 ex_cut b no_files).2.1 in
   s1 <~ open_disk ex_p (dies no_files ops 3);
   s2 <~ open_disk ex_p (dies no_files ops 7);
   r1 <~ get_list ex_sp2 s1 (ex_key 3);
   r2 <~ get_list ex_sp2 s2 (ex_key 3);
   Ok (length ops, length r1, length r2)) = Ok (7, 6, 10).
Proof. vm_compute. reflexivity. Qed.

(** Full statement refuted: the process dies between the table and the stash; the
    store opens and gives only a part of a list, as if it were the whole. *)
Theorem C84_refuted :
  exists sp kvs b fuel cut k s key r,
    db_ok sp kvs /\ empty_lists_last (sp_enc sp) kvs /\ loaded sp kvs b /\
    store_fuel (sp_enc sp) kvs <= fuel /\ cuts cut /\
    let ops := (build_io fuel sp cut b no_files).2.1 in
    2 + sp_n sp <= k < length ops /\
    open_disk (sp_enc sp) (dies no_files ops k) = Ok s /\ get_list sp s key = Ok r /\
    length r < length (values_of key (accepted (sp_enc sp) kvs)).
Proof.
  destruct (ex_life_ok ex_sp3 (or_intror eq_refl)) as (H1 & H2 & _ & H4 & _).
  destruct (ex_loaded ex_sp3) as [b| | |] eqn:Eb; [|vm_compute in Eb; discriminate..].
  exists ex_sp3, ex_db, b, 1000, ex_cut, 4. vm_compute in Eb. injection Eb as <-.
  eexists. exists (ex_key 3). eexists.
  split; [exact H1|]. split; [exact H2|]. split; [by apply ex_loaded_ok; vm_compute|].
  split; [apply (bool_decide_unpack _); by vm_compute|]. split; [exact H4|]. cbv zeta.
  split; [split; apply (bool_decide_unpack _); by vm_compute|].
  split; [by vm_compute|]. split; [by vm_compute|]. apply (bool_decide_unpack _); by vm_compute.
Qed.
Print Assumptions C84_refuted.

(** If the process dies while the stash is written, opening the store may read past
    the end of a list. *)
Theorem C84_torn_refuted :
  exists sp kvs b fuel cut k,
    db_ok sp kvs /\ empty_lists_last (sp_enc sp) kvs /\ loaded sp kvs b /\
    store_fuel (sp_enc sp) kvs <= fuel /\ cuts cut /\
    let ops := (build_io fuel sp cut b no_files).2.1 in
    2 + sp_n sp <= k < length ops /\ open_disk (sp_enc sp) (dies no_files ops k) = UB.
Proof.
  destruct (ex_life_ok ex_sp3 (or_intror eq_refl)) as (H1 & H2 & _ & H4 & _).
  destruct (ex_loaded ex_sp3) as [b| | |] eqn:Eb; [|vm_compute in Eb; discriminate..].
  exists ex_sp3, ex_db, b, 1000, ex_cut, 6. vm_compute in Eb. injection Eb as <-.
  split; [exact H1|]. split; [exact H2|]. split; [by apply ex_loaded_ok; vm_compute|].
  split; [apply (bool_decide_unpack _); by vm_compute|]. split; [exact H4|]. cbv zeta.
  split; [split; apply (bool_decide_unpack _); by vm_compute|]. by vm_compute.
Qed.
Print Assumptions C84_torn_refuted.

(** If the process dies before an encrypted page is written, the zeros in its place
    are decrypted: a value that was never inserted is given if the keystream looks
    like a page. *)
Definition ex_ks4 (k n : bytes) (l : nat) : bytes :=
  take l (le64 1 ++ ex_key 1 ++ ex_val 99 ++ replicate l 0%N).
Definition ex_sp4 : sparams := SPar ex_p 2 (fun _ => (0, 0)%N) (Encrypted ex_ks4 [1%N; 2%N]).
Theorem C84_garbage_refuted :
  exists sp kvs b fuel cut k s key r v,
    db_ok sp kvs /\ empty_lists_last (sp_enc sp) kvs /\ loaded sp kvs b /\
    store_fuel (sp_enc sp) kvs <= fuel /\ cuts cut /\
    let ops := (build_io fuel sp cut b no_files).2.1 in
    open_disk (sp_enc sp) (dies no_files ops k) = Ok s /\ get_list sp s key = Ok r /\
    v ∈ r /\ v ∉ values_of key kvs.
Proof.
  destruct (ex_life_ok ex_sp2 (or_introl eq_refl)) as ([A B C D E] & H2 & _ & H4 & _).
  destruct (ex_loaded ex_sp4) as [b| | |] eqn:Eb; [|vm_compute in Eb; discriminate..].
  exists ex_sp4, ex_db, b, 1000, ex_cut, 2. vm_compute in Eb. injection Eb as <-.
  eexists. exists (ex_key 1). eexists. exists (ex_val 99).
  split.
  { split; auto. intros k n l. unfold ex_ks4. rewrite take_length, !app_length, replicate_length. lia. }
  split; [exact H2|]. split; [by apply ex_loaded_ok; vm_compute|].
  split; [apply (bool_decide_unpack _); by vm_compute|]. split; [exact H4|]. cbv zeta.
  split; [by vm_compute|]. split; [by vm_compute|].
  split; apply (bool_decide_unpack _); by vm_compute.
Qed.
Print Assumptions C84_garbage_refuted.

(** ** C85: a build that throws leaves no store that was not there. *)
(** On top of a table, a build throws, and at no point is a file changed: a store
    opened before, meanwhile or after is the same. *)
Theorem C85_refused :
  forall sp kvs b fuel cut d k,
    db_ok sp kvs -> empty_lists_last (sp_enc sp) kvs -> loaded sp kvs b ->
    store_fuel (sp_enc sp) kvs <= fuel -> content Pages d <> [] ->
    let t := build_io fuel sp cut b d in
    t.2.2 = Throw RuntimeError /\ sb_built t.1 = false /\
    dies d t.2.1 k = d /\ open_disk (sp_enc sp) (dies d t.2.1 k) = open_disk (sp_enc sp) d.
Proof.
  intros sp kvs b fuel cut d k Hdb Hne Hl Hfu HP t.
  destruct (build_io_ok sp kvs b Hdb Hne Hl) as (b2 & f & s & E1 & _).
  pose proof (dk_size _ _ Hdb) as Hn.
  destruct (build_io_refused fuel sp cut b d b2 f (E1 fuel Hfu) ltac:(lia) HP) as (b' & E & Hb & _).
  unfold t. rewrite E. cbn [fst snd].
  assert (Hd : dies d [Create Pages] k = d).
  { destruct k as [|k]; [done|]. unfold dies. cbn [take]. rewrite take_nil. cbn [do_ops foldl do_op].
    unfold content in HP |- *. cbn [dk_get] in HP |- *. destruct d as [a c p q]. cbn [dk_pages dk_set dk_tmp dk_tab dk_stash] in *.
    by destruct p. }
  by rewrite Hd.
Qed.
Print Assumptions C85_refused.

(** Full statement refuted: the same builder is built again, now with nothing in its
    way; it throws, since its allocator has already run, but only after the table
    was reserved.  A store of plain pages opens on it and has no list at all. *)
Theorem C85_again :
  forall sp kvs b fuel cut d d2,
    db_ok sp kvs -> empty_lists_last (sp_enc sp) kvs -> 0 < kp_page (sp_enc sp) -> loaded sp kvs b ->
    store_fuel (sp_enc sp) kvs <= fuel -> content Pages d <> [] ->
    content Pages d2 = [] -> dk_stash d2 = None -> sp_cipher sp = Plain ->
    let b' := (build_io fuel sp cut b d).1 in
    let t := build_io fuel sp cut b' d2 in
    t.2.2 = Throw InvalidArgument /\
    exists s, open_disk (sp_enc sp) (do_ops d2 t.2.1) = Ok s /\ forall key, get_list sp s key = Ok [].
Proof.
  intros sp kvs b fuel cut d d2 Hdb Hne Hp Hl Hfu HP HP2 HS HC b' t.
  destruct (build_io_ok sp kvs b Hdb Hne Hl) as (b2 & f & s & E1 & _).
  pose proof (dk_size _ _ Hdb) as Hn.
  destruct (build_io_refused fuel sp cut b d b2 f (E1 fuel Hfu) ltac:(lia) HP) as (b1 & E & Hb & Ha).
  unfold t, b'. rewrite E. cbn [fst]. rewrite (build_io_used fuel sp cut b1 d2 Hb Ha ltac:(lia) HP2). cbn [fst snd].
  split; [done|]. set (d' := do_ops d2 _).
  assert (EP : content Pages d' = mjoin (replicate (sp_n sp) (zero_page (kp_page (sp_enc sp))))).
  { unfold d'. cbn [do_ops foldl do_op]. rewrite !content_set_same. cbn [from_option]; unfold id.
    rewrite HP2, mjoin_zero. unfold file_truncate. rewrite take_nil. cbn [app length]. by rewrite Nat.sub_0_r. }
  assert (ES : dk_stash d' = None) by done.
  rewrite (open_disk_pages _ _ (replicate (sp_n sp) (zero_page (kp_page (sp_enc sp)))) Hp
    ltac:(rewrite replicate_length; lia)
    ltac:(apply Forall_replicate; apply replicate_length) EP), ES. cbn [rbind].
  eexists. split; [done|]. intros key. rewrite get_list_zero; [by rewrite lookup_empty|apply Hdb|done|done].
Qed.
Print Assumptions C85_again.
Theorem C85_refuted :
  exists sp kvs b fuel cut d d2 s key,
    db_ok sp kvs /\ loaded sp kvs b /\ cuts cut /\
    let b' := (build_io fuel sp cut b d).1 in
    let t := build_io fuel sp cut b' d2 in
    open_disk (sp_enc sp) d2 = Throw RuntimeError /\ t.2.2 = Throw InvalidArgument /\
    open_disk (sp_enc sp) (do_ops d2 t.2.1) = Ok s /\ get_list sp s key = Ok [] /\
    values_of key (accepted (sp_enc sp) kvs) <> [].
Proof.
  destruct (ex_life_ok ex_sp2 (or_introl eq_refl)) as (H1 & H2 & _ & H4 & _).
  destruct (ex_loaded ex_sp2) as [b| | |] eqn:Eb; [|vm_compute in Eb; discriminate..].
  exists ex_sp2, ex_db, b, 1000, ex_cut, (Disk None None (Some [1%N]) None), no_files.
  vm_compute in Eb. injection Eb as <-. eexists. exists (ex_key 1).
  split; [exact H1|]. split; [by apply ex_loaded_ok; vm_compute|]. split; [exact H4|]. cbv zeta.
  split; [by vm_compute|]. split; [by vm_compute|]. split; [by vm_compute|]. split; by vm_compute.
Qed.
Print Assumptions C85_refuted.

(** ** C86: a store is made of one build only. *)
(** On a disk where only an older stash is left: a build that stashes something
    replaces it; the store of one that does not gives its lists followed by those of
    the older stash. *)
Theorem C86_stale :
  forall sp kvs b fuel cut d w m,
    db_ok sp kvs -> empty_lists_last (sp_enc sp) kvs -> 0 < kp_page (sp_enc sp) ->
    loaded sp kvs b -> store_fuel (sp_enc sp) kvs <= fuel -> cuts cut ->
    content Pages d = [] -> dk_stash d = Some w -> deserialize_map (sp_enc sp) w = Ok m ->
    let t := build_io fuel sp cut b d in
    exists f s,
      store_build fuel sp b = (t.1, Ok f) /\ t.2.2 = Ok tt /\
      open_disk (sp_enc sp) (do_ops d t.2.1) = Ok s /\
      forall key, exists r, get_list sp s key = Ok (r ++ if sf_stash f then [] else default [] (m !! key)) /\
        r ≡ₚ values_of key (accepted (sp_enc sp) kvs).
Proof.
  intros sp kvs b fuel cut d w m Hdb Hne Hp Hl Hfu Hcut HP HS Hw t.
  destruct (build_io_ok sp kvs b Hdb Hne Hl) as (b2 & f & s & E1 & E2 & HL & HF & Hst & Es & Hg).
  specialize (E2 fuel cut d Hfu HP). unfold t. rewrite E2. cbn [fst snd]. exists f.
  set (ops := build_ops sp cut f).
  pose proof (dk_size _ _ Hdb) as Hn.
  assert (HD : dies d ops (length ops) = do_ops d ops) by (unfold dies; by rewrite take_ge).
  assert (Hlo : 2 + length (sf_table f) <= length ops).
  { unfold ops. rewrite build_ops_split, app_length, head_length. lia. }
  assert (EP : content Pages (do_ops d ops) = mjoin (sf_table f)).
  { destruct (pages_at_death sp cut f d (length ops) HP HL HF) as [[? _]|[_ E]]; [lia|].
    fold ops in E. rewrite HD in E. by rewrite partial_all in E by lia. }
  assert (ES : dk_stash (do_ops d ops) = match sf_stash f with Some x => Some x | None => Some w end).
  { destruct (stash_at_death sp cut f d (length ops) Hcut) as [[E [E'|E']]|(x & i & Ew & E & _ & Hm)];
      fold ops in E; rewrite HD in E.
    - by rewrite E, HS, E'.
    - fold ops in E'. lia.
    - rewrite E, Ew. fold ops in Hm. by rewrite take_ge by auto. }
  rewrite (open_disk_pages _ _ (sf_table f) Hp ltac:(lia) HF EP), ES. unfold open_store in Es.
  destruct (sf_stash f) as [x|].
  - exists s. split; [by apply E1|]. split; [done|]. split; [exact Es|].
    intros key. destruct (Hg key) as (r & Hr & Hperm). exists r. by rewrite app_nil_r.
  - rewrite Hw. cbn [rbind] in Es |- *. injection Es as <-. eexists. split; [by apply E1|].
    split; [done|]. split; [done|]. intros key. destruct (Hg key) as (r & Hr & Hperm). exists r. split; [|done].
    unfold get_list in Hr |- *. cbn [st_stash] in Hr |- *. rewrite lookup_empty in Hr.
    apply rbind_ok in Hr as (bk & Hb & Hr). apply rbind_ok in Hr as (y & Hy & Hr). injection Hr as <-.
    unfold get_buckets in Hb |- *. cbn [st_table] in Hb |- *. rewrite Hb. cbn [rbind]. rewrite Hy. cbn [rbind].
    by rewrite app_nil_r.
Qed.
Print Assumptions C86_stale.

(** Full statement refuted: the stash of an older build is read with the table of a
    newer one, and a value that the newer one did not insert is given. *)
Theorem C86_refuted :
  exists sp old new b0 b1 fuel cut s key r v,
    db_ok sp old /\ db_ok sp new /\ loaded sp old b0 /\ loaded sp new b1 /\ cuts cut /\
    let d0 := do_ops no_files (build_io fuel sp cut b0 no_files).2.1 in
    let d1 := dk_set Pages None d0 in
    let t := build_io fuel sp cut b1 d1 in
    t.2.2 = Ok tt /\ open_disk (sp_enc sp) (do_ops d1 t.2.1) = Ok s /\
    get_list sp s key = Ok r /\ v ∈ r /\ v ∉ values_of key new.
Proof.
  destruct (ex_life_ok ex_sp3 (or_intror eq_refl)) as (H1 & H2 & _ & H4 & _).
  set (new := [(ex_key 3, ex_val <$> [21]%N)]).
  destruct (ex_loaded ex_sp3) as [b| | |] eqn:Eb; [|vm_compute in Eb; discriminate..].
  destruct (c0 <~ new_store_builder ex_sp3; Ok (run_inserts ex_sp3 c0 new).1) as [c| | |] eqn:Ec;
    [|vm_compute in Ec; discriminate..].
  exists ex_sp3, ex_db, new, b, c, 1000, ex_cut.
  assert (Hc : loaded ex_sp3 new c).
  { apply rbind_ok in Ec as (c0 & E0 & Ec). injection Ec as <-. by exists c0. }
  pose proof (ex_loaded_ok _ _ Eb) as Hb.
  vm_compute in Eb. vm_compute in Ec. injection Eb as <-. injection Ec as <-.
  eexists. exists (ex_key 3). eexists. exists (ex_val 23).
  split; [exact H1|]. split.
  { destruct H1 as [A B C _ _]. split; auto; [repeat constructor; try done; apply le64_length|].
    apply (bool_decide_unpack _); by vm_compute. }
  split; [exact Hb|]. split; [exact Hc|]. split; [exact H4|]. cbv zeta.
  split; [by vm_compute|]. split; [by vm_compute|]. split; [by vm_compute|].
  split; apply (bool_decide_unpack _); by vm_compute.
Qed.
Print Assumptions C86_refuted.
(** The hypotheses of C85 and C86 on the disk: a table, and a stash without table. *)
Example C85_ex : exists d d2, content Pages d <> [] /\ content Pages d2 = [] /\ dk_stash d2 = None.
Proof. exists (Disk None None (Some [1%N]) None), no_files. done. Qed.
Example C86_ex : exists d w m, content Pages d = [] /\ dk_stash d = Some w /\ deserialize_map ex_p w = Ok m /\
  m !! ex_key 3 = Some [ex_val 5].
Proof.
  exists (Disk None None None (Some (ex_key 3 ++ le64 1 ++ ex_val 5))). eexists. eexists.
  split; [done|]. split; [done|]. split; by vm_compute.
Qed.
