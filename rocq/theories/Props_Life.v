(** C81-C83: the files of a builder of Oceanus when the process dies, when the
    build is tried again, and when commit() is called again. *)
From stdpp Require Import prelude.
From Coq Require Import ZArith NArith Lia.
From Verif Require Import Base EncModel VecModel VecSpec VecProofs CuckooModel CuckooSpec CuckooProofs
  Props_Cuckoo LifeModel LifeSpec LifeProofs.
Local Open Scope nat_scope.

(** A small build: two keys of two bytes with a value of one byte. *)
Definition ex_kvs : list (bytes * bytes) := [([1; 2], [7]); ([2; 5], [8])]%N.
Definition ex_hash (k : bytes) : N * N := (nth 0 k 0%N, nth 1 k 0%N).
Example ex_kvs_ok : kv_ok 2 1 ex_kvs /\ NoDup ex_kvs.*1 /\ clean no_files /\
  plain_key 2 [1; 2]%N /\ (N.of_nat (length ex_kvs) <= no_index)%N.
Proof.
  split_and!; [repeat constructor|apply (bool_decide_unpack _); by vm_compute|done..| |done].
  split_and!; done.
Qed.

(** ** C81: the process dies during a build. *)
(** The system calls of a build, all done, leave the table of [cb_build] and no
    value file. *)
Theorem C81_complete :
  forall ksz vsz size depth max_n hash kvs d,
    0 < ksz -> 0 < size -> kv_ok ksz vsz kvs -> (N.of_nat (length kvs) <= no_index)%N -> clean d ->
    exists b outs file,
      cb_build (ksz + vsz) size depth max_n hash kvs = (b, outs, (file, Ok tt)) /\
      (life (ksz + vsz) size depth max_n hash d (build kvs)).2 = outs ++ [Ok tt] /\
      let d' := do_ops d (life (ksz + vsz) size depth max_n hash d (build kvs)).1.2 in
      dk_tmp d' = None /\ dk_tab d' = Some file.
Proof.
  intros ksz vsz size depth max_n hash kvs d Hk Hs HK HN [HT HB].
  destruct (life_build ksz vsz size depth max_n hash kvs d Hk Hs HK HN HT HB) as (b & R & Eb & Eo & El).
  destruct (build_spec ksz vsz size depth max_n hash kvs Hk Hs HK HN) as (b' & outs & file & t & E1 & _ & Ht & _).
  exists b', outs, file. split; [done|]. rewrite E1 in Eb, Eo. cbn [fst snd] in Eb, Eo. subst b'.
  split; [done|]. rewrite El. clear El.
  destruct (commit_spec (ksz + vsz) size hash kvs b ltac:(lia) Hs R) as (A & Ef & HF).
  assert (Efile : file = mjoin (entry (ksz + vsz) kvs <$> ca_t0 (cb_alloc b) ++ ca_t1 (cb_alloc b))).
  { unfold cb_build in E1. injection E1 as Eb _ Ef' _. rewrite Eb in Ef'. by rewrite <- Ef', Ef. }
  set (sz := ksz + vsz) in *.
  set (es := entry sz kvs <$> ca_t0 (cb_alloc b) ++ ca_t1 (cb_alloc b)) in *.
  assert (HL : length es = 2 * size).
  { unfold es. rewrite fmap_length, app_length, (wf_len0 _ (br_wf _ _ _ _ _ R)), (wf_len1 _ (br_wf _ _ _ _ _ R)).
    rewrite (br_size _ _ _ _ _ R). lia. }
  rewrite <- (imap_fmap (fun i e => Write Tab (i * sz) e) (entry sz kvs)). fold es.
  set (A1 := (life_new sz size depth max_n d).2 ++ ins_ops hash (cb_new sz size depth max_n []) kvs).
  assert (HA : Forall (fun o => ~ touches Tab o) A1).
  { apply Forall_app. split; [apply new_kept|apply ins_ops_on]. }
  set (ops := A1 ++ Create Tab :: Trunc Tab (2 * size * sz) ::
     imap (fun i e => Write Tab (i * sz) e) es ++ [Unlink Tmp]).
  assert (Eops : (life_new sz size depth max_n d).2 ++ ins_ops hash (cb_new sz size depth max_n []) kvs ++
     Create Tab :: Trunc Tab (2 * size * sz) :: imap (fun i e => Write Tab (i * sz) e) es ++ [Unlink Tmp] = ops).
  { unfold ops, A1. by rewrite <- app_assoc. }
  rewrite Eops.
  assert (Hlen : length ops = length A1 + 2 + 2 * size + 1).
  { unfold ops. rewrite app_length. cbn [length]. rewrite app_length, imap_length, HL. simpl. lia. }
  destruct (table_at_death Tab sz (2 * size) es d A1 [Unlink Tmp] (length ops) HA ltac:(repeat constructor; simpl; congruence) HB HF HL) as [[Hc _]|[_ Hc]];
    fold ops in Hc; [lia|].
  rewrite partial_all in Hc by lia. unfold dies in Hc. rewrite take_ge in Hc by lia.
  assert (Hne : mjoin es <> []).
  { intros E. pose proof (mjoin_len sz _ HF) as HM. rewrite E, HL in HM. simpl in HM. unfold sz in HM. nia. }
  assert (Ht' : dk_tmp (do_ops d ops) = None).
  { unfold ops. rewrite do_ops_app. cbn [do_ops foldl]. change (foldl do_op) with do_ops.
    rewrite do_ops_app. done. }
  split; [done|]. unfold content in Hc. cbn [dk_get] in Hc.
  destruct (dk_tab (do_ops d ops)) as [f|]; [|by rewrite <- Hc in Hne]. cbn [from_option] in Hc; unfold id in Hc. by rewrite Hc, Efile.
Qed.
Print Assumptions C81_complete.
Example C81_complete_ex :
  do_ops no_files (life 3 2 4 5 ex_hash no_files (build ex_kvs)).1.2 =
    Disk None (Some [2; 5; 8; 1; 2; 7; 255; 255; 255; 255; 255; 255]%N) None None.
Proof. by vm_compute. Qed.

(** The table at the death, in terms of the entries. *)
Lemma death_pages ksz vsz size depth max_n hash kvs d :
  0 < ksz -> 0 < size -> kv_ok ksz vsz kvs -> (N.of_nat (length kvs) <= no_index)%N -> clean d ->
  let sz := ksz + vsz in
  let ops := (life sz size depth max_n hash d (build kvs)).1.2 in
  exists b file es n0,
    cb_build sz size depth max_n hash kvs = (b, (cb_build sz size depth max_n hash kvs).1.2, (file, Ok tt)) /\
    file = mjoin es /\ length es = 2 * size /\ Forall (fun e => length e = sz) es /\
    length ops = n0 + 2 + 2 * size + 1 /\
    forall k, (k < n0 + 2 /\ content Tab (dies d ops k) = []) \/
      (n0 + 2 <= k /\ content Tab (dies d ops k) = mjoin (partial sz es (k - (n0 + 2)))).
Proof.
  intros Hk Hs HK HN [HT HB] sz ops.
  destruct (life_build ksz vsz size depth max_n hash kvs d Hk Hs HK HN HT HB) as (b & R & Eb & Eo & El).
  destruct (build_spec ksz vsz size depth max_n hash kvs Hk Hs HK HN) as (b' & outs & file & t & E1 & _ & Ht & _).
  fold sz in E1, Eb, Eo. rewrite E1 in Eb, Eo |- *. cbn [fst snd] in Eb, Eo |- *. subst b'.
  destruct (commit_spec (ksz + vsz) size hash kvs b ltac:(lia) Hs R) as (A & Ef & HF).
  fold sz in A, Ef, HF, El.
  assert (Efile : file = mjoin (entry sz kvs <$> ca_t0 (cb_alloc b) ++ ca_t1 (cb_alloc b))).
  { unfold cb_build in E1. injection E1 as Eb _ Ef' _. rewrite Eb in Ef'. by rewrite <- Ef', Ef. }
  set (es := entry sz kvs <$> ca_t0 (cb_alloc b) ++ ca_t1 (cb_alloc b)) in *.
  assert (HL : length es = 2 * size).
  { unfold es. rewrite fmap_length, app_length, (wf_len0 _ (br_wf _ _ _ _ _ R)), (wf_len1 _ (br_wf _ _ _ _ _ R)).
    rewrite (br_size _ _ _ _ _ R). lia. }
  rewrite <- (imap_fmap (fun i e => Write Tab (i * sz) e) (entry sz kvs)) in El. fold es in El.
  set (A1 := (life_new sz size depth max_n d).2 ++ ins_ops hash (cb_new sz size depth max_n []) kvs).
  assert (HA : Forall (fun o => ~ touches Tab o) A1).
  { apply Forall_app. split; [apply new_kept|apply ins_ops_on]. }
  rewrite app_assoc in El. fold A1 in El. fold ops in El.
  exists b, file, es, (length A1). split_and!; auto.
  - rewrite El, app_length. cbn [length]. rewrite app_length, imap_length, HL. simpl. lia.
  - intros k. rewrite El. apply table_at_death; auto. repeat constructor; simpl; congruence.
Qed.

(** Wherever the process dies, the table cannot be opened because nothing was
    written to it, or it opens with its final size and never gives a value that
    was not inserted for the key asked. *)
Theorem C81_interrupted :
  forall ksz vsz size depth max_n hash kvs d k,
    0 < ksz -> 0 < size -> kv_ok ksz vsz kvs -> (N.of_nat (length kvs) <= no_index)%N -> clean d ->
    let sz := ksz + vsz in
    let b := (cb_build sz size depth max_n hash kvs).1.1 in
    let d' := dies d (life sz size depth max_n hash d (build kvs)).1.2 k in
    match ct_open sz (content Tab d') with
    | Throw e => e = RuntimeError /\ content Tab d' = []
    | Ok t => ct_size t = size /\
        forall key, plain_key ksz key ->
          match ct_get sz hash t key with
          | Ok v => exists i, kvs !! i = Some (key, v) /\ N.of_nat i ∉ cb_spilled b
          | Throw e => e = OutOfRange
          | _ => False
          end
    | _ => False
    end.
Proof.
  intros ksz vsz size depth max_n hash kvs d k Hk Hs HK HN HC sz b d'.
  destruct (death_pages ksz vsz size depth max_n hash kvs d Hk Hs HK HN HC)
    as (b' & file & es & n0 & E1 & Ef & HL & HF & Hlen & HD).
  fold sz in E1, HF, Hlen, HD.
  unfold d'. destruct (HD k) as [[_ E]|[_ E]]; rewrite E; [done|].
  assert (Hsz : 0 < sz) by (unfold sz; lia).
  destruct (open_spec sz size (partial sz es (k - (n0 + 2))) Hsz Hs) as (t & Ht & Hts & Hg);
    [by rewrite partial_len|by apply partial_sizes|].
  rewrite Ht. split; [done|]. intros key (Lk & Kff & Kz).
  destruct (ct_get_pages sz size hash _ t key Hsz Hs ltac:(by rewrite partial_len) Hg Hts)
    as (e0 & e1 & _ & _ & Eg).
  destruct (ct_get sz hash t key) as [v|e| |] eqn:G.
  - destruct (build_spec ksz vsz size depth max_n hash kvs Hk Hs HK HN) as (b2 & outs & file2 & t2 & E2 & _ & Ht2 & HG).
    fold sz in E2, Ht2, HG. unfold b. rewrite E2 in E1 |- *. cbn [fst snd] in E1 |- *. injection E1 as Eb Ef2.
    specialize (HG key Lk (or_introl Kff)).
    assert (G2 : ct_get sz hash t2 key = Ok v).
    { apply (partial_get_mono sz size hash ksz es (k - (n0 + 2)) (max (k - (n0 + 2)) (length es)) t t2 key v);
        auto; [unfold sz; lia|lia|]. rewrite partial_all by lia. by rewrite <- Ef, <- Ef2. }
    by rewrite G2 in HG.
  - destruct (match_key e0 key); [done|]. destruct (match_key e1 key); [done|]. by injection Eg as ->.
  - destruct (match_key e0 key); [done|]. by destruct (match_key e1 key).
  - destruct (match_key e0 key); [done|]. by destruct (match_key e1 key).
Qed.
Print Assumptions C81_interrupted.

(** A key found at some point is found, with the same value, at all later points;
    only the removal of the value file follows the last write. *)
Theorem C81_progress :
  forall ksz vsz size depth max_n hash kvs d k k' t,
    0 < ksz -> 0 < size -> kv_ok ksz vsz kvs -> (N.of_nat (length kvs) <= no_index)%N -> clean d ->
    let sz := ksz + vsz in
    let ops := (life sz size depth max_n hash d (build kvs)).1.2 in
    k <= k' -> ct_open sz (content Tab (dies d ops k)) = Ok t ->
    exists t', ct_open sz (content Tab (dies d ops k')) = Ok t' /\
      (forall key v, length key = ksz -> key <> zero_key ksz ->
         ct_get sz hash t key = Ok v -> ct_get sz hash t' key = Ok v) /\
      (length ops <= S k' ->
         content Tab (dies d ops k') = (cb_build sz size depth max_n hash kvs).2.1).
Proof.
  intros ksz vsz size depth max_n hash kvs d k k' t Hk Hs HK HN HC sz ops Hle Ht.
  destruct (death_pages ksz vsz size depth max_n hash kvs d Hk Hs HK HN HC)
    as (b' & file & es & n0 & E1 & Ef & HL & HF & Hlen & HD).
  fold sz ops in E1, HF, Hlen, HD.
  assert (Hsz : 0 < sz) by (unfold sz; lia).
  destruct (HD k) as [[_ E]|[Hk1 E]]; rewrite E in Ht; [done|].
  destruct (HD k') as [[Hk2 _]|[Hk2 E']]; [lia|]. rewrite E'.
  destruct (open_spec sz size (partial sz es (k' - (n0 + 2))) Hsz Hs) as (t' & Ht' & Hts & Hg);
    [by rewrite partial_len|by apply partial_sizes|].
  exists t'. split; [done|]. split.
  - intros key v Lk Kz G.
    apply (partial_get_mono sz size hash ksz es (k - (n0 + 2)) (k' - (n0 + 2)) t t' key v); auto; [unfold sz; lia|lia].
  - intros Hl. rewrite E1. cbn [fst snd]. rewrite Ef. f_equal. apply partial_all. lia.
Qed.
Print Assumptions C81_progress.
Example C81_ex : let ops := (life 3 2 4 5 ex_hash no_files (build ex_kvs)).1.2 in
  length ops = 11 /\
  exists t, ct_open 3 (content Tab (dies no_files ops 7)) = Ok t /\
    ct_get 3 ex_hash t [2; 5]%N = Ok [8]%N /\ ct_get 3 ex_hash t [1; 2]%N = Throw OutOfRange.
Proof. vm_compute. split; [done|]. eexists. split_and!; reflexivity. Qed.

(** Full statement refuted: the process dies before the last write, the table
    opens all the same, and a key that was inserted is said not to be there. *)
Theorem C81_refuted :
  exists ksz vsz size depth max_n hash kvs k t key v,
    kv_ok ksz vsz kvs /\ NoDup kvs.*1 /\ plain_key ksz key /\
    let sz := ksz + vsz in
    let ops := (life sz size depth max_n hash no_files (build kvs)).1.2 in
    cb_spilled (cb_build sz size depth max_n hash kvs).1.1 = [] /\
    S k < length ops /\ (key, v) ∈ kvs /\
    ct_open sz (content Tab (dies no_files ops k)) = Ok t /\ ct_get sz hash t key = Throw OutOfRange.
Proof.
  exists 2, 1, 2, 4, 5, ex_hash, ex_kvs, 7. eexists. exists [1; 2]%N, [7]%N.
  destruct ex_kvs_ok as (HK & HN & _).
  split; [exact HK|]. split; [exact HN|]. split; [by split_and!|].
  cbv zeta. split_and!.
  - by vm_compute.
  - apply (bool_decide_unpack _); by vm_compute.
  - left.
  - by vm_compute.
  - by vm_compute.
Qed.
Print Assumptions C81_refuted.

(** If a write itself may be cut, a value that was never inserted is given. *)
Theorem C81_torn_refuted :
  exists ksz vsz size depth max_n hash kvs k off bs n t key v,
    kv_ok ksz vsz kvs /\ NoDup kvs.*1 /\ plain_key ksz key /\
    let sz := ksz + vsz in
    let ops := (life sz size depth max_n hash no_files (build kvs)).1.2 in
    ops !! k = Some (Write Tab off bs) /\ n < length bs /\
    ct_open sz (content Tab (do_op (dies no_files ops k) (Write Tab off (take n bs)))) = Ok t /\
    ct_get sz hash t key = Ok v /\ (key, v) ∉ kvs.
Proof.
  exists 2, 1, 2, 4, 5, ex_hash, ex_kvs, 6, 0, [2; 5; 8]%N, 2. eexists. exists [2; 5]%N, [0]%N.
  destruct ex_kvs_ok as (HK & HN & _).
  split; [exact HK|]. split; [exact HN|]. split; [by split_and!|].
  cbv zeta. split_and!.
  - by vm_compute.
  - simpl; lia.
  - by vm_compute.
  - by vm_compute.
  - apply (bool_decide_unpack _); by vm_compute.
Qed.
Print Assumptions C81_torn_refuted.

(** ** C82: building again after the death of a builder. *)
(** Unless it died before its second system call or during the last one, the dead
    builder leaves a value file, on which every insertion of a later builder
    throws; and a table it began to write is never changed by a later builder. *)
Theorem C82_refused :
  forall ksz vsz size depth max_n hash kvs d k size' depth' max_n' cs,
    0 < ksz -> 0 < size -> kv_ok ksz vsz kvs -> (N.of_nat (length kvs) <= no_index)%N -> clean d ->
    let sz := ksz + vsz in
    let ops := (life sz size depth max_n hash d (build kvs)).1.2 in
    0 < max_n -> 1 < k < length ops ->
    let d' := dies d ops k in
    let r := life sz size' depth' max_n' hash d' cs in
    (forall i key v, cs !! i = Some (BInsert key v) -> r.2 !! i = Some (Throw RuntimeError)) /\
    (content Tab d' <> [] -> forall j, content Tab (dies d' r.1.2 j) = content Tab d').
Proof.
  intros ksz vsz size depth max_n hash kvs d k size' depth' max_n' cs Hk Hs HK HN HC sz ops Hm Hkk d' r.
  pose proof (tmp_at_death ksz vsz size depth max_n hash kvs d k Hk Hs HK HN HC Hm Hkk) as HT.
  fold sz ops d' in HT. split.
  - intros i key v Hi. unfold r, life. cbn [snd].
    destruct (calls_stale sz size' depth' hash cs _ (do_ops d' (life_new sz size' depth' max_n' d').2)
      (new_stale sz size' depth' max_n' d' HT)) as [_ H]. by apply (H i key v).
  - intros HB j. apply content_untouched_take. unfold r, life. cbn [fst snd]. apply Forall_app.
    split; [apply new_kept|]. apply calls_kept. by rewrite content_untouched_ops by apply new_kept.
Qed.
Print Assumptions C82_refused.

(** A table that is there already is kept, whatever is done, and the destruction of
    the builder, like the first commit, throws. *)
Theorem C82_kept :
  forall sz size depth max_n hash d cs,
    content Tab d <> [] ->
    let r := life sz size depth max_n hash d cs in
    let d' := do_ops d r.1.2 in
    (forall j, content Tab (dies d r.1.2 j) = content Tab d) /\
    (forall j, content Tab (dies d' (life_end sz r.1.1 d').1 j) = content Tab d) /\
    (0 < size -> content Tmp d <> [] -> BCommit ∉ cs -> (life_end sz r.1.1 d').2 = false).
Proof.
  intros sz size depth max_n hash d cs HB r d'.
  assert (HF : Forall (fun o => ~ touches Tab o) r.1.2).
  { unfold r, life. cbn [fst snd]. apply Forall_app.
    split; [apply new_kept|]. apply calls_kept. by rewrite content_untouched_ops by apply new_kept. }
  assert (HB' : content Tab d' = content Tab d) by by apply content_untouched_ops.
  split; [intros j; by apply content_untouched_take|]. split.
  - intros j. rewrite content_untouched_take; [done|]. unfold life_end. cbn [fst].
    apply commit_ops_kept. by rewrite HB'.
  - intros Hs HT Hcs. unfold life_end. cbn [snd].
    destruct (calls_stale sz size depth hash cs _ (do_ops d (life_new sz size depth max_n d).2)
      (new_stale sz size depth max_n d HT)) as [Hst _].
    change (life_calls sz hash (life_new sz size depth max_n d).1 _ cs).1.1 with r.1.1 in Hst.
    rewrite (commit_refused_stale sz size depth r.1.1); auto; [by rewrite HB'|].
    assert (Hc : exists kvs, cs = inserts kvs).
    { clear -Hcs. induction cs as [|[k v|] cs IH]; [by exists []| |].
      - destruct IH as [kvs ->]; [set_solver|]. by exists ((k, v) :: kvs).
      - exfalso. apply Hcs. left. }
    destruct Hc as [kvs ->]. unfold r, life. cbn [fst snd].
    destruct (calls_inserts_stale sz size depth hash kvs _ (do_ops d (life_new sz size depth max_n d).2)
      (new_stale sz size depth max_n d HT)) as [_ ->]. done.
Qed.
Print Assumptions C82_kept.

(** Full statement refuted in general: when the process died before the table was
    begun, a later builder whose insertions all threw leaves, when it is destroyed,
    a table that opens and holds nothing, and removes the value file. *)
Theorem C82_emptied :
  forall ksz vsz size depth max_n hash d kvs,
    0 < ksz -> 0 < size -> content Tmp d <> [] -> content Tab d = [] ->
    let sz := ksz + vsz in
    let r := life sz size depth max_n hash d (inserts kvs) in
    let d' := do_ops d r.1.2 in
    let e := life_end sz r.1.1 d' in
    r.2 = replicate (length kvs) (Throw RuntimeError) /\ e.2 = true /\
    exists file t, dk_tmp (do_ops d' e.1) = None /\ dk_tab (do_ops d' e.1) = Some file /\ ct_open sz file = Ok t /\
      forall key, length key = ksz -> key <> ff_key ksz -> ct_get sz hash t key = Throw OutOfRange.
Proof.
  intros ksz vsz size depth max_n hash d kvs Hk Hs HT HB sz r d' e.
  assert (Hsz : 0 < sz) by (unfold sz; lia).
  pose proof (new_stale sz size depth max_n d HT) as Hn.
  destruct (calls_inserts_stale sz size depth hash kvs _ (do_ops d (life_new sz size depth max_n d).2) Hn)
    as [Eo Ec].
  destruct (calls_stale sz size depth hash (inserts kvs) _ (do_ops d (life_new sz size depth max_n d).2) Hn)
    as [Hst Hthr].
  change (life_calls sz hash (life_new sz size depth max_n d).1 _ (inserts kvs)).1.1 with r.1.1 in Ec, Hst.
  assert (Ec' : cb_committed r.1.1 = false) by by rewrite Ec.
  assert (Hlen : forall cs b d0, length (life_calls sz hash b d0 cs).2 = length cs).
  { intros cs. induction cs as [|c cs IH]; intros b d0; [done|]. cbn [life_calls snd length]. by rewrite IH. }
  assert (HBd : content Tab d' = []).
  { unfold d'. rewrite content_untouched_ops; [done|]. unfold r, life. cbn [fst snd]. rewrite Eo, app_nil_r.
    apply new_kept. }
  split.
  { apply list_eq. intros i. change r.2 with (life_calls sz hash (life_new sz size depth max_n d).1
      (do_ops d (life_new sz size depth max_n d).2) (inserts kvs)).2.
    destruct (kvs !! i) as [[k v]|] eqn:Ei.
    - rewrite (Hthr i k v) by (unfold inserts; by rewrite list_lookup_fmap, Ei).
      symmetry. apply lookup_replicate_2. by eapply lookup_lt_Some.
    - apply lookup_ge_None in Ei. rewrite (lookup_ge_None_2 (replicate _ _)) by (rewrite replicate_length; lia).
      apply lookup_ge_None_2. rewrite Hlen. unfold inserts. rewrite fmap_length. lia. }
  destruct (brep_stale sz size depth hash r.1.1 Hsz Hst) as (b0 & R0 & Ea).
  destruct (commit_stale sz size depth r.1.1 b0 [] Hst Ec' Ea (br_open _ _ _ _ _ R0)) as (C1 & C2 & C3).
  destruct (commit_spec sz size hash [] b0 Hsz Hs R0) as (A & Ef & HF).
  unfold e, life_end. cbn [fst snd]. rewrite HBd, C2, A. split; [done|].
  set (es := entry sz [] <$> ca_t0 (cb_alloc b0) ++ ca_t1 (cb_alloc b0)) in *.
  assert (HL : length es = 2 * size).
  { unfold es. rewrite fmap_length, app_length, (wf_len0 _ (br_wf _ _ _ _ _ R0)), (wf_len1 _ (br_wf _ _ _ _ _ R0)).
    rewrite (br_size _ _ _ _ _ R0). lia. }
  destruct (open_spec sz size es Hsz Hs HL HF) as (t & Ht & Hts & Hg).
  exists (mjoin es), t. apply and_assoc. split; [|split; [done|]].
  - pose proof (commit_file sz r.1.1 d') as Hc. rewrite HBd, C1, Ef in Hc.
    assert (Hne : mjoin es <> []).
    { intros E. pose proof (mjoin_len sz _ HF) as HM. rewrite E, HL in HM. simpl in HM. nia. }
    rewrite C3 in Hc |- *. rewrite (commit_ops_spec sz size hash [] b0 Hsz Hs R0) in Hc |- *.
    set (ops := Create Tab :: _) in *.
    assert (Ht' : dk_tmp (do_ops d' ops) = None).
    { unfold ops. cbn [do_ops foldl]. change (foldl do_op) with do_ops. by rewrite do_ops_app. }
    split; [done|]. unfold content in Hc. cbn [dk_get] in Hc.
    destruct (dk_tab (do_ops d' ops)) as [f|]; [|by rewrite <- Hc in Hne]. cbn [from_option] in Hc; unfold id in Hc. by rewrite Hc.
  - intros key Lk Kff.
    destruct (ct_get_pages sz size hash es t key Hsz Hs HL Hg Hts) as (e0 & e1 & E0 & E1 & ->).
    assert (Hff : forall i x, es !! i = Some x -> match_key x key = false).
    { intros i x Hx. unfold es in Hx. rewrite list_lookup_fmap in Hx.
      apply fmap_Some in Hx as (s & Hs' & ->). rewrite Ea, (proj2 Hst) in Hs'. cbn [ca_new ca_t0 ca_t1] in Hs'.
      rewrite <- replicate_add in Hs'. apply lookup_replicate in Hs' as [-> _].
      unfold match_key. apply bool_decide_eq_false. unfold entry. rewrite decide_False by (unfold full; simpl; tauto).
      rewrite take_replicate, Nat.min_l by (unfold sz; lia). intros E. apply Kff. by rewrite <- E, Lk. }
    by rewrite (Hff _ _ E0), (Hff _ _ E1).
Qed.
Print Assumptions C82_emptied.

(** The full statement fails: a build dies while inserting, the same build is tried
    again, its first insertion throws and the builder is destroyed by the unwinding
    of the stack; the table then opens and lacks what both inserted. *)
Theorem C82_refuted :
  exists ksz vsz size depth max_n hash kvs k key v t file,
    kv_ok ksz vsz kvs /\ NoDup kvs.*1 /\ plain_key ksz key /\ (key, v) ∈ kvs /\
    let sz := ksz + vsz in
    let d1 := dies no_files (life sz size depth max_n hash no_files (build kvs)).1.2 k in
    let r := life sz size depth max_n hash d1 (take 1 (inserts kvs)) in
    let d2 := do_ops d1 r.1.2 in
    r.2 = [Throw RuntimeError] /\
    (life_end sz r.1.1 d2).2 = true /\
    dk_tab (do_ops d2 (life_end sz r.1.1 d2).1) = Some file /\
    ct_open sz file = Ok t /\ ct_get sz hash t key = Throw OutOfRange.
Proof.
  exists 2, 1, 2, 4, 5, ex_hash, ex_kvs, 3, [1; 2]%N, [7]%N. do 2 eexists.
  destruct ex_kvs_ok as (HK & HN & _).
  split; [exact HK|]. split; [exact HN|]. split; [by split_and!|]. split; [left|].
  cbv zeta. split; [by vm_compute|]. split; [by vm_compute|]. split; [by vm_compute|].
  split; by vm_compute.
Qed.
Print Assumptions C82_refuted.
Example C82_ex : let ops := (life 3 2 4 5 ex_hash no_files (build ex_kvs)).1.2 in
  1 < 3 < length ops /\ content Tab (dies no_files ops 3) = [] /\ content Tmp (dies no_files ops 3) <> [] /\
  content Tab (dies no_files ops 8) <> [].
Proof. vm_compute. split_and!; (done || lia). Qed.

(** ** C83: a commit that returned has written the table. *)
(** The first commit: it returns exactly if there was no table, and the table is
    then the whole one; otherwise it throws and the table is as it was. *)
Theorem C83_first :
  forall ksz vsz size depth max_n hash kvs d,
    0 < ksz -> 0 < size -> kv_ok ksz vsz kvs -> (N.of_nat (length kvs) <= no_index)%N ->
    content Tmp d = [] ->
    let sz := ksz + vsz in
    let r := life sz size depth max_n hash d (build kvs) in
    exists o, last r.2 = Some o /\
      (content Tab d = [] -> o = Ok tt /\
         content Tab (do_ops d r.1.2) = (cb_build sz size depth max_n hash kvs).2.1) /\
      (content Tab d <> [] -> o = Throw RuntimeError /\ content Tab (do_ops d r.1.2) = content Tab d).
Proof.
  intros ksz vsz size depth max_n hash kvs d Hk Hs HK HN HT sz r.
  destruct (content Tab d) as [|x f] eqn:EB.
  - destruct (C81_complete ksz vsz size depth max_n hash kvs d Hk Hs HK HN (conj HT EB))
      as (b & outs & file & E1 & E2 & _ & E3). fold sz in E1, E2, E3. fold r in E2, E3.
    exists (Ok tt). rewrite E2, last_snoc. split; [done|]. split; [|done]. intros _. split; [done|].
    unfold content. cbn [dk_get]. rewrite E3, E1. done.
  - assert (HB : content Tab d <> []) by by rewrite EB.
    exists (Throw RuntimeError). split; [|split; [done|]].
    + unfold r, life, build. rewrite life_inserts. cbn [fst snd]. fold (ins_ops hash).
      unfold life_new at 1. cbn [fst]. rewrite HT. fold sz.
      destruct (brep_inserts ksz vsz size hash kvs ltac:(lia) Hs [] _ HK HN
        (brep_new (ksz + vsz) size depth max_n hash ltac:(lia))) as [_ R]. rewrite app_nil_l in R. fold sz in R.
      set (d1 := do_ops (do_ops d _) _).
      assert (E1 : content Tab d1 = content Tab d).
      { unfold d1. rewrite content_untouched_ops by apply ins_ops_on.
        by rewrite content_untouched_ops by apply new_kept. }
      cbn [life_calls life_call fst snd]. rewrite last_snoc. f_equal.
      assert (En : (life_new sz size depth max_n d).1 = cb_new sz size depth max_n []).
      { unfold life_new. cbn [fst]. by rewrite HT. }
      rewrite ?En.
      apply (commit_refused_brep sz size hash kvs); auto; [unfold sz; lia|]. by rewrite E1.
    + intros _. split; [done|]. rewrite <- EB.
      destruct (C82_kept sz size depth max_n hash d (build kvs) HB) as [H _].
      specialize (H (length r.1.2)). unfold dies in H. fold r in H. by rewrite take_ge in H.
Qed.
Print Assumptions C83_first.

(** Full statement refuted: a commit threw and the next one returns, though the
    table does not hold what was inserted. *)
Theorem C83_refuted :
  exists ksz vsz size depth max_n hash kvs d t key v,
    kv_ok ksz vsz kvs /\ NoDup kvs.*1 /\ plain_key ksz key /\ (key, v) ∈ kvs /\ content Tmp d = [] /\
    let sz := ksz + vsz in
    let r := life sz size depth max_n hash d (inserts kvs ++ [BCommit; BCommit]) in
    r.2 = replicate (length kvs) (Ok tt) ++ [Throw RuntimeError; Ok tt] /\
    cb_spilled r.1.1 = [] /\
    ct_open sz (content Tab (do_ops d r.1.2)) = Ok t /\ ct_get sz hash t key = Throw OutOfRange.
Proof.
  exists 2, 1, 2, 4, 5, ex_hash, ex_kvs,
    (do_ops no_files (life 3 2 4 5 ex_hash no_files (build [])).1.2). eexists. exists [1; 2]%N, [7]%N.
  destruct ex_kvs_ok as (HK & HN & _).
  split; [exact HK|]. split; [exact HN|]. split; [by split_and!|]. split; [left|].
  split; [by vm_compute|]. cbv zeta. split; [by vm_compute|]. split; [by vm_compute|].
  split; by vm_compute.
Qed.
Print Assumptions C83_refuted.
Example C83_ex : let d := do_ops no_files (life 3 2 4 5 ex_hash no_files (build ex_kvs)).1.2 in
  content Tmp d = [] /\ content Tab d <> [] /\
  (life 3 2 4 5 ex_hash d (build ex_kvs)).2 = [Ok tt; Ok tt; Throw RuntimeError].
Proof. vm_compute. split_and!; done. Qed.
