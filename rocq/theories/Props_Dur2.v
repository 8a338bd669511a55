(** Power failures and the maps of Oceanus (C118). *)
From stdpp Require Import prelude.
From Coq Require Import ZArith NArith Lia.
From Verif Require Import Base EncModel VecModel VecSpec VecProofs CuckooModel CuckooSpec CuckooProofs LifeModel LifeSpec LifeProofs
  DurModel DurSpec Props_Cuckoo Props_Life.
Local Open Scope nat_scope.

(** ** C118: a map of Oceanus built before a power failure. *)
Lemma past_in p o : forall ops d, o ∈ path_past p d ops <-> exists k, o = dk_get p (dies d ops k).
Proof.
  induction ops as [|op ops IH]; intros d; cbn [path_past]; rewrite elem_of_cons.
  - split; [intros [->|H]; [by exists 0|by apply elem_of_nil in H]|]. intros [k ->]. left. unfold dies. by rewrite take_nil.
  - rewrite IH. split.
    + intros [->|[k ->]]; [by exists 0|by exists (S k)].
    + intros [[|k] ->]; [by left|right; by exists k].
Qed.
Lemma chunks_len sz n f : length (chunks sz n f) = n.
Proof. revert f. induction n as [|n IH]; intros f; [done|]. cbn [chunks length]. by rewrite IH. Qed.
Lemma chunks_at sz i : forall n f, i < n -> chunks sz n f !! i = Some (page_of sz i f).
Proof.
  induction i as [|i IH]; intros [|n] f Hi; try lia; cbn [chunks lookup list_lookup]; unfold page_of in *; [by rewrite drop_0|].
  rewrite IH by lia. by rewrite drop_drop.
Qed.
Lemma chunks_join sz : forall n f, length f = n * sz -> mjoin (chunks sz n f) = f /\ Forall (fun e => length e = sz) (chunks sz n f).
Proof.
  induction n as [|n IH]; intros f HL; cbn [chunks].
  - split; [|constructor]. symmetry. by apply nil_length_inv.
  - destruct (IH (drop sz f)) as [E F]; [rewrite drop_length; lia|]. split.
    + change (mjoin (take sz f :: chunks sz n (drop sz f))) with (take sz f ++ mjoin (chunks sz n (drop sz f))). by rewrite E, take_drop.
    + constructor; [rewrite take_length; lia|done].
Qed.
Lemma page_at sz i T e : Forall (fun e => length e = sz) T -> T !! i = Some e -> page_of sz i (mjoin T) = e.
Proof. intros HF Hi. pose proof (read_mjoin sz T i e [] HF Hi) as E. by rewrite app_nil_r in E. Qed.

(** An entry of the table that matches a key is that of an insertion. *)
Lemma entry_inserted ksz vsz size hash kvs b e key :
  0 < ksz -> kv_ok ksz vsz kvs -> brep (ksz + vsz) size hash kvs b -> length key = ksz -> key <> ff_key ksz ->
  e ∈ entry (ksz + vsz) kvs <$> ca_t0 (cb_alloc b) ++ ca_t1 (cb_alloc b) -> match_key e key = true ->
  exists i, kvs !! i = Some (key, drop (length key) e) /\ N.of_nat i ∉ cb_spilled b.
Proof.
  intros Hks HK R Hk Hff He M. apply elem_of_list_fmap in He as (s & -> & Hs).
  destruct (br_perm _ _ _ _ _ R) as (sp & H5 & H6 & H7).
  assert (Hin : full s -> s ∈ contents (cb_alloc b)) by (intros F; unfold contents; by apply elem_of_list_filter).
  destruct (match_entry ksz vsz kvs s key HK Hk Hks) as (F & v & Ev & Ed); [|by left|done|].
  { intros F. assert (Hq : s ∈ imap (slot_of hash) kvs) by (rewrite H7; apply elem_of_app; auto).
    apply elem_of_lookup_imap in Hq as (j & kv & -> & Hj). simpl. rewrite Nat2N.id. by eapply lookup_lt_Some. }
  exists (N.to_nat (cv_index s)). rewrite Ed. split; [done|]. rewrite N2Nat.id. intros Hx.
  pose proof (slot_of_nodup hash kvs) as ND. rewrite H7, fmap_app in ND.
  apply NoDup_app in ND as (_ & ND & _). apply (ND (cv_index s)); [by rewrite <- H5|].
  apply elem_of_list_fmap. exists s. split; [done|]. by apply Hin.
Qed.

Lemma left_pages ksz vsz size depth max_n hash kvs d d' :
  0 < ksz -> 0 < size -> kv_ok ksz vsz kvs -> (N.of_nat (length kvs) <= no_index)%N -> clean d ->
  let sz := ksz + vsz in
  let ops := (life sz size depth max_n hash d (build kvs)).1.2 in
  leaves (path_past Tab d ops) (dk_get Tab d') ->
  exists es, content Tab (do_ops d ops) = mjoin es /\ length es = 2 * size /\ Forall (fun e => length e = sz) es /\
    (forall e key, e ∈ es -> length key = ksz -> key <> ff_key ksz -> match_key e key = true ->
       exists i, kvs !! i = Some (key, drop (length key) e) /\ N.of_nat i ∉ cb_spilled (cb_build sz size depth max_n hash kvs).1.1) /\
    (content Tab d' = [] \/ length (content Tab d') = 2 * size * sz).
Proof.
  intros Hk Hs HK HN [HT HB] sz ops Hleft.
  destruct (life_build ksz vsz size depth max_n hash kvs d Hk Hs HK HN HT HB) as (b & R & Eb & Eo & El).
  fold sz in Eb, El. fold ops in El.
  destruct (commit_spec (ksz + vsz) size hash kvs b ltac:(lia) Hs R) as (A & Ef & HF). fold sz in HF.
  set (es := entry sz kvs <$> ca_t0 (cb_alloc b) ++ ca_t1 (cb_alloc b)) in *.
  assert (HL : length es = 2 * size).
  { unfold es. rewrite fmap_length, app_length, (wf_len0 _ (br_wf _ _ _ _ _ R)), (wf_len1 _ (br_wf _ _ _ _ _ R)).
    rewrite (br_size _ _ _ _ _ R). lia. }
  rewrite <- (imap_fmap (fun i e => Write Tab (i * sz) e) (entry sz kvs)) in El. fold es in El.
  set (A1 := (life_new sz size depth max_n d).2 ++ ins_ops hash (cb_new sz size depth max_n []) kvs).
  assert (HA : Forall (fun o => ~ touches Tab o) A1).
  { apply Forall_app. split; [apply new_kept|apply ins_ops_on]. }
  rewrite app_assoc in El. fold A1 in El.
  assert (HD : forall k, (k < length A1 + 2 /\ content Tab (dies d ops k) = []) \/
      (length A1 + 2 <= k /\ content Tab (dies d ops k) = mjoin (partial sz es (k - (length A1 + 2))))).
  { intros k. rewrite El. apply table_at_death; auto. repeat constructor; simpl; congruence. }
  assert (Hlen : length ops = length A1 + 2 + 2 * size + 1).
  { rewrite El, app_length. cbn [length]. rewrite app_length, imap_length, HL. simpl. lia. }
  exists es. split_and!; auto.
  - replace (do_ops d ops) with (dies d ops (length ops)) by (unfold dies; by rewrite take_ge).
    destruct (HD (length ops)) as [[? _]|[_ E]]; [lia|]. by rewrite E, partial_all by lia.
  - intros e key He HLk Hff M. rewrite <- Eb. by apply (entry_inserted ksz vsz size hash kvs b e key).
  - unfold content. destruct (dk_get Tab d') as [bs|]; [|by left]. destruct Hleft as [(c & Hc & HLc) _].
    apply past_in in Hc as [k Hc].
    assert (Hcc : content Tab (dies d ops k) = c) by (unfold content; by rewrite <- Hc).
    destruct (HD k) as [[_ E]|[_ E]]; rewrite E in Hcc.
    + left. subst c. by apply nil_length_inv.
    + right. change (length bs = 2 * size * sz). rewrite <- HLc, <- Hcc, (mjoin_len sz) by by apply partial_sizes. by rewrite partial_len, HL.
Qed.

(** The keys of which the two slots were left are found as before. *)
Theorem C118_local :
  forall ksz vsz size depth max_n hash kvs d d',
    0 < ksz -> 0 < size -> kv_ok ksz vsz kvs -> (N.of_nat (length kvs) <= no_index)%N -> clean d ->
    let sz := ksz + vsz in
    let ops := (life sz size depth max_n hash d (build kvs)).1.2 in
    let d1 := do_ops d ops in
    leaves (path_past Tab d ops) (dk_get Tab d') -> content Tab d' <> [] ->
    exists t t1, ct_open sz (content Tab d') = Ok t /\ ct_open sz (content Tab d1) = Ok t1 /\
      forall key,
        let i0 := N.to_nat ((hash key).1 mod N.of_nat size) in
        let i1 := N.to_nat ((hash key).2 mod N.of_nat size) + size in
        page_of sz i0 (content Tab d') = page_of sz i0 (content Tab d1) ->
        page_of sz i1 (content Tab d') = page_of sz i1 (content Tab d1) ->
        ct_get sz hash t key = ct_get sz hash t1 key.
Proof.
  intros ksz vsz size depth max_n hash kvs d d' Hk Hs HK HN HC sz ops d1 Hleft Hne.
  destruct (left_pages ksz vsz size depth max_n hash kvs d d' Hk Hs HK HN HC Hleft) as (es & E1 & HL & HF & _ & [E|HLen]); [done|].
  fold sz ops in E1, HF, HLen. fold d1 in E1. assert (Hsz : 0 < sz) by (unfold sz; lia).
  destruct (chunks_join sz (2 * size) (content Tab d') HLen) as [EJ FJ].
  destruct (open_spec sz size _ Hsz Hs (chunks_len sz (2 * size) (content Tab d')) FJ) as (t & Ht & Hts & Hg).
  destruct (open_spec sz size es Hsz Hs HL HF) as (t1 & Ht1 & Hts1 & Hg1).
  exists t, t1. rewrite EJ in Ht. rewrite E1. split_and!; [done|done|]. intros key i0 i1 P0 P1.
  destruct (ct_get_pages sz size hash _ t key Hsz Hs (chunks_len _ _ _) Hg Hts) as (a0 & a1 & A0 & A1 & ->).
  destruct (ct_get_pages sz size hash _ t1 key Hsz Hs HL Hg1 Hts1) as (b0 & b1 & B0 & B1 & ->).
  fold i0 in A0, B0. fold i1 in A1, B1.
  pose proof (lookup_lt_Some _ _ _ B0) as L0. pose proof (lookup_lt_Some _ _ _ B1) as L1. rewrite HL in L0, L1.
  rewrite chunks_at in A0, A1 by done. injection A0 as <-. injection A1 as <-.
  rewrite P0, P1. by rewrite (page_at _ _ _ b0), (page_at _ _ _ b1).
Qed.
Print Assumptions C118_local.

(** When slots are lost whole, the table cannot be opened because it is empty, or it opens and
    never gives a value that was not inserted for the key asked. *)
Theorem C118_part :
  forall ksz vsz size depth max_n hash kvs d d',
    0 < ksz -> 0 < size -> kv_ok ksz vsz kvs -> (N.of_nat (length kvs) <= no_index)%N -> clean d ->
    let sz := ksz + vsz in
    let b := (cb_build sz size depth max_n hash kvs).1.1 in
    let ops := (life sz size depth max_n hash d (build kvs)).1.2 in
    leaves (path_past Tab d ops) (dk_get Tab d') -> whole_pages sz (content Tab (do_ops d ops)) (content Tab d') ->
    match ct_open sz (content Tab d') with
    | Throw e => e = RuntimeError /\ content Tab d' = []
    | Ok t => ct_size t = size /\
        forall key, plain_key ksz key ->
          match ct_get sz hash t key with
          | Ok v => exists i, kvs !! i = Some (key, v) /\ N.of_nat i ∉ cb_spilled b
          | Throw e => e = OutOfRange
          | _ => False
          end
    | _ => False
    end.
Proof.
  intros ksz vsz size depth max_n hash kvs d d' Hk Hs HK HN HC sz b ops Hleft Hwhole.
  destruct (left_pages ksz vsz size depth max_n hash kvs d d' Hk Hs HK HN HC Hleft) as (es & E1 & HL & HF & Hins & [E|HLen]).
  { rewrite E. done. }
  fold sz ops in E1, HF, HLen, Hins. fold b in Hins. assert (Hsz : 0 < sz) by (unfold sz; lia).
  destruct (chunks_join sz (2 * size) (content Tab d') HLen) as [EJ FJ].
  destruct (open_spec sz size _ Hsz Hs (chunks_len sz (2 * size) (content Tab d')) FJ) as (t & Ht & Hts & Hg).
  rewrite EJ in Ht. rewrite Ht. split; [done|]. intros key (Lk & Kff & Kz).
  destruct (ct_get_pages sz size hash _ t key Hsz Hs (chunks_len _ _ _) Hg Hts) as (a0 & a1 & A0 & A1 & ->).
  assert (Hpage : forall i a, chunks sz (2 * size) (content Tab d') !! i = Some a -> match_key a key = true ->
     exists i, kvs !! i = Some (key, drop (length key) a) /\ N.of_nat i ∉ cb_spilled b).
  { intros i a Ha M. pose proof (lookup_lt_Some _ _ _ Ha) as Hi. rewrite chunks_len in Hi. rewrite chunks_at in Ha by done. injection Ha as <-.
    destruct (Hwhole i) as [P|P]; [rewrite HLen, Nat.div_mul by lia; done|..].
    - rewrite P, E1 in *. destruct (lookup_lt_is_Some_2 es i) as [e He]; [lia|]. rewrite (page_at _ _ _ e HF He) in *.
      apply Hins; [by eapply elem_of_list_lookup_2|done|done|done].
    - exfalso. rewrite P in M. pose proof (match_zero ksz sz key Lk ltac:(unfold sz; lia) Kz) as MZ. unfold zero_page in MZ. by rewrite MZ in M. }
  destruct (match_key a0 key) eqn:M0; [by apply (Hpage _ _ A0)|].
  destruct (match_key a1 key) eqn:M1; [by apply (Hpage _ _ A1)|]. done.
Qed.
Print Assumptions C118_part.

(** Full statement refuted: the builder has removed the values and has not synchronized the
    table, so that a power failure after the commit leaves neither; and a table of which a
    part was left opens and does not find a key. *)
Theorem C118_refuted :
  exists ksz vsz size depth max_n hash kvs d' d'' t key v,
    kv_ok ksz vsz kvs /\ NoDup kvs.*1 /\ plain_key ksz key /\
    let sz := ksz + vsz in
    let r := life sz size depth max_n hash no_files (build kvs) in
    Forall (fun o => o = Ok tt) r.2 /\ cb_spilled (cb_build sz size depth max_n hash kvs).1.1 = [] /\ (key, v) ∈ kvs /\
    (forall p, leaves (path_past p no_files r.1.2) (dk_get p d')) /\
    dk_tmp d' = None /\ ct_open sz (content Tab d') = Throw RuntimeError /\
    (forall p, leaves (path_past p no_files r.1.2) (dk_get p d'')) /\
    ct_open sz (content Tab d'') = Ok t /\ ct_get sz hash t key = Throw OutOfRange.
Proof.
  exists 2, 1, 2, 4, 5, ex_hash, ex_kvs, (Disk None (Some []) None None), (Disk None (Some (replicate 12 0%N)) None None). eexists. exists [1; 2]%N, [7]%N.
  destruct ex_kvs_ok as (HK & HN & _).
  split; [exact HK|]. split; [exact HN|]. split; [by split_and!|]. cbv zeta.
  split; [vm_compute; by repeat constructor|]. split; [by vm_compute|]. split; [left|].
  assert (HNone : forall p ops, None ∈ path_past p no_files ops).
  { intros p ops. apply past_in. exists 0. unfold dies. rewrite take_0. by destruct p. }
  split.
  { intros []; [by apply HNone| |by apply HNone..]. split; [|done]. exists []. split; [|done]. apply past_in. exists 5. by vm_compute. }
  split; [done|]. split; [done|].
  split.
  { intros []; [by apply HNone| |by apply HNone..]. split.
    - eexists. split; [apply past_in; exists 6; by vm_compute|]. done.
    - intros i x Hx. apply lookup_replicate in Hx as [-> _]. exists None. split; [by apply HNone|]. done. }
  split; by vm_compute.
Qed.
Print Assumptions C118_refuted.
(** The two slots of the key [2; 5] are left, the first and the last; the others are lost. *)
Example C118_example :
  let ops := (life 3 2 4 5 ex_hash no_files (build ex_kvs)).1.2 in
  let d' := Disk None (Some ([2; 5; 8; 0; 0; 0; 0; 0; 0; 255; 255; 255]%N)) None None in
  leaves (path_past Tab no_files ops) (dk_get Tab d') /\ content Tab d' <> [] /\
  whole_pages 3 (content Tab (do_ops no_files ops)) (content Tab d') /\ clean no_files /\
  N.to_nat ((ex_hash [2; 5]%N).1 mod 2) = 0 /\ page_of 3 0 (content Tab d') = page_of 3 0 (content Tab (do_ops no_files ops)) /\
  N.to_nat ((ex_hash [2; 5]%N).2 mod 2) + 2 = 3 /\ page_of 3 3 (content Tab d') = page_of 3 3 (content Tab (do_ops no_files ops)).
Proof.
  cbv zeta. split.
  { split; [eexists; split; [apply past_in; exists 100; by vm_compute|done]|]. intros i x Hx.
    assert (Hi : i < 12) by by apply lookup_lt_Some in Hx.
    assert (E0 : None ∈ path_past Tab no_files (life 3 2 4 5 ex_hash no_files (build ex_kvs)).1.2) by (apply past_in; exists 0; by vm_compute).
    assert (E1 : Some [2; 5; 8; 1; 2; 7; 255; 255; 255; 255; 255; 255]%N ∈ path_past Tab no_files (life 3 2 4 5 ex_hash no_files (build ex_kvs)).1.2).
    { apply past_in. exists 100. by vm_compute. }
    do 12 (destruct i as [|i]; [cbn in Hx; injection Hx as <-; first [by exists (Some [2; 5; 8; 1; 2; 7; 255; 255; 255; 255; 255; 255]%N)|by exists None]|]). lia. }
  split; [done|]. split.
  { intros i Hi. change (i < 4) in Hi. destruct i as [|[|[|[|i]]]]; [left; by vm_compute|right; by vm_compute|right; by vm_compute|left; by vm_compute|lia]. }
  split; [done|]. split_and!; by vm_compute.
Qed.
