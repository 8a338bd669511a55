(** Final theorems about the option -r of the client programs (properties C91 and C92). *)
From stdpp Require Import prelude gmap strings.
From Coq Require Import ZArith NArith Lia.
From Verif Require Import Base EncModel EncProofs KvModel UtilsModel SophosModel DianaModel SophosSpec DianaSpec
  SophosProofs DianaProofs DbGenModel DbGenSpec DbGenProofs DbGenThreads Props_DbGen GenFloatModel Props_GenFloat
  ConcModel ConcSpec ConcProofs Props_Conc GenClientModel GenClientSpec GenClientProofs GenClientLogs.
Local Open Scope N_scope.
Local Arguments N.of_nat : simpl never.
Local Arguments N.to_nat : simpl never.
Local Arguments N.modulo : simpl never.
Local Arguments N.div : simpl never.
Local Arguments N.pow : simpl never.
Local Arguments N.add : simpl never.
Local Arguments N.mul : simpl never.

(** ** Lists *)
Lemma mjoin_fmap_fmap {A B} (f : A -> B) (ls : list (list A)) : mjoin ((fun l => f <$> l) <$> ls) = f <$> mjoin ls.
Proof. induction ls as [|l ls IH]; [done|]. csimpl. rewrite fmap_app. f_equal. exact IH. Qed.
Lemma newest_first_all {A} (l : list A) : omap (fun i => l !! i) (newest_first (length l)) = reverse l.
Proof.
  induction l as [|x l IH] using rev_ind; [done|]. unfold newest_first in *. rewrite app_length. simpl.
  rewrite Nat.add_1_r, seq_S. simpl. rewrite reverse_snoc, reverse_snoc. csimpl.
  rewrite lookup_app_r, Nat.sub_diag by lia. cbn [lookup list_lookup]. f_equal. rewrite <- IH.
  assert (H : Forall (fun i => (i < length l)%nat) (reverse (seq 0 (length l)))).
  { apply Forall_reverse, Forall_forall. intros i Hi%elem_of_seq. lia. }
  revert H. generalize (reverse (seq 0 (length l))). intros is H. induction H as [|i is Hi _ IHi]; [done|].
  csimpl. rewrite lookup_app_l by done. by rewrite IHi.
Qed.
Lemma oldest_first_all {A} (l : list A) : omap (fun i => l !! i) (oldest_first (length l)) = l.
Proof.
  induction l as [|x l IH] using rev_ind; [done|]. unfold oldest_first in *. rewrite app_length. simpl.
  rewrite Nat.add_1_r, seq_S, omap_app. csimpl. rewrite lookup_app_r, Nat.sub_diag by lia. cbn [lookup list_lookup]. f_equal.
  rewrite <- IH at 2.
  assert (H : Forall (fun i => (i < length l)%nat) (seq 0 (length l))).
  { apply Forall_forall. intros i Hi%elem_of_seq. lia. }
  revert H. generalize (seq 0 (length l)). intros is H. induction H as [|i is Hi _ IHi]; [done|].
  csimpl. rewrite lookup_app_l by done. by rewrite IHi.
Qed.

(** ** C91: the Sophos client *)
Lemma so_random_ok count p streams js : 0 < p < 2 ^ 32 -> 0 < count < 2 ^ 32 -> so_random count p streams = Ok js ->
  exists log logs, gen_db_fl count p streams = Ok (log, count, N.of_nat (length log)) /\
    js = so_thread <$> logs /\ logs_ok count p log logs /\ mjoin js = so_thread log.
Proof.
  intros Hp Hc E. unfold so_random in E. rewrite (proj2 (N.eqb_neq count 0)) in E by lia.
  destruct (gen_logs_fl_ok count p streams Hp) as (log & logs & E1 & E2 & HL).
  { assert (2 ^ 32 + 2 ^ 32 < 2 ^ 64) by done. lia. }
  rewrite E2 in E. cbn [rbind] in E. injection E as <-. exists log, logs. split_and!; try done.
  unfold so_thread. rewrite (mjoin_fmap_fmap (fun x : kwd * N => (str_bytes (kw_string x.1), x.2))). by rewrite (lg_join _ _ _ _ HL).
Qed.
Lemma so_docs s log : docs_for (str_bytes s) (so_thread log) = docs_for s (strings log).
Proof. unfold so_thread. rewrite (docs_for_strings (fun i => i)). by rewrite list_fmap_id. Qed.
Lemma so_few count p log logs : count < 2 ^ 32 -> logs_ok count p log logs -> mjoin (so_thread <$> logs) = so_thread log ->
  jobs_few (so_thread <$> logs).
Proof. intros Hc HL E kw. rewrite E. by eapply (entries_few (fun i => i)). Qed.

(** Once the random database has been generated and the requests have arrived, a search
    for a keyword of a group returns the documents of the callbacks with this keyword,
    last one first; whatever the interleaving of the threads.  With one thread, that holds
    of every keyword. *)
Theorem C91_groups :
  forall (S : sophos) count p streams js s in_order results,
    tdp_ok S -> 0 < p < 2 ^ 32 -> 0 < count < 2 ^ 32 ->
    so_random count p streams = Ok js -> jobs_tokens_differ (update_token S) js ->
    search_when_done (P := so_proto S) js (str_bytes s) in_order results ->
    String.prefix "Group-" s = true \/ p = 1 ->
    exists log docs entries, gen_db_fl count p streams = Ok (log, docs, entries) /\
      same_results in_order results (reverse (docs_for s (strings log))).
Proof.
  intros S count p streams js s ord res Ht Hp Hc E Htd Hd Hs.
  destruct (so_random_ok count p streams js Hp Hc E) as (log & logs & E1 & -> & HL & Ej).
  exists log, count, (N.of_nat (length log)). split; [done|].
  enough (H : same_results ord res (let docs := docs_for (str_bytes s) (mjoin (so_thread <$> logs)) in
    omap (fun i => docs !! i) (newest_first (length docs)))) by (by rewrite Ej, so_docs in H; cbn zeta in H; rewrite newest_first_all in H).
  eapply (done_generic _ _ _ _ _ (so_proto_ok S Ht)); try done.
  - eapply (group_one_thread so_thread); [done| |done]. intros l kw (x & -> & Hx)%elem_of_list_fmap.
    apply elem_of_list_fmap in Hx as ([k i] & -> & Hx). by exists k, i.
  - eapply so_few; [|done|done]. lia.
  - by apply Forall_true.
Qed.
Print Assumptions C91_groups.

(** During the generation or after it, with any losses and any interleaving, a search
    returns documents of callbacks with this keyword, none more often than there are
    callbacks. *)
Theorem C91_sound :
  forall (S : sophos) count p streams js s in_order results,
    tdp_ok S -> 0 < p < 2 ^ 32 -> 0 < count < 2 ^ 32 ->
    so_random count p streams = Ok js -> jobs_tokens_differ (update_token S) js ->
    search_any_time (P := so_proto S) js (str_bytes s) in_order results ->
    exists log docs entries, gen_db_fl count p streams = Ok (log, docs, entries) /\
      results ⊆+ docs_for s (strings log).
Proof.
  intros S count p streams js s ord res Ht Hp Hc E Htd Hd.
  destruct (so_random_ok count p streams js Hp Hc E) as (log & logs & E1 & -> & HL & Ej).
  exists log, count, (N.of_nat (length log)). split; [done|]. rewrite <- so_docs, <- Ej.
  eapply (any_time_generic _ _ _ _ _ (so_proto_ok S Ht)); try done.
  - eapply so_few; [|done|done]. lia.
  - by apply Forall_true.
Qed.
Print Assumptions C91_sound.

(** ** C92: the Diana client *)
Lemma d_random_logs count p streams : 0 < p < 2 ^ 32 -> 0 < count < 2 ^ 32 ->
  exists log logs, gen_db_fl count p streams = Ok (log, count, N.of_nat (length log)) /\
    gen_logs_fl count p streams = Ok logs /\ d_random count p streams = Ok (d_thread <$> logs) /\ logs_ok count p log logs.
Proof.
  intros Hp Hc. unfold d_random. rewrite (proj2 (N.eqb_neq count 0)) by lia.
  destruct (gen_logs_fl_ok count p streams Hp) as (log & logs & E1 & E2 & HL).
  { assert (2 ^ 32 + 2 ^ 32 < 2 ^ 64) by done. lia. }
  exists log, logs. rewrite E2. by cbn [rbind].
Qed.
Lemma d_thread_prefix l : exists rest, d_entry <$> l = d_thread l ++ rest /\ (length rest < 50)%nat /\ (length (d_thread l) mod 50 = 0)%nat.
Proof.
  exists (drop (50 * (length l / 50)) (d_entry <$> l)). rewrite d_thread_take.
  pose proof (Nat.div_mod (length l) 50 ltac:(lia)). pose proof (Nat.mod_upper_bound (length l) 50 ltac:(lia)). split_and!.
  - by rewrite take_drop.
  - rewrite drop_length, fmap_length. lia.
  - rewrite take_length, fmap_length, Nat.min_l by lia. rewrite Nat.mul_comm. apply Nat.mod_mul. lia.
Qed.

(** Each thread inserts the documents of its first callbacks, in order: all but the last
    ones, fewer than fifty, that complete no buffer. *)
Theorem C92_buffers :
  forall count p streams, 0 < p < 2 ^ 32 -> 0 < count < 2 ^ 32 ->
    exists log docs entries calls js, gen_db_fl count p streams = Ok (log, docs, entries) /\
      mjoin calls = log /\ length calls = N.to_nat p /\
      d_random count p streams = Ok js /\ length js = N.to_nat p /\
      forall t l j, calls !! t = Some l -> js !! t = Some j ->
        exists rest, (fun x => (str_bytes x.1, le64 x.2)) <$> strings l = j ++ rest /\
          (length rest < 50)%nat /\ (length j mod 50 = 0)%nat.
Proof.
  intros count p streams Hp Hc. destruct (d_random_logs count p streams Hp Hc) as (log & logs & E1 & E2 & E3 & HL).
  exists log, count, (N.of_nat (length log)), logs, (d_thread <$> logs). split_and!; try done.
  - apply HL.
  - apply HL.
  - rewrite fmap_length. apply HL.
  - intros t l j Hl Hj. rewrite list_lookup_fmap, Hl in Hj. injection Hj as <-.
    destruct (d_thread_prefix l) as (rest & Er & H). exists rest. split; [|done]. rewrite <- Er.
    unfold strings. rewrite <- list_fmap_compose. by apply list_fmap_ext.
Qed.
Print Assumptions C92_buffers.

Lemma d_docs s log : docs_for (str_bytes s) (d_entry <$> log) = le64 <$> docs_for s (strings log).
Proof. by rewrite <- (docs_for_strings le64). Qed.
Lemma d_sub logs : mjoin (d_thread <$> logs) ⊆+ d_entry <$> mjoin logs.
Proof.
  induction logs as [|l logs IH]; [done|]. csimpl. rewrite fmap_app. apply submseteq_app; [|exact IH].
  destruct (d_thread_prefix l) as (rest & -> & _). by apply submseteq_inserts_r.
Qed.
Lemma docs_for_sub {A} (kw : bytes) (l l' : list (bytes * A)) : l ⊆+ l' -> docs_for kw l ⊆+ docs_for kw l'.
Proof.
  intros (rest & H)%submseteq_Permutation. unfold docs_for. rewrite H, omap_app. by apply submseteq_inserts_r.
Qed.
Lemma d_thread_elem l kw : kw ∈ (d_thread l).*1 -> exists k i, (k, i) ∈ l /\ kw = str_bytes (kw_string k).
Proof.
  intros (x & -> & Hx)%elem_of_list_fmap. destruct (d_thread_prefix l) as (rest & Er & _).
  assert (Hx' : x ∈ d_entry <$> l) by (rewrite Er; apply elem_of_app; by left).
  apply elem_of_list_fmap in Hx' as ([k i] & -> & Hx'). by exists k, i.
Qed.
Lemma d_few_jobs count p log logs : count < 2 ^ 32 -> logs_ok count p log logs -> jobs_few (d_thread <$> logs).
Proof.
  intros Hc HL kw. eapply N.le_lt_trans; [|by eapply (entries_few le64 _ _ _ _ Hc HL kw)].
  pose proof (submseteq_length _ _ (docs_for_sub kw _ _ (d_sub logs))) as H.
  rewrite (lg_join _ _ _ _ HL) in H. unfold d_entry in H. lia.
Qed.
Lemma d_docs_len D logs : d_len D = 8%nat -> Forall (fun x => d_doc_ok D x.2) (mjoin (d_thread <$> logs)).
Proof.
  intros H8. apply Forall_forall. intros x Hx. eapply elem_of_submseteq in Hx; [|apply d_sub].
  apply elem_of_list_fmap in Hx as ([k i] & -> & _). unfold d_doc_ok. cbn [d_entry snd]. rewrite H8. apply le64_length.
Qed.
Lemma omap_len {A B} (f : A -> option B) l : (length (omap f l) <= length l)%nat.
Proof. induction l as [|x l IH]; csimpl; [done|]. destruct (f x); simpl; lia. Qed.
(** The documents of a keyword of one thread. *)
Lemma docs_for_app' {A} (kw : bytes) (l l' : list (bytes * A)) : docs_for kw (l ++ l') = docs_for kw l ++ docs_for kw l'.
Proof. apply omap_app. Qed.
Lemma d_missing kw logs : (forall t t' l l', logs !! t = Some l -> logs !! t' = Some l' ->
    kw ∈ (d_entry <$> l).*1 -> kw ∈ (d_entry <$> l').*1 -> t = t') ->
  exists missing, docs_for kw (d_entry <$> mjoin logs) = docs_for kw (mjoin (d_thread <$> logs)) ++ missing /\ (length missing < 50)%nat.
Proof.
  induction logs as [|l logs IH]; intros H1; [exists []; split; [done|simpl; lia]|].
  change (mjoin (l :: logs)) with (l ++ mjoin logs). change (mjoin (d_thread <$> l :: logs)) with (d_thread l ++ mjoin (d_thread <$> logs)).
  rewrite fmap_app, !docs_for_app'. destruct (decide (kw ∈ (d_entry <$> l).*1)) as [Hk|Hk].
  - assert (E : docs_for kw (d_entry <$> mjoin logs) = []).
    { apply docs_for_nil. intros Hx. apply elem_of_list_fmap in Hx as (x & -> & Hx).
      apply elem_of_list_fmap in Hx as (y & -> & Hy). apply elem_of_list_join in Hy as (l' & Hy & Hl').
      apply elem_of_list_lookup in Hl' as [t Hl']. specialize (H1 0%nat (S t) l l' eq_refl Hl' Hk). feed specialize H1; [|done].
      apply elem_of_list_fmap. exists (d_entry y). split; [done|]. by apply elem_of_list_fmap_1. }
    assert (E' : docs_for kw (mjoin (d_thread <$> logs)) = []).
    { apply submseteq_nil_r. rewrite <- E. apply docs_for_sub, d_sub. }
    rewrite E, E', !app_nil_r. destruct (d_thread_prefix l) as (rest & Er & Hr & _). rewrite Er, docs_for_app'.
    exists (docs_for kw rest). split; [done|]. unfold docs_for. pose proof (omap_len (fun x : bytes * bytes => if decide (x.1 = kw) then Some x.2 else None) rest). lia.
  - assert (E : docs_for kw (d_entry <$> l) = []) by (by apply docs_for_nil).
    assert (E' : docs_for kw (d_thread l) = []).
    { destruct (d_thread_prefix l) as (rest & Er & _). rewrite Er, docs_for_app' in E. by apply app_nil in E as [-> _]. }
    rewrite E, E'. cbn [app]. apply IH. intros t t' l' l'' H H' Hx Hx'. specialize (H1 (S t) (S t') l' l'' H H' Hx Hx'). lia.
Qed.

(** Once the generation is over and the requests have arrived, a search for a keyword of a
    group returns the documents of the first callbacks with this keyword, in order: all
    but fewer than fifty. *)
Theorem C92_groups :
  forall (D : diana) count p streams js s in_order results,
    d_crypto_ok D -> d_len D = 8%nat -> 0 < p < 2 ^ 32 -> 0 < count < 2 ^ 32 ->
    d_random count p streams = Ok js -> jobs_tokens_differ (d_update_token D) js ->
    search_when_done (P := d_proto D) js (str_bytes s) in_order results ->
    String.prefix "Group-" s = true \/ p = 1 ->
    exists log docs entries found missing, gen_db_fl count p streams = Ok (log, docs, entries) /\
      docs_for s (strings log) = found ++ missing /\ (length missing < 50)%nat /\
      same_results in_order (results : list bytes) (le64 <$> found).
Proof.
  intros D count p streams js s ord res Hcr H8 Hp Hc E Htd Hd Hs.
  destruct (d_random_logs count p streams Hp Hc) as (log & logs & E1 & _ & E3 & HL).
  rewrite E3 in E. injection E as <-.
  destruct (d_missing (str_bytes s) logs) as (missing & Em & Hm).
  { intros t t' l l' Hl Hl' Hk Hk'.
    eapply (group_one_thread (fun l => d_entry <$> l) s _ _ _ _ HL); [|done|by rewrite list_lookup_fmap, Hl|by rewrite list_lookup_fmap, Hl'|done|done].
    intros l0 kw (x & -> & Hx)%elem_of_list_fmap. apply elem_of_list_fmap in Hx as ([k i] & -> & Hx). by exists k, i. }
  rewrite (lg_join _ _ _ _ HL), d_docs in Em.
  set (found := docs_for (str_bytes s) (mjoin (d_thread <$> logs))) in *.
  set (all := docs_for s (strings log)) in *.
  exists log, count, (N.of_nat (length log)), (take (length found) all), (drop (length found) all). split_and!.
  - done.
  - by rewrite take_drop.
  - apply (f_equal length) in Em. rewrite fmap_length, app_length in Em. rewrite drop_length. lia.
  - assert (le64 <$> take (length found) all = found) as ->.
    { rewrite fmap_take, Em. by rewrite take_app. }
    enough (H : same_results (ord : bool) (res : list bytes) (omap (fun i => found !! i) (oldest_first (length found)))) by (by rewrite oldest_first_all in H).
    eapply (done_generic _ _ _ _ _ (d_proto_ok D Hcr)); try done.
    + eapply (group_one_thread d_thread); [done| |done]. intros l kw. apply d_thread_elem.
    + eapply d_few_jobs; [|done]. lia.
    + by apply d_docs_len.
Qed.
Print Assumptions C92_groups.

(** During the generation or after it, with any losses and any interleaving, a search
    returns documents of callbacks with this keyword. *)
Theorem C92_sound :
  forall (D : diana) count p streams js s in_order results,
    d_crypto_ok D -> d_len D = 8%nat -> 0 < p < 2 ^ 32 -> 0 < count < 2 ^ 32 ->
    d_random count p streams = Ok js -> jobs_tokens_differ (d_update_token D) js ->
    search_any_time (P := d_proto D) js (str_bytes s) in_order results ->
    exists log docs entries, gen_db_fl count p streams = Ok (log, docs, entries) /\
      (results : list bytes) ⊆+ le64 <$> docs_for s (strings log).
Proof.
  intros D count p streams js s ord res Hcr H8 Hp Hc E Htd Hd.
  destruct (d_random_logs count p streams Hp Hc) as (log & logs & E1 & _ & E3 & HL).
  rewrite E3 in E. injection E as <-.
  exists log, count, (N.of_nat (length log)). split; [done|]. rewrite <- d_docs, <- (lg_join _ _ _ _ HL).
  transitivity (docs_for (str_bytes s) (mjoin (d_thread <$> logs))); [|apply docs_for_sub, d_sub].
  eapply (any_time_generic _ _ _ _ _ (d_proto_ok D Hcr)); try done.
  - eapply d_few_jobs; [|done]. lia.
  - by apply d_docs_len.
Qed.
Print Assumptions C92_sound.

(** With at most two documents per thread, nothing is inserted at all: the documents are
    generated, but no search, at any time, finds any of them. *)
Theorem C92_few_documents :
  forall (D : diana) count p streams, d_crypto_ok D -> 0 < p < 2 ^ 32 -> 0 < count < 2 ^ 32 -> count <= 2 * p ->
    exists log docs entries js, gen_db_fl count p streams = Ok (log, docs, entries) /\
      (forall name size, (name, size) ∈ announced -> N.of_nat (calls_with (name +:+ "_") (strings log)) = count) /\
      d_random count p streams = Ok js /\ mjoin js = [] /\
      forall kw in_order results, search_any_time (P := d_proto D) js kw in_order results -> results = [].
Proof.
  intros D count p streams Hcr Hp Hc Hle.
  destruct (d_random_logs count p streams Hp Hc) as (log & logs & E1 & _ & E3 & HL).
  destruct (C52_float count p streams Hp) as (log' & E1' & Hg & _).
  { assert (2 ^ 32 + 2 ^ 32 < 2 ^ 64) by done. lia. }
  rewrite E1 in E1'. injection E1' as <-.
  assert (Hnil : mjoin (d_thread <$> logs) = []).
  { assert (Hlen : Forall (fun l => d_thread l = []) logs).
    { apply Forall_lookup. intros t l Hl. rewrite d_thread_take.
      pose proof (lg_size _ _ _ _ HL _ _ Hl) as [_ Hs].
      assert (docs_of count p (N.of_nat t) <= 2).
      { unfold docs_of. destruct (N.eq_dec count (2 * p)) as [->|Hne].
        - rewrite N.mod_mul, N.div_mul by lia. destruct (N.ltb_spec (N.of_nat t) 0); lia.
        - assert (count / p < 2) by (apply N.div_lt_upper_bound; lia). destruct (N.of_nat t <? count mod p); lia. }
      rewrite Nat.div_small by lia. done. }
    clear -Hlen. induction Hlen as [|l ls Hl _ IH]; [done|].
    change (mjoin (d_thread <$> l :: ls)) with (d_thread l ++ mjoin (d_thread <$> ls)). by rewrite Hl, IH. }
  exists log, count, (N.of_nat (length log)), (d_thread <$> logs). split_and!; try done.
  intros kw ord res Hs.
  assert (Hsub : (res : list bytes) ⊆+ docs_for kw (mjoin (d_thread <$> logs) : list (bytes * bytes))).
  { eapply (any_time_generic _ _ _ _ _ (d_proto_ok D Hcr)); try done.
    - intros k i k' i' Hi. change (i < length (docs_for k (mjoin (d_thread <$> logs))))%nat in Hi. rewrite Hnil in Hi. simpl in Hi. lia.
    - eapply d_few_jobs; [|done]. lia.
    - change (Forall (fun x => d_doc_ok D x.2) (mjoin (d_thread <$> logs))). rewrite Hnil. constructor. }
  rewrite Hnil in Hsub. by apply submseteq_nil_r in Hsub.
Qed.
Print Assumptions C92_few_documents.

(** ** Concrete executions *)
(** Schemes whose update tokens never collide. *)
Definition gc_hash (kw : bytes) : bytes := N.pos (countable.encode kw) :: replicate 15 0.
Definition gc_sophos : sophos := Sophos gc_hash (fun seed => seed) (cons 7) tail (fun seed => seed) (fun k m => k ++ m).
Definition gc_diana : diana := {|
  d_hash := gc_hash; d_root := fun k => take 1 k; d_kwtok := fun k => k; d_leaf := fun k i => k ++ [i];
  d_con := bytes * N; d_constrain := fun k _ n => (k, n); d_max_leaf := snd; d_eval := fun con i => con.1 ++ [i];
  d_prg := fun st off len => take len (drop off (st ++ replicate (off + len) 7));
  d_len := 8 |}.
Lemma gc_sophos_ok : tdp_ok gc_sophos.
Proof. by intros x. Qed.
Lemma gc_diana_ok : d_crypto_ok gc_diana.
Proof.
  split; [done|done|]. intros st off len. simpl. rewrite take_length, drop_length, app_length, replicate_length. lia.
Qed.
Lemma gc_sophos_tokens (js : list (list (bytes * N))) : jobs_tokens_differ (update_token gc_sophos) js.
Proof.
  intros kw i kw' i' _ _ E. unfold update_token in E. cbn [gc_sophos so_hash so_kprf so_gen so_inv so_prf] in E.
  assert (Hl : forall n l, length (Nat.iter n (cons 7) l) = (n + length l)%nat) by (intros n l; induction n; simpl; lia).
  pose proof (f_equal length E) as El. rewrite !app_length, !Hl in El. unfold gc_hash in El. simpl in El.
  assert (i = i') as <- by lia. split; [|done]. apply (f_equal head) in E. cbn in E. injection E as E. by apply (inj countable.encode).
Qed.
Lemma gc_diana_tokens (js : list (list (bytes * bytes))) : jobs_tokens_differ (d_update_token gc_diana) js.
Proof.
  intros kw i kw' i' _ _ E. unfold d_update_token in E. cbn [gc_diana d_hash d_root d_leaf d_prg] in E.
  unfold gc_hash in E. cbn in E. injection E as E1 E2. split; [by apply (inj countable.encode)|lia].
Qed.

(** Executions: the threads run one after the other ([turns]) or in step ([in_step]); then
    the requests are delivered, in order, and a search is answered. *)
Section schedules.
  Context (P : proto).
  Definition spawns (js : list (list (bytes * p_doc P))) : list (label P) := LSpawn P <$> js.
  Definition turn (t : nat) (j : list (bytes * p_doc P)) : list (label P) :=
    j ≫= fun x => [LGet P t; LPut P t x.1 x.2].
  Definition turns (js : list (list (bytes * p_doc P))) : list (label P) := spawns js ++ mjoin (imap turn js).
  Definition in_step (j0 j1 : list (bytes * p_doc P)) : list (label P) :=
    spawns [j0; j1] ++ (zip j0 j1 ≫= fun x => [LGet P 0; LGet P 1; LPut P 0 x.1.1 x.1.2; LPut P 1 x.2.1 x.2.2]).
  Definition deliveries (ls : list (label P)) : list (label P) :=
    match wrun (idle P) ls with
    | Some w => (fun m => LDeliver P (m_kw P m) (m_ctr P m)) <$> w_net P w
    | None => []
    end.
  Definition delivered (ls : list (label P)) : list (label P) := ls ++ deliveries ls.
  (** A decision procedure. *)
  Definition no_losses (ls : list (label P)) : bool := forallb (fun l => match l with LLose _ _ _ => false | _ => true end) ls.
  Lemma when_done_check (js : list (list (bytes * p_doc P))) ls1 n kw res :
    jobs ls1 = js -> no_losses ls1 = true -> check_over P ls1 = true ->
    check_search P (ls1 ++ LSearch P kw true :: replicate n (LAccess P 0 0)) (searches ls1) res = true ->
    search_when_done js kw true res.
  Proof.
    intros Hj Hl Ho Hs. destruct (check_over_ok P ls1 Ho) as (w1 & Hw1 & Hth & Hnet).
    destruct (check_search_ok P _ _ _ Hs) as (w & q & Hw & Hq & Hp & Hr).
    exists ls1, (replicate n (LAccess P 0 0)), w1, w, q. split_and!; try done.
    - intros k v Hx. unfold no_losses in Hl. rewrite forallb_forall in Hl. apply elem_of_list_In, Hl in Hx. done.
    - clear. induction n as [|n IH]; [done|exact IH].
  Qed.
End schedules.
Lemma when_done_any_time (P : proto) (js : list (list (bytes * p_doc P))) kw ord res :
  search_when_done js kw ord res -> search_any_time js kw ord res.
Proof.
  intros (ls1 & ls3 & w1 & w & q & _ & Hj & _ & _ & _ & Hr & Hj3 & Hq & Hp & Hres). exists ls1, ls3, w, q. split_and!; try done.
  rewrite jobs_app, Hj. change (js ++ jobs ls3 = js). by rewrite Hj3, app_nil_r.
Qed.

Lemma generated_check count p streams s l :
  match gen_db_fl count p streams with Ok x => bool_decide (docs_for s (strings x.1.1) = l) | _ => false end = true ->
  exists log docs entries, gen_db_fl count p streams = Ok (log, docs, entries) /\ docs_for s (strings log) = l.
Proof.
  destruct (gen_db_fl count p streams) as [[[log docs] entries]| | |]; try done.
  intros H%bool_decide_eq_true. by exists log, docs, entries.
Qed.

(** Two documents, two threads. *)
Definition gc_streams (t i : N) : N := 5 + 1000 * t + 7 * i.
Definition gc_js : list (list (bytes * N)) := match so_random 2 2 gc_streams with Ok js => js | _ => [] end.
Notation GS := (so_proto gc_sophos).
Example C91_example :
  tdp_ok gc_sophos /\ so_random 2 2 gc_streams = Ok gc_js /\ jobs_tokens_differ (update_token gc_sophos) gc_js /\
  search_when_done (P := GS) gc_js (str_bytes "Group-60_1_0") true [1005] /\
  search_any_time (P := GS) gc_js (str_bytes "10_5_1") true [1005; 5].
Proof.
  split; [apply gc_sophos_ok|]. split; [by vm_compute|]. split; [apply gc_sophos_tokens|]. split.
  - apply (when_done_check GS gc_js (delivered GS (turns GS gc_js)) 1); by vm_compute.
  - apply when_done_any_time. apply (when_done_check GS gc_js (delivered GS (turns GS gc_js)) 2); by vm_compute.
Qed.

(** The keywords of the percentiles are used by all the threads: of two callbacks that read
    the counter before either writes it, one overwrites the other.  Without any loss, once
    everything has arrived, a document is not found. *)
Theorem C91_refuted :
  exists (S : sophos) count p streams js s results log docs entries,
    tdp_ok S /\ 0 < p < 2 ^ 32 /\ 0 < count < 2 ^ 32 /\
    so_random count p streams = Ok js /\ jobs_tokens_differ (update_token S) js /\
    search_when_done (P := so_proto S) js (str_bytes s) true results /\
    gen_db_fl count p streams = Ok (log, docs, entries) /\
    docs_for s (strings log) = [5; 1005] /\ results = [1005].
Proof.
  destruct (generated_check 2 2 gc_streams "10_5_1" [5; 1005]) as (log & docs & entries & E & Ed); [by vm_compute|].
  exists gc_sophos, 2, 2, gc_streams, gc_js, "10_5_1"%string, [1005], log, docs, entries.
  split; [apply gc_sophos_ok|]. split; [clear; done|]. split; [clear; done|]. split; [apply C91_example|]. split; [apply gc_sophos_tokens|].
  split; [|split; [exact E|split; [exact Ed|reflexivity]]]. clear.
  apply (when_done_check GS gc_js (delivered GS (in_step GS (nth 0 gc_js []) (nth 1 gc_js []))) 1); by vm_compute.
Qed.
Print Assumptions C91_refuted.

(** One thread and five documents: the two that complete no buffer are not inserted. *)
Definition gc_djs : list (list (bytes * bytes)) := match d_random 5 1 gc_streams with Ok js => js | _ => [] end.
Notation GD := (d_proto gc_diana).
Example C92_example :
  d_crypto_ok gc_diana /\ d_len gc_diana = 8%nat /\ d_random 5 1 gc_streams = Ok gc_djs /\
  jobs_tokens_differ (d_update_token gc_diana) gc_djs /\
  search_when_done (P := GD) gc_djs (str_bytes "Group-60_0_0") true (le64 <$> [5; 12; 19]).
Proof.
  split; [apply gc_diana_ok|]. split; [done|]. split; [by vm_compute|]. split; [apply gc_diana_tokens|].
  apply (when_done_check GD gc_djs (delivered GD (turns GD gc_djs)) 3); by vm_compute.
Qed.
Theorem C92_refuted :
  exists (D : diana) count p streams js s results log docs entries,
    d_crypto_ok D /\ d_len D = 8%nat /\ 0 < p < 2 ^ 32 /\ 0 < count < 2 ^ 32 /\
    d_random count p streams = Ok js /\ jobs_tokens_differ (d_update_token D) js /\
    search_when_done (P := d_proto D) js (str_bytes s) true results /\
    gen_db_fl count p streams = Ok (log, docs, entries) /\
    docs_for s (strings log) = [5; 12; 19; 26; 33] /\ results = (le64 <$> [5; 12; 19]).
Proof.
  destruct (generated_check 5 1 gc_streams "Group-60_0_0" [5; 12; 19; 26; 33]) as (log & docs & entries & E & Ed); [by vm_compute|].
  destruct C92_example as (H1 & H2 & H3 & H4 & H5).
  exists gc_diana, 5, 1, gc_streams, gc_djs, "Group-60_0_0"%string, (le64 <$> [5; 12; 19]), log, docs, entries.
  split; [exact H1|]. split; [exact H2|]. split; [clear; done|]. split; [clear; done|]. split; [exact H3|]. split; [exact H4|]. split; [exact H5|].
  split; [exact E|]. split; [exact Ed|reflexivity].
Qed.
Print Assumptions C92_refuted.
(** Eight threads and sixteen documents: nothing inserted. *)
Example C92_few_ex : d_crypto_ok gc_diana /\ 16 <= 2 * 8 /\
  match gen_db_fl 16 8 gc_streams, d_random 16 8 gc_streams with
  | Ok (log, docs, entries), Ok js => docs = 16 /\ entries = 240 /\ length js = 8%nat /\ mjoin js = []
  | _, _ => False
  end.
Proof. split; [apply gc_diana_ok|]. vm_compute. split_and!; done. Qed.
