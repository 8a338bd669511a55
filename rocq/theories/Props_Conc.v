(** Final theorems about concurrent clients and servers (properties C64 to C66). *)
From stdpp Require Import prelude gmap.
From Coq Require Import NArith Lia.
From Verif Require Import Base EncModel KvModel UtilsModel SophosModel DianaModel SophosSpec DianaSpec
  ConcModel ConcSpec ConcProofs SophosProofs DianaProofs Props_Sophos Props_Diana.
Local Arguments N.modulo : simpl never.
Local Arguments N.pow : simpl never.
Local Arguments N.of_nat : simpl never.
Local Arguments N.to_nat : simpl never.

(** ** The steps are those of the sequential models *)
Lemma so_insertion_steps : forall (S : sophos) c kw index,
  so_insertion_request S c kw index =
    let v := next_value (ctr_get c kw) in
    (<[kw := v]> c, let u := p_update (so_proto S) kw v index in SoUpdate u.1 u.2).
Proof. done. Qed.
Lemma so_request_steps : forall (S : sophos) c kw,
  so_search_request S c kw = p_request (so_proto S) kw (ctr_get c kw).
Proof. done. Qed.
Lemma so_search_steps : forall (S : sophos) db r,
  so_server_search S db r = p_accesses (so_proto S) r ≫= p_access (so_proto S) db.
Proof.
  intros S db [st key count]. unfold so_server_search. cbn. unfold so_accesses. cbn [ss_key ss_count ss_token].
  generalize (N.to_nat count). intros n. revert st. induction n as [|n IH]; intros st; [done|].
  cbn [so_search_loop so_tokens]. rewrite fmap_cons, bind_cons, IH. done.
Qed.
Lemma d_insertion_steps : forall (D : diana) c kw index,
  d_insertion_request D c kw index =
    let v := next_value (ctr_get c kw) in
    (<[kw := v]> c, let u := p_update (d_proto D) kw v index in DUpdate u.1 u.2).
Proof. done. Qed.
Lemma d_request_steps : forall (D : diana) c kw,
  d_search_request D c kw = p_request (d_proto D) kw (ctr_get c kw).
Proof. done. Qed.
Lemma d_search_steps : forall (D : diana) db req, well_formed req ->
  d_server_search D db req false = Ok (db, p_accesses (d_proto D) req ≫= p_access (d_proto D) db).
Proof.
  intros D db req Hw. unfold d_server_search. cbn [d_proto p_accesses p_access p_doc p_acc p_val p_req]. unfold d_accesses. destruct (N.eqb_spec (ds_count req) 0) as [E|E]; [done|].
  destruct Hw as [?|(con & Ec & _)]; [done|]. rewrite Ec.
  destruct (d_eval_range D con 0 (d_max_leaf D con)) as [leaves| | |] eqn:El.
  - cbn [rbind]. f_equal. clear. induction leaves as [|[i st] leaves IH]; [done|].
    cbn [d_search_loop]. rewrite fmap_cons, bind_cons. cbn [snd].
    assert (Eu : exists o, d_get_unmask D db st false = (db, o)).
    { unfold d_get_unmask, d_retrieve_entry. destruct (d_token_mask D st) as [ut mask]. destruct (db !! ut); by eexists. }
    destruct Eu as [o ->]. cbn [snd]. rewrite IH. by destruct o.
  - unfold d_eval_range in El. exfalso. destruct (N.ltb_spec (d_max_leaf D con) 0); [lia|].
    destruct (N.ltb_spec (d_max_leaf D con) (d_max_leaf D con)); [lia|]. done.
  - unfold d_eval_range in El. by destruct (_ || _).
  - unfold d_eval_range in El. by destruct (_ || _).
Qed.

(** ** C64: searches answered while updates go on *)
(** [past] is what happens before the first look-up of the search, [ls] all that happens.
    No two threads insert the keyword searched at the same time; they may share the others.
    The search returns only documents inserted before its request was made; all those
    that had reached the server before its first look-up; and, of the others, some of
    those that reached it in the meantime. *)
Theorem C64_sophos :
  forall (S : sophos) ls1 kw in_order ls2 ls3 w q,
    let ls := ls1 ++ LSearch (so_proto S) kw in_order :: ls2 ++ ls3 in
    let past := ls1 ++ LSearch (so_proto S) kw in_order :: ls2 in
    let docs := put_docs kw ls1 in
    tdp_ok S -> wrun (idle (so_proto S)) ls = Some w ->
    always (own_keyword kw) ls -> tokens_differ (update_token S) ls -> few_puts ls ->
    w_queries (so_proto S) w !! searches ls1 = Some q ->
    (forall j, LAccess (so_proto S) (searches ls1) j ∉ ls2) -> q_pending (so_proto S) q = [] ->
    exists see,
      same_results in_order (q_results (so_proto S) q) (seen see docs (newest_first (length docs))) /\
      forall i, i < length docs ->
        (arrived kw i past = true -> see i = true) /\ (see i = true -> arrived kw i ls = true).
Proof.
  intros S ls1 kw ord ls2 ls3 w q ls past docs Ht Hr Ho Htok Hf Hq Hn Hp.
  eapply (search_concurrent _ _ _ _ _ (so_proto_ok S Ht) ls1 kw ord ls2 ls3 w q); try done.
  intros k. by apply Forall_true.
Qed.
Print Assumptions C64_sophos.

Theorem C64_diana :
  forall (D : diana) ls1 kw in_order ls2 ls3 w q,
    let ls := ls1 ++ LSearch (d_proto D) kw in_order :: ls2 ++ ls3 in
    let past := ls1 ++ LSearch (d_proto D) kw in_order :: ls2 in
    let docs := put_docs kw ls1 in
    d_crypto_ok D -> wrun (idle (d_proto D)) ls = Some w ->
    always (own_keyword kw) ls -> tokens_differ (d_update_token D) ls -> few_puts ls ->
    put_docs_ok (d_doc_ok D) ls ->
    w_queries (d_proto D) w !! searches ls1 = Some q ->
    (forall j, LAccess (d_proto D) (searches ls1) j ∉ ls2) -> q_pending (d_proto D) q = [] ->
    exists see,
      same_results in_order (q_results (d_proto D) q) (seen see docs (oldest_first (length docs))) /\
      forall i, i < length docs ->
        (arrived kw i past = true -> see i = true) /\ (see i = true -> arrived kw i ls = true).
Proof.
  intros D ls1 kw ord ls2 ls3 w q ls past docs Hd Hr Ho Htok Hf Hok Hq Hn Hp.
  by eapply (search_concurrent _ _ _ _ _ (d_proto_ok D Hd) ls1 kw ord ls2 ls3 w q).
Qed.
Print Assumptions C64_diana.

(** ** C66: a request does not reach what is inserted after it *)
(** If no insertion of the keyword is delivered during the search, its results are
    exactly the documents that were inserted before the request and had arrived: whatever
    is inserted, delivered or searched between the request and the search. *)
Lemma seen_ext {A} (see see' : nat -> bool) (docs : list A) l :
  (forall i, i < length docs -> see i = see' i) -> seen see docs l = seen see' docs l.
Proof.
  intros H. unfold seen. induction l as [|i l IH]; csimpl; [done|]. rewrite IH.
  destruct (decide (i < length docs)) as [Hi|Hi]; [by rewrite H|].
  rewrite lookup_ge_None_2 by lia. by destruct (see i), (see' i).
Qed.
Lemma seen_exact {A} (P : proto) kw (past ls3 : list (label P)) see (docs : list A) :
  (forall i, i < length docs -> (arrived kw i past = true -> see i = true) /\ (see i = true -> arrived kw i (past ++ ls3) = true)) ->
  (forall v, LDeliver P kw v ∉ ls3) -> forall l, seen see docs l = seen (fun i => arrived kw i past) docs l.
Proof.
  intros H Hn l. apply seen_ext. intros i Hi. destruct (H i Hi) as [H1 H2]. rewrite arrived_app in H2.
  assert (E : arrived kw i ls3 = false).
  { apply not_true_is_false. intros E. unfold arrived in E. apply existsb_exists in E as (x & Hx & E).
    destruct x; try done. apply bool_decide_eq_true in E as [-> ->]. apply (Hn (N.of_nat i)). by apply elem_of_list_In. }
  rewrite E, orb_false_r in H2. destruct (arrived kw i past), (see i); auto. symmetry. auto.
Qed.

Theorem C66_sophos :
  forall (S : sophos) ls1 kw in_order ls2 ls3 w q,
    let ls := ls1 ++ LSearch (so_proto S) kw in_order :: ls2 ++ ls3 in
    let past := ls1 ++ LSearch (so_proto S) kw in_order :: ls2 in
    let docs := put_docs kw ls1 in
    tdp_ok S -> wrun (idle (so_proto S)) ls = Some w ->
    always (own_keyword kw) ls -> tokens_differ (update_token S) ls -> few_puts ls ->
    w_queries (so_proto S) w !! searches ls1 = Some q ->
    (forall j, LAccess (so_proto S) (searches ls1) j ∉ ls2) -> q_pending (so_proto S) q = [] ->
    (forall v, LDeliver (so_proto S) kw v ∉ ls3) ->
    same_results in_order (q_results (so_proto S) q)
      (seen (fun i => arrived kw i past) docs (newest_first (length docs))).
Proof.
  intros S ls1 kw ord ls2 ls3 w q ls past docs Ht Hr Ho Htok Hf Hq Hn Hp Hd.
  destruct (C64_sophos S ls1 kw ord ls2 ls3 w q Ht Hr Ho Htok Hf Hq Hn Hp) as (see & Hs & Hsee).
  replace (ls1 ++ _ :: ls2 ++ ls3) with ((ls1 ++ LSearch (so_proto S) kw ord :: ls2) ++ ls3) in Hsee by (by rewrite <- app_assoc).
  erewrite (seen_exact _ kw) in Hs by done. done.
Qed.
Print Assumptions C66_sophos.

Theorem C66_diana :
  forall (D : diana) ls1 kw in_order ls2 ls3 w q,
    let ls := ls1 ++ LSearch (d_proto D) kw in_order :: ls2 ++ ls3 in
    let past := ls1 ++ LSearch (d_proto D) kw in_order :: ls2 in
    let docs := put_docs kw ls1 in
    d_crypto_ok D -> wrun (idle (d_proto D)) ls = Some w ->
    always (own_keyword kw) ls -> tokens_differ (d_update_token D) ls -> few_puts ls ->
    put_docs_ok (d_doc_ok D) ls ->
    w_queries (d_proto D) w !! searches ls1 = Some q ->
    (forall j, LAccess (d_proto D) (searches ls1) j ∉ ls2) -> q_pending (d_proto D) q = [] ->
    (forall v, LDeliver (d_proto D) kw v ∉ ls3) ->
    same_results in_order (q_results (d_proto D) q)
      (seen (fun i => arrived kw i past) docs (oldest_first (length docs))).
Proof.
  intros D ls1 kw ord ls2 ls3 w q ls past docs Hc Hr Ho Htok Hf Hok Hq Hn Hp Hd.
  destruct (C64_diana D ls1 kw ord ls2 ls3 w q Hc Hr Ho Htok Hf Hok Hq Hn Hp) as (see & Hs & Hsee).
  replace (ls1 ++ _ :: ls2 ++ ls3) with ((ls1 ++ LSearch (d_proto D) kw ord :: ls2) ++ ls3) in Hsee by (by rewrite <- app_assoc).
  erewrite (seen_exact _ kw) in Hs by done. done.
Qed.
Print Assumptions C66_diana.

(** ** C65: an inverted index loaded by parallel jobs *)
(** The update tokens of the index do not collide. *)
Definition index_tokens_differ {A} (token : bytes -> nat -> bytes) (index : list (bytes * list A)) : Prop :=
  forall kw docs i kw' docs' i', (kw, docs) ∈ index -> (kw', docs') ∈ index ->
    i < length docs -> i' < length docs' -> token kw i = token kw' i' -> kw = kw' /\ i = i'.

Lemma load_hypotheses (P : proto) token ok (ls : list (label P)) w index :
  jobs ls = load_jobs index -> NoDup index.*1 -> wrun (idle P) ls = Some w ->
  (forall k docs, (k, docs) ∈ index -> (N.of_nat (length docs) < 2 ^ 32)%N /\ Forall ok docs) ->
  index_tokens_differ token index ->
  always own_keywords ls /\ tokens_differ token ls /\ few_puts ls /\ put_docs_ok ok ls.
Proof.
  intros Hj Hnd Hr Hidx Htd.
  assert (Hown : always own_keywords ls) by (by eapply load_own).
  destruct (linv_run _ _ _ Hj Hnd Hr) as [_ L2 L3].
  assert (Hput : forall k, put_docs k ls = [] \/ exists docs rest, (k, docs) ∈ index /\ docs = put_docs k ls ++ rest).
  { intros k. destruct (decide (k ∈ index.*1)) as [Hk|Hk]; [right|left; by apply L3].
    apply elem_of_list_fmap in Hk as ([k' docs] & -> & Hin). exists docs.
    destruct (load_prefix _ _ _ _ _ Hj Hnd Hr Hin) as [rest E]. by exists rest. }
  assert (Htok : tokens_differ token ls).
  { intros k i k' i' Hi Hi' E.
    destruct (Hput k) as [E1|(docs & rest & Hin & E1)]; [rewrite E1 in Hi; simpl in Hi; lia|].
    destruct (Hput k') as [E2|(docs' & rest' & Hin' & E2)]; [rewrite E2 in Hi'; simpl in Hi'; lia|].
    eapply Htd; [exact Hin|exact Hin'|rewrite E1, app_length; lia|rewrite E2, app_length; lia|done]. }
  assert (Hfew : few_puts ls).
  { intros k. destruct (Hput k) as [->|(docs & rest & Hin & E1)]; [done|].
    destruct (Hidx _ _ Hin) as [Hb _]. rewrite E1, app_length in Hb. lia. }
  assert (Hok : put_docs_ok ok ls).
  { intros k. destruct (Hput k) as [->|(docs & rest & Hin & E1)]; [done|].
    destruct (Hidx _ _ Hin) as [_ Hd]. rewrite E1, Forall_app in Hd. tauto. }
  done.
Qed.

Lemma load_generic (P : proto) token unmask acc ok order (HP : proto_ok P token unmask acc ok order)
    ls1 kw in_order ls3 w1 w q (index : list (bytes * list (p_doc P))) :
  let ls := ls1 ++ LSearch P kw in_order :: ls3 in
  wrun (idle P) ls1 = Some w1 -> wrun (idle P) ls = Some w ->
  jobs ls1 = load_jobs index -> jobs ls3 = [] -> NoDup index.*1 -> none_lost ls1 ->
  (forall k docs, (k, docs) ∈ index -> (N.of_nat (length docs) < 2 ^ 32)%N /\ Forall ok docs) ->
  index_tokens_differ token index ->
  Forall (fun th => th_todo P th = []) (w_threads P w1) -> w_net P w1 = [] ->
  w_queries P w !! searches ls1 = Some q -> q_pending P q = [] ->
  (forall docs, (kw, docs) ∈ index -> same_results in_order (q_results P q) (omap (fun i => docs !! i) (order (length docs)))) /\
  (kw ∉ index.*1 -> q_results P q = []).
Proof.
  intros ls Hr1 Hr Hj1 Hj3 Hnd Hlost Hidx Htd Hthr Hnet Hq Hp.
  assert (Hj : jobs ls = load_jobs index) by (unfold ls; rewrite jobs_app, Hj1; change (load_jobs index ++ jobs ls3 = load_jobs index); rewrite Hj3; apply app_nil_r).
  destruct (load_hypotheses _ token ok ls w index Hj Hnd Hr Hidx Htd) as (Hown & Htok & Hfew & Hok).
  assert (Hown' : always (own_keyword kw) ls) by (intros l1 l2 w' E Hw'; by eapply Hown).
  destruct (search_concurrent _ _ _ _ _ HP ls1 kw in_order [] ls3 w q) as (see & Hs & Hsee); try done.
  { intros j Hj'. by apply elem_of_nil in Hj'. }
  assert (Hall : forall i, i < length (put_docs kw ls1) -> see i = true).
  { intros i Hi. apply Hsee; [done|]. rewrite arrived_app.
    destruct (on_its_way _ _ _ _ _ HP kw ls1 w1) with (i := i) as [->|(m & Hm & _)]; try done.
    - by eapply always_app.
    - by eapply tokens_app.
    - by eapply few_app.
    - rewrite Hnet in Hm. by apply elem_of_nil in Hm. }
  rewrite seen_all in Hs; [|done|].
  2: { apply Forall_forall. intros i Hi. rewrite (po_order _ _ _ _ _ _ HP) in Hi. apply elem_of_seq in Hi. lia. }
  destruct (linv_run _ _ _ Hj1 Hnd Hr1) as [L1' L2' L3']. split.
  - intros docs Hin. apply elem_of_list_lookup in Hin as [t Ht]. destruct (L2' _ _ _ Ht) as (rest & r & Hth & E).
    rewrite Forall_lookup in Hthr. specialize (Hthr _ _ Hth). cbn [th_todo] in Hthr. apply fmap_nil_inv in Hthr as ->.
    rewrite app_nil_r in E. by subst docs.
  - intros Hk. rewrite (L3' kw Hk) in Hs. pose proof (po_order _ _ _ _ _ _ HP 0) as E0. simpl in E0. symmetry in E0.
    apply Permutation_nil in E0. cbn [length] in Hs. rewrite E0 in Hs. destruct in_order; simpl in Hs; [done|].
    symmetry in Hs. by apply Permutation_nil in Hs.
Qed.

(** Each keyword being in one list only: when all the jobs are done and all the requests
    have arrived, a search returns exactly the documents of the list of its keyword. *)
Theorem C65_sophos :
  forall (S : sophos) ls1 kw in_order ls3 w1 w q index,
    let ls := ls1 ++ LSearch (so_proto S) kw in_order :: ls3 in
    tdp_ok S -> wrun (idle (so_proto S)) ls1 = Some w1 -> wrun (idle (so_proto S)) ls = Some w ->
    jobs ls1 = load_jobs index -> jobs ls3 = [] -> NoDup index.*1 -> none_lost ls1 ->
    (forall k docs, (k, docs) ∈ index -> (N.of_nat (length docs) < 2 ^ 32)%N) ->
    index_tokens_differ (update_token S) index ->
    Forall (fun th => th_todo (so_proto S) th = []) (w_threads (so_proto S) w1) -> w_net (so_proto S) w1 = [] ->
    w_queries (so_proto S) w !! searches ls1 = Some q -> q_pending (so_proto S) q = [] ->
    (forall docs, (kw, docs) ∈ index -> same_results in_order (q_results (so_proto S) q) (reverse docs)) /\
    (kw ∉ index.*1 -> q_results (so_proto S) q = []).
Proof.
  intros S ls1 kw ord ls3 w1 w q index ls Ht Hr1 Hr Hj1 Hj3 Hnd Hl Hidx Htd Hth Hnet Hq Hp.
  destruct (load_generic _ _ _ _ _ _ (so_proto_ok S Ht) ls1 kw ord ls3 w1 w q index) as [H1 H2]; try done.
  - intros k docs Hin. split; [by eapply Hidx|]. by apply Forall_true.
  - split; [|done]. intros docs Hin. specialize (H1 docs Hin). unfold newest_first in H1.
    pose proof (omap_lookup_seq docs []) as E. cbn [app length] in E. by rewrite omap_reverse, E in H1.
Qed.
Print Assumptions C65_sophos.

Theorem C65_diana :
  forall (D : diana) ls1 kw in_order ls3 w1 w q (index : list (bytes * list bytes)),
    let ls := ls1 ++ LSearch (d_proto D) kw in_order :: ls3 in
    d_crypto_ok D -> wrun (idle (d_proto D)) ls1 = Some w1 -> wrun (idle (d_proto D)) ls = Some w ->
    jobs ls1 = load_jobs index -> jobs ls3 = [] -> NoDup index.*1 -> none_lost ls1 ->
    (forall k docs, (k, docs) ∈ index -> (N.of_nat (length docs) < 2 ^ 32)%N /\ Forall (d_doc_ok D) docs) ->
    index_tokens_differ (d_update_token D) index ->
    Forall (fun th => th_todo (d_proto D) th = []) (w_threads (d_proto D) w1) -> w_net (d_proto D) w1 = [] ->
    w_queries (d_proto D) w !! searches ls1 = Some q -> q_pending (d_proto D) q = [] ->
    (forall docs, (kw, docs) ∈ index -> same_results in_order (q_results (d_proto D) q) docs) /\
    (kw ∉ index.*1 -> q_results (d_proto D) q = []).
Proof.
  intros D ls1 kw ord ls3 w1 w q index ls Ht Hr1 Hr Hj1 Hj3 Hnd Hl Hidx Htd Hth Hnet Hq Hp.
  destruct (load_generic _ _ _ _ _ _ (d_proto_ok D Ht) ls1 kw ord ls3 w1 w q index) as [H1 H2]; try done.
  split; [|done]. intros docs Hin. specialize (H1 docs Hin). unfold oldest_first in H1.
  pose proof (omap_lookup_seq docs []) as E. cbn [app length] in E. by rewrite E in H1.
Qed.
Print Assumptions C65_diana.

(** ** Concrete cases *)
Lemma index_tokens_check {A} token (index : list (bytes * list A)) :
  NoDup ((fun e => token e.1 e.2) <$> (index ≫= fun x => (fun i => (x.1, i)) <$> seq 0 (length x.2))) ->
  index_tokens_differ token index.
Proof.
  intros Hnd kw docs i kw' docs' i' Hin Hin' Hi Hi' E.
  assert (He : forall k ds j, (k, ds) ∈ index -> j < length ds ->
    (k, j) ∈ (index ≫= fun x => (fun i => (x.1, i)) <$> seq 0 (length x.2))).
  { intros k ds j H Hj. apply elem_of_list_bind. exists (k, ds). split; [|done]. apply elem_of_list_fmap. exists j.
    split; [done|]. apply elem_of_seq. simpl. lia. }
  pose proof (He _ _ _ Hin Hi) as H1. pose proof (He _ _ _ Hin' Hi') as H2.
  apply elem_of_list_lookup in H1 as [a Ha]. apply elem_of_list_lookup in H2 as [b Hb].
  assert (a = b) as ->; [|rewrite Ha in Hb; by injection Hb].
  eapply NoDup_lookup; [exact Hnd|by rewrite list_lookup_fmap, Ha|rewrite list_lookup_fmap, Hb; simpl; by rewrite E].
Qed.

(** Executable checks of an execution: a search is over with these results; all the jobs
    are done and nothing is on its way. *)
Local Instance p_doc_dec (P : proto) : EqDecision (p_doc P) := p_doc_eq P.
Definition check_search (P : proto) (ls : list (label P)) (k : nat) (res : list (p_doc P)) : bool :=
  match wrun (idle P) ls with
  | Some w =>
      match w_queries P w !! k with
      | Some q => match q_pending P q with [] => bool_decide (q_results P q = res) | _ => false end
      | None => false
      end
  | None => false
  end.
Definition check_over (P : proto) (ls : list (label P)) : bool :=
  match wrun (idle P) ls with
  | Some w =>
      forallb (fun th => match th_todo P th with [] => true | _ => false end) (w_threads P w) &&
      match w_net P w with [] => true | _ => false end
  | None => false
  end.
Lemma check_search_ok P ls k res : check_search P ls k res = true ->
  exists w q, wrun (idle P) ls = Some w /\ w_queries P w !! k = Some q /\ q_pending P q = [] /\ q_results P q = res.
Proof.
  unfold check_search. destruct (wrun (idle P) ls) as [w|]; [|done]. destruct (w_queries P w !! k) as [q|] eqn:Eq; [|done].
  destruct (q_pending P q) eqn:Ep; [|done]. intros E%bool_decide_eq_true. by exists w, q.
Qed.
Lemma check_over_ok P ls : check_over P ls = true ->
  exists w, wrun (idle P) ls = Some w /\ Forall (fun th => th_todo P th = []) (w_threads P w) /\ w_net P w = [].
Proof.
  unfold check_over. destruct (wrun (idle P) ls) as [w|]; [|done]. intros [H1 H2]%andb_true_iff. exists w.
  split; [done|]. split; [|by destruct (w_net P w)]. apply Forall_forall. intros th Hth.
  rewrite forallb_forall in H1. specialize (H1 th). rewrite <- elem_of_list_In in H1. specialize (H1 Hth).
  by destruct (th_todo P th).
Qed.

(** Two jobs interleaved, with a search of the first keyword between them: its request is
    made after two insertions, of which one only has arrived; the third insertion arrives
    before the look-ups and is not returned; the second one arrives between the two
    look-ups. *)
Notation SP := (so_proto ex_sophos).
Definition ex_conc_1 : list (label SP) :=
  [LSpawn SP [([1%N], 10%N); ([1%N], 11%N); ([1%N], 12%N)]; LSpawn SP [([2%N], 20%N)];
   LGet SP 0; LGet SP 1; LPut SP 0 [1%N] 10%N; LPut SP 1 [2%N] 20%N; LGet SP 0; LDeliver SP [1%N] 0; LPut SP 0 [1%N] 11%N].
Definition ex_conc_2 : list (label SP) := [LGet SP 0; LPut SP 0 [1%N] 12%N; LDeliver SP [1%N] 2].
Definition ex_conc_3 : list (label SP) := [LAccess SP 0 1; LDeliver SP [1%N] 1; LAccess SP 0 0; LDeliver SP [2%N] 0].
Definition ex_conc : list (label SP) := ex_conc_1 ++ LSearch SP [1%N] false :: ex_conc_2 ++ ex_conc_3.
Definition ex_index : list (bytes * list N) := [([1%N], [10; 11; 12]%N); ([2%N], [20%N])].
Lemma ex_index_ok : (forall k docs, (k, docs) ∈ ex_index -> (N.of_nat (length docs) < 2 ^ 32)%N /\ Forall (fun _ => True) docs) /\
  index_tokens_differ (update_token ex_sophos) ex_index /\ NoDup ex_index.*1.
Proof.
  split_and!.
  - intros k docs Hin. split; [|by apply Forall_true].
    repeat (apply elem_of_cons in Hin as [Hin|Hin]; [injection Hin as -> ->; by vm_compute|]). by apply elem_of_nil in Hin.
  - apply index_tokens_check, (bool_decide_unpack _). by vm_compute.
  - apply (bool_decide_unpack _). by vm_compute.
Qed.
Example ex_conc_ok :
  tdp_ok ex_sophos /\ always own_keywords ex_conc /\ tokens_differ (update_token ex_sophos) ex_conc /\ few_puts ex_conc /\
  (forall j, LAccess SP (searches ex_conc_1) j ∉ ex_conc_2) /\
  exists w q, wrun (idle SP) ex_conc = Some w /\ w_queries SP w !! searches ex_conc_1 = Some q /\
    q_pending SP q = [] /\ q_results SP q = [10; 11]%N.
Proof.
  destruct ex_index_ok as (H1 & H2 & H3). split; [done|].
  destruct (check_search_ok SP ex_conc (searches ex_conc_1) [10; 11]%N) as (w & q & Hr & Hq); [by vm_compute|].
  destruct (load_hypotheses _ _ _ ex_conc w ex_index eq_refl H3 Hr H1 H2) as (Ho & Ht & Hf & _).
  split_and!; [exact Ho|exact Ht|exact Hf| |].
  - intros j Hj. repeat (apply elem_of_cons in Hj as [Hj|Hj]; [discriminate Hj|]). by apply elem_of_nil in Hj.
  - exists w, q. exact (conj Hr Hq).
Qed.

(** The same two jobs run to their end, then a search. *)
Definition ex_load : list (label SP) :=
  [LSpawn SP [([1%N], 10%N); ([1%N], 11%N); ([1%N], 12%N)]; LGet SP 0; LSpawn SP [([2%N], 20%N)];
   LGet SP 1; LPut SP 0 [1%N] 10%N; LPut SP 1 [2%N] 20%N; LGet SP 0; LPut SP 0 [1%N] 11%N; LGet SP 0; LPut SP 0 [1%N] 12%N;
   LDeliver SP [1%N] 2; LDeliver SP [2%N] 0; LDeliver SP [1%N] 0; LDeliver SP [1%N] 1].
Definition ex_load_search : list (label SP) := [LAccess SP 0 0; LAccess SP 0 0; LAccess SP 0 0].
Example ex_load_ok :
  jobs ex_load = load_jobs ex_index /\ jobs ex_load_search = [] /\ none_lost ex_load /\
  (exists w1, wrun (idle SP) ex_load = Some w1 /\ Forall (fun th => th_todo SP th = []) (w_threads SP w1) /\ w_net SP w1 = []) /\
  exists w q, wrun (idle SP) (ex_load ++ LSearch SP [1%N] true :: ex_load_search) = Some w /\
    w_queries SP w !! searches ex_load = Some q /\ q_pending SP q = [] /\ q_results SP q = [12; 11; 10]%N.
Proof.
  split_and!; [reflexivity|reflexivity|..].
  - intros kw v Hj. repeat (apply elem_of_cons in Hj as [Hj|Hj]; [discriminate Hj|]). by apply elem_of_nil in Hj.
  - apply check_over_ok. by vm_compute.
  - apply check_search_ok. by vm_compute.
Qed.

(** Diana: an insertion that arrives late. *)
Notation DP := (d_proto ex_diana).
Definition ex_d_index : list (bytes * list bytes) := [([1%N], [[1; 2]; [3; 4]]%N); ([2%N], [[5; 6]]%N)].
Definition ex_d_load : list (label DP) :=
  [LSpawn DP [([1%N], [1; 2]%N); ([1%N], [3; 4]%N)]; LSpawn DP [([2%N], [5; 6]%N)];
   LGet DP 0; LGet DP 1; LPut DP 1 [2%N] [5; 6]%N; LPut DP 0 [1%N] [1; 2]%N; LGet DP 0; LPut DP 0 [1%N] [3; 4]%N;
   LDeliver DP [1%N] 1; LDeliver DP [2%N] 0; LDeliver DP [1%N] 0].
Definition ex_d_search : list (label DP) := [LAccess DP 0 0; LAccess DP 0 0].
Example ex_d_load_ok :
  d_crypto_ok ex_diana /\
  jobs ex_d_load = load_jobs ex_d_index /\ jobs ex_d_search = [] /\ NoDup ex_d_index.*1 /\ none_lost ex_d_load /\
  (forall k docs, (k, docs) ∈ ex_d_index -> (N.of_nat (length docs) < 2 ^ 32)%N /\ Forall (d_doc_ok ex_diana) docs) /\
  index_tokens_differ (d_update_token ex_diana) ex_d_index /\
  (exists w1, wrun (idle DP) ex_d_load = Some w1 /\ Forall (fun th => th_todo DP th = []) (w_threads DP w1) /\ w_net DP w1 = []) /\
  exists w q, wrun (idle DP) (ex_d_load ++ LSearch DP [1%N] true :: ex_d_search) = Some w /\
    w_queries DP w !! searches ex_d_load = Some q /\ q_pending DP q = [] /\ q_results DP q = [[1; 2]; [3; 4]]%N.
Proof.
  split_and!; [apply ex_diana_ok|reflexivity|reflexivity|..].
  - apply (bool_decide_unpack _). by vm_compute.
  - intros kw v Hj. repeat (apply elem_of_cons in Hj as [Hj|Hj]; [discriminate Hj|]). by apply elem_of_nil in Hj.
  - intros k docs Hin.
    repeat (apply elem_of_cons in Hin as [Hin|Hin]; [injection Hin as -> ->; split; [by vm_compute|by repeat constructor]|]).
    by apply elem_of_nil in Hin.
  - apply index_tokens_check, (bool_decide_unpack _). by vm_compute.
  - apply check_over_ok. by vm_compute.
  - apply check_search_ok. by vm_compute.
Qed.
(** The hypotheses of C64_diana and C66_diana hold of it: the request is made before the
    last delivery, which comes before the look-ups. *)
Definition ex_d_late : list (label DP) :=
  take 8 ex_d_load ++ LSearch DP [1%N] true :: drop 8 ex_d_load ++ ex_d_search.
Example ex_d_late_ok :
  always own_keywords ex_d_late /\ tokens_differ (d_update_token ex_diana) ex_d_late /\ few_puts ex_d_late /\
  put_docs_ok (d_doc_ok ex_diana) ex_d_late /\
  (forall j, LAccess DP (searches (take 8 ex_d_load)) j ∉ drop 8 ex_d_load) /\ (forall v, LDeliver DP [1%N] v ∉ ex_d_search) /\
  exists w q, wrun (idle DP) ex_d_late = Some w /\ w_queries DP w !! searches (take 8 ex_d_load) = Some q /\
    q_pending DP q = [] /\ q_results DP q = [[1; 2]; [3; 4]]%N.
Proof.
  destruct ex_d_load_ok as (_ & _ & _ & H3 & _ & H1 & H2 & _).
  destruct (check_search_ok DP ex_d_late (searches (take 8 ex_d_load)) [[1; 2]; [3; 4]]%N) as (w & q & Hr & Hq); [by vm_compute|].
  destruct (load_hypotheses _ _ _ ex_d_late w ex_d_index eq_refl H3 Hr H1 H2) as (Ho & Ht & Hf & Hd).
  split_and!; [exact Ho|exact Ht|exact Hf|exact Hd| | |].
  - intros j Hj. repeat (apply elem_of_cons in Hj as [Hj|Hj]; [discriminate Hj|]). by apply elem_of_nil in Hj.
  - intros j Hj. repeat (apply elem_of_cons in Hj as [Hj|Hj]; [discriminate Hj|]). by apply elem_of_nil in Hj.
  - exists w, q. exact (conj Hr Hq).
Qed.

(** ** The keyword must not be in two lists *)
(** Two jobs insert the same keyword: both read the counter before either writes it, both
    requests have the same token, and the second one delivered overwrites the first.  All
    the jobs are done and nothing is lost, but a search misses a document. *)
Theorem C65_sophos_refuted :
  exists (S : sophos) ls1 kw ls3 w1 w q index doc docs,
    tdp_ok S /\ wrun (idle (so_proto S)) ls1 = Some w1 /\
    wrun (idle (so_proto S)) (ls1 ++ LSearch (so_proto S) kw true :: ls3) = Some w /\
    jobs ls1 = load_jobs index /\ jobs ls3 = [] /\ none_lost ls1 /\ index_tokens_differ (update_token S) index /\
    Forall (fun th => th_todo (so_proto S) th = []) (w_threads (so_proto S) w1) /\ w_net (so_proto S) w1 = [] /\
    w_queries (so_proto S) w !! searches ls1 = Some q /\ q_pending (so_proto S) q = [] /\
    (kw, docs) ∈ index /\ doc ∈ docs /\ doc ∉ q_results (so_proto S) q.
Proof.
  set (ls1 := [LSpawn SP [([1%N], 10%N)]; LSpawn SP [([1%N], 11%N)]; LGet SP 0; LGet SP 1;
    LPut SP 0 [1%N] 10%N; LPut SP 1 [1%N] 11%N; LDeliver SP [1%N] 0; LDeliver SP [1%N] 0]).
  destruct (check_over_ok SP ls1) as (w1 & Hw1 & Hth & Hnet); [by vm_compute|].
  destruct (check_search_ok SP (ls1 ++ LSearch SP [1%N] true :: [LAccess SP 0 0]) (searches ls1) [11%N])
    as (w & q & Hw & Hq & Hp & Hres); [by vm_compute|].
  exists ex_sophos, ls1, [1%N], [LAccess SP 0 0], w1, w, q, [([1%N], [10%N]); ([1%N], [11%N])], 10%N, [10%N].
  split_and!; [exact (fun x => eq_refl)|exact Hw1|exact Hw|reflexivity|reflexivity| | |exact Hth|exact Hnet|exact Hq|exact Hp| | |].
  - intros kw v Hj. repeat (apply elem_of_cons in Hj as [Hj|Hj]; [discriminate Hj|]). by apply elem_of_nil in Hj.
  - clear. intros kw docs i kw' docs' i' Hin Hin' Hi Hi' _.
    repeat (apply elem_of_cons in Hin as [Hin|Hin]; [injection Hin as -> ->|]); [..|by apply elem_of_nil in Hin];
    (repeat (apply elem_of_cons in Hin' as [Hin'|Hin']; [injection Hin' as -> ->|]); [..|by apply elem_of_nil in Hin']);
    simpl in *; split; try done; lia.
  - left.
  - left.
  - rewrite Hres. clear. intros H. apply elem_of_list_singleton in H. discriminate H.
Qed.
Print Assumptions C65_sophos_refuted.

Theorem C65_diana_refuted :
  exists (D : diana) ls1 kw ls3 w1 w q (index : list (bytes * list bytes)) doc docs,
    d_crypto_ok D /\ wrun (idle (d_proto D)) ls1 = Some w1 /\
    wrun (idle (d_proto D)) (ls1 ++ LSearch (d_proto D) kw true :: ls3) = Some w /\
    jobs ls1 = load_jobs index /\ jobs ls3 = [] /\ none_lost ls1 /\ index_tokens_differ (d_update_token D) index /\
    Forall (fun th => th_todo (d_proto D) th = []) (w_threads (d_proto D) w1) /\ w_net (d_proto D) w1 = [] /\
    w_queries (d_proto D) w !! searches ls1 = Some q /\ q_pending (d_proto D) q = [] /\
    (kw, docs) ∈ index /\ doc ∈ docs /\ doc ∉ (q_results (d_proto D) q : list bytes).
Proof.
  set (ls1 := [LSpawn DP [([1%N], [1; 2]%N)]; LSpawn DP [([1%N], [3; 4]%N)]; LGet DP 0; LGet DP 1;
    LPut DP 0 [1%N] [1; 2]%N; LPut DP 1 [1%N] [3; 4]%N; LDeliver DP [1%N] 0; LDeliver DP [1%N] 0]).
  destruct (check_over_ok DP ls1) as (w1 & Hw1 & Hth & Hnet); [by vm_compute|].
  destruct (check_search_ok DP (ls1 ++ LSearch DP [1%N] true :: [LAccess DP 0 0]) (searches ls1) [[3; 4]%N])
    as (w & q & Hw & Hq & Hp & Hres); [by vm_compute|].
  exists ex_diana, ls1, [1%N], [LAccess DP 0 0], w1, w, q, [([1%N], [[1; 2]%N]); ([1%N], [[3; 4]%N])], [1; 2]%N, [[1; 2]%N].
  split_and!; [apply ex_diana_ok|exact Hw1|exact Hw|reflexivity|reflexivity| | |exact Hth|exact Hnet|exact Hq|exact Hp| | |].
  - intros kw v Hj. repeat (apply elem_of_cons in Hj as [Hj|Hj]; [discriminate Hj|]). by apply elem_of_nil in Hj.
  - clear. intros kw docs i kw' docs' i' Hin Hin' Hi Hi' _.
    repeat (apply elem_of_cons in Hin as [Hin|Hin]; [injection Hin as -> ->|]); [..|by apply elem_of_nil in Hin];
    (repeat (apply elem_of_cons in Hin' as [Hin'|Hin']; [injection Hin' as -> ->|]); [..|by apply elem_of_nil in Hin']);
    simpl in *; split; try done; lia.
  - left.
  - left.
  - rewrite Hres. clear. intros H. apply elem_of_list_singleton in H. discriminate H.
Qed.
Print Assumptions C65_diana_refuted.
