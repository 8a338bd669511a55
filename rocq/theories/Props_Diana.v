(** Final theorems about Diana (properties C35 to C40). *)
From stdpp Require Import prelude gmap.
From Coq Require Import NArith Lia.
From Verif Require Import Base EncModel KvModel UtilsModel DianaModel DianaSpec DianaProofs DianaParallel.
Local Arguments N.modulo : simpl never.
Local Arguments N.pow : simpl never.
Local Arguments N.of_nat : simpl never.
Local Arguments N.to_nat : simpl never.

(** ** C35, C37: searches return the documents *)
(** In every history of single and bulk insertions, some of which are lost, and of
    searches, some of which delete what they return, every search returns the documents
    delivered and not deleted, in insertion order. *)
Theorem C35_diana_lost_updates :
  forall (D : diana) h,
    d_crypto_ok D -> d_no_collision D (all_slots h) -> d_few (all_slots h) -> docs_ok D h ->
    d_run D ∅ ∅ h = Ok (d_answers no_slots h).
Proof. intros D h Hd Hnc Hf Hok. apply (d_run_eq D Hd h no_slots); [done..|apply d_inv_start]. Qed.
Print Assumptions C35_diana_lost_updates.

Lemma add_slots_eq l : Forall (fun x => x.2 = true) l -> forall s kw,
  foldl (fun s x => add_slot s x.1.1 x.1.2 x.2) s l kw =
    s kw ++ (Some <$> (l ≫= fun x => if decide (x.1.1 = kw) then [x.1.2] else [])).
Proof.
  induction 1 as [|[[k doc] d] l Hx _ IH]; intros s kw; csimpl; [by rewrite app_nil_r|].
  simpl in Hx. subst d. rewrite IH. unfold add_slot. repeat case_decide; subst; try done. by rewrite <- app_assoc.
Qed.
Lemma slots_inserted h : nothing_lost h -> forall s kw,
  foldl op_slots s h kw = s kw ++ (Some <$> inserted kw h).
Proof.
  induction 1 as [|o h Ho _ IH]; intros s kw; [by rewrite app_nil_r|]. cbn [foldl]. rewrite IH. unfold inserted.
  rewrite bind_cons, fmap_app, app_assoc. f_equal.
  destruct o as [k doc d|l|k del]; simpl in *; subst.
  - unfold add_slot. repeat case_decide; subst; try done. by rewrite app_nil_r.
  - by rewrite add_slots_eq.
  - by rewrite app_nil_r.
Qed.
Lemma answers_snoc ops kw del : forall s,
  d_answers s (ops ++ [DFind kw del]) = d_answers s ops ++ [contents (foldl op_slots s ops) kw].
Proof.
  induction ops as [|o ops IH]; intros s; [done|]. cbn [app d_answers foldl]. destruct o; rewrite IH; done.
Qed.

Theorem C37_diana_search :
  forall (D : diana) h kw del,
    d_crypto_ok D -> d_no_collision D (all_slots h) -> d_few (all_slots h) -> docs_ok D h -> nothing_lost h ->
    exists previous, d_run D ∅ ∅ (h ++ [DFind kw del]) = Ok (previous ++ [inserted kw h]).
Proof.
  intros D h kw del Hd Hnc Hf Hok Hl. exists (d_answers no_slots h).
  assert (El : forall k, length (all_slots (h ++ [DFind kw del]) k) = length (all_slots h k)).
  { intros k. unfold all_slots. rewrite foldl_app. simpl. destruct del; [|done].
    unfold empty_slots. case_decide; [|done]. by rewrite fmap_length. }
  rewrite C35_diana_lost_updates; [|done| | |].
  - f_equal. rewrite answers_snoc. f_equal. unfold contents. rewrite slots_inserted by done.
    unfold no_slots. simpl. f_equal. induction (inserted kw h) as [|d l IH]; csimpl; [done|]. by f_equal.
  - intros k i k' i'. rewrite !El. apply Hnc.
  - intros k. rewrite El. apply Hf.
  - apply Forall_app. split; [done|]. by repeat constructor.
Qed.
Print Assumptions C37_diana_search.

(** A concrete scheme; a history with two keywords, bulk insertions, a lost update and
    a search that deletes. *)
Definition ex_diana : diana := {|
  d_hash := fun kw => kw ++ replicate 16 0%N;
  d_root := fun k => take 15 k;
  d_kwtok := fun k => k;
  d_leaf := fun k i => k ++ [i];
  d_con := bytes * N;
  d_constrain := fun k _ n => (k, n);
  d_max_leaf := snd;
  d_eval := fun con i => con.1 ++ [i];
  d_prg := fun st off len => take len (drop off (st ++ replicate (off + len) 7%N));
  d_len := 2 |}.
Lemma ex_diana_ok : d_crypto_ok ex_diana.
Proof.
  split; [done|done|]. intros st off len. simpl. rewrite take_length, drop_length, app_length, replicate_length. lia.
Qed.
Definition ex_d_history : list d_op :=
  [DIns [1] [10; 0] true; DBulk [([1], [11; 0], true); ([2], [20; 0], true); ([1], [12; 0], false)];
   DFind [1] false; DIns [1] [13; 0] true; DFind [1] true; DIns [1] [14; 0] true; DFind [1] false; DFind [2] false;
   DFind [3] true]%N.
Example ex_diana_history :
  d_crypto_ok ex_diana /\ d_no_collision ex_diana (all_slots ex_d_history) /\ d_few (all_slots ex_d_history) /\
  docs_ok ex_diana ex_d_history /\
  d_run ex_diana ∅ ∅ ex_d_history =
    Ok [[[10; 0]; [11; 0]]; [[10; 0]; [11; 0]; [13; 0]]; [[14; 0]]; [[20; 0]]; []]%N.
Proof.
  assert (K : forall kw, all_slots ex_d_history kw <> [] -> kw = [1%N] \/ kw = [2%N]).
  { intros kw H. destruct (decide (kw = [1%N])) as [->|H1]; [by left|].
    destruct (decide (kw = [2%N])) as [->|H2]; [by right|]. exfalso. apply H.
    unfold all_slots, ex_d_history. cbn. unfold add_slot, empty_slots, no_slots.
    repeat (rewrite (decide_False (P := kw = [1%N])) by done). repeat (rewrite (decide_False (P := kw = [2%N])) by done).
    by destruct (decide (kw = [3%N])). }
  assert (L1 : length (all_slots ex_d_history [1%N]) = 5) by (by vm_compute).
  assert (L2 : length (all_slots ex_d_history [2%N]) = 1) by (by vm_compute).
  split_and!; [apply ex_diana_ok| | | |].
  - intros kw i kw' i' Hi Hi' Et.
    destruct (K kw) as [->| ->]; [intros E; rewrite E in Hi; simpl in Hi; lia|..];
      (destruct (K kw') as [->| ->]; [intros E; rewrite E in Hi'; simpl in Hi'; lia|..]);
      rewrite ?L1, ?L2 in Hi, Hi'.
    + split; [done|]. destruct i as [|[|[|[|[|i]]]]], i' as [|[|[|[|[|i']]]]]; try lia; vm_compute in Et; discriminate.
    + destruct i as [|[|[|[|[|i]]]]], i' as [|i']; try lia; vm_compute in Et; discriminate.
    + destruct i' as [|[|[|[|[|i']]]]], i as [|i]; try lia; vm_compute in Et; discriminate.
    + split; [done|]. lia.
  - intros kw. destruct (decide (all_slots ex_d_history kw = [])) as [->|H]; [done|].
    destruct (K kw H) as [->| ->]; [rewrite L1|rewrite L2]; done.
  - by repeat constructor.
  - by vm_compute.
Qed.

(** ** C36: exhaustion of the counter *)
Lemma request_counter D c kw d : (d_insertion_request D c kw d).1 = <[kw := next_value (c !! kw)]> c.
Proof. done. Qed.
Lemma many_insertions D kw : forall docs c db, docs <> [] ->
  exists db', forall rest, d_run D c db (((fun d => DIns kw d true) <$> docs) ++ rest) =
    d_run D (<[kw := (from_option N.succ 0 (c !! kw) + N.of_nat (length docs) - 1) mod 2 ^ 32]> c)%N db' rest.
Proof.
  induction docs as [|d docs IH]; intros c db Hne; [done|].
  destruct (decide (docs = [])) as [->|Hne2].
  - exists (deliver db [((d_insertion_request D c kw d).2, true)]). intros rest.
    change ((fun d => DIns kw d true) <$> [d]) with [DIns kw d true]. cbn [app d_run].
    rewrite request_counter.
    f_equal. f_equal. unfold next_value, incr32. destruct (c !! kw) as [v|]; [|done]. cbn [from_option length].
    change (N.of_nat 1) with 1%N. f_equal. lia.
  - destruct (IH (d_insertion_request D c kw d).1 (deliver db [((d_insertion_request D c kw d).2, true)]) Hne2) as [db' H'].
    exists db'. intros rest. rewrite fmap_cons. cbn [app d_run]. rewrite H'. f_equal.
    rewrite request_counter, lookup_insert, insert_insert. f_equal.
    assert (0 < length docs)%nat by (destruct docs; simpl; [done|lia]).
    unfold next_value, incr32. cbn [from_option length]. destruct (c !! kw) as [v|]; cbn [from_option].
    + assert (Hx : forall a b : N, (N.succ a + b - 1)%N = (a + b)%N) by (intros; lia). rewrite !Hx.
      rewrite N.add_mod_idemp_l by done. f_equal. lia.
    + f_equal. lia.
Qed.
(** After 2^32 insertions of a keyword the search returns nothing. *)
Theorem C36_diana_refuted :
  forall D kw, exists docs,
    N.of_nat (length docs) = (2 ^ 32)%N /\ Forall (fun d => length d = d_len D) docs /\
    d_run D ∅ ∅ (((fun d => DIns kw d true) <$> docs) ++ [DFind kw false]) = Ok [[]].
Proof.
  intros D kw. assert (H : forall n, exists docs : list bytes, N.of_nat (length docs) = n /\ Forall (fun d => length d = d_len D) docs).
  { intros n. exists (replicate (N.to_nat n) (replicate (d_len D) 0%N)). rewrite replicate_length. split; [lia|].
    apply Forall_replicate. apply replicate_length. }
  destruct (H (2 ^ 32)%N) as (docs & Hd & Hl). exists docs. split_and!; [done|done|].
  destruct (many_insertions D kw docs ∅ ∅) as [db' E]; [by intros ->|]. rewrite E. cbn [d_run].
  unfold d_search_request, ctr_get. rewrite lookup_insert, lookup_empty, Hd. done.
Qed.
Print Assumptions C36_diana_refuted.

(** ** C39: get_match_count *)
Lemma final_counters D ops : forall s c db c' db',
  d_few (foldl op_slots s ops) ->
  (forall kw, c !! kw = match length (s kw) with 0 => None | S n => Some (N.of_nat n) end) ->
  d_final D c db ops = Ok (c', db') ->
  forall kw, c' !! kw = match length (foldl op_slots s ops kw) with 0 => None | S n => Some (N.of_nat n) end.
Proof.
  assert (Hone : forall s c kw doc d, d_few (add_slot s kw doc d) ->
    (forall kw, c !! kw = match length (s kw) with 0 => None | S n => Some (N.of_nat n) end) ->
    forall k, (<[kw := next_value (c !! kw)]> c : counters) !! k = match length (add_slot s kw doc d k) with 0 => None | S n => Some (N.of_nat n) end).
  { intros s c kw doc d Hf Hc k. specialize (Hf kw). unfold add_slot in *. rewrite decide_True, app_length in Hf by done.
    simpl in Hf. case_decide as Hk.
    - subst k. rewrite lookup_insert, app_length. simpl. rewrite Nat.add_1_r, Hc. f_equal.
      destruct (length (s kw)) as [|n]; [done|]. unfold next_value, incr32. rewrite N.mod_small by lia. lia.
    - by rewrite lookup_insert_ne. }
  induction ops as [|o ops IH]; intros s c db c' db' Hf Hc E; [by injection E as <- <-|].
  destruct o as [kw doc d|l|kw del]; cbn [d_final] in E.
  - eapply (IH _ _ _ _ _ Hf); [|exact E]. rewrite request_counter. apply Hone; [|done].
    eapply few_mono; [|exact Hf]. exact (sle_ops ops (add_slot s kw doc d)).
  - eapply (IH _ _ _ _ _ Hf); [|exact E]. cbn [op_slots]. clear E.
    assert (Hf' : d_few (op_slots s (DBulk l))) by (eapply few_mono; [|exact Hf]; exact (sle_ops ops (op_slots s (DBulk l)))). clear Hf.
    cbn [op_slots] in Hf'. unfold d_bulk_request.
    destruct (d_get_counters c (l.*1)) as [c1 cl] eqn:Ec. cbn [fst].
    assert (Ec1 : c1 = (d_get_counters c (l.*1)).1) by (by rewrite Ec). clear Ec. subst c1.
    revert s c Hc Hf'. induction l as [|[[kw doc] d] l IHl]; intros s c Hc Hf'; [done|].
    rewrite fmap_cons. cbn [d_get_counters fst]. unfold ctr_get_and_increment.
    destruct (d_get_counters (<[kw := next_value (c !! kw)]> c) (l.*1)) as [c1 cl1] eqn:Ec1. cbn [fst].
    assert (Ec2 : c1 = (d_get_counters (<[kw := next_value (c !! kw)]> c) (l.*1)).1) by (by rewrite Ec1). rewrite Ec2.
    cbn [foldl fst snd]. apply IHl; [|done]. apply Hone; [|done].
    eapply few_mono; [|exact Hf']. apply (sle_op _ (DBulk l)).
  - apply rbind_ok in E as ([db1 r] & _ & E). eapply (IH _ _ _ _ _ Hf); [|exact E].
    intros k. rewrite Hc. cbn [op_slots]. destruct del; [|done]. unfold empty_slots. case_decide; [|done].
    by rewrite fmap_length.
Qed.
(** The count returned is one less than the number of insertions. *)
Theorem C39_off_by_one :
  forall D h c db kw,
    d_few (all_slots h) -> d_final D ∅ ∅ h = Ok (c, db) ->
    d_get_match_count c kw = N.of_nat (length (all_slots h kw) - 1).
Proof.
  intros D h c db kw Hf E. unfold d_get_match_count, ctr_get.
  rewrite (final_counters D h no_slots ∅ ∅ c db Hf) by done. unfold all_slots.
  destruct (length _) as [|n]; [done|]. f_equal. lia.
Qed.
Print Assumptions C39_off_by_one.
(** So the property is false: after one insertion the count is 0. *)
Theorem C39_refuted :
  exists D h c db kw,
    d_crypto_ok D /\ d_few (all_slots h) /\ d_final D ∅ ∅ h = Ok (c, db) /\
    d_get_match_count c kw <> N.of_nat (length (inserted kw h)).
Proof.
  exists ex_diana, [DIns [1%N] [10; 0]%N true]. eexists _, _, [1%N]. split_and!; [apply ex_diana_ok| |reflexivity|].
  - intros kw. unfold all_slots. cbn. unfold add_slot. by case_decide.
  - by vm_compute.
Qed.
Print Assumptions C39_refuted.

(** ** C40: searches that delete *)
Theorem C40_delete_results :
  forall (D : diana) db (req : d_search D),
    well_formed req -> NoDup (request_tokens req) ->
    exists db' docs,
      d_server_search_list D db req true = Ok (db', docs) /\
      d_server_search_list D db req false = Ok (db, docs) /\
      (forall t, db' !! t = if decide (t ∈ request_tokens req) then None else db !! t) /\
      (forall del, d_server_search_list D db' req del = Ok (db', [])).
Proof.
  intros D db req Hw Hnd. exists (without (request_tokens req) db), (omap id (request_docs db req)).
  split_and!; [by rewrite search_list_eq|by rewrite search_list_eq|intros; apply lookup_without|].
  intros del. rewrite search_list_eq by done. f_equal. f_equal.
  - destruct del; [|done]. apply map_eq. intros t. rewrite !lookup_without. by case_decide.
  - unfold request_docs, request_tokens. destruct (ds_con req) as [con|]; [|done].
    generalize (seq 0 (N.to_nat (ds_count req))). intros l.
    assert (G : forall l', (forall i, i ∈ l' -> i ∈ l) ->
      omap id (leaf_doc D (without (leaf_token D con <$> l) db) con <$> l') = []).
    { induction l' as [|i l' IH]; intros Hin; csimpl; [done|]. unfold leaf_doc at 1. rewrite lookup_without, decide_True.
      - apply IH. intros j Hj. apply Hin. by right.
      - apply elem_of_list_fmap. exists i. split; [done|]. apply Hin. left. }
    by apply G.
Qed.
Print Assumptions C40_delete_results.
(** The callback variant makes its calls with the elements of the list. *)
Theorem C40_callback :
  forall (D : diana) db (req : d_search D) del, d_server_search_list D db req del = d_server_search D db req del.
Proof.
  intros D db req del. unfold d_server_search_list. destruct (d_server_search D db req del) as [[db' l]| | |]; try done.
  cbn [rbind fst snd]. by rewrite foldl_push.
Qed.
Print Assumptions C40_callback.

(** A request with five leaves, four of which are in the database. *)
Definition ex_d_db : gmap bytes bytes :=
  match d_final ex_diana ∅ ∅ (take 4 ex_d_history) with Ok (_, db) => db | _ => ∅ end.
Definition ex_d_req : d_search ex_diana :=
  match d_final ex_diana ∅ ∅ (take 4 ex_d_history) with Ok (c, _) => d_search_request ex_diana c [1%N] | _ => DSearch [] None 0%N end.
Example ex_d_req_ok : well_formed ex_d_req /\ NoDup (request_tokens ex_d_req) /\
  request_docs ex_d_db ex_d_req = [Some [10; 0]; Some [11; 0]; None; Some [13; 0]]%N.
Proof.
  split_and!.
  - right. eexists. split; [reflexivity|]. by vm_compute.
  - assert (E : bool_decide (NoDup (request_tokens ex_d_req)) = true) by (by vm_compute).
    by apply bool_decide_eq_true in E.
  - by vm_compute.
Qed.

(** ** C38: parallel searches *)
Lemma foldl_vector log : forall v, NoDup ((fun e : N * bytes * N => e.1.1) <$> log) ->
  let v' := foldl (fun r e => if (e.1.1 <? N.of_nat (length r))%N then <[N.to_nat e.1.1 := e.1.2]> r else r) v log in
  length v' = length v /\
  (forall i doc t, (N.of_nat i, doc, t) ∈ log -> i < length v -> v' !! i = Some doc) /\
  (forall i, N.of_nat i ∉ ((fun e : N * bytes * N => e.1.1) <$> log) -> v' !! i = v !! i).
Proof.
  induction log as [|[[j d] t] log IH]; intros v Hnd.
  - split_and!; [done|by intros ??? ?%elem_of_nil|done].
  - rewrite fmap_cons in Hnd. apply NoDup_cons in Hnd as [Hj Hnd]. cbn [fst] in Hj. simpl.
    set (v1 := if (j <? N.of_nat (length v))%N then <[N.to_nat j := d]> v else v).
    assert (L1 : length v1 = length v) by (unfold v1; destruct (j <? _)%N; [apply insert_length|done]).
    destruct (IH v1 Hnd) as (E1 & E2 & E3). split_and!.
    + by rewrite E1, L1.
    + intros i doc t' Hin Hi. apply elem_of_cons in Hin as [[= <- <- <-]|Hin].
      * rewrite E3 by done. unfold v1. destruct (N.ltb_spec (N.of_nat i) (N.of_nat (length v))); [|lia].
        rewrite Nat2N.id. by apply list_lookup_insert.
      * eapply E2; [done|]. by rewrite L1.
    + intros i Hni. csimpl in Hni. apply not_elem_of_cons in Hni as [Hne Hni]. rewrite E3 by done.
      unfold v1. destruct (j <? _)%N; [|done]. apply list_lookup_insert_ne. intros <-. apply Hne. lia.
Qed.

(** With 1 to 255 threads, with or without deletion (the tokens of the request being
    distinct in the first case), under every schedule: the threads are given every leaf
    once; when they have all returned, the list variant returns the documents in order,
    as the sequential search does; the vector variant has put the document of leaf [i]
    at index [i] and left the rest unchanged; the callback variant has made one call per
    document; the database is the same as after a sequential search. *)
Theorem C38_search_parallel :
  forall (D : diana) db (req : d_search D) threads_count del,
    well_formed req -> (0 < threads_count < 256)%N -> (del = true -> NoDup (request_tokens req)) ->
    exists s0, d_search_parallel D db req threads_count = Ok s0 /\
      (forall con, ds_con req = Some con -> dp_threads s0 ≫= dt_rest =
        (fun i => (N.of_nat i, d_eval D con (N.of_nat i))) <$> seq 0 (N.to_nat (ds_count req))) /\
      forall s, rtc (d_step D del) s0 s -> d_finished s ->
        d_server_search_list D db req del = Ok (dp_db s, d_result_list threads_count (dp_log s)) /\
        d_result_list threads_count (dp_log s) = omap id (request_docs db req) /\
        d_result_callback (dp_log s) ≡ₚ omap id (request_docs db req) /\
        (forall v i o, request_docs db req !! i = Some o ->
          d_result_vector D v (ds_count req) (dp_log s) !! i =
            match o with Some doc => Some doc | None => Some (default (replicate (d_len D) 0%N) (v !! i)) end) /\
        (forall v i, length (request_docs db req) <= i -> d_result_vector D v (ds_count req) (dp_log s) !! i = v !! i).
Proof.
  intros D db req tc del Hw Htc Hnd.
  assert (Hgen : exists s0 origs, d_search_parallel D db req tc = Ok s0 /\
    (forall con, ds_con req = Some con -> dp_threads s0 ≫= dt_rest = leaf D con <$> seq 0 (N.to_nat (ds_count req))) /\
    p_inv D db del (request_tokens req) origs s0 /\
    exists n, dt_id <$> dp_threads s0 = N.of_nat <$> seq 0 n /\ n <= N.to_nat tc /\
    omap (ldoc D db) (concat origs) = omap id (imap (fun i (o : option bytes) => (fun doc => (N.of_nat i, doc)) <$> o) (request_docs db req))).
  { destruct (decide (ds_count req = 0%N)) as [Hz|Hz].
    - exists (DPar db [] []), []. unfold d_search_parallel, request_tokens, request_docs. rewrite Hz. split_and!.
      + done.
      + done.
      + replace (match ds_con req with Some con => leaf_token D con <$> seq 0 (N.to_nat 0) | None => [] end) with ([] : list bytes)
          by (by destruct (ds_con req)).
        apply (p_inv_start D db del db []); [done|constructor].
      + exists 0. split_and!; [done|lia|]. by destruct (ds_con req).
    - destruct Hw as [Hw|(con & Hcon & Hc)]; [done|].
      set (th := N.min tc (ds_count req)). assert (Hth : (0 < th)%N) by (unfold th; lia).
      set (step := (ds_count req / th)%N). set (rem := (ds_count req mod th)%N).
      pose proof (N.div_mod (ds_count req) th ltac:(lia)) as Hdm. fold step rem in Hdm.
      assert (Hrem : (rem < th)%N) by (apply N.mod_lt; lia).
      assert (Hstep : (0 < step)%N).
      { assert (step <> 0%N); [|lia]. intros E. rewrite E in Hdm. unfold th in Hrem. lia. }
      destruct (jobs_eq D con (N.to_nat (ds_count req)) (N.to_nat step) (N.to_nat rem) ltac:(lia) ltac:(lia)
        (N.to_nat th) 0 0) as (ths & E & Hrest & Hid & Hr).
      { lia. }
      { rewrite Nat.sub_0_r, Nat.add_0_l, <- N2Nat.inj_mul, <- N2Nat.inj_add. by f_equal. }
      rewrite !N2Nat.id in E. cbn [Nat.add] in E. rewrite !N2Nat.id in E. rewrite Nat.sub_0_r in Hrest.
      exists (DPar db ths []), (dt_rest <$> ths). split_and!.
      + unfold d_search_parallel. destruct (N.eqb_spec (ds_count req) 0); [done|]. fold th.
        destruct (N.eqb_spec th 0); [lia|]. rewrite Hcon. fold step rem. change (N.of_nat 0) with 0%N in E.
        rewrite E. done.
      + intros con' Hcon'. simplify_eq. exact Hrest.
      + assert (Et : request_tokens req = tok D <$> (ths ≫= dt_rest)).
        { unfold request_tokens. rewrite Hcon, Hrest, <- list_fmap_compose. done. }
        rewrite Et. by apply p_inv_start.
      + exists (N.to_nat th). split_and!; [done|unfold th; lia|].
        unfold request_docs. rewrite Hcon.
        assert (Ec : concat (dt_rest <$> ths) = ths ≫= dt_rest).
        { clear. induction ths as [|t ths IH]; csimpl; [done|]. by rewrite IH. }
        rewrite Ec, Hrest. generalize (N.to_nat (ds_count req)). intros n. clear.
        assert (G : forall m, omap (ldoc D db) (leaf D con <$> seq m n) =
          omap id (imap (fun i (o : option bytes) => (fun doc => (N.of_nat (m + i), doc)) <$> o) (leaf_doc D db con <$> seq m n))); [|apply G].
        induction n as [|n IH]; intros m; [done|]. csimpl.
        rewrite IH. rewrite Nat.add_0_r.
        replace (imap ((fun i (o : option bytes) => (fun doc => (N.of_nat (m + i), doc)) <$> o) ∘ S) (leaf_doc D db con <$> seq (S m) n)) with
          (imap (fun i (o : option bytes) => (fun doc => (N.of_nat (S m + i), doc)) <$> o) (leaf_doc D db con <$> seq (S m) n)).
        2:{ apply imap_ext. intros i o _. simpl. by rewrite Nat.add_succ_r. }
        unfold ldoc at 1, leaf_doc at 3. unfold tok, leaf, leaf_token, d_token_mask. cbn [fst snd].
        by destruct (db !! _). }
  destruct Hgen as (s0 & origs & E0 & Hl & I0 & n & Hids & Hn & Hom).
  exists s0. split_and!; [done|done|]. intros s Hs Hfin.
  assert (Hnd0 : NoDup (dt_id <$> dp_threads s0)).
  { rewrite Hids. apply NoDup_fmap_2; [|apply NoDup_seq]. intros x y ?. lia. }
  destruct (p_inv_steps D db del _ _ _ _ Hnd Hnd0 Hs I0) as [[(dn & P1 & P2) P3 P4 P5 P6] Hids'].
  unfold d_finished in Hfin.
  assert (Hpt : dp_threads s ≫= pend_tok D = []).
  { clear -Hfin. induction Hfin as [|th ths [H1 H2] _ IH]; csimpl; [done|]. rewrite IH. unfold pend_tok. by rewrite H1, H2. }
  assert (Hpd : dp_threads s ≫= pend_doc D db = []).
  { clear -Hfin. induction Hfin as [|th ths [H1 H2] _ IH]; csimpl; [done|]. rewrite IH. unfold pend_doc. by rewrite H1, H2. }
  rewrite Hpt, app_nil_r in P1. rewrite Hpd, app_nil_r in P5.
  assert (Hdb : dp_db s = if del then without (request_tokens req) db else db).
  { apply map_eq. intros t. rewrite P2. destruct del; [|done]. cbn [andb]. rewrite lookup_without.
    case_decide as Ht; [rewrite bool_decide_true by (by rewrite P1)|rewrite bool_decide_false by (by rewrite P1)]; done. }
  set (docs := request_docs db req) in *.
  set (docsi := imap (fun i (o : option bytes) => (fun doc => (N.of_nat i, doc)) <$> o) docs) in *.
  assert (Hsnd : snd <$> omap id docsi = omap id docs).
  { assert (G : forall (l : list (option bytes)) (f : nat -> N),
      snd <$> omap id (imap (fun i (o : option bytes) => (fun doc => (f i, doc)) <$> o) l) = omap id l); [|apply (G docs N.of_nat)].
    clear. induction l as [|o l IH]; intros f; csimpl; [done|].
    specialize (IH (fun i => f (S i))). destruct o; csimpl; [f_equal|]; exact IH. }
  assert (Hbind : origs ≫= omap (ldoc D db) = omap (ldoc D db) (concat origs)).
  { clear. induction origs as [|l ls IH]; csimpl; [done|]. by rewrite omap_app, IH. }
  assert (Hlog : (dp_log s).*1 ≡ₚ omap id docsi) by (by rewrite P5, Hbind, Hom).
  assert (Hndl : NoDup ((fun e : N * bytes * N => e.1.1) <$> dp_log s)).
  { assert (G : forall l m, NoDup (fst <$> omap id (imap (fun i (o : option bytes) => (fun doc => (N.of_nat (m + i), doc)) <$> o) l)) /\
      Forall (fun x => N.of_nat m <= x)%N (fst <$> omap id (imap (fun i (o : option bytes) => (fun doc => (N.of_nat (m + i), doc)) <$> o) l))).
    { clear. induction l as [|o l IH]; intros m; [by split; constructor|]. csimpl.
      destruct (IH (S m)) as [IH1 IH2]. 
      replace (imap ((fun i (o : option bytes) => (fun doc => (N.of_nat (m + i), doc)) <$> o) ∘ S) l) with
        (imap (fun i (o : option bytes) => (fun doc => (N.of_nat (S m + i), doc)) <$> o) l).
      2:{ apply imap_ext. intros i o' _. simpl. by rewrite Nat.add_succ_r. }
      destruct o as [d|]; csimpl.
      - rewrite Nat.add_0_r. split.
        + apply NoDup_cons. split; [|done]. intros Hin. rewrite Forall_forall in IH2. specialize (IH2 _ Hin). simpl in IH2. lia.
        + apply Forall_cons. split; [lia|]. eapply Forall_impl; [exact IH2|]. simpl. lia.
      - split; [done|]. eapply Forall_impl; [exact IH2|]. simpl. lia. }
    destruct (G docs 0) as [G1 _]. rewrite (list_fmap_compose (fun e : N * bytes * N => e.1) fst). by rewrite Hlog. }
  assert (Hmem : forall i doc, (exists t, (N.of_nat i, doc, t) ∈ dp_log s) <-> docs !! i = Some (Some doc)).
  { intros i doc. transitivity ((N.of_nat i, doc) ∈ omap id docsi).
    - rewrite <- Hlog, elem_of_list_fmap. split.
      + intros [t Ht]. by exists (N.of_nat i, doc, t).
      + intros ([[j d] t] & [= <- <-] & Hin). by exists t.
    - rewrite elem_of_list_omap. unfold docsi. split.
      + intros (x & Hx & Ex). simpl in Ex. subst x. apply elem_of_lookup_imap in Hx as (j & o & Ej & Ho).
        destruct o as [d|]; [|done]. simpl in Ej. injection Ej as Ej <-. by assert (i = j) as -> by lia.
      + intros Ho. exists (Some (N.of_nat i, doc)). split; [|done]. apply elem_of_lookup_imap. by exists i, (Some doc). }
  assert (Hlen : length docs = N.to_nat (ds_count req)).
  { unfold docs, request_docs. destruct Hw as [Hw|(con & Hcon & _)].
    - rewrite Hw. by destruct (ds_con req).
    - by rewrite Hcon, fmap_length, seq_length. }
  assert (Hlist : d_result_list tc (dp_log s) = omap id docs).
  { unfold d_result_list.
    assert (Ein : forall t, (fun e => e.1.2) <$> filter (fun e : N * bytes * N => e.2 = t) (dp_log s) =
      snd <$> out_of t (dp_log s)).
    { intros t. unfold out_of. by rewrite <- list_fmap_compose. }
    assert (Hall : ((N.of_nat <$> seq 0 (N.to_nat tc)) ≫= fun t => snd <$> out_of t (dp_log s)) =
      ((N.of_nat <$> seq 0 n) ≫= fun t => snd <$> out_of t (dp_log s))).
    { replace (N.to_nat tc) with (n + (N.to_nat tc - n)) by lia. rewrite seq_app, fmap_app, bind_app.
      match goal with |- _ ++ ?x = _ => assert (Ez : x = []) end; [|by rewrite Ez, app_nil_r].
      assert (G : forall l, (forall i, i ∈ l -> n <= i) ->
        ((N.of_nat <$> l) ≫= fun t => snd <$> out_of t (dp_log s)) = []).
      { induction l as [|i l IH]; intros Hi; csimpl; [done|]. rewrite IH by (intros; apply Hi; by right).
        rewrite app_nil_r. unfold out_of. rewrite <- list_fmap_compose.
        assert (Ef : filter (fun e : N * bytes * N => e.2 = N.of_nat i) (dp_log s) = []); [|by rewrite Ef].
        destruct (filter (fun e : N * bytes * N => e.2 = N.of_nat i) (dp_log s)) as [|e es] eqn:Ee; [done|exfalso].
        assert (He : e ∈ filter (fun e : N * bytes * N => e.2 = N.of_nat i) (dp_log s)) by (rewrite Ee; left).
        apply elem_of_list_filter in He as [He1 He2]. rewrite Forall_forall in P6. specialize (P6 _ He2).
        rewrite Hids', Hids, He1 in P6. apply elem_of_list_fmap in P6 as (j & Ej & Hj). apply elem_of_seq in Hj.
        specialize (Hi i ltac:(left)). lia. }
      apply G. intros i Hi. apply elem_of_seq in Hi. lia. }
    rewrite <- Hsnd, <- Hom, <- Hbind.
    etransitivity; [|transitivity ((N.of_nat <$> seq 0 n) ≫= fun t => snd <$> out_of t (dp_log s)); [exact Hall|]].
    { clear -Ein. induction (N.of_nat <$> seq 0 (N.to_nat tc)) as [|t l IH]; csimpl; [done|]. by rewrite Ein, IH. }
    rewrite <- Hids, <- Hids'. clear -P4 Hfin. revert Hfin P4. generalize (dp_log s). intros log Hfin P4.
    induction P4 as [|th o ths os H1 _ IH]; csimpl; [done|]. apply Forall_cons in Hfin as [[H2 H3] Hfin].
    rewrite fmap_app, IH by done. f_equal. rewrite <- H1. unfold pend_doc. rewrite H2, H3. simpl. by rewrite app_nil_r. }
  split_and!.
  - rewrite search_list_eq by done. by rewrite Hlist, Hdb.
  - done.
  - unfold d_result_callback. rewrite Hbind, Hom in P5. rewrite <- Hsnd, <- P5. by rewrite <- list_fmap_compose.
  - intros v i o Ho. pose proof (lookup_lt_Some _ _ _ Ho) as Hi. unfold d_result_vector.
    match goal with |- context [foldl _ ?x _] => set (v1 := x) end.
    assert (Hv1 : v1 !! i = Some (default (replicate (d_len D) 0%N) (v !! i)) /\ i < length v1).
    { unfold v1. destruct (N.ltb_spec (N.of_nat (length v)) (ds_count req)) as [Hlt|Hge].
      - rewrite app_length, replicate_length. split; [|lia]. destruct (v !! i) as [x|] eqn:Ex.
        + by apply lookup_app_l_Some.
        + apply lookup_ge_None in Ex. rewrite lookup_app_r by done. apply lookup_replicate_2. lia.
      - destruct (lookup_lt_is_Some_2 v i) as [x Hx]; [lia|]. rewrite Hx. split; [done|]. by apply lookup_lt_Some in Hx. }
    destruct Hv1 as [Hv1 Hl1]. destruct (foldl_vector (dp_log s) v1 Hndl) as (_ & E2 & E3). destruct o as [doc|].
    + destruct (Hmem i doc) as [_ Hm]. destruct (Hm Ho) as [t Ht]. by apply (E2 i doc t).
    + rewrite E3; [done|]. intros Hin. apply elem_of_list_fmap in Hin as ([[j doc] t] & Ej & Hin). cbn [fst] in Ej. subst j.
      destruct (Hmem i doc) as [Hm _]. specialize (Hm (ex_intro _ t Hin)). congruence.
  - intros v i Hi. unfold d_result_vector.
    match goal with |- context [foldl _ ?x _] => set (v1 := x) end.
    destruct (foldl_vector (dp_log s) v1 Hndl) as (_ & _ & E3). rewrite E3.
    + unfold v1. destruct (N.ltb_spec (N.of_nat (length v)) (ds_count req)) as [Hlt|Hge]; [|done].
      rewrite lookup_ge_None_2 by (rewrite app_length, replicate_length; lia). symmetry. apply lookup_ge_None_2. lia.
    + intros Hin. apply elem_of_list_fmap in Hin as ([[j doc] t] & Ej & Hin). cbn [fst] in Ej. subst j.
      destruct (Hmem i doc) as [Hm _]. specialize (Hm (ex_intro _ t Hin)). apply lookup_lt_Some in Hm. lia.
Qed.
Print Assumptions C38_search_parallel.

(** Every execution is finite and never stuck before all the threads have returned. *)
Theorem C38_terminates :
  forall (D : diana) db (req : d_search D) threads_count del s0,
    d_search_parallel D db req threads_count = Ok s0 ->
    exists bound, forall k s, nsteps (d_step D del) k s0 s ->
      k <= bound /\ (d_finished s \/ exists s', d_step D del s s').
Proof.
  intros D db req tc del s0 _. exists (all_todo s0). intros k s Hk. split; [|apply step_progress].
  apply steps_todo in Hk. lia.
Qed.
Print Assumptions C38_terminates.

(** Without threads: undefined behaviour, whatever the (non-empty) request. *)
Theorem C38_zero_threads_refuted :
  exists (D : diana) db (req : d_search D), well_formed req /\ d_search_parallel D db req 0 = UB.
Proof. exists ex_diana, ex_d_db, ex_d_req. split; [apply ex_d_req_ok|by vm_compute]. Qed.
Print Assumptions C38_zero_threads_refuted.
