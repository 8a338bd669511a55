(** Proofs about Diana: client and sequential search. *)
From stdpp Require Import prelude gmap.
From Coq Require Import NArith Lia.
From Verif Require Import Base EncModel KvModel UtilsModel Props_Utils DianaModel DianaSpec.
Local Arguments N.modulo : simpl never.
Local Arguments N.pow : simpl never.
Local Arguments N.of_nat : simpl never.
Local Arguments N.to_nat : simpl never.

Lemma lookup_without ts : forall (db : gmap bytes bytes) t,
  without ts db !! t = if decide (t ∈ ts) then None else db !! t.
Proof.
  induction ts as [|t' ts IH]; intros db t.
  - by rewrite decide_False by apply not_elem_of_nil.
  - change (delete t' (without ts db) !! t = if decide (t ∈ t' :: ts) then None else db !! t).
    destruct (decide (t = t')) as [->|Hne].
    + rewrite lookup_delete, decide_True; [done|left].
    + rewrite lookup_delete_ne by done. rewrite IH. destruct (decide (t ∈ ts)) as [Hi|Hi].
      * rewrite decide_True; [done|]. by right.
      * rewrite decide_False; [done|]. rewrite elem_of_cons. by intros [?|?].
Qed.
Lemma without_cons (t : bytes) (ts : list bytes) (db : gmap bytes bytes) : without ts (delete t db) = without (t :: ts) db.
Proof.
  apply map_eq. intros x. change (without ts (delete t db) !! x = delete t (without ts db) !! x).
  destruct (decide (x = t)) as [->|Hne].
  - rewrite lookup_delete, lookup_without. case_decide; [done|]. apply lookup_delete.
  - rewrite (lookup_delete_ne _ t x) by done. rewrite !lookup_without. case_decide; [done|]. by rewrite lookup_delete_ne.
Qed.

Lemma foldl_push (l : list bytes) : forall acc, foldl (fun r i => r ++ [i]) acc l = acc ++ l.
Proof. induction l as [|x l IH]; intros acc; simpl; [by rewrite app_nil_r|]. by rewrite IH, <- app_assoc. Qed.

Section search.
  Variable D : diana.

  Definition leaf (con : d_con D) (i : nat) : N * bytes := (N.of_nat i, d_eval D con (N.of_nat i)).

  Lemma eval_range_eq con (a b : nat) : a <= b -> (N.of_nat b <= d_max_leaf D con)%N ->
    d_eval_range D con (N.of_nat a) (N.of_nat b) = Ok (leaf con <$> seq a (S b - a)).
  Proof.
    intros Hab Hb. unfold d_eval_range.
    destruct (N.ltb_spec (N.of_nat b) (N.of_nat a)); [lia|].
    destruct (N.ltb_spec (d_max_leaf D con) (N.of_nat b)); [lia|]. simpl. f_equal.
    replace (N.to_nat (N.of_nat b - N.of_nat a + 1)) with (S b - a) by lia.
    apply list_eq. intros j. rewrite !list_lookup_fmap.
    destruct (decide (j < S b - a)) as [Hj|Hj].
    - rewrite !lookup_seq_lt by done. simpl. unfold leaf.
      by replace (N.of_nat a + N.of_nat j)%N with (N.of_nat (a + j)) by lia.
    - rewrite !lookup_seq_ge by lia. done.
  Qed.

  Lemma leaf_doc_delete db con t i : leaf_token D con i <> t -> leaf_doc D (delete t db) con i = leaf_doc D db con i.
  Proof. intros H. unfold leaf_doc. by rewrite lookup_delete_ne. Qed.

  Lemma omap_leaf_doc_delete db con t (is : list nat) : t ∉ (leaf_token D con <$> is) ->
    omap (leaf_doc D (delete t db) con) is = omap (leaf_doc D db con) is.
  Proof.
    induction is as [|i is IH]; intros Hni; [done|]. csimpl in Hni. apply not_elem_of_cons in Hni as [Hi Hni].
    csimpl. rewrite leaf_doc_delete by done. by rewrite IH.
  Qed.

  Lemma search_loop_eq del con (is : list nat) : (del = true -> NoDup (leaf_token D con <$> is)) -> forall db,
    d_search_loop D db (leaf con <$> is) del =
      (if del then without (leaf_token D con <$> is) db else db, omap (leaf_doc D db con) is).
  Proof.
    induction is as [|i is IH]; intros Hnd db.
    - by destruct del.
    - assert (IH' := IH ltac:(intros E; specialize (Hnd E); by apply NoDup_cons in Hnd as [_ ?])).
      csimpl. cbn [leaf d_search_loop]. unfold d_get_unmask, d_token_mask, d_retrieve_entry.
      change (d_prg D (d_eval D con (N.of_nat i)) 0 16) with (leaf_token D con i).
      assert (Ed : leaf_doc D db con i = (fun v => zip_with N.lxor v (d_prg D (d_eval D con (N.of_nat i)) 16 (d_len D))) <$> db !! leaf_token D con i) by done.
      rewrite Ed. clear Ed. destruct (db !! leaf_token D con i) as [v|] eqn:Ev.
      + destruct del.
        * rewrite IH'. csimpl.
          specialize (Hnd eq_refl). apply NoDup_cons in Hnd as [Hni _].
          rewrite omap_leaf_doc_delete by done. by rewrite without_cons.
        * rewrite IH'. done.
      + rewrite IH'. csimpl. destruct del; [|done].
        f_equal. apply map_eq. intros x. destruct (decide (x = leaf_token D con i)) as [->|Hx].
        * rewrite lookup_delete, lookup_without, Ev. by case_decide.
        * by rewrite lookup_delete_ne.
  Qed.

  Lemma omap_id_fmap {A B} (f : A -> option B) (l : list A) : omap id (f <$> l) = omap f l.
  Proof. induction l as [|x l IH]; csimpl; [done|]. by rewrite IH. Qed.

  Lemma search_eq db (req : d_search D) del : well_formed req -> (del = true -> NoDup (request_tokens req)) ->
    d_server_search D db req del =
      Ok (if del then without (request_tokens req) db else db, omap id (request_docs db req)).
  Proof.
    intros [Hz|(con & Hcon & Hc)] Hnd; unfold d_server_search.
    - rewrite Hz. simpl. unfold request_tokens, request_docs. rewrite Hz. by destruct (ds_con req), del.
    - rewrite Hcon. destruct (N.eqb_spec (ds_count req) 0); [lia|].
      change 0%N with (N.of_nat 0) at 1. rewrite <- (N2Nat.id (d_max_leaf D con)) at 1.
      rewrite eval_range_eq by lia. cbn [rbind].
      unfold request_tokens, request_docs in *. rewrite Hcon in *.
      rewrite omap_id_fmap.
      replace (S (N.to_nat (d_max_leaf D con)) - 0) with (N.to_nat (ds_count req)) by lia.
      by rewrite search_loop_eq.
  Qed.
  Lemma search_list_eq db (req : d_search D) del : well_formed req -> (del = true -> NoDup (request_tokens req)) ->
    d_server_search_list D db req del =
      Ok (if del then without (request_tokens req) db else db, omap id (request_docs db req)).
  Proof.
    intros Hw Hnd. unfold d_server_search_list. rewrite search_eq by done. cbn [rbind fst snd]. by rewrite foldl_push.
  Qed.
End search.

Section history.
  Variable D : diana.
  Hypothesis Hd : d_crypto_ok D.

  Definition dmask (kw : bytes) (i : nat) : bytes :=
    d_prg D (d_leaf D (d_root D (take 16 (d_hash D kw))) (N.of_nat i)) 16 (d_len D).

  Record d_inv (s : slots) (c : counters) (db : gmap bytes bytes) : Prop := {
    di_ctr : forall kw, c !! kw = match length (s kw) with 0 => None | S n => Some (N.of_nat n) end;
    di_db : forall kw i o, s kw !! i = Some o ->
      db !! d_update_token D kw i = (fun doc => diana_xor_mask doc (dmask kw i)) <$> o;
    di_dom : forall t v, db !! t = Some v -> exists kw i, i < length (s kw) /\ t = d_update_token D kw i;
    di_len : forall kw i doc, s kw !! i = Some (Some doc) -> length doc = d_len D }.

  Lemma d_inv_start : d_inv no_slots ∅ ∅.
  Proof. split; [done|by intros ???|by intros ???|by intros ???]. Qed.

  Definition sle (s s' : slots) : Prop := forall kw, length (s kw) <= length (s' kw).
  Lemma no_collision_mono s s' : sle s s' -> d_no_collision D s' -> d_no_collision D s.
  Proof. intros H Hc kw i kw' i' Hi Hi'. specialize (H kw) as H1. specialize (H kw') as H2. apply Hc; lia. Qed.
  Lemma few_mono s s' : sle s s' -> d_few s' -> d_few s.
  Proof. intros H Hc kw. specialize (H kw). specialize (Hc kw). lia. Qed.
  Lemma sle_refl s : sle s s.
  Proof. intros kw. lia. Qed.
  Lemma sle_trans s1 s2 s3 : sle s1 s2 -> sle s2 s3 -> sle s1 s3.
  Proof. intros H1 H2 kw. specialize (H1 kw). specialize (H2 kw). lia. Qed.
  Lemma sle_add s kw doc d : sle s (add_slot s kw doc d).
  Proof. intros k. unfold add_slot. case_decide; [|done]. rewrite app_length. lia. Qed.
  Lemma sle_empty s kw : sle s (empty_slots s kw).
  Proof. intros k. unfold empty_slots. case_decide; [|done]. by rewrite fmap_length. Qed.
  Lemma sle_op s o : sle s (op_slots s o).
  Proof.
    destruct o as [kw doc d|l|kw del]; simpl.
    - apply sle_add.
    - revert s. induction l as [|x l IH]; intros s; simpl; [apply sle_refl|].
      eapply sle_trans; [apply sle_add|apply IH].
    - destruct del; [apply sle_empty|apply sle_refl].
  Qed.
  Lemma sle_ops ops : forall s, sle s (foldl op_slots s ops).
  Proof.
    induction ops as [|o ops IH]; intros s; simpl; [apply sle_refl|].
    eapply sle_trans; [apply sle_op|apply IH].
  Qed.

  (** One insertion. *)
  Lemma d_inv_add s c db kw doc d : let s' := add_slot s kw doc d in
    d_no_collision D s' -> d_few s' -> length doc = d_len D -> d_inv s c db ->
    ctr_get_and_increment c kw = (<[kw := N.of_nat (length (s kw))]> c, N.of_nat (length (s kw))) /\
    d_inv s' (<[kw := N.of_nat (length (s kw))]> c)
      (if d then d_insert db (d_make_update D kw (N.of_nat (length (s kw))) doc) else db).
  Proof.
    intros s' Hnc Hfew Hdoc [I1 I2 I3 I4]. set (n := length (s kw)).
    assert (Hn : length (s' kw) = S n).
    { unfold s', add_slot. rewrite decide_True, app_length by done. simpl. unfold n. lia. }
    assert (Hle : sle s s') by apply sle_add.
    assert (Hb : (N.of_nat n < 2 ^ 32)%N) by (specialize (Hfew kw); lia).
    assert (Es : forall k, s' k = if decide (k = kw) then s k ++ [if d then Some doc else None] else s k) by done.
    split.
    { unfold ctr_get_and_increment. rewrite I1. fold n. destruct n as [|m] eqn:En; [done|]. unfold next_value, incr32.
      rewrite N.mod_small by lia. replace (N.of_nat m + 1)%N with (N.of_nat (S m)) by lia. done. }
    assert (Eu : d_make_update D kw (N.of_nat n) doc = DUpdate (d_update_token D kw n) (diana_xor_mask doc (dmask kw n))) by done.
    rewrite Eu. clear Eu. clearbody s'.
    assert (Hfresh : db !! d_update_token D kw n = None).
    { destruct (db !! d_update_token D kw n) as [v|] eqn:Ev; [|done].
      destruct (I3 _ _ Ev) as (kw' & i & Hi & Et). exfalso. specialize (Hle kw').
      destruct (Hnc kw n kw' i) as [<- Ei]; [lia|lia|done|]. unfold n in *. lia. }
    split.
    - intros k. rewrite Es. case_decide as Hk.
      + subst k. rewrite lookup_insert, app_length. simpl. by rewrite Nat.add_1_r.
      + rewrite lookup_insert_ne by done. apply I1.
    - intros k i o Ho. pose proof (lookup_lt_Some _ _ _ Ho) as Hi. rewrite Es in Ho. case_decide as Hk.
      + subst k. apply lookup_app_Some in Ho as [Ho|[Hge Ho]].
        * pose proof (lookup_lt_Some _ _ _ Ho). destruct d; [|by apply I2]. unfold d_insert. simpl.
          rewrite lookup_insert_ne; [by apply I2|]. intros Et.
          destruct (Hnc kw n kw i) as [_ Ei]; [lia|lia|done|]. unfold n in *. lia.
        * fold n in Hge, Ho. destruct (i - n) as [|?] eqn:Ei; [|done]. simpl in Ho. injection Ho as <-.
          assert (i = n) as -> by lia. destruct d; [|done]. unfold d_insert. simpl. by rewrite lookup_insert.
      + destruct d; [|by apply I2]. unfold d_insert. simpl. rewrite lookup_insert_ne; [by apply I2|].
        intros Et. destruct (Hnc kw n k i) as [-> _]; [lia|lia|done|done].
    - intros t v Ht.
      assert (Hold : forall t v, db !! t = Some v -> exists k i, i < length (s' k) /\ t = d_update_token D k i).
      { intros t' v' Ht'. destruct (I3 _ _ Ht') as (k & i & Hi & Et). exists k, i. specialize (Hle k). split; [lia|done]. }
      destruct d; [|by eapply Hold]. unfold d_insert in Ht. simpl in Ht.
      apply lookup_insert_Some in Ht as [[<- _]|[_ Ht]]; [|by eapply Hold].
      exists kw, n. split; [lia|done].
    - intros k i doc' Ho. rewrite Es in Ho. case_decide; [|by eapply I4].
      apply lookup_app_Some in Ho as [Ho|[_ Ho]]; [by eapply I4|].
      apply list_lookup_singleton_Some in Ho as [_ Ho]. destruct d; by inversion Ho; subst.
  Qed.

  (** Bulk insertions. *)
  Lemma d_inv_bulk l : forall s c db, let s' := foldl (fun s x => add_slot s x.1.1 x.1.2 x.2) s l in
    d_no_collision D s' -> d_few s' -> Forall (fun x => length x.1.2 = d_len D) l -> d_inv s c db ->
    d_inv s' (d_bulk_request D c (l.*1)).1 (deliver db (zip (d_bulk_request D c (l.*1)).2 (l.*2))).
  Proof.
    induction l as [|[[kw doc] d] l IH]; intros s c db s' Hnc Hfew Hl I; [done|].
    apply Forall_cons in Hl as [Hdoc Hl]. simpl in Hdoc.
    assert (Hle : sle (add_slot s kw doc d) s').
    { unfold s'. simpl. apply (sle_op _ (DBulk l)). }
    destruct (d_inv_add s c db kw doc d) as [E I']; [by eapply no_collision_mono|by eapply few_mono|done|done|].
    specialize (IH _ _ _ Hnc Hfew Hl I'). unfold d_bulk_request in *. rewrite !fmap_cons. cbn [d_get_counters fst snd]. rewrite E.
    destruct (d_get_counters (<[kw:=N.of_nat (length (s kw))]> c) (l.*1)) as [c' cl] eqn:Ec.
    csimpl. simpl in IH. exact IH.
  Qed.

  (** A search. *)
  Lemma request_wf s c db kw : d_few s -> d_inv s c db ->
    well_formed (d_search_request D c kw) /\
    request_tokens (d_search_request D c kw) = d_update_token D kw <$> seq 0 (length (s kw)) /\
    (forall del, d_no_collision D s -> request_docs db (d_search_request D c kw) = s kw /\
      d_inv (if del : bool then empty_slots s kw else s) c
        (if del then without (request_tokens (d_search_request D c kw)) db else db)).
  Proof.
    intros Hfew I. destruct I as [I1 I2 I3 I4]. specialize (Hfew kw) as Hb.
    assert (Hreq : length (s kw) = 0 /\ d_search_request D c kw = DSearch [] None 0 \/
      exists n, length (s kw) = S n /\ d_search_request D c kw =
        DSearch (d_kwtok D (d_keyword_index D kw)) (Some (d_constrain D (d_root D (d_keyword_index D kw)) 0 (N.of_nat n)))
          (N.of_nat (S n))).
    { unfold d_search_request, ctr_get. rewrite I1. destruct (length (s kw)) as [|n]; [by left|right].
      exists n. split; [done|]. rewrite N.mod_small by lia. by replace (N.of_nat n + 1)%N with (N.of_nat (S n)) by lia. }
    assert (Htok : request_tokens (d_search_request D c kw) = d_update_token D kw <$> seq 0 (length (s kw))).
    { destruct Hreq as [[E ->]|(n & E & ->)]; rewrite E; [done|]. unfold request_tokens. cbn [ds_con ds_count].
      rewrite Nat2N.id. apply list_fmap_ext. intros j i Hi. apply lookup_seq in Hi as [-> Hi].
      unfold leaf_token. rewrite (dc_eval _ Hd) by lia. done. }
    assert (Hdoc : request_docs db (d_search_request D c kw) = s kw).
    { destruct Hreq as [[E ->]|(n & E & ->)]; [by apply nil_length_inv in E as ->|].
      unfold request_docs. cbn [ds_con ds_count].
      rewrite Nat2N.id, <- E. apply list_eq. intros i. rewrite list_lookup_fmap.
      destruct (s kw !! i) as [o|] eqn:Ho.
      - pose proof (lookup_lt_Some _ _ _ Ho). rewrite lookup_seq_lt by done. simpl. f_equal.
        unfold leaf_doc, leaf_token. rewrite (dc_eval _ Hd) by lia.
        change (d_prg D (d_leaf D (d_root D (d_keyword_index D kw)) (N.of_nat i)) 0 16) with (d_update_token D kw i).
        rewrite (I2 _ _ _ Ho). destruct o as [doc|]; [|done]. simpl. f_equal.
        apply C53_diana. unfold dmask. rewrite (dc_prg _ Hd). symmetry. by apply (I4 kw i).
      - apply lookup_ge_None in Ho. by rewrite lookup_seq_ge. }
    split; [|split; [done|]].
    - destruct Hreq as [[E ->]|(n & E & ->)]; [by left|right]. eexists. split; [done|].
      cbn [ds_count]. rewrite (dc_max _ Hd). lia.
    - intros del Hnc. split; [done|]. destruct del; [|done]. rewrite Htok. split.
      + intros k. rewrite I1. unfold empty_slots. case_decide; [|done]. by rewrite fmap_length.
      + intros k i o Ho. rewrite lookup_without. unfold empty_slots in Ho. case_decide as Hk.
        * subst k. rewrite list_lookup_fmap in Ho. destruct (s kw !! i) as [o'|] eqn:Ho'; [|done].
          injection Ho as <-. apply lookup_lt_Some in Ho'. rewrite decide_True; [done|].
          apply elem_of_list_fmap. exists i. split; [done|]. apply elem_of_seq. lia.
        * rewrite decide_False; [by apply I2|]. intros Hin. apply elem_of_list_fmap in Hin as (i' & Et & Hi').
          apply elem_of_seq in Hi'. apply lookup_lt_Some in Ho.
          destruct (Hnc k i kw i') as [? _]; [lia|lia|done|done].
      + intros t v Ht. rewrite lookup_without in Ht. case_decide; [done|].
        destruct (I3 _ _ Ht) as (k & i & Hi & Et). exists k, i. split; [|done]. pose proof (sle_empty s kw k). lia.
      + intros k i doc Ho. unfold empty_slots in Ho. case_decide; [|by eapply I4].
        rewrite list_lookup_fmap in Ho. by destruct (s k !! i).
  Qed.

  Lemma tokens_nodup s kw : d_no_collision D s -> NoDup (d_update_token D kw <$> seq 0 (length (s kw))).
  Proof.
    intros Hnc. apply NoDup_fmap_2_strong; [|apply NoDup_seq].
    intros i j Hi Hj E. apply elem_of_seq in Hi, Hj. apply (Hnc kw i kw j) in E as [_ ?]; [done|lia|lia].
  Qed.

  Lemma d_run_eq ops : forall s c db, let s' := foldl op_slots s ops in
    d_no_collision D s' -> d_few s' -> docs_ok D ops -> d_inv s c db ->
    d_run D c db ops = Ok (d_answers s ops).
  Proof.
    induction ops as [|o ops IH]; intros s c db s' Hnc Hfew Hok I; [done|].
    apply Forall_cons in Hok as [Ho Hok].
    assert (Hle : sle (op_slots s o) s') by exact (sle_ops ops (op_slots s o)).
    assert (Hle0 : sle s s') by (eapply sle_trans; [apply (sle_op s o)|exact Hle]).
    destruct o as [kw doc d|l|kw del]; cbn [d_run d_answers].
    - destruct (d_inv_add s c db kw doc d) as [E I']; [by eapply no_collision_mono|by eapply few_mono|done|done|].
      unfold d_insertion_request. rewrite E. by apply IH.
    - apply IH; [done..|]. apply d_inv_bulk; [by eapply no_collision_mono|by eapply few_mono|done|done].
    - destruct (request_wf s c db kw) as (Hwf & Htok & H); [by eapply few_mono|done|].
      destruct (H del) as [Hdocs I']; [by eapply no_collision_mono|].
      rewrite search_list_eq; [|done|].
      + cbn [rbind fst snd]. rewrite (IH (op_slots s (DFind kw del))); [|done..]. cbn [rbind].
        rewrite Hdocs. done.
      + intros _. rewrite Htok. apply tokens_nodup. by eapply no_collision_mono.
  Qed.
End history.
