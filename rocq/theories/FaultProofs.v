(** Proofs about Sophos and Diana when RocksDB reports errors. *)
From stdpp Require Import prelude gmap.
From Coq Require Import NArith Lia.
From Verif Require Import Base EncModel KvModel UtilsModel Props_Utils SophosModel SophosSpec SophosProofs
  DianaModel DianaSpec DianaProofs FaultModel FaultSpec.
Local Arguments N.modulo : simpl never.
Local Arguments N.pow : simpl never.
Local Arguments N.of_nat : simpl never.
Local Arguments N.to_nat : simpl never.

Section sophos.
  Variable S : sophos.
  Hypothesis Htdp : tdp_ok S.

  Lemma f_request_eq c kw index w : f_so_insertion_request S c kw index false w =
    (if landed w then (so_insertion_request S c kw index).1 else c,
     if w_ok w then Ok (so_insertion_request S c kw index).2 else Throw RuntimeError).
  Proof.
    unfold f_so_insertion_request, f_get_and_increment, f_put, f_get, so_insertion_request, ctr_get_and_increment.
    by destruct w.
  Qed.

  Lemma f_search_loop_eq kw db reads : forall l j,
    (forall i x, l !! i = Some x ->
      db !! update_token S kw i = if x.2 : bool then Some (xor_mask x.1 (smask S kw i)) else None) ->
    f_so_search_loop S (length l) j reads db (skey S kw) (stok S kw (length l - 1)) =
      visible (fun i => reads (j + i)) l.
  Proof.
    induction l as [|x l IH] using rev_ind; intros j Hall; [done|].
    rewrite app_length. simpl length. rewrite Nat.add_1_r. cbn [f_so_search_loop].
    replace (Datatypes.S (length l) - 1) with (length l) by lia.
    unfold visible. rewrite reverse_snoc. rewrite imap_cons. cbn [gen_update_token_masks].
    change (so_prf S (skey S kw) (stok S kw (length l) ++ [48%N])) with (update_token S kw (length l)).
    change (so_prf S (skey S kw) (stok S kw (length l) ++ [49%N])) with (smask S kw (length l)).
    assert (Hx := Hall (length l) x ltac:(apply list_lookup_middle; done)).
    assert (Hr : f_so_search_loop S (length l) (Datatypes.S j) reads db (skey S kw) (so_eval S (stok S kw (length l))) =
      visible (fun i => reads (Datatypes.S j + i)) l).
    { rewrite <- (IH (Datatypes.S j)) by (intros i y Hy; apply Hall; by apply lookup_app_l_Some).
      destruct (length l) as [|n]; [done|]. f_equal. replace (Datatypes.S n - 1) with n by lia. apply Htdp. }
    unfold gen_update_token_masks.
    change (so_prf S (skey S kw) (stok S kw (length l) ++ [48%N])) with (update_token S kw (length l)).
    change (so_prf S (skey S kw) (stok S kw (length l) ++ [49%N])) with (smask S kw (length l)).
    cbv zeta iota beta. rewrite Hr.
    assert (Ev : visible (fun i => reads (Datatypes.S j + i)) l =
      omap id (imap ((fun j0 x0 => if x0.2 && negb (reads (j + j0)) then Some x0.1 else None) ∘ Datatypes.S) (reverse l))).
    { unfold visible. f_equal. apply imap_ext. intros i y _. simpl. by rewrite <- plus_n_Sm. }
    rewrite Ev. csimpl. rewrite Nat.add_0_r. unfold f_get. destruct (reads j); [by destruct x.2|].
    rewrite Hx. destruct x.2; [|done]. simpl. by rewrite C53_sophos.
  Qed.

  Lemma f_find_eq h c db kw failed reads : few_insertions h -> inv S h c db ->
    f_so_server_search S db (f_so_search_request S c kw failed) reads =
      if failed then [] else visible reads (insertions kw h).
  Proof.
    intros Hfew [I1 I2 _]. unfold f_so_search_request, f_get. destruct failed; [done|]. rewrite I1.
    pose proof (f_search_loop_eq kw db reads (insertions kw h) 0 (I2 kw)) as E.
    destruct (length (insertions kw h)) as [|n] eqn:En.
    - apply nil_length_inv in En. by rewrite En.
    - unfold f_so_server_search. cbn [ss_count ss_key ss_token].
      pose proof (Hfew kw) as Hb. rewrite En in Hb.
      rewrite N.mod_small by lia. replace (N.to_nat (N.of_nat n + 1)) with (Datatypes.S n) by lia.
      unfold invert_mult. rewrite Nat2N.id.
      replace (Datatypes.S n - 1) with n in E by lia. exact E.
  Qed.

  Lemma few_prefix h h' : few_insertions (h ++ h') -> few_insertions h.
  Proof. intros H kw. specialize (H kw). rewrite insertions_app, app_length in H. lia. Qed.

  Lemma inv_find h c db kw : inv S h c db -> inv S (h ++ [SoFind kw]) c db.
  Proof.
    assert (E : forall k, insertions k (h ++ [SoFind kw]) = insertions k h).
    { intros k. rewrite insertions_snoc. apply app_nil_r. }
    intros [I1 I2 I3]. split.
    - intros k. by rewrite E.
    - intros k i x. rewrite E. apply I2.
    - intros t v Ht. destruct (I3 t v Ht) as (k & i & ? & ?). exists k, i. by rewrite E.
  Qed.

  Lemma f_run_eq ops : forall h c db, counters_read ops ->
    no_collision S (h ++ (ops ≫= f_event)) -> few_insertions (h ++ (ops ≫= f_event)) -> inv S h c db ->
    f_so_run S c db ops = f_so_answers h ops.
  Proof.
    induction ops as [|o ops IH]; intros h c db Hr Hnc Hfew I; [done|].
    apply Forall_cons in Hr as [Hr Hrs]. rewrite bind_cons in Hnc, Hfew.
    destruct o as [kw i failed w put|kw failed reads].
    - subst failed. cbn [f_so_run f_so_answers]. rewrite f_request_eq. destruct w; cbn [landed w_ok fst snd f_event].
      + f_equal. cbn [f_event] in Hnc, Hfew.
        apply IH; [done|by rewrite <- app_assoc|by rewrite <- app_assoc|].
        pose proof (inv_ins S h (ops ≫= f_event) c db kw i (landed put)) as Hi. simpl in Hi.
        specialize (Hi Hnc Hfew I). unfold f_so_insert, f_put. destruct (landed put); exact Hi.
      + f_equal. rewrite app_nil_r. by apply IH.
      + f_equal. cbn [f_event] in Hnc, Hfew.
        apply IH; [done|by rewrite <- app_assoc|by rewrite <- app_assoc|].
        exact (inv_ins S h (ops ≫= f_event) c db kw i false Hnc Hfew I).
    - cbn [f_so_run f_so_answers]. f_equal.
      + f_equal. apply f_find_eq; [|done]. by eapply few_prefix.
      + cbn [f_event] in *. apply IH; [done|by rewrite <- app_assoc|by rewrite <- app_assoc|by apply inv_find].
  Qed.
End sophos.

Section diana.
  Variable D : diana.
  Hypothesis Hd : d_crypto_ok D.

  Lemma f_gai c kw w : f_get_and_increment c kw false w =
    (if landed w then (ctr_get_and_increment c kw).1 else c,
     if w_ok w then Some (ctr_get_and_increment c kw).2 else None).
  Proof. unfold f_get_and_increment, ctr_get_and_increment, f_put, f_get. by destruct w. Qed.

  Lemma sle_some P s kw : sle s (empty_some P s kw).
  Proof. intros k. unfold empty_some. case_decide; [|done]. by rewrite imap_length. Qed.
  Lemma sle_bulk sent l : forall s, sle s (bulk_slots s sent l).
  Proof.
    induction l as [|[[[kw doc] [f w]] put] l IH]; intros s; [apply sle_refl|]. simpl. destruct w.
    - eapply sle_trans; [apply sle_add|apply IH].
    - apply sle_refl.
    - apply sle_add.
  Qed.
  Lemma sle_fd s o : sle s (fd_slots s o).
  Proof.
    destruct o as [kw doc f w put|l|kw del f r rm]; simpl.
    - destruct w; [apply sle_add|apply sle_refl|apply sle_add].
    - apply sle_bulk.
    - destruct (del && negb f); [apply sle_some|apply sle_refl].
  Qed.
  Lemma sle_fds ops : forall s, sle s (foldl fd_slots s ops).
  Proof.
    induction ops as [|o ops IH]; intros s; simpl; [apply sle_refl|].
    eapply sle_trans; [apply sle_fd|apply IH].
  Qed.

  (** Bulk insertions. *)
  Lemma f_counters_ok l : forall c, Forall (fun x => x.1.2.1 = false) l -> bulk_ok l = true ->
    f_d_get_counters c (l.*1) =
      ((d_get_counters c (l.*1.*1)).1, Ok (d_get_counters c (l.*1.*1)).2).
  Proof.
    induction l as [|[[[kw doc] [f w]] put] l IH]; intros c Hl Hb; [done|].
    apply Forall_cons in Hl as [Hf Hl]. simpl in Hf. subst f.
    simpl in Hb. destruct w; [|done|done]. simpl in Hb.
    rewrite !fmap_cons. cbn [f_d_get_counters d_get_counters fst snd]. rewrite f_gai. cbn [landed w_ok].
    destruct (ctr_get_and_increment c kw) as [c' n]. cbn [fst snd]. rewrite IH by done.
    by destruct (d_get_counters c' (l.*1.*1)).
  Qed.
  Lemma bulk_slots_ok l : forall s, bulk_ok l = true ->
    bulk_slots s true l = foldl (fun s x => add_slot s x.1.1 x.1.2 x.2) s
      ((fun x : bytes * bytes * (bool * wres) * wres => (x.1.1, landed x.2)) <$> l).
  Proof.
    induction l as [|[[[kw doc] [f w]] put] l IH]; intros s Hb; [done|].
    simpl in Hb. destruct w; [|done|done]. simpl in Hb. csimpl. by apply IH.
  Qed.
  Lemma f_counters_fail l : forall s c db, let s' := bulk_slots s false l in
    Forall (fun x => x.1.2.1 = false) l -> Forall (fun x => length x.1.1.2 = d_len D) l -> bulk_ok l = false ->
    d_no_collision D s' -> d_few s' -> d_inv D s c db ->
    d_inv D s' (f_d_get_counters c (l.*1)).1 db /\ (f_d_get_counters c (l.*1)).2 = Throw RuntimeError.
  Proof.
    induction l as [|[[[kw doc] [f w]] put] l IH]; intros s c db s' Hl Hdoc Hb Hnc Hfew I; [done|].
    apply Forall_cons in Hl as [Hf Hl]. simpl in Hf. subst f.
    apply Forall_cons in Hdoc as [Hdc Hdoc]. simpl in Hdc.
    unfold s' in *. clear s'. rewrite !fmap_cons. cbn [f_d_get_counters fst snd]. rewrite f_gai.
    simpl in Hb. cbn [bulk_slots andb] in *. destruct w; cbn [landed w_ok].
    - simpl in Hb.
      destruct (d_inv_add D s c db kw doc false) as [E I'].
      + eapply no_collision_mono; [apply sle_bulk|exact Hnc].
      + eapply few_mono; [apply sle_bulk|exact Hfew].
      + done.
      + done.
      + rewrite E. cbn [fst snd]. destruct (IH _ _ _ Hl Hdoc Hb Hnc Hfew I') as [I2 E2].
        destruct (f_d_get_counters (<[kw:=N.of_nat (length (s kw))]> c) (l.*1)) as [c2 r2]. cbn [fst snd] in *.
        subst r2. done.
    - done.
    - destruct (d_inv_add D s c db kw doc false) as [E I']; [done..|]. rewrite E. done.
  Qed.
  Lemma f_deliver_eq us : forall puts db, f_deliver db (zip us puts) = deliver db (zip us (landed <$> puts)).
  Proof.
    induction us as [|u us IH]; intros [|p puts] db; [done..|]. csimpl. unfold f_deliver, deliver in *. simpl.
    rewrite <- IH. done.
  Qed.

  (** Searches. *)
  Lemma f_search_loop_leaves con del failed w (is : list nat) : NoDup (leaf_token D con <$> is) -> forall db,
    f_d_search_loop D db (leaf D con <$> is) del failed w =
      (if del then without (leaf_token D con <$>
          filter (fun i => negb (failed (N.of_nat i)) && landed (w (N.of_nat i)) = true) is) db else db,
       omap (fun i => if failed (N.of_nat i) then None else leaf_doc D db con i) is).
  Proof.
    induction is as [|i is IH]; intros Hnd db.
    - by destruct del.
    - rewrite fmap_cons in Hnd. apply NoDup_cons in Hnd as [Hni Hnd]. specialize (IH Hnd).
      csimpl. cbn [leaf f_d_search_loop]. unfold f_d_get_unmask, d_token_mask, f_d_retrieve_entry, f_get.
      change (d_prg D (d_eval D con (N.of_nat i)) 0 16) with (leaf_token D con i).
      assert (Ed : leaf_doc D db con i = (fun v => zip_with N.lxor v (d_prg D (d_eval D con (N.of_nat i)) 16 (d_len D))) <$> db !! leaf_token D con i) by done.
      destruct (failed (N.of_nat i)) eqn:Ef.
      + rewrite IH. rewrite filter_cons_False by (rewrite Ef; done). done.
      + rewrite Ed. clear Ed. destruct (db !! leaf_token D con i) as [v|] eqn:Ev.
        * cbn [option_fmap option_map fmap]. destruct del; [|by rewrite IH].
          unfold f_remove. destruct (landed (w (N.of_nat i))) eqn:Ew.
          -- rewrite IH, filter_cons_True by (rewrite Ef, Ew; done). rewrite fmap_cons, without_cons.
             csimpl. f_equal. f_equal. clear -Hni. induction is as [|j is IHis]; [done|].
             csimpl in Hni. apply not_elem_of_cons in Hni as [Hj Hni]. csimpl. rewrite IHis by done.
             by rewrite leaf_doc_delete.
          -- rewrite IH, filter_cons_False by (rewrite Ef, Ew; done). done.
        * rewrite IH. csimpl. destruct del; [|done]. f_equal.
          destruct (landed (w (N.of_nat i))) eqn:Ew.
          -- rewrite filter_cons_True by (rewrite Ef, Ew; done). rewrite fmap_cons.
             apply map_eq. intros x. change (without (leaf_token D con <$> filter (fun i0 => negb (failed (N.of_nat i0)) && landed (w (N.of_nat i0)) = true) is) db !! x =
               delete (leaf_token D con i) (without (leaf_token D con <$> filter (fun i0 => negb (failed (N.of_nat i0)) && landed (w (N.of_nat i0)) = true) is) db) !! x).
             destruct (decide (x = leaf_token D con i)) as [->|Hx].
             ++ rewrite lookup_delete, lookup_without, Ev. by case_decide.
             ++ by rewrite lookup_delete_ne.
          -- rewrite filter_cons_False by (rewrite Ef, Ew; done). done.
  Qed.

  Lemma d_inv_some P s c db kw : d_no_collision D s -> d_inv D s c db ->
    d_inv D (empty_some P s kw) c
      (without (d_update_token D kw <$> filter (fun i => P i = true) (seq 0 (length (s kw)))) db).
  Proof.
    intros Hnc [I1 I2 I3 I4]. split.
    - intros k. rewrite I1. unfold empty_some. case_decide; [|done]. by rewrite imap_length.
    - intros k i o Ho. rewrite lookup_without. unfold empty_some in Ho. case_decide as Hk.
      + subst k. rewrite list_lookup_imap in Ho. destruct (s kw !! i) as [o'|] eqn:Ho'; [|done].
        injection Ho as <-. pose proof (lookup_lt_Some _ _ _ Ho') as Hi. destruct (P i) eqn:EP.
        * rewrite decide_True; [done|]. apply elem_of_list_fmap. exists i. split; [done|].
          apply elem_of_list_filter. split; [done|]. apply elem_of_seq. lia.
        * rewrite decide_False; [by apply I2|]. intros Hin. apply elem_of_list_fmap in Hin as (i' & Et & Hi').
          apply elem_of_list_filter in Hi' as [HP Hi']. apply elem_of_seq in Hi'.
          destruct (Hnc kw i kw i') as [_ <-]; [lia|lia|done|]. congruence.
      + rewrite decide_False; [by apply I2|]. intros Hin. apply elem_of_list_fmap in Hin as (i' & Et & Hi').
        apply elem_of_list_filter in Hi' as [HP Hi']. apply elem_of_seq in Hi'. apply lookup_lt_Some in Ho.
        destruct (Hnc k i kw i') as [? _]; [lia|lia|done|done].
    - intros t v Ht. rewrite lookup_without in Ht. case_decide; [done|].
      destruct (I3 _ _ Ht) as (k & i & Hi & Et). exists k, i. split; [|done]. pose proof (sle_some P s kw k). lia.
    - intros k i doc Ho. unfold empty_some in Ho. case_decide; [|by eapply I4].
      rewrite list_lookup_imap in Ho. destruct (s k !! i) as [o'|] eqn:Ho'; [|done]. simpl in Ho.
      destruct (P i); [done|]. injection Ho as ->. by eapply I4.
  Qed.

  Lemma f_d_find_eq s c db kw del failed reads removes : d_no_collision D s -> d_few s -> d_inv D s c db ->
    exists db', f_d_server_search D db (f_d_search_request D c kw failed) del reads removes =
        Ok (db', if failed then [] else fd_contents reads s kw) /\
      d_inv D (fd_slots s (FDFind kw del failed reads removes)) c db'.
  Proof.
    intros Hnc Hfew I. destruct failed.
    - exists db. split; [done|]. simpl. by rewrite andb_false_r.
    - cbn [fd_slots]. rewrite andb_true_r.
      change (f_d_search_request D c kw false) with (d_search_request D c kw).
      destruct (request_wf D Hd s c db kw Hfew I) as (Hwf & Htok & H). destruct (H false Hnc) as [Hdocs _].
      unfold f_d_server_search. destruct Hwf as [Hz|(con & Hcon & Hc)].
      + rewrite Hz. exists db. simpl.
        assert (E : s kw = []).
        { rewrite <- Hdocs. unfold request_docs. rewrite Hz. by destruct (ds_con _). }
        split; [unfold fd_contents; by rewrite E|]. destruct del; [|done].
        pose proof (d_inv_some (fun j => negb (reads (N.of_nat j)) && landed (removes (N.of_nat j))) s c db kw Hnc I) as I'.
        by rewrite E in I'.
      + rewrite Hcon. destruct (N.eqb_spec (ds_count (d_search_request D c kw)) 0); [lia|].
        assert (Er : d_eval_range D con 0 (d_max_leaf D con) =
          Ok (leaf D con <$> seq 0 (Datatypes.S (N.to_nat (d_max_leaf D con)) - 0))).
        { rewrite <- eval_range_eq by lia. by rewrite N2Nat.id. }
        rewrite Er. cbn [rbind].
        unfold request_tokens, request_docs in *. rewrite Hcon in *.
        replace (Datatypes.S (N.to_nat (d_max_leaf D con)) - 0) with (N.to_nat (ds_count (d_search_request D c kw))) by lia.
        assert (Hlen : N.to_nat (ds_count (d_search_request D c kw)) = length (s kw)).
        { by rewrite <- Hdocs, fmap_length, seq_length. }
        rewrite Hlen in *.
        rewrite f_search_loop_leaves by (rewrite Htok; by apply tokens_nodup).
        eexists. split.
        * f_equal. f_equal. unfold fd_contents. rewrite <- Hdocs.
          rewrite imap_fmap. generalize (length (s kw)). intros len. clear.
          assert (G : forall n a, omap (fun i => if reads (N.of_nat i) then None else leaf_doc D db con i) (seq a n) =
            omap id (imap (fun j i => if reads (N.of_nat (a + j)) then None else leaf_doc D db con i) (seq a n))).
          { induction n as [|n IH]; intros a; [done|]. rewrite <- cons_seq. csimpl. rewrite Nat.add_0_r.
            rewrite IH. unfold compose.
            rewrite (imap_ext (fun j i => if reads (N.of_nat (a + S j)) then None else leaf_doc D db con i)
              (fun j i => if reads (N.of_nat (S a + j)) then None else leaf_doc D db con i)); [done|].
            intros i x _. by replace (a + S i) with (S a + i) by lia. }
          rewrite fmap_length, seq_length. exact (G len 0).
        * destruct del; [|done].
          assert (Ef : leaf_token D con <$> filter (fun i => negb (reads (N.of_nat i)) && landed (removes (N.of_nat i)) = true) (seq 0 (length (s kw))) =
            d_update_token D kw <$> filter (fun i => negb (reads (N.of_nat i)) && landed (removes (N.of_nat i)) = true) (seq 0 (length (s kw)))).
          { apply list_fmap_ext. intros j i Hi. apply elem_of_list_lookup_2, elem_of_list_filter in Hi as [_ Hi].
            apply elem_of_seq in Hi. assert (Ei : (leaf_token D con <$> seq 0 (length (s kw))) !! i = (d_update_token D kw <$> seq 0 (length (s kw))) !! i) by by rewrite Htok.
            rewrite !list_lookup_fmap, lookup_seq_lt in Ei by lia. by injection Ei. }
          rewrite Ef. by apply d_inv_some.
  Qed.

  Lemma f_d_run_eq ops : forall s c db, let s' := foldl fd_slots s ops in
    d_no_collision D s' -> d_few s' -> fd_docs_ok D ops -> fd_counters_read ops -> d_inv D s c db ->
    f_d_run D c db ops = f_d_answers s ops.
  Proof.
    induction ops as [|o ops IH]; intros s c db s' Hnc Hfew Hok Hr I; [done|].
    apply Forall_cons in Hok as [Ho Hok]. apply Forall_cons in Hr as [Hro Hr].
    assert (Hle : sle (fd_slots s o) s') by exact (sle_fds ops (fd_slots s o)).
    assert (Hle0 : sle s s') by (eapply sle_trans; [apply (sle_fd s o)|exact Hle]).
    assert (Hnc1 : d_no_collision D (fd_slots s o)) by by eapply no_collision_mono.
    assert (Hfew1 : d_few (fd_slots s o)) by by eapply few_mono.
    destruct o as [kw doc failed w put|l|kw del failed reads removes]; cbn [f_d_run f_d_answers].
    - subst failed. unfold f_d_insertion_request. rewrite f_gai. cbn [fd_slots] in *. destruct w; cbn [landed w_ok fst snd].
      + destruct (d_inv_add D s c db kw doc (landed put)) as [E I']; [done..|]. rewrite E. cbn [fst snd].
        f_equal. by apply IH.
      + f_equal. by apply IH.
      + destruct (d_inv_add D s c db kw doc false) as [E I']; [done..|]. rewrite E. cbn [fst snd].
        f_equal. by apply IH.
    - unfold f_d_bulk_request. destruct (bulk_ok l) eqn:Hb.
      + rewrite f_counters_ok by done. cbn [rbind fst snd]. f_equal. apply IH; [done..|].
        rewrite f_deliver_eq. cbn [fd_slots] in *. rewrite Hb in *. rewrite bulk_slots_ok in * by done.
        pose proof (d_inv_bulk D ((fun x : bytes * bytes * (bool * wres) * wres => (x.1.1, landed x.2)) <$> l) s c db Hnc1 Hfew1) as Hi.
        rewrite Forall_fmap in Hi. specialize (Hi Ho I).
        rewrite <- !list_fmap_compose in *.
        change (fst ∘ (fun x : bytes * bytes * (bool * wres) * wres => (x.1.1, landed x.2))) with
          ((fst : bytes * bytes * (bool * wres) -> _) ∘ (fst : bytes * bytes * (bool * wres) * wres -> _)) in Hi.
        change (snd ∘ (fun x : bytes * bytes * (bool * wres) * wres => (x.1.1, landed x.2))) with
          (landed ∘ (snd : bytes * bytes * (bool * wres) * wres -> _)) in Hi.
        unfold d_bulk_request in Hi. destruct (d_get_counters c _) as [c' cl]. exact Hi.
      + cbn [fd_slots] in *. rewrite Hb in *.
        destruct (f_counters_fail l s c db Hro Ho Hb Hnc1 Hfew1 I) as [I' E].
        destruct (f_d_get_counters c (l.*1)) as [c' r]. cbn [fst snd] in *. subst r. cbn [rbind fst snd]. f_equal.
        assert (Es : s' = foldl fd_slots (bulk_slots s false l) ops) by (unfold s'; simpl; by rewrite Hb).
        rewrite Es in Hnc, Hfew. by apply IH.
    - destruct (f_d_find_eq s c db kw del failed reads removes) as (db' & E & I'); [by eapply no_collision_mono|by eapply few_mono|done|].
      rewrite E. f_equal. by apply IH.
  Qed.
End diana.
