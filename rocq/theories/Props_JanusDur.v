(** Janus servers and power failures (C121). *)
From stdpp Require Import prelude gmap.
From Coq Require Import NArith Lia.
From Verif Require Import Base EncModel KvModel UtilsModel DianaModel DianaSpec DianaProofs JanusModel JanusSpec JanusProofs Props_Janus
  JanusDurModel JanusDurSpec.

(** ** The logged databases contain what the model without logs says *)
Definition now (s : jd_server) : j_server := JServer (dl_now (jd_ins s)) (dl_now (jd_del s)) (dl_now (jd_cache s)).
Lemma now_write l w : dl_now (dl_write l w) = wr_apply (dl_now l) w.
Proof. unfold dl_now, dl_write. simpl. by rewrite foldl_app. Qed.
Lemma now_flush l : dl_now (dl_flush l) = dl_now l.
Proof. done. Qed.

Section refine.
  Variable D : diana.
  Lemma loop_now leaves : forall l,
    dl_now (dd_search_loop D l leaves).1 = (d_search_loop D (dl_now l) leaves true).1 /\
    (dd_search_loop D l leaves).2 = (d_search_loop D (dl_now l) leaves true).2.
  Proof.
    induction leaves as [|[x st] leaves IH]; intros l; [done|].
    cbn [dd_search_loop d_search_loop]. unfold dd_get_unmask, d_get_unmask, d_retrieve_entry.
    destruct (d_token_mask D st) as [ut mask]. destruct (dl_now l !! ut) as [v|] eqn:E.
    - specialize (IH (dl_write l (WDel ut))). rewrite now_write in IH. cbn [wr_apply] in IH.
      destruct (dd_search_loop D (dl_write l (WDel ut)) leaves) as [l2 rs]. simpl in *.
      destruct (d_search_loop D (delete ut (dl_now l)) leaves true) as [db2 rs2]. simpl in *.
      destruct IH as [-> ->]. done.
    - specialize (IH l). destruct (dd_search_loop D l leaves) as [l2 rs]. simpl in *.
      destruct (d_search_loop D (dl_now l) leaves true) as [db2 rs2]. simpl in *.
      destruct IH as [-> ->]. done.
  Qed.
  Lemma list_push (l : list bytes) : forall acc, foldl (fun results i => results ++ [i]) acc l = acc ++ l.
  Proof.
    induction l as [|x l IH]; intros acc; simpl; [by rewrite app_nil_r|]. by rewrite IH, <- app_assoc.
  Qed.
  Lemma search_now l (req : d_search D) :
    match dd_search D l req with
    | Ok (l', r) => d_server_search_list D (dl_now l) req true = Ok (dl_now l', r)
    | Throw x => d_server_search_list D (dl_now l) req true = Throw x
    | UB => d_server_search_list D (dl_now l) req true = UB
    | OutOfFuel => d_server_search_list D (dl_now l) req true = OutOfFuel
    end.
  Proof.
    unfold dd_search, d_server_search_list, d_server_search. destruct (ds_count req =? 0)%N; [done|].
    destruct (ds_con req) as [con|]; [|done]. destruct (d_eval_range D con 0 (d_max_leaf D con)) as [leaves| | |]; try done.
    cbn [rbind]. destruct (loop_now leaves l) as [E1 E2]. destruct (dd_search_loop D l leaves) as [l' rs]. simpl in E1, E2.
    rewrite list_push, app_nil_l. rewrite <- E1, <- E2. done.
  Qed.
End refine.

Lemma jd_search_now S s req s1 a :
  j_server_search S (now s) req = Ok (s1, a) ->
  exists s', jd_search S s req = Ok (s', a) /\ now s' = s1 /\
    dl_disk (jd_cache s') = dl_disk (jd_cache s) /\ exists w, dl_log (jd_cache s') = dl_log (jd_cache s) ++ [w].
Proof.
  unfold j_server_search, jd_search. cbn [now js_ins js_del js_cache].
  pose proof (search_now (jn_ins S) (jd_ins s) (jr_ins req)) as Hi.
  pose proof (search_now (jn_del S) (jd_del s) (jr_del req)) as Hd.
  destruct (dd_search (jn_ins S) (jd_ins s) (jr_ins req)) as [[li ri]| | |]; rewrite Hi; try done. cbn [rbind].
  destruct (dd_search (jn_del S) (jd_del s) (jr_del req)) as [[ld rd]| | |]; rewrite Hd; try done. cbn [rbind fst snd].
  destruct (list_get (jn_tagsize S) (dl_now (jd_cache s)) (jr_token req)) as [l| | |]; try done. cbn [rbind].
  intros E. injection E as <- <-. eexists. split; [done|]. split.
  - unfold now. cbn [jd_ins jd_del jd_cache]. by rewrite now_write.
  - split; [done|]. eexists. done.
Qed.

(** ** Invariant *)
Lemma remembered_app disk ws ws' : remembered disk (ws ++ ws') = remembered (remembered disk ws) ws'.
Proof. unfold remembered. apply foldl_app. Qed.

Section inv.
  Variable S : janus.
  Hypothesis Hk : j_crypto_ok S.
  Variable KW : bytes -> Prop.
  Variable DOC : bytes -> N -> Prop.
  Hypothesis Htag : forall kw i i', DOC kw i -> DOC kw i' -> j_tag S kw i = j_tag S kw i' -> i = i'.
  Hypothesis Hkw : forall kw kw', KW kw -> KW kw' -> jn_kwtok S kw = jn_kwtok S kw' -> kw = kw'.

  (** A cache holds lists of documents. *)
  Definition holds (db : gmap bytes bytes) (f : bytes -> list N) : Prop :=
    exists ch : bytes -> list N,
      (forall kw, KW kw -> list_get (jn_tagsize S) db (jn_kwtok S kw) = Ok (elt S kw <$> ch kw)) /\
      (forall kw, ch kw ≡ₚ f kw) /\
      (forall kw i, i ∈ ch kw -> DOC kw i /\ (i < 2 ^ 64)%N).

  Record jd_inv (fl : bool) (st : jd_state) (h : j_hist) (c : j_client) (s : jd_server) : Prop := {
    ti_inv : exists a ch cur gi gd ci cd, j_inv S KW DOC a h c (now s) ch cur gi gd ci cd /\
      (forall k, ja_stored a k = remembered (on_disk st) (written st) k) /\
      (forall k, ja_pending a k = pending st k) /\
      (forall k, rem_now h k = removed st k);
    ti_len : length (written st) = length (dl_log (jd_cache s));
    ti_all : forall n, holds (foldl wr_apply (dl_disk (jd_cache s)) (take n (dl_log (jd_cache s))))
                         (remembered (on_disk st) (take n (written st)));
    ti_flushed : fl = true -> dl_log (jd_ins s) = [] /\ dl_log (jd_del s) = [] }.

  Lemma holds_inv a h c s ch cur gi gd ci cd f :
    j_inv S KW DOC a h c s ch cur gi gd ci cd -> (forall k, ja_stored a k = f k) -> holds (js_cache s) f.
  Proof.
    intros [I1 I2 I3 I4 I5 I6 I7 I8 I9 I10 I11 I12 I13] E. exists ch. split; [done|]. split.
    - intros kw. rewrite <- E. apply I12.
    - intros kw i Hi. apply I13. rewrite elem_of_app. by left.
  Qed.

  Lemma jd_inv_start : jd_inv true jd_state0 j_hist0 j_new_client jd_new.
  Proof.
    split; [|done| |done].
    - exists j_act0, (fun _ => []), (fun _ => []), no_slots, no_slots, ∅, ∅. split; [apply j_inv_start|done].
    - intros n. simpl. rewrite !take_nil. exists (fun _ => []). split; [done|]. split; [done|].
      intros kw i Hi. by apply elem_of_nil in Hi.
  Qed.

  Lemma rem_after_find h c s a ch cur gi gd ci cd kw k :
    j_inv S KW DOC a h c s ch cur gi gd ci cd ->
    rem_now (j_hist_step h (JFind kw)) k = if decide (k = kw) then [] else rem_now h k.
  Proof.
    intros I. unfold rem_now, j_hist_step. case_decide as Hq.
    - case_decide; [|done]. subst k. apply Hq.
    - cbn [jh_epoch jh_rem]. case_decide; [|done]. subst k. apply (ji_future _ _ _ _ _ _ _ _ _ _ _ _ _ I). lia.
  Qed.

  Definition h_step (h : j_hist) (o : jd_op) : j_hist :=
    foldl j_hist_step h (jd_plain [o]).

  Lemma run_exact ops : forall fl st h c s,
    few_h (foldl j_hist_step h (jd_plain ops)) -> col_h S (foldl j_hist_step h (jd_plain ops)) -> j_ok1 h (jd_plain ops) ->
    Forall (fun o => KW (op_kw o) /\ forall i, i ∈ op_docs (op_kw o) o -> DOC (op_kw o) i) (jd_plain ops) ->
    jd_safe fl ops -> jd_inv fl st h c s ->
    exists c' s' ans, jd_run S c s ops = Ok (c', s', ans) /\ Forall2 (≡ₚ) ans (jd_returned st ops).
  Proof.
    induction ops as [|o ops IH]; intros fl st h c s Hfew Hcol Hok Hin Hsafe I.
    { exists c, s, []. split; [done|constructor]. }
    assert (Ep : jd_plain (o :: ops) = jd_plain [o] ++ jd_plain ops).
    { change (o :: ops) with ([o] ++ ops). unfold jd_plain. by rewrite bind_app. }
    rewrite Ep in Hfew, Hcol, Hok, Hin. rewrite foldl_app in Hfew, Hcol.
    assert (Hle := hle_steps (jd_plain ops) (h_step h o)). unfold h_step in Hle.
    assert (Hfew1 := few_h_mono _ _ Hle Hfew). assert (Hcol1 := col_h_mono S _ _ Hle Hcol).
    destruct I as [(a & ch & cur & gi & gd & ci & cd & I & A1 & A2 & A3) L All F].
    destruct o as [kw i|kw i|kw| |ki kd kc]; unfold jd_plain in Hok, Hin, Hfew, Hcol, Hfew1, Hcol1; cbn [mbind list_bind app foldl] in Hok, Hin, Hfew, Hcol, Hfew1, Hcol1.
    - (* insertion *)
      destruct Hok as [Ho Hok]. apply Forall_cons in Hin as [[HK HD] Hin]. cbn [op_kw op_docs] in HK, HD.
      destruct (j_inv_insert S Hk KW DOC a h c (now s) ch cur gi gd ci cd kw i) as (cur' & gi' & ci' & I'); [done|done|done| |done|].
      { apply HD. rewrite decide_True by done. by apply elem_of_list_singleton. }
      cbn [jd_run jd_step rbind fst snd jd_returned].
      destruct (IH false (JDState (on_disk st) (written st) (upd (pending st) kw (pending st kw ++ [i])) (removed st))
        _ (j_insertion_request S c kw i).1 (jd_insert s (j_insertion_request S c kw i).2) Hfew Hcol Hok Hin Hsafe)
        as (c' & s' & ans & E & Hans).
      { split; [|done|done|done]. cbn [on_disk written pending removed].
        exists (j_act_step a h (JIns kw i)), ch, cur', gi', gd, ci', cd. split.
        - assert (En : now (jd_insert s (j_insertion_request S c kw i).2) = j_insert (now s) (j_insertion_request S c kw i).2).
          { unfold now, jd_insert, j_insert, d_insert. cbn [jd_ins jd_del jd_cache js_ins js_del js_cache]. by rewrite now_write. }
          rewrite En. exact I'.
        - split; [exact A1|]. split; [|exact A3]. intros k. cbn [j_act_step ja_pending]. unfold upd.
          destruct (decide (k = kw)) as [->|Hkk]; by rewrite A2. }
      rewrite E. cbn [rbind fst snd]. do 3 eexists. split; [done|]. exact Hans.
    - (* removal *)
      destruct Hok as [Ho Hok]. apply Forall_cons in Hin as [[HK HD] Hin]. cbn [op_kw op_docs] in HK, HD.
      destruct (j_inv_remove S Hk KW DOC a h c (now s) ch cur gi gd ci cd kw i) as (gd' & cd' & I'); [done|done|done| |done|].
      { apply HD. rewrite decide_True by done. by apply elem_of_list_singleton. }
      cbn [jd_run jd_step rbind fst snd jd_returned].
      destruct (IH false (JDState (on_disk st) (written st) (pending st) (upd (removed st) kw (removed st kw ++ [i])))
        _ (j_removal_request S c kw i).1 (jd_remove s (j_removal_request S c kw i).2) Hfew Hcol Hok Hin Hsafe)
        as (c' & s' & ans & E & Hans).
      { split; [|done|done|done]. cbn [on_disk written pending removed].
        exists (j_act_step a h (JRem kw i)), ch, cur, gi, gd', ci, cd'. split.
        - assert (En : now (jd_remove s (j_removal_request S c kw i).2) = j_remove (now s) (j_removal_request S c kw i).2).
          { unfold now, jd_remove, j_remove, d_insert. cbn [jd_ins jd_del jd_cache js_ins js_del js_cache]. by rewrite now_write. }
          rewrite En. exact I'.
        - split; [exact A1|]. split; [exact A2|]. intros k. unfold rem_now. cbn [j_hist_step jh_epoch jh_rem]. unfold upd.
          destruct (decide (k = kw)) as [->|Hkk].
          + rewrite decide_True by done. by rewrite <- A3.
          + rewrite decide_False by (by intros [? _]). by rewrite <- A3. }
      rewrite E. cbn [rbind fst snd]. do 3 eexists. split; [done|]. exact Hans.
    - (* search *)
      destruct Hok as [Ho Hok]. apply Forall_cons in Hin as [[HK HD] Hin]. cbn [op_kw] in HK.
      assert (Hle0 := hle_step h (JFind kw)).
      destruct (j_search_facts S Hk KW DOC Htag a h c (now s) ch cur gi gd ci cd kw) as (Wi & Wd & Ni & Nd & Hl & Eo & En & _);
        [by eapply few_h_mono|by eapply col_h_mono|done|done|].
      pose proof (search_seq_eq S (now s) _ _ Wi Wd Ni Nd Hl) as E. rewrite Eo, En, <- fmap_app, <- keep_app, elt_fst in E.
      destruct (j_inv_search S Hk KW DOC Htag Hkw a h c (now s) ch cur gi gd ci cd kw true (keep h kw (ch kw ++ cur kw)) Hfew1 Hcol1 HK I ltac:(done))
        as (ch' & cur' & gi' & gd' & I').
      destruct (jd_search_now S s _ _ _ E) as (s1 & Es & En1 & Ed & w & Ew).
      cbn [jd_run jd_step jd_returned]. rewrite Es. cbn [rbind fst snd].
      assert (Ea : ja_docs a h kw = jd_answer st kw).
      { unfold ja_docs, jd_answer. rewrite A1, A2. pose proof (A3 kw) as A3'. unfold rem_now in A3'. by rewrite A3'. }
      set (st' := JDState (on_disk st) (written st ++ [(kw, jd_answer st kw)]) (upd (pending st) kw []) (upd (removed st) kw [])).
      assert (B1 : forall k, ja_stored (j_act_step a h (JFind kw)) k = remembered (on_disk st') (written st') k).
      { intros k. cbn [st' on_disk written j_act_step ja_stored]. rewrite remembered_app. unfold remembered at 1. cbn [foldl fst snd]. unfold upd.
        case_decide; [by subst k|apply A1]. }
      destruct (IH false st' _ (j_search_request S c kw).1 s1 Hfew Hcol Hok Hin Hsafe) as (c' & s' & ans & E' & Hans).
      { split.
        - exists (j_act_step a h (JFind kw)), ch', cur', gi', gd', ci, cd. split; [|split; [exact B1|split]].
          + rewrite En1. exact I'.
          + intros k. cbn [st' pending j_act_step ja_pending]. unfold upd. case_decide; [done|apply A2].
          + intros k. rewrite (rem_after_find _ _ _ _ _ _ _ _ _ _ _ k I). cbn [st' removed]. unfold upd. case_decide; [done|apply A3].
        - cbn [st' written]. rewrite Ew, !app_length. simpl. lia.
        - intros n. cbn [st' on_disk written]. rewrite Ed, Ew.
          destruct (decide (n <= length (written st))) as [Hn|Hn].
          + rewrite !take_app_le by lia. apply All.
          + rewrite !take_ge by (rewrite app_length; simpl; lia).
            assert (Ec : foldl wr_apply (dl_disk (jd_cache s)) (dl_log (jd_cache s) ++ [w]) = js_cache (now s1)).
            { cbn [now js_cache]. unfold dl_now. by rewrite Ed, Ew. }
            rewrite Ec. eapply holds_inv; [|exact B1]. rewrite En1. exact I'.
        - done. }
      rewrite E'. cbn [rbind fst snd]. do 3 eexists. split; [done|]. cbn [app]. constructor; [|exact Hans].
      destruct (ji_docs _ _ _ _ _ _ _ _ _ _ _ _ _ I kw) as [Hd1 Hd2]. rewrite <- Ea. unfold keep, ja_docs. by rewrite Hd1, Hd2.
    - (* flush *)
      cbn [jd_run jd_step rbind fst snd jd_returned].
      destruct (IH true st h c (jd_flush_edb s) Hfew Hcol Hok Hin Hsafe) as (c' & s' & ans & E & Hans).
      { split; [|done|done|done]. by exists a, ch, cur, gi, gd, ci, cd. }
      rewrite E. cbn [rbind fst snd]. do 3 eexists. split; [done|]. exact Hans.
    - (* power failure *)
      destruct Hsafe as [Hfl Hsafe]. destruct (F Hfl) as [F1 F2].
      cbn [jd_run jd_step rbind fst snd jd_returned].
      destruct (IH true (JDState (remembered (on_disk st) (take kc (written st))) [] (pending st) (removed st)) h c (jd_power s ki kd kc)
        Hfew Hcol Hok Hin Hsafe) as (c' & s' & ans & E & Hans).
      { destruct (All kc) as (ch' & C1 & C2 & C3). split; [| | |done]; cbn [on_disk written pending removed jd_power jd_cache jd_ins jd_del dl_power dl_log dl_disk].
        - destruct I as [I1 I2 I3 I4 I5 I6 I7 I8 I9 I10 I11 I12 I13].
          exists (JAct (remembered (remembered (on_disk st) (take kc (written st))) []) (pending st)), ch', cur, gi, gd, ci, cd.
          split; [|split_and!; done].
          assert (Ei : dl_now (jd_ins (jd_power s ki kd kc)) = dl_now (jd_ins s)).
          { cbn [jd_power jd_ins]. unfold dl_now, dl_power. cbn [dl_disk dl_log]. by rewrite F1, take_nil. }
          assert (Ed : dl_now (jd_del (jd_power s ki kd kc)) = dl_now (jd_del s)).
          { cbn [jd_power jd_del]. unfold dl_now, dl_power. cbn [dl_disk dl_log]. by rewrite F2, take_nil. }
          split; try done.
          + unfold now. cbn [js_ins]. by rewrite Ei.
          + unfold now. cbn [js_del]. by rewrite Ed.
          + intros k. split; [apply C2|]. cbn [ja_pending]. rewrite <- A2. apply I12.
          + intros k i. rewrite elem_of_app. intros [Hi|Hi]; [by apply C3|]. apply I13. rewrite elem_of_app. by right.
        - done.
        - intros n. rewrite !take_nil. cbn [foldl]. exists ch'. done. }
      rewrite E. cbn [rbind fst snd]. do 3 eexists. split; [done|]. exact Hans.
  Qed.
End inv.

(** ** What is returned, and what should be *)
Lemma remembered_skip ws : forall f kw, kw ∉ ws.*1 -> remembered f ws kw = f kw.
Proof.
  induction ws as [|[k v] ws IH]; intros f kw Hn; [done|]. rewrite fmap_cons, not_elem_of_cons in Hn. destruct Hn as [Hn1 Hn2].
  change (remembered (upd f k v) ws kw = f kw). rewrite IH by done. unfold upd. by rewrite decide_False.
Qed.
Lemma filter_none (l : list N) : filter (fun i => i ∉ []) l = l.
Proof. induction l as [|x l IHl]; [done|]. rewrite filter_cons_True by apply not_elem_of_nil. by rewrite IHl. Qed.
Lemma returned_expected ops : forall docs since lost h st,
  j_ok h (jd_plain ops) -> since = (written st).*1 ->
  (forall kw, kw ∉ lost -> docs kw ≡ₚ jd_answer st kw) ->
  (forall kw, rem_now h kw = removed st kw) ->
  (forall kw e, (jh_epoch h kw < e)%N -> jh_rem h kw e = []) ->
  Forall2 jd_meets (jd_returned st ops) (jd_expected docs since lost ops).
Proof.
  induction ops as [|o ops IH]; intros docs since lost h st Hok Es Hd Hr Hf; [constructor|].
  assert (Ep : jd_plain (o :: ops) = jd_plain [o] ++ jd_plain ops).
  { change (o :: ops) with ([o] ++ ops). unfold jd_plain. by rewrite bind_app. }
  rewrite Ep in Hok.
  destruct o as [kw i|kw i|kw| |ki kd kc]; unfold jd_plain in Hok; cbn [mbind list_bind app] in Hok; cbn [jd_returned jd_expected].
  - destruct Hok as [[Hi Hni] Hok]. apply (IH _ _ _ (j_hist_step h (JIns kw i))); try done.
    intros k Hk. cbn [j_docs_step]. unfold jd_answer. cbn [on_disk written pending removed]. unfold upd.
    destruct (decide (k = kw)) as [->|Hkk]; [|by apply Hd]. rewrite Hd by done. unfold jd_answer.
    rewrite !filter_app, (filter_cons_True _ i) by (rewrite <- Hr; exact Hni). by rewrite <- app_assoc.
  - destruct Hok as [[Hi Hni] Hok]. apply (IH _ _ _ (j_hist_step h (JRem kw i))); try done.
    + intros k Hk. cbn [j_docs_step]. unfold jd_answer. cbn [on_disk written pending removed]. unfold upd.
      destruct (decide (k = kw)) as [->|Hkk]; [|by apply Hd]. rewrite Hd by done. unfold jd_answer.
      rewrite <- Hr. unfold rem_now. rewrite Hni, filter_none, app_nil_l.
      erewrite list_filter_iff; [reflexivity|]. intros j. simpl. by rewrite elem_of_list_singleton.
    + intros k. unfold rem_now. cbn [j_hist_step jh_epoch jh_rem removed]. unfold upd.
      destruct (decide (k = kw)) as [->|Hkk].
      * rewrite decide_True by done. by rewrite <- Hr.
      * rewrite decide_False by (by intros [? _]). by rewrite <- Hr.
    + intros k e He. cbn [j_hist_step jh_rem jh_epoch] in *. rewrite decide_False; [by apply Hf|]. intros [-> ->]. lia.
  - destruct Hok as [_ Hok]. constructor.
    + intros d. case_decide as Hl; [done|]. intros E. injection E as <-. symmetry. by apply Hd.
    + apply (IH _ _ _ (j_hist_step h (JFind kw))); try done.
      * cbn [written]. by rewrite fmap_app, Es.
      * intros k Hk. rewrite Hd by done. unfold jd_answer at 2. cbn [on_disk written pending removed]. rewrite remembered_app.
        unfold remembered at 1. cbn [foldl fst snd]. unfold upd. destruct (decide (k = kw)) as [->|Hkk]; [|done].
        by rewrite app_nil_r, filter_none.
      * intros k. unfold rem_now, j_hist_step. cbn [removed]. unfold upd. destruct (decide (quiet h kw)) as [Hq|Hq].
        -- destruct (decide (k = kw)) as [->|Hkk]; [apply Hq|apply Hr].
        -- cbn [jh_epoch jh_rem]. destruct (decide (k = kw)) as [->|Hkk]; [apply Hf; lia|apply Hr].
      * intros k e. unfold j_hist_step. destruct (decide (quiet h kw)); [apply Hf|]. cbn [jh_epoch jh_rem].
        case_decide; intros He; apply Hf; lia.
  - by apply (IH _ _ _ h).
  - apply (IH _ _ _ h); try done. intros k Hk. rewrite not_elem_of_app in Hk. destruct Hk as [Hk1 Hk2]. rewrite Hd by done.
    unfold jd_answer. cbn [on_disk written pending removed]. unfold remembered at 2. cbn [foldl].
    rewrite <- (take_drop kc (written st)) at 1. rewrite remembered_app, remembered_skip; [done|].
    rewrite fmap_drop, <- Es. exact Hk1.
Qed.

(** ** C121 *)
(** Exact behaviour, when flush_edb is called before each power failure. *)
Theorem C121_exact :
  forall (S : janus) ops,
    j_crypto_ok S -> j_no_collision S (jd_plain ops) -> j_ok1 j_hist0 (jd_plain ops) -> jd_safe true ops ->
    exists c s ans, jd_run S j_new_client jd_new ops = Ok (c, s, ans) /\ Forall2 (≡ₚ) ans (jd_returned jd_state0 ops).
Proof.
  intros S ops Hk [Xt Xk Xi Xd Xf] Hok Hs.
  apply (run_exact S Hk (fun kw => kw ∈ op_kw <$> jd_plain ops) (fun kw i => i ∈ jd_plain ops ≫= op_docs kw) Xt Xk ops
    true jd_state0 j_hist0); try done.
  - by apply few_start.
  - apply Forall_forall. intros o Ho. split.
    + apply elem_of_list_fmap. by exists o.
    + intros i Hi. apply elem_of_list_bind. by exists o.
  - apply jd_inv_start.
Qed.
Print Assumptions C121_exact.
(** The keywords of which the cache kept the searches are answered as they should be. *)
Theorem C121_kept :
  forall (S : janus) ops,
    j_crypto_ok S -> j_no_collision S (jd_plain ops) -> j_ok j_hist0 (jd_plain ops) -> jd_safe true ops ->
    exists c s ans, jd_run S j_new_client jd_new ops = Ok (c, s, ans) /\
      Forall2 jd_meets ans (jd_expected (fun _ => []) [] [] ops).
Proof.
  intros S ops Hk Hx Hok Hs.
  destruct (C121_exact S ops Hk Hx (j_ok_weaken _ _ Hok) Hs) as (c & s & ans & E & Hans).
  exists c, s, ans. split; [exact E|].
  assert (H : Forall2 jd_meets (jd_returned jd_state0 ops) (jd_expected (fun _ => []) [] [] ops)).
  { by apply (returned_expected ops _ _ _ j_hist0). }
  clear -Hans H. revert H. generalize (jd_expected (fun _ => []) [] [] ops) as ex.
  induction Hans as [|a b l l' Hab _ IH]; intros ex H; inversion H as [|? e ? ex' H1 H2]; subst; constructor; [|by apply IH].
  intros d Ed. rewrite Hab. by apply H1.
Qed.
Print Assumptions C121_kept.

(** A history on which the theorems apply, with two power failures. *)
Definition ex_off : list jd_op :=
  [JDIns ex_kw 1; JDIns ex_kw2 7; JDIns ex_kw2 8; JDFind ex_kw2; JDFind ex_kw; JDRem ex_kw2 8; JDIns ex_kw 2; JDFlush; JDOff 0 0 1;
   JDFind ex_kw2; JDFind ex_kw; JDIns ex_kw 3; JDFlush; JDOff 5 5 9; JDOff 0 0 0; JDFind ex_kw; JDFind ex_kw2].
Lemma ex_plain_docs ops kw i :
  Forall (fun o => match o with JIns _ i | JRem _ i => (i < 2 ^ 64)%N | _ => True end) ops -> i ∈ ops ≫= op_docs kw -> (i < 2 ^ 64)%N.
Proof.
  intros Hall Hi. apply elem_of_list_bind in Hi as (o & Hi & Ho). rewrite Forall_forall in Hall. specialize (Hall o Ho).
  destruct o; simpl in *; try (by apply elem_of_nil in Hi); case_decide; try (by apply elem_of_nil in Hi);
    apply elem_of_list_singleton in Hi; by subst.
Qed.
Example C121_case :
  j_crypto_ok ex_janus /\ j_no_collision ex_janus (jd_plain ex_off) /\ j_ok j_hist0 (jd_plain ex_off) /\ jd_safe true ex_off /\
  jd_expected (fun _ => []) [] [] ex_off = [Some [7%N; 8%N]; Some [1%N]; Some [7%N]; None; None; Some [7%N]] /\
  jd_returned jd_state0 ex_off = [[7%N; 8%N]; [1%N]; [7%N]; [2%N]; [2%N; 3%N]; [7%N]] /\
  exists c s, jd_run ex_janus j_new_client jd_new ex_off = Ok (c, s, [[7%N; 8%N]; [1%N]; [7%N]; [2%N]; [2%N; 3%N]; [7%N]]).
Proof.
  split_and!.
  - apply ex_janus_ok.
  - apply ex_no_collision; [by repeat constructor|by vm_compute|]. intros kw i. apply ex_plain_docs.
    unfold ex_off, jd_plain. cbn [mbind list_bind app]. repeat (constructor; [done|]). constructor.
  - unfold ex_off, jd_plain. cbn [mbind list_bind app]. cbn [j_ok j_op_ok]. split_and!; try done; apply (bool_decide_unpack _); by vm_compute.
  - simpl. done.
  - by vm_compute.
  - by vm_compute.
  - do 2 eexists. vm_compute. reflexivity.
Qed.

(** A document that was found before flush_edb is not found after the power failure ... *)
Theorem C121_refuted :
  exists (S : janus) ops c s ans,
    j_crypto_ok S /\ j_no_collision S (jd_plain ops) /\ j_ok j_hist0 (jd_plain ops) /\ jd_safe true ops /\
    jd_run S j_new_client jd_new ops = Ok (c, s, ans) /\
    j_answers (fun _ => []) (jd_plain ops) = [[1%N]; [1%N]] /\ ans = [[1%N]; []].
Proof.
  exists ex_janus, [JDIns ex_kw 1; JDFind ex_kw; JDFlush; JDOff 0 0 0; JDFind ex_kw]. do 2 eexists. exists [[1%N]; []]. split_and!.
  - apply ex_janus_ok.
  - apply ex_no_collision; [by repeat constructor|by vm_compute|]. intros kw i. apply ex_plain_docs.
    unfold jd_plain. cbn [mbind list_bind app]. repeat (constructor; [done|]). constructor.
  - unfold jd_plain. cbn [mbind list_bind app]. cbn [j_ok j_op_ok]. split_and!; try done; apply (bool_decide_unpack _); by vm_compute.
  - done.
  - vm_compute. reflexivity.
  - by vm_compute.
  - done.
Qed.
Print Assumptions C121_refuted.
(** ... and one that was removed is found again. *)
Theorem C121_removed_refuted :
  exists (S : janus) ops c s ans,
    j_crypto_ok S /\ j_no_collision S (jd_plain ops) /\ j_ok j_hist0 (jd_plain ops) /\ jd_safe true ops /\
    jd_run S j_new_client jd_new ops = Ok (c, s, ans) /\
    j_answers (fun _ => []) (jd_plain ops) = [[1%N]; []; []] /\ ans = [[1%N]; []; [1%N]].
Proof.
  exists ex_janus, [JDIns ex_kw 1; JDFind ex_kw; JDRem ex_kw 1; JDFind ex_kw; JDFlush; JDOff 0 0 1; JDFind ex_kw].
  do 2 eexists. exists [[1%N]; []; [1%N]]. split_and!.
  - apply ex_janus_ok.
  - apply ex_no_collision; [by repeat constructor|by vm_compute|]. intros kw i. apply ex_plain_docs.
    unfold jd_plain. cbn [mbind list_bind app]. repeat (constructor; [done|]). constructor.
  - unfold jd_plain. cbn [mbind list_bind app]. cbn [j_ok j_op_ok]. split_and!; try done; apply (bool_decide_unpack _); by vm_compute.
  - done.
  - vm_compute. reflexivity.
  - by vm_compute.
  - done.
Qed.
Print Assumptions C121_removed_refuted.
