(** Janus clients that die, or whose power fails (C122). *)
From stdpp Require Import prelude gmap.
From Coq Require Import NArith Lia.
From Verif Require Import Base EncModel KvModel UtilsModel DianaModel DianaSpec DianaProofs JanusModel JanusSpec JanusProofs Props_Utils Props_Janus
  JanusKillModel JanusKillSpec.

(** ** The logged maps contain what the model without logs says *)
Section refine.
  Variable S : janus.
  Lemma jk_now_put c x : jk_now (jk_put c x) =
    match x.1 with
    | InsMap => JClient (kw_apply (jc_ins (jk_now c)) x.2) (jc_del (jk_now c)) (jc_search (jk_now c))
    | DelMap => JClient (jc_ins (jk_now c)) (kw_apply (jc_del (jk_now c)) x.2) (jc_search (jk_now c))
    | SearchMap => JClient (jc_ins (jk_now c)) (jc_del (jk_now c)) (kw_apply (jc_search (jk_now c)) x.2)
    end.
  Proof. unfold jk_put, jk_now. destruct (x.1); cbn [jk_ins jk_del jk_search jc_ins jc_del jc_search]; by rewrite foldl_app. Qed.
  Lemma jk_insertion_now c kw i : jk_now (jk_insertion_request S c kw i).1 = (j_insertion_request S (jk_now c) kw i).1.
  Proof. unfold jk_insertion_request. cbn [fst]. rewrite jk_now_put. done. Qed.
  Lemma jk_removal_now c kw i : jk_now (jk_removal_request S c kw i).1 = (j_removal_request S (jk_now c) kw i).1.
  Proof. unfold jk_removal_request. cbn [fst]. rewrite jk_now_put. done. Qed.
  (** After at least one write, the search counter is that of the end. *)
  Lemma jk_search_now c kw n : let m := meta_keyword kw (j_search_counter (jk_now c) kw) in
    let c1 := (j_search_request S (jk_now c) kw).1 in
    let c2 := jk_now (jk_search_request S c kw (Datatypes.S n)) in
    jc_search c2 = jc_search c1 /\
    (jc_ins c2 = jc_ins c1 \/ jc_ins c2 = jc_ins (jk_now c)) /\
    (jc_del c2 = jc_del c1 \/ jc_del c2 = jc_del (jk_now c)) /\
    (n = 2 -> c2 = c1).
  Proof.
    intros m c1 c2. unfold c2, c1, jk_search_request, jk_search_writes, j_search_request. fold m. cbn [fst jc_search jc_ins jc_del].
    destruct (0 <? ds_count (d_search_request (jn_ins S) (jc_ins (jk_now c)) m))%N eqn:Ei,
      (0 <? ds_count (d_search_request (jn_del S) (jc_del (jk_now c)) m))%N eqn:Ed;
      cbn [orb app take foldl]; destruct n as [|[|[|n]]]; cbn [take foldl]; rewrite ?take_nil, ?jk_now_put;
      cbn [fst snd jc_search jc_ins jc_del kw_apply foldl jk_now]; rewrite ?jk_now_put;
      cbn [fst snd jc_search jc_ins jc_del kw_apply];
      split_and!; try done; try (by left); try (by right).
  Qed.
End refine.
Lemma jk_search_none S c kw : jk_search_request S c kw 0 = c.
Proof. done. Qed.

(** ** Tokens *)
Section tokens.
  Variable S : janus.
  Hypothesis Hk : j_crypto_ok S.
  Variable KW : bytes -> Prop.
  Variable DOC : bytes -> N -> Prop.
  Hypothesis Htag : forall kw i i', DOC kw i -> DOC kw i' -> j_tag S kw i = j_tag S kw i' -> i = i'.
  Hypothesis Hkw : forall kw kw', KW kw -> KW kw' -> jn_kwtok S kw = jn_kwtok S kw' -> kw = kw'.

  Lemma next_of (n : nat) : (N.of_nat n < 2 ^ 32)%N ->
    next_value (match n with 0 => None | Datatypes.S k => Some (N.of_nat k) end) = N.of_nat n.
  Proof. intros Hn. destruct n as [|k]; [done|]. unfold next_value, incr32. rewrite N.mod_small by lia. lia. Qed.

  Lemma ins_token a h c s ch cur gi gd ci cd kw i :
    few_h h -> j_inv S KW DOC a h c s ch cur gi gd ci cd ->
    du_token (j_insertion_request S c kw i).2 =
      d_update_token (jn_ins S) (meta_keyword kw (jh_epoch h kw)) (jh_ins h kw (jh_epoch h kw)).
  Proof.
    intros (He & Hf1 & Hf2) [I1 I2 I3 I4 I5 I6 I7 I8 I9 I10 I11 I12 I13].
    unfold j_insertion_request. rewrite I5. unfold d_insertion_request, ctr_get_and_increment.
    rewrite I3 by (split; [lia|apply He]). rewrite (di_ctr _ _ _ _ I1), (ms_len _ _ I6) by apply He.
    rewrite next_of by apply Hf1. done.
  Qed.
  Lemma rem_token a h c s ch cur gi gd ci cd kw i :
    few_h h -> j_inv S KW DOC a h c s ch cur gi gd ci cd ->
    du_token (j_removal_request S c kw i).2 =
      d_update_token (jn_del S) (meta_keyword kw (jh_epoch h kw)) (length (rem_now h kw)).
  Proof.
    intros (He & Hf1 & Hf2) [I1 I2 I3 I4 I5 I6 I7 I8 I9 I10 I11 I12 I13].
    unfold j_removal_request. rewrite I5. unfold d_insertion_request, ctr_get_and_increment.
    rewrite I4 by (split; [lia|apply He]). rewrite (di_ctr _ _ _ _ I2), (ms_len _ _ I7) by apply He.
    rewrite next_of by apply Hf2. done.
  Qed.
  Lemma find_tokens a h c s ch cur gi gd ci cd kw :
    few_h h -> j_inv S KW DOC a h c s ch cur gi gd ci cd ->
    let req := (j_search_request S c kw).2 in
    request_tokens (jr_ins req) = d_update_token (jn_ins S) (meta_keyword kw (jh_epoch h kw)) <$> seq 0 (jh_ins h kw (jh_epoch h kw)) /\
    request_tokens (jr_del req) = d_update_token (jn_del S) (meta_keyword kw (jh_epoch h kw)) <$> seq 0 (length (rem_now h kw)).
  Proof.
    intros (He & Hf1 & Hf2) [I1 I2 I3 I4 I5 I6 I7 I8 I9 I10 I11 I12 I13] req.
    assert (Ei : jr_ins req = d_search_request (jn_ins S) ci (meta_keyword kw (jh_epoch h kw))).
    { unfold req, j_search_request. cbn [snd jr_ins]. rewrite I5. apply search_request_agree, I3. split; [lia|apply He]. }
    assert (Ed : jr_del req = d_search_request (jn_del S) cd (meta_keyword kw (jh_epoch h kw))).
    { unfold req, j_search_request. cbn [snd jr_del]. rewrite I5. apply search_request_agree, I4. split; [lia|apply He]. }
    assert (Fi : d_few gi) by by apply (ms_few gi (jh_ins h)).
    assert (Fd : d_few gd) by by apply (ms_few gd (fun kw e => length (jh_rem h kw e))).
    destruct (request_wf (jn_ins S) (JanusSpec.jk_ins S Hk) gi ci (js_ins s) (meta_keyword kw (jh_epoch h kw)) Fi I1) as (_ & Ti & _).
    destruct (request_wf (jn_del S) (JanusSpec.jk_del S Hk) gd cd (js_del s) (meta_keyword kw (jh_epoch h kw)) Fd I2) as (_ & Td & _).
    rewrite Ei, Ed, Ti, Td, (ms_len _ _ I6), (ms_len _ _ I7) by apply He. done.
  Qed.

  Lemma inv_client a h c c' s ch cur gi gd ci cd :
    j_inv S KW DOC a h c s ch cur gi gd ci cd -> jc_search c' = jc_search c ->
    (forall kw e, (jh_epoch h kw <= e < 2 ^ 32)%N -> jc_ins c' !! meta_keyword kw e = jc_ins c !! meta_keyword kw e /\
       jc_del c' !! meta_keyword kw e = jc_del c !! meta_keyword kw e) ->
    j_inv S KW DOC a h c' s ch cur gi gd ci cd.
  Proof.
    intros [I1 I2 I3 I4 I5 I6 I7 I8 I9 I10 I11 I12 I13] Es Ha. split; try done.
    - intros kw e He. destruct (Ha kw e He) as [-> _]. by apply I3.
    - intros kw e He. destruct (Ha kw e He) as [_ ->]. by apply I4.
    - intros kw. unfold j_search_counter. rewrite Es. apply I5.
  Qed.

  (** The client dies after at least one write: the request is lost. *)
  Lemma inv_killed a h c s ch cur gi gd ci cd kw n :
    few_h (j_hist_step h (JLost kw)) -> col_h S (j_hist_step h (JLost kw)) -> KW kw ->
    j_inv S KW DOC a h (jk_now c) s ch cur gi gd ci cd ->
    exists cur', j_inv S KW DOC (j_act_step a h (JLost kw)) (j_hist_step h (JLost kw))
      (jk_now (jk_search_request S c kw (Datatypes.S n))) s ch cur' gi gd ci cd.
  Proof.
    intros Hfew Hcol HK I.
    assert (Hle : hle h (j_hist_step h (JLost kw))) by apply hle_step.
    destruct (j_inv_lost S Hk KW DOC Htag a h (jk_now c) s ch cur gi gd ci cd kw Hfew Hcol HK I) as (cur' & I').
    exists cur'. destruct (jk_search_now S c kw n) as (Es & Ei & Ed & _).
    pose proof (ji_sc _ _ _ _ _ _ _ _ _ _ _ _ _ I) as Hsc.
    destruct (j_search_facts S Hk KW DOC Htag _ _ _ _ _ _ _ _ _ _ kw (few_h_mono _ _ Hle Hfew) (col_h_mono S _ _ Hle Hcol) HK I)
      as (_ & _ & _ & _ & _ & _ & _ & Ci & Cd & _ & _).
    destruct Hfew as (He & _ & _).
    assert (He0 : forall k, (jh_epoch h k < 2 ^ 32)%N).
    { intros k. destruct Hle as (Hle & _). specialize (Hle k). specialize (He k). lia. }
    destruct (j_search_client S h (jk_now c) kw) as (Hcq & _ & Hcm); [|done|exact Ci|exact Cd|].
    { specialize (He kw). unfold j_hist_step in He. case_decide as Hq; [by right|left].
      cbn [jh_epoch] in He. by rewrite decide_True in He. }
    apply (inv_client _ _ _ _ _ _ _ _ _ _ _ I' Es).
    intros k e Hke. destruct (decide (quiet h kw)) as [Hq|Hq].
    - rewrite (Hcq Hq) in *. by destruct Ei as [-> | ->], Ed as [-> | ->].
    - destruct (Hcm (meta_keyword k e)) as [M1 M2].
      { intros Em. apply C45_meta_keyword_injective in Em as [-> ->]; [|lia|apply He0].
        unfold j_hist_step in Hke. rewrite decide_False in Hke by done. cbn [jh_epoch] in Hke. rewrite decide_True in Hke by done. lia. }
      destruct Ei as [-> | ->], Ed as [-> | ->]; rewrite ?M1, ?M2; done.
  Qed.

  (** Tokens of insertions (removals) already made. *)
  Definition spent_ins (h : j_hist) (t : bytes) : Prop :=
    exists kw e i, i < jh_ins h kw e /\ t = d_update_token (jn_ins S) (meta_keyword kw e) i.
  Definition spent_del (h : j_hist) (t : bytes) : Prop :=
    exists kw e i, i < length (jh_rem h kw e) /\ t = d_update_token (jn_del S) (meta_keyword kw e) i.
  Lemma spent_ins_mono h h' t : hle h h' -> spent_ins h t -> spent_ins h' t.
  Proof. intros (_ & B & _) (kw & e & i & Hi & ->). exists kw, e, i. specialize (B kw e). split; [lia|done]. Qed.
  Lemma spent_del_mono h h' t : hle h h' -> spent_del h t -> spent_del h' t.
  Proof. intros (_ & _ & B) (kw & e & i & Hi & ->). exists kw, e, i. specialize (B kw e). split; [lia|done]. Qed.

  Definition fresh_after (ki kd : list bytes) (outs : list (jk_out S)) : Prop := forall pre post t,
    (outs = pre ++ OIns t :: post -> t ∉ ki ++ (pre ≫= ins_known)) /\
    (outs = pre ++ ORem t :: post -> t ∉ kd ++ (pre ≫= del_known)).
  Lemma fresh_cons ki kd x outs :
    (forall t, x = OIns t -> t ∉ ki) -> (forall t, x = ORem t -> t ∉ kd) ->
    fresh_after (ki ++ ins_known x) (kd ++ del_known x) outs -> fresh_after ki kd (x :: outs).
  Proof.
    intros Hi Hd H pre post t. destruct pre as [|y pre]; cbn [app].
    - split; intros E; injection E as -> _; cbn [mbind list_bind]; rewrite app_nil_r; [by apply Hi|by apply Hd].
    - destruct (H pre post t) as [H1 H2]. split; intros E; injection E as <- ->; rewrite bind_cons, app_assoc; [by apply H1|by apply H2].
  Qed.

  Lemma jk_run_ok ops : forall a h c s ch cur gi gd ci cd ki kd,
    few_h (foldl j_hist_step h (jk_plain ops)) -> col_h S (foldl j_hist_step h (jk_plain ops)) -> j_ok1 h (jk_plain ops) ->
    Forall (fun o => KW (op_kw o) /\ forall i, i ∈ op_docs (op_kw o) o -> DOC (op_kw o) i) (jk_plain ops) ->
    Forall jk_on ops -> Forall (spent_ins h) ki -> Forall (spent_del h) kd ->
    j_inv S KW DOC a h (jk_now c) s ch cur gi gd ci cd ->
    exists c' s' outs, jk_run S c s ops = Ok (c', s', outs) /\
      Forall2 (≡ₚ) (jk_answers outs) (j_actual a h (jk_plain ops)) /\ fresh_after ki kd outs.
  Proof.
    induction ops as [|o ops IH]; intros a h c s ch cur gi gd ci cd ki kd Hfew Hcol Hok Hin Hon Hki Hkd I.
    { exists c, s, []. split; [done|]. split; [constructor|]. intros pre post t. split; intros E; by destruct pre. }
    assert (Ep : jk_plain (o :: ops) = jk_plain [o] ++ jk_plain ops).
    { change (o :: ops) with ([o] ++ ops). unfold jk_plain. by rewrite bind_app. }
    rewrite Ep in Hfew, Hcol, Hok, Hin |- *. rewrite foldl_app in Hfew, Hcol.
    assert (Hle := hle_steps (jk_plain ops) (foldl j_hist_step h (jk_plain [o]))).
    assert (Hle0 := hle_steps (jk_plain [o]) h).
    assert (Hfew1 := few_h_mono _ _ Hle Hfew). assert (Hcol1 := col_h_mono S _ _ Hle Hcol).
    assert (Hfew0 := few_h_mono _ _ Hle0 Hfew1). assert (Hcol0 := col_h_mono S _ _ Hle0 Hcol1).
    assert (Hki1 : Forall (spent_ins (foldl j_hist_step h (jk_plain [o]))) ki).
    { eapply Forall_impl; [exact Hki|]. intros t. by apply spent_ins_mono. }
    assert (Hkd1 : Forall (spent_del (foldl j_hist_step h (jk_plain [o]))) kd).
    { eapply Forall_impl; [exact Hkd|]. intros t. by apply spent_del_mono. }
    apply Forall_cons in Hon as [Ho1 Hon].
    destruct o as [kw i|kw i|kw|kw n|]; [| | | |done].
    - unfold jk_plain in Hok, Hin, Hfew, Hcol, Hfew1, Hcol1, Hki1, Hkd1, Hle0. cbn [mbind list_bind app foldl] in Hok, Hin, Hfew, Hcol, Hfew1, Hcol1, Hki1, Hkd1, Hle0.
      destruct Hok as [Ho Hok]. apply Forall_cons in Hin as [[HK HD] Hin]. cbn [op_kw op_docs] in HK, HD.
      pose proof (ins_token a h (jk_now c) s ch cur gi gd ci cd kw i Hfew0 I) as Et.
      destruct (j_inv_insert S Hk KW DOC a h (jk_now c) s ch cur gi gd ci cd kw i) as (cur' & gi' & ci' & I'); [done|done|done| |done|].
      { apply HD. rewrite decide_True by done. by apply elem_of_list_singleton. }
      rewrite <- jk_insertion_now in I'.
      change (j_insertion_request S (jk_now c) kw i).2 with (jk_insertion_request S c kw i).2 in I', Et.
      set (t := du_token (jk_insertion_request S c kw i).2) in *.
      assert (Hsi : Forall (spent_ins (j_hist_step h (JIns kw i))) (ki ++ [t])).
      { apply Forall_app. split; [done|]. constructor; [|done].
        exists kw, (jh_epoch h kw), (jh_ins h kw (jh_epoch h kw)). split; [|exact Et].
        cbn [j_hist_step jh_ins]. rewrite decide_True by done. lia. }
      assert (Hsd : Forall (spent_del (j_hist_step h (JIns kw i))) (kd ++ [])) by by rewrite app_nil_r.
      destruct (IH _ _ _ _ _ _ _ _ _ _ _ _ Hfew Hcol Hok Hin Hon Hsi Hsd I') as (c' & s' & outs & E & Hans & Hfr).
      + cbn [jk_run jk_step rbind fst snd]. rewrite E. cbn [rbind fst snd]. do 3 eexists. split; [done|]. split; [exact Hans|].
        cbn [app]. apply fresh_cons; [|done|exact Hfr]. intros t' Et'. injection Et' as <-. intros Hin'.
        rewrite Forall_forall in Hki. destruct (Hki _ Hin') as (kw' & e' & i' & Hi' & Et').
        apply (eq_trans (eq_sym Et)) in Et'. destruct Hcol1 as [Hc _].
        destruct (Hc kw (jh_epoch h kw) (jh_ins h kw (jh_epoch h kw)) kw' e' i') as (<- & <- & <-); [| |exact Et'|lia].
        * cbn [j_hist_step jh_ins]. rewrite decide_True by done. lia.
        * destruct Hle0 as (_ & Hle0 & _). specialize (Hle0 kw' e'). lia.
    - unfold jk_plain in Hok, Hin, Hfew, Hcol, Hfew1, Hcol1, Hki1, Hkd1, Hle0. cbn [mbind list_bind app foldl] in Hok, Hin, Hfew, Hcol, Hfew1, Hcol1, Hki1, Hkd1, Hle0.
      destruct Hok as [Ho Hok]. apply Forall_cons in Hin as [[HK HD] Hin]. cbn [op_kw op_docs] in HK, HD.
      pose proof (rem_token a h (jk_now c) s ch cur gi gd ci cd kw i Hfew0 I) as Et.
      destruct (j_inv_remove S Hk KW DOC a h (jk_now c) s ch cur gi gd ci cd kw i) as (gd' & cd' & I'); [done|done|done| |done|].
      { apply HD. rewrite decide_True by done. by apply elem_of_list_singleton. }
      rewrite <- jk_removal_now in I'.
      change (j_removal_request S (jk_now c) kw i).2 with (jk_removal_request S c kw i).2 in I', Et.
      set (t := du_token (jk_removal_request S c kw i).2) in *.
      assert (Hlast : length (rem_now h kw) < length (jh_rem (j_hist_step h (JRem kw i)) kw (jh_epoch h kw))).
      { cbn [j_hist_step jh_rem]. rewrite decide_True, app_length by done. unfold rem_now. simpl. lia. }
      assert (Hsi : Forall (spent_ins (j_hist_step h (JRem kw i))) (ki ++ [])) by by rewrite app_nil_r.
      assert (Hsd : Forall (spent_del (j_hist_step h (JRem kw i))) (kd ++ [t])).
      { apply Forall_app. split; [done|]. constructor; [|done].
        exists kw, (jh_epoch h kw), (length (rem_now h kw)). split; [exact Hlast|exact Et]. }
      destruct (IH _ _ _ _ _ _ _ _ _ _ _ _ Hfew Hcol Hok Hin Hon Hsi Hsd I') as (c' & s' & outs & E & Hans & Hfr).
      + cbn [jk_run jk_step rbind fst snd]. rewrite E. cbn [rbind fst snd]. do 3 eexists. split; [done|]. split; [exact Hans|].
        cbn [app]. apply fresh_cons; [done| |exact Hfr]. intros t' Et'. injection Et' as <-. intros Hin'.
        rewrite Forall_forall in Hkd. destruct (Hkd _ Hin') as (kw' & e' & i' & Hi' & Et').
        apply (eq_trans (eq_sym Et)) in Et'. destruct Hcol1 as [_ Hc].
        destruct (Hc kw (jh_epoch h kw) (length (rem_now h kw)) kw' e' i') as (<- & <- & <-); [exact Hlast| |exact Et'|unfold rem_now in Hi'; lia].
        destruct Hle0 as (_ & _ & Hle0). specialize (Hle0 kw' e'). lia.
    - unfold jk_plain in Hok, Hin, Hfew, Hcol, Hfew1, Hcol1, Hki1, Hkd1, Hle0. cbn [mbind list_bind app foldl] in Hok, Hin, Hfew, Hcol, Hfew1, Hcol1, Hki1, Hkd1, Hle0.
      destruct Hok as [Ho Hok]. apply Forall_cons in Hin as [[HK HD] Hin]. cbn [op_kw] in HK.
      destruct (j_search_facts S Hk KW DOC Htag a h (jk_now c) s ch cur gi gd ci cd kw) as (Wi & Wd & Ni & Nd & Hl & Eo & En & _); [done|done|done|done|].
      pose proof (search_seq_eq S s _ _ Wi Wd Ni Nd Hl) as E. rewrite Eo, En, <- fmap_app, <- keep_app, elt_fst in E.
      destruct (j_inv_search S Hk KW DOC Htag Hkw a h (jk_now c) s ch cur gi gd ci cd kw true (keep h kw (ch kw ++ cur kw)) Hfew1 Hcol1 HK I ltac:(done))
        as (ch' & cur' & gi' & gd' & I').
      destruct (find_tokens a h (jk_now c) s ch cur gi gd ci cd kw Hfew0 I) as [Ti Td].
      destruct (jk_search_now S c kw 2) as (_ & _ & _ & Ec). specialize (Ec eq_refl). rewrite <- Ec in I'.
      set (req := (j_search_request S (jk_now c) kw).2) in *.
      assert (Hsi : Forall (spent_ins (j_hist_step h (JFind kw))) (ki ++ request_tokens (jr_ins req))).
      { apply Forall_app. split; [done|]. rewrite Ti. apply Forall_fmap, Forall_forall. intros j Hj. apply elem_of_seq in Hj.
        exists kw, (jh_epoch h kw), j. split; [|done]. destruct Hle0 as (_ & Hle0 & _). specialize (Hle0 kw (jh_epoch h kw)). lia. }
      assert (Hsd : Forall (spent_del (j_hist_step h (JFind kw))) (kd ++ request_tokens (jr_del req))).
      { apply Forall_app. split; [done|]. rewrite Td. apply Forall_fmap, Forall_forall. intros j Hj. apply elem_of_seq in Hj.
        exists kw, (jh_epoch h kw), j. split; [|done]. destruct Hle0 as (_ & _ & Hle0). specialize (Hle0 kw (jh_epoch h kw)).
        unfold rem_now in Hj. lia. }
      destruct (IH _ _ _ _ _ _ _ _ _ _ _ _ Hfew Hcol Hok Hin Hon Hsi Hsd I') as (c' & s' & outs & E' & Hans & Hfr).
      + cbn [jk_run jk_step rbind fst snd]. fold req. rewrite E. cbn [rbind fst snd]. rewrite E'. cbn [rbind fst snd].
        do 3 eexists. split; [done|]. split; [|cbn [app]; by apply fresh_cons].
        change (jk_answers ([OFind req (keep h kw (ch kw ++ cur kw))] ++ outs)) with (keep h kw (ch kw ++ cur kw) :: jk_answers outs).
        unfold jk_plain at 1. cbn [mbind list_bind app j_actual]. constructor; [|exact Hans].
        destruct (ji_docs _ _ _ _ _ _ _ _ _ _ _ _ _ I kw) as [Hd1 Hd2]. unfold keep, ja_docs. by rewrite Hd1, Hd2.
    - destruct n as [|n].
      + unfold jk_plain in Hok, Hin, Hfew, Hcol. cbn [mbind list_bind app foldl] in Hok, Hin, Hfew, Hcol.
        destruct (IH _ _ _ _ _ _ _ _ _ _ ki kd Hfew Hcol Hok Hin Hon Hki Hkd I) as (c' & s' & outs & E & Hans & Hfr).
        cbn [jk_run jk_step rbind fst snd]. rewrite jk_search_none, E. cbn [rbind fst snd]. do 3 eexists. split; [done|]. split; [exact Hans|exact Hfr].
      + unfold jk_plain in Hok, Hin, Hfew, Hcol, Hfew1, Hcol1, Hki1, Hkd1. cbn [mbind list_bind app foldl] in Hok, Hin, Hfew, Hcol, Hfew1, Hcol1, Hki1, Hkd1.
        destruct Hok as [Ho Hok]. apply Forall_cons in Hin as [[HK HD] Hin]. cbn [op_kw] in HK.
        destruct (inv_killed a h c s ch cur gi gd ci cd kw n Hfew1 Hcol1 HK I) as (cur' & I').
        destruct (IH _ _ _ _ _ _ _ _ _ _ ki kd Hfew Hcol Hok Hin Hon Hki1 Hkd1 I') as (c' & s' & outs & E & Hans & Hfr).
        cbn [jk_run jk_step rbind fst snd]. rewrite E. cbn [rbind fst snd]. do 3 eexists. split; [done|]. split; [exact Hans|exact Hfr].
  Qed.
End tokens.

(** ** C122 *)
(** Exact answers: a search_request in which the client dies is made and lost, or not made. *)
Theorem C122_killed :
  forall (S : janus) ops,
    j_crypto_ok S -> j_no_collision S (jk_plain ops) -> j_ok1 j_hist0 (jk_plain ops) -> Forall jk_on ops ->
    exists c s outs, jk_run S jk_new j_new_server ops = Ok (c, s, outs) /\
      Forall2 (≡ₚ) (jk_answers outs) (j_actual j_act0 j_hist0 (jk_plain ops)) /\
      (j_ok j_hist0 (jk_plain ops) -> Forall2 (≡ₚ) (jk_answers outs) (j_answers (fun _ => []) (jk_plain ops))).
Proof.
  intros S ops Hk [Xt Xk Xi Xd Xf] Hok Hon.
  destruct (jk_run_ok S Hk (fun kw => kw ∈ op_kw <$> jk_plain ops) (fun kw i => i ∈ jk_plain ops ≫= op_docs kw) Xt Xk ops
    j_act0 j_hist0 jk_new j_new_server (fun _ => []) (fun _ => []) no_slots no_slots ∅ ∅ [] []) as (c & s & outs & E & Hans & _); try done.
  - by apply few_start.
  - apply Forall_forall. intros o Ho. split.
    + apply elem_of_list_fmap. by exists o.
    + intros i Hi. apply elem_of_list_bind. by exists o.
  - apply j_inv_start.
  - exists c, s, outs. split; [exact E|]. split; [exact Hans|]. intros Hok'.
    eapply Forall2_transitive; [|exact Hans|by apply actual_ok]. intros x y z. apply Permutation_trans.
Qed.
Print Assumptions C122_killed.
(** Whenever the client died, the token of an update is not one that the server has received
    or can compute from the requests it has received. *)
Theorem C122_fresh :
  forall (S : janus) ops c s outs,
    j_crypto_ok S -> j_no_collision S (jk_plain ops) -> j_ok1 j_hist0 (jk_plain ops) -> Forall jk_on ops ->
    jk_run S jk_new j_new_server ops = Ok (c, s, outs) -> jk_fresh outs.
Proof.
  intros S ops c s outs Hk [Xt Xk Xi Xd Xf] Hok Hon Hr.
  destruct (jk_run_ok S Hk (fun kw => kw ∈ op_kw <$> jk_plain ops) (fun kw i => i ∈ jk_plain ops ≫= op_docs kw) Xt Xk ops
    j_act0 j_hist0 jk_new j_new_server (fun _ => []) (fun _ => []) no_slots no_slots ∅ ∅ [] []) as (c' & s' & outs' & E & _ & Hfr); try done.
  - by apply few_start.
  - apply Forall_forall. intros o Ho. split.
    + apply elem_of_list_fmap. by exists o.
    + intros i Hi. apply elem_of_list_bind. by exists o.
  - apply j_inv_start.
  - rewrite E in Hr. injection Hr as <- <- <-. exact Hfr.
Qed.
Print Assumptions C122_fresh.

Definition ex_kill : list jk_op :=
  [JKIns ex_kw 1; JKFind ex_kw; JKRem ex_kw 1; JKIns ex_kw 2; JKKill ex_kw 0; JKFind ex_kw; JKIns ex_kw 3; JKRem ex_kw 2; JKKill ex_kw 2;
   JKIns ex_kw 4; JKFind ex_kw; JKKill ex_kw 3; JKIns ex_kw2 5; JKKill ex_kw2 1; JKIns ex_kw2 6; JKFind ex_kw2].
Lemma ex_kill_docs ops kw i :
  Forall (fun o => match o with JIns _ i | JRem _ i => (i < 2 ^ 64)%N | _ => True end) ops -> i ∈ ops ≫= op_docs kw -> (i < 2 ^ 64)%N.
Proof.
  intros Hall Hi. apply elem_of_list_bind in Hi as (o & Hi & Ho). rewrite Forall_forall in Hall. specialize (Hall o Ho).
  destruct o; simpl in *; try (by apply elem_of_nil in Hi); case_decide; try (by apply elem_of_nil in Hi);
    apply elem_of_list_singleton in Hi; by subst.
Qed.
Example C122_case :
  j_crypto_ok ex_janus /\ j_no_collision ex_janus (jk_plain ex_kill) /\ j_ok1 j_hist0 (jk_plain ex_kill) /\ Forall jk_on ex_kill /\
  j_actual j_act0 j_hist0 (jk_plain ex_kill) = [[1%N]; [2%N]; [2%N; 4%N]; [6%N]] /\
  exists c s outs, jk_run ex_janus jk_new j_new_server ex_kill = Ok (c, s, outs) /\
    jk_answers outs = [[1%N]; [2%N]; [2%N; 4%N]; [6%N]] /\ NoDup (outs ≫= fun x => match x with OIns t => [t] | _ => [] end).
Proof.
  split_and!.
  - apply ex_janus_ok.
  - apply ex_no_collision; [by repeat constructor|by vm_compute|]. intros kw i. apply ex_kill_docs.
    unfold ex_kill, jk_plain. cbn [mbind list_bind app]. repeat (constructor; [done|]). constructor.
  - unfold ex_kill, jk_plain. cbn [mbind list_bind app]. cbn [j_ok1 j_op_ok1]. split_and!; try done; apply (bool_decide_unpack _); by vm_compute.
  - by repeat constructor.
  - by vm_compute.
  - do 3 eexists. split; [vm_compute; reflexivity|]. split; [by vm_compute|]. apply (bool_decide_unpack _). by vm_compute.
Qed.

(** The documents inserted since the last search are lost if the client dies after the first
    write of search_request. *)
Theorem C122_refuted :
  exists (S : janus) ops c s outs,
    j_crypto_ok S /\ j_no_collision S (jk_plain ops) /\ j_ok1 j_hist0 (jk_plain ops) /\ Forall jk_on ops /\
    jk_run S jk_new j_new_server ops = Ok (c, s, outs) /\
    j_answers (fun _ => []) (jk_plain ops) = [[1%N]] /\ jk_answers outs = [[]].
Proof.
  exists ex_janus, [JKIns ex_kw 1; JKKill ex_kw 1; JKFind ex_kw]. do 3 eexists. split_and!.
  - apply ex_janus_ok.
  - apply ex_no_collision; [by repeat constructor|by vm_compute|]. intros kw i. apply ex_kill_docs.
    unfold jk_plain. cbn [mbind list_bind app]. repeat (constructor; [done|]). constructor.
  - unfold jk_plain. cbn [mbind list_bind app]. cbn [j_ok1 j_op_ok1]. split_and!; try done; apply (bool_decide_unpack _); by vm_compute.
  - by repeat constructor.
  - vm_compute. reflexivity.
  - by vm_compute.
  - by vm_compute.
Qed.
Print Assumptions C122_refuted.
(** After a power failure an insertion has the token of an earlier one, which the server
    could compute from a search request ... *)
Theorem C122_power_refuted :
  exists (S : janus) ops c s t req a,
    j_crypto_ok S /\ j_no_collision S (jk_plain ops) /\ j_ok j_hist0 (jk_plain ops) /\
    jk_run S jk_new j_new_server ops = Ok (c, s, [OIns t; OFind req a; OIns t]) /\ t ∈ request_tokens (jr_ins req).
Proof.
  exists ex_janus, [JKIns ex_kw 1; JKFind ex_kw; JKOff 0 0 0; JKIns ex_kw 2]. do 5 eexists. split_and!.
  - apply ex_janus_ok.
  - apply ex_no_collision; [by repeat constructor|by vm_compute|]. intros kw i. apply ex_kill_docs.
    unfold jk_plain. cbn [mbind list_bind app]. repeat (constructor; [done|]). constructor.
  - unfold jk_plain. cbn [mbind list_bind app]. cbn [j_ok j_op_ok]. split_and!; try done; apply (bool_decide_unpack _); by vm_compute.
  - vm_compute. reflexivity.
  - apply (bool_decide_unpack _). by vm_compute.
Qed.
Print Assumptions C122_power_refuted.
(** Even before any search: the insertion after the failure takes the place of the one before,
    the document of which is not found ... *)
Theorem C122_lost_refuted :
  exists (S : janus) ops c s t outs,
    j_crypto_ok S /\ j_no_collision S (jk_plain ops) /\ j_ok j_hist0 (jk_plain ops) /\
    jk_run S jk_new j_new_server ops = Ok (c, s, OIns t :: OIns t :: outs) /\
    j_answers (fun _ => []) (jk_plain ops) = [[1%N; 2%N]] /\ jk_answers outs = [[2%N]].
Proof.
  exists ex_janus, [JKIns ex_kw 1; JKOff 0 9 9; JKIns ex_kw 2; JKFind ex_kw]. do 4 eexists. split_and!.
  - apply ex_janus_ok.
  - apply ex_no_collision; [by repeat constructor|by vm_compute|]. intros kw i. apply ex_kill_docs.
    unfold jk_plain. cbn [mbind list_bind app]. repeat (constructor; [done|]). constructor.
  - unfold jk_plain. cbn [mbind list_bind app]. cbn [j_ok j_op_ok]. split_and!; try done; apply (bool_decide_unpack _); by vm_compute.
  - vm_compute. reflexivity.
  - by vm_compute.
  - by vm_compute.
Qed.
Print Assumptions C122_lost_refuted.
(** ... and a document that was removed is still found. *)
Theorem C122_removed_refuted :
  exists (S : janus) ops c s outs,
    j_crypto_ok S /\ j_no_collision S (jk_plain ops) /\ j_ok j_hist0 (jk_plain ops) /\
    jk_run S jk_new j_new_server ops = Ok (c, s, outs) /\
    j_answers (fun _ => []) (jk_plain ops) = [[1%N]; []] /\ jk_answers outs = [[1%N]; [1%N]].
Proof.
  exists ex_janus, [JKIns ex_kw 1; JKFind ex_kw; JKRem ex_kw 1; JKOff 2 0 1; JKFind ex_kw]. do 3 eexists. split_and!.
  - apply ex_janus_ok.
  - apply ex_no_collision; [by repeat constructor|by vm_compute|]. intros kw i. apply ex_kill_docs.
    unfold jk_plain. cbn [mbind list_bind app]. repeat (constructor; [done|]). constructor.
  - unfold jk_plain. cbn [mbind list_bind app]. cbn [j_ok j_op_ok]. split_and!; try done; apply (bool_decide_unpack _); by vm_compute.
  - vm_compute. reflexivity.
  - by vm_compute.
  - by vm_compute.
Qed.
Print Assumptions C122_removed_refuted.
