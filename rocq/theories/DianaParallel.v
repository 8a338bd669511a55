(** Proofs about the parallel search of Diana. *)
From stdpp Require Import prelude gmap.
From Coq Require Import NArith Lia.
From Verif Require Import Base EncModel KvModel UtilsModel DianaModel DianaSpec DianaProofs.
Local Arguments N.modulo : simpl never.
Local Arguments N.of_nat : simpl never.
Local Arguments N.to_nat : simpl never.
Local Arguments d_token_mask : simpl never.

Section ranges.
  Variable D : diana.
  Variable con : d_con D.
  (** The ranges of the threads cover the leaves, in order. *)
  Lemma jobs_eq count step remaining : 0 < step -> (N.of_nat count <= d_max_leaf D con + 1)%N ->
    forall n t min, remaining <= t + n -> count = min + n * step + (remaining - t) ->
    exists ths,
      d_jobs D con (d_ranges n (N.of_nat t) (N.of_nat step) (N.of_nat remaining) (N.of_nat min)
        (N.of_nat (min + step)) (N.of_nat count)) = Ok ths /\
      ths ≫= dt_rest = leaf D con <$> seq min (count - min) /\
      dt_id <$> ths = N.of_nat <$> seq t n /\ Forall (fun th => dt_removing th = None) ths.
  Proof.
    intros Hstep Hmax n. induction n as [|n IH]; intros t min Hr Hc.
    - exists []. split_and!; [done| |done|done]. replace (count - min) with 0 by lia. done.
    - set (sz := step + if decide (t < remaining) then 1 else 0).
      destruct (IH (S t) (min + sz)) as (ths & E & Hrest & Hid & Hrem).
      { lia. } { unfold sz. case_decide; lia. }
      assert (Emax : (if (N.of_nat t <? N.of_nat remaining)%N then (N.of_nat (min + step) + 1)%N else N.of_nat (min + step))
        = N.of_nat (min + sz)).
      { unfold sz. destruct (N.ltb_spec (N.of_nat t) (N.of_nat remaining)); case_decide; lia. }
      assert (Hle : min + sz <= count) by (unfold sz; case_decide; lia).
      assert (Hsz : 0 < sz) by (unfold sz; lia).
      cbn [d_ranges d_jobs]. rewrite Emax.
      replace (N.min (N.of_nat (min + sz)) (N.of_nat count) - 1)%N with (N.of_nat (min + sz - 1)) by lia.
      rewrite eval_range_eq by lia. cbn [rbind].
      replace (N.of_nat t + 1)%N with (N.of_nat (S t)) by lia.
      replace (N.of_nat (min + sz) + N.of_nat step)%N with (N.of_nat (min + sz + step)) by lia.
      rewrite E. cbn [rbind]. eexists. split; [done|]. csimpl. rewrite Hrest, Hid. split_and!; [|done|by constructor].
      replace (S (min + sz - 1) - min) with sz by lia. rewrite <- fmap_app. f_equal.
      rewrite <- seq_app. f_equal. lia.
  Qed.
End ranges.

Lemma Forall2_impl_in {A B} (P Q : A -> B -> Prop) l k :
  Forall2 P l k -> (forall x y, x ∈ l -> P x y -> Q x y) -> Forall2 Q l k.
Proof.
  induction 1 as [|x y l k Hxy _ IH]; intros H; constructor.
  - apply H; [left|done].
  - apply IH. intros x' y' Hx'. apply H. by right.
Qed.

Section run.
  Variable D : diana.
  Variable db0 : gmap bytes bytes.
  Variable del : bool.

  Definition tok (x : N * bytes) : bytes := (d_token_mask D x.2).1.
  Definition ldoc (x : N * bytes) : option (N * bytes) :=
    (fun v => (x.1, diana_xor_mask v (d_token_mask D x.2).2)) <$> db0 !! tok x.
  Definition pend_tok (th : d_thread) : list bytes :=
    (match dt_removing th with Some (_, ut, _, _) => [ut] | None => [] end) ++ (tok <$> dt_rest th).
  Definition pend_doc (th : d_thread) : list (N * bytes) :=
    (match dt_removing th with Some (i, _, mask, v) => [(i, diana_xor_mask v mask)] | None => [] end) ++
    omap ldoc (dt_rest th).
  Definition out_of (t : N) (log : list (N * bytes * N)) : list (N * bytes) :=
    (fun e => e.1) <$> filter (fun e : N * bytes * N => e.2 = t) log.

  Record p_inv (alltok : list bytes) (origs : list (list (N * bytes))) (s : d_par) : Prop := {
    pi_done : exists done, done ++ (dp_threads s ≫= pend_tok) ≡ₚ alltok /\
      forall t, dp_db s !! t = if del && bool_decide (t ∈ done) then None else db0 !! t;
    pi_rem : Forall (fun th => forall i ut mask v, dt_removing th = Some (i, ut, mask, v) -> del = true /\ db0 !! ut = Some v) (dp_threads s);
    pi_out : Forall2 (fun th orig => out_of (dt_id th) (dp_log s) ++ pend_doc th = omap ldoc orig) (dp_threads s) origs;
    pi_all : (dp_log s).*1 ++ (dp_threads s ≫= pend_doc) ≡ₚ origs ≫= omap ldoc;
    pi_ids : Forall (fun e => e.2 ∈ (dt_id <$> dp_threads s)) (dp_log s) }.

  Lemma out_of_snoc t log e : out_of t (log ++ [e]) = out_of t log ++ if decide (e.2 = t) then [e.1] else [].
  Proof. unfold out_of. rewrite filter_app, fmap_app. f_equal. unfold filter at 1. simpl. by case_decide. Qed.

  Lemma p_inv_start db ths : db = db0 -> Forall (fun th => dt_removing th = None) ths ->
    p_inv (tok <$> (ths ≫= dt_rest)) (dt_rest <$> ths) (DPar db ths []).
  Proof.
    intros -> Hr. split; simpl.
    - exists []. split.
      + simpl. clear -Hr. induction Hr as [|th ths Hth _ IH]; [done|]. csimpl. rewrite fmap_app, <- IH.
        unfold pend_tok. by rewrite Hth.
      + intros t. rewrite bool_decide_false by apply not_elem_of_nil. by rewrite andb_false_r.
    - eapply Forall_impl; [done|]. simpl. intros th E. by rewrite E.
    - apply Forall2_fmap_r. apply Forall2_same_length_lookup_2; [done|].
      intros i x y Hx Hy. rewrite Hx in Hy. injection Hy as <-. simpl.
      rewrite Forall_lookup in Hr. specialize (Hr _ _ Hx). unfold pend_doc. by rewrite Hr.
    - clear -Hr. induction Hr as [|th ths Hth _ IH]; [done|]. csimpl. rewrite <- IH.
      unfold pend_doc. by rewrite Hth.
    - constructor.
  Qed.

  Lemma p_inv_step alltok origs s s' : (del = true -> NoDup alltok) -> NoDup (dt_id <$> dp_threads s) ->
    d_step D del s s' -> p_inv alltok origs s ->
    p_inv alltok origs s' /\ dt_id <$> dp_threads s' = dt_id <$> dp_threads s.
  Proof.
    intros Hnd Hids Hs [(dn & P1 & P2) P3 P4 P5 P6].
    assert (Hlook : forall pre th post ut, dp_threads s = pre ++ th :: post -> ut ∈ pend_tok th -> dp_db s !! ut = db0 !! ut).
    { intros pre th post ut E Hut. rewrite P2. destruct del; [|done]. simpl.
      rewrite bool_decide_false; [done|]. intros Hd. specialize (Hnd eq_refl). rewrite <- P1 in Hnd.
      apply NoDup_app in Hnd as (_ & Hx & _). apply (Hx _ Hd). apply elem_of_list_bind. exists th. split; [done|].
      rewrite E. apply elem_of_app. right. left. }
    assert (Hother : forall pre th post, dp_threads s = pre ++ th :: post -> forall th', th' ∈ pre ++ post -> dt_id th' <> dt_id th).
    { intros pre th post E th' Hth' Eid. rewrite E, fmap_app, fmap_cons in Hids.
      assert (Hp : (dt_id <$> pre) ++ dt_id th :: (dt_id <$> post) ≡ₚ dt_id th :: (dt_id <$> (pre ++ post))).
      { rewrite fmap_app. by rewrite <- Permutation_middle. }
      rewrite Hp in Hids. apply NoDup_cons in Hids as [Hx _]. apply Hx. rewrite <- Eid.
      apply elem_of_list_fmap. by exists th'. }
    (* replacing the state of one thread without a call of the callback, or with one *)
    assert (Hout : forall pre th th' post e, dp_threads s = pre ++ th :: post -> dt_id th' = dt_id th ->
      pend_doc th = e ++ pend_doc th' ->
      Forall2 (fun th orig => out_of (dt_id th) (dp_log s ++ ((fun x => (x, dt_id th')) <$> e)) ++ pend_doc th = omap ldoc orig)
        (pre ++ th' :: post) origs).
    { intros pre th th' post e E Eid Ed. pose proof (Hother _ _ _ E) as Hoth.
      rewrite E in P4. apply Forall2_app_inv_l in P4 as (o1 & o2 & F1 & F2 & ->).
      apply Forall2_cons_inv_l in F2 as (o & o3 & F3 & F4 & ->).
      assert (Hne : forall e t t', t' <> t -> out_of t' (dp_log s ++ ((fun x => (x, t)) <$> e)) = out_of t' (dp_log s)).
      { clear. intros e t t' Hn. unfold out_of. rewrite filter_app, fmap_app.
        assert (Ez : filter (fun e : N * bytes * N => e.2 = t') ((fun x => (x, t)) <$> e) = []); [|by rewrite Ez, app_nil_r].
        induction e as [|x e IH]; csimpl; [done|]. rewrite filter_cons_False; [done|]. simpl. congruence. }
      assert (Heq : forall e t, out_of t (dp_log s ++ ((fun x => (x, t)) <$> e)) = out_of t (dp_log s) ++ e).
      { clear. intros e t. unfold out_of. rewrite filter_app, fmap_app. f_equal.
        induction e as [|x e IH]; csimpl; [done|]. rewrite filter_cons_True by done. csimpl. by rewrite IH. }
      apply Forall2_app; [|constructor].
      - eapply Forall2_impl_in; [exact F1|]. intros t o' Ht Hx. rewrite Hne; [done|]. rewrite Eid.
        apply Hoth. apply elem_of_app. by left.
      - rewrite Heq, Eid, <- app_assoc, <- Ed. exact F3.
      - eapply Forall2_impl_in; [exact F4|]. intros t o' Ht Hx. rewrite Hne; [done|]. rewrite Eid.
        apply Hoth. apply elem_of_app. by right. }
    inversion Hs as [db pre t i st rest post log ut mask Em Eu|db pre t i st rest post log ut mask v Em Eu Edel
      |db pre t i st rest post log ut mask v Em Eu Edel|db pre t i ut mask v rest post log]; subst s s'; simpl in *.
    - assert (Etok : tok (i, st) = ut) by (unfold tok; cbn [snd]; by rewrite Em).
      assert (E0 : db0 !! ut = None).
      { rewrite <- (Hlook pre _ post ut eq_refl); [done|]. unfold pend_tok. simpl. rewrite Etok. left. }
      assert (Eld : ldoc (i, st) = None) by (unfold ldoc; by rewrite Etok, E0).
      split; [|by rewrite !fmap_app]. split; simpl.
      + exists (ut :: dn). split.
        * rewrite <- P1. rewrite !bind_app, !bind_cons. unfold pend_tok at 2 5. simpl. rewrite Etok. solve_Permutation.
        * intros x. rewrite P2. destruct del; [|done]. simpl. destruct (decide (x = ut)) as [->|Hx].
          -- rewrite E0. by repeat case_bool_decide.
          -- assert (Eb : bool_decide (x ∈ ut :: dn) = bool_decide (x ∈ dn)) by (apply bool_decide_ext; set_solver).
             by rewrite Eb.
      + rewrite Forall_app, Forall_cons in *. destruct P3 as (? & ? & ?). by split_and!.
      + specialize (Hout pre _ (DThread t None rest) post [] eq_refl eq_refl). simpl in Hout. rewrite app_nil_r in Hout.
        apply Hout. unfold pend_doc. simpl. by rewrite Eld.
      + rewrite <- P5. rewrite !bind_app, !bind_cons. unfold pend_doc at 2 5. simpl. by rewrite Eld.
      + by rewrite fmap_app in *.
    - assert (Etok : tok (i, st) = ut) by (unfold tok; cbn [snd]; by rewrite Em).
      assert (E0 : db0 !! ut = Some v).
      { rewrite <- (Hlook pre _ post ut eq_refl); [done|]. unfold pend_tok. simpl. rewrite Etok. left. }
      assert (Eld : ldoc (i, st) = Some (i, diana_xor_mask v mask)) by (unfold ldoc; rewrite Etok, E0; cbn [fst snd]; by rewrite Em).
      split; [|by rewrite !fmap_app]. split; simpl.
      + exists (ut :: dn). split.
        * rewrite <- P1. rewrite !bind_app, !bind_cons. unfold pend_tok at 2 5. simpl. rewrite Etok. solve_Permutation.
        * intros x. rewrite P2, Edel. done.
      + rewrite Forall_app, Forall_cons in *. destruct P3 as (? & ? & ?). by split_and!.
      + apply (Hout pre _ (DThread t None rest) post [(i, diana_xor_mask v mask)] eq_refl eq_refl).
        unfold pend_doc. simpl. by rewrite Eld.
      + rewrite <- P5. rewrite fmap_app, !bind_app, !bind_cons. unfold pend_doc at 2 5. simpl. rewrite Eld. csimpl. solve_Permutation.
      + rewrite fmap_app in *. csimpl in *. apply Forall_app. split; [done|]. constructor; [|done]. simpl. set_solver.
    - assert (Etok : tok (i, st) = ut) by (unfold tok; cbn [snd]; by rewrite Em).
      assert (E0 : db0 !! ut = Some v).
      { rewrite <- (Hlook pre _ post ut eq_refl); [done|]. unfold pend_tok. simpl. rewrite Etok. left. }
      assert (Eld : ldoc (i, st) = Some (i, diana_xor_mask v mask)) by (unfold ldoc; rewrite Etok, E0; cbn [fst snd]; by rewrite Em).
      split; [|by rewrite !fmap_app]. split; simpl.
      + exists dn. split; [|done].
        rewrite <- P1. rewrite !bind_app, !bind_cons. unfold pend_tok at 2 5. simpl. by rewrite Etok.
      + rewrite Forall_app, Forall_cons in *. destruct P3 as (? & _ & ?). split_and!; [done| |done].
        simpl. intros i' ut' mask' v' [= <- <- <- <-]. done.
      + specialize (Hout pre _ (DThread t (Some (i, ut, mask, v)) rest) post [] eq_refl eq_refl). simpl in Hout.
        rewrite app_nil_r in Hout. apply Hout. unfold pend_doc. simpl. by rewrite Eld.
      + rewrite <- P5. rewrite !bind_app, !bind_cons. unfold pend_doc at 2 5. simpl. by rewrite Eld.
      + by rewrite fmap_app in *.
    - assert (E0 : del = true /\ db0 !! ut = Some v).
      { rewrite Forall_app, Forall_cons in P3. destruct P3 as (_ & P3 & _). by apply (P3 i ut mask v). }
      destruct E0 as [Edel E0].
      split; [|by rewrite !fmap_app]. split; simpl.
      + exists (ut :: dn). split.
        * rewrite <- P1. rewrite !bind_app, !bind_cons. unfold pend_tok at 2 5. simpl. solve_Permutation.
        * intros x. rewrite Edel in *. simpl in *. destruct (decide (x = ut)) as [->|Hx].
          -- rewrite lookup_delete, bool_decide_true; [done|left].
          -- rewrite lookup_delete_ne by done. rewrite P2.
             assert (Eb : bool_decide (x ∈ ut :: dn) = bool_decide (x ∈ dn)) by (apply bool_decide_ext; set_solver).
             by rewrite Eb.
      + rewrite Forall_app, Forall_cons in *. destruct P3 as (? & _ & ?). by split_and!.
      + apply (Hout pre _ (DThread t None rest) post [(i, diana_xor_mask v mask)] eq_refl eq_refl). done.
      + rewrite <- P5. rewrite fmap_app, !bind_app, !bind_cons. unfold pend_doc at 2 5. csimpl. solve_Permutation.
      + rewrite fmap_app in *. csimpl in *. apply Forall_app. split; [done|]. constructor; [|done]. simpl. set_solver.
  Qed.

  Lemma p_inv_steps alltok origs s s' : (del = true -> NoDup alltok) -> NoDup (dt_id <$> dp_threads s) ->
    rtc (d_step D del) s s' -> p_inv alltok origs s ->
    p_inv alltok origs s' /\ dt_id <$> dp_threads s' = dt_id <$> dp_threads s.
  Proof.
    intros Hnd Hids H. induction H as [|s1 s2 s3 H1 _ IH]; intros I; [done|].
    destruct (p_inv_step alltok origs _ _ Hnd Hids H1 I) as [I2 E2].
    destruct IH as [I3 E3]; [by rewrite E2|done|]. split; [done|]. by rewrite E3.
  Qed.

  (** ** Progress *)
  Definition todo (th : d_thread) : nat :=
    2 * length (dt_rest th) + match dt_removing th with Some _ => 1 | None => 0 end.
  Definition all_todo (s : d_par) : nat := sum_list (todo <$> dp_threads s).
  Lemma sum_list_app' (l k : list nat) : sum_list (l ++ k) = sum_list l + sum_list k.
  Proof. induction l as [|x l IH]; simpl; [done|]. rewrite IH. lia. Qed.
  Lemma step_todo s s' : d_step D del s s' -> all_todo s' < all_todo s.
  Proof.
    intros Hs. inversion Hs; subst; unfold all_todo; simpl; rewrite !fmap_app, !fmap_cons, !sum_list_app';
      unfold todo; simpl; lia.
  Qed.
  Lemma steps_todo n s s' : nsteps (d_step D del) n s s' -> n + all_todo s' <= all_todo s.
  Proof. induction 1 as [|n s1 s2 s3 H1 _ IH]; [lia|]. apply step_todo in H1. lia. Qed.
  Lemma step_progress s : d_finished s \/ exists s', d_step D del s s'.
  Proof.
    destruct s as [db ths log]. unfold d_finished. simpl.
    destruct (decide (Forall (fun th => dt_removing th = None /\ dt_rest th = []) ths)) as [H|H]; [by left|right].
    apply not_Forall_Exists in H; [|apply _]. apply Exists_exists in H as (th & Hin & Hth).
    apply elem_of_list_split in Hin as (pre & post & ->). destruct th as [t [[[[i ut] mask] v]|] rest]; simpl in *.
    - eexists. apply dst_remove.
    - destruct rest as [|[i st] rest]; [by destruct Hth|]. destruct (d_token_mask D st) as [ut mask] eqn:Em.
      destruct (db !! ut) as [v|] eqn:Ev; [|eexists; by eapply dst_miss].
      destruct (decide (del = true)).
      + eexists. by eapply dst_hit_del.
      + eexists. eapply dst_hit; [done..|]. by destruct del.
  Qed.
End run.
