(** C76: the updates of Sophos reveal nothing until their keyword is searched. *)
From stdpp Require Import prelude gmap.
From Coq Require Import NArith Lia.
From Verif Require Import Base EncModel KvModel UtilsModel SophosModel SophosSpec ReqSpec HideSpec HideProofs.

Global Instance so_op_eq_dec : EqDecision so_op.
Proof. solve_decision. Defined.

(** ** Histories *)
Lemma insertions_app kw h h' : insertions kw (h ++ h') = insertions kw h ++ insertions kw h'.
Proof. unfold insertions. by rewrite omap_app. Qed.
Lemma insertions_ins kw kw' i d : insertions kw [SoIns kw' i d] = if decide (kw' = kw) then [(i, d)] else [].
Proof. unfold insertions. csimpl. by case_decide. Qed.
Lemma leakage_finds h h' kw : same_leakage h h' -> SoFind kw ∈ h -> SoFind kw ∈ h'.
Proof.
  revert h'. induction h as [|[k i d|k] h IH]; intros [|[k' i' d'|k'] h'] H; cbn [same_leakage] in H; try done.
  - intros [E|Hin]%elem_of_cons; [done|]. right. apply IH; [tauto|done].
  - destruct H as [-> H]. intros [E|Hin]%elem_of_cons; [rewrite E; by left|]. right. by apply IH.
Qed.
Lemma leakage_sym h h' : same_leakage h h' -> same_leakage h' h.
Proof.
  revert h'. induction h as [|[k i d|k] h IH]; intros [|[k' i' d'|k'] h'] H; cbn [same_leakage] in *; try done.
  - destruct H as (-> & H1 & H2). split; [done|]. split; [|by apply IH]. intros [H|H]; destruct H1 as [-> ->]; tauto.
  - destruct H as [-> H]. split; [done|]. by apply IH.
Qed.

(** A hidden insertion is not among those made before a search of its keyword. *)
Lemma hidden_late h kw n p q : hidden h kw n -> h = p ++ q -> SoFind kw ∈ q -> length (insertions kw p) <= n.
Proof.
  intros (p' & i & d & q' & E & <- & Hn) E' Hq. rewrite E' in E. clear E'.
  assert (exists l, p' = p ++ l) as [l ->].
  { revert p' E. induction p as [|o p IH]; intros p' E; [by exists p'|]. destruct p' as [|o' p'].
    - exfalso. injection E as _ E. apply Hn. rewrite <- E. apply elem_of_app. by right.
    - injection E as -> E. destruct (IH p' E) as [l ->]. by exists l. }
  rewrite insertions_app, app_length. lia.
Qed.
Lemma hidden_bound h kw n : hidden h kw n -> n < length (insertions kw h).
Proof.
  intros (p & i & d & q & -> & <- & _).
  assert (p ++ SoIns kw i d :: q = p ++ [SoIns kw i d] ++ q) as -> by done.
  rewrite !insertions_app, insertions_ins, decide_True, !app_length by done. cbn. lia.
Qed.

(** The hidden insertions of two histories. *)
Fixpoint hid (past past' ops ops' : list so_op) : list ((bytes * nat * N) * (bytes * nat * N)) :=
  match ops, ops' with
  | SoIns kw i d :: t, SoIns kw' i' d' :: t' =>
      (if decide (SoFind kw ∈ t) then []
       else [((kw, length (insertions kw past), i), (kw', length (insertions kw' past'), i'))]) ++
      hid (past ++ [SoIns kw i d]) (past' ++ [SoIns kw' i' d']) t t'
  | o :: t, o' :: t' => hid (past ++ [o]) (past' ++ [o']) t t'
  | _, _ => []
  end.

Lemma hid_hidden ops : forall past past' ops' x, same_leakage ops ops' -> x ∈ hid past past' ops ops' ->
  hidden (past ++ ops) x.1.1.1 x.1.1.2 /\ hidden (past' ++ ops') x.2.1.1 x.2.1.2 /\
  (length (insertions x.1.1.1 past) <= x.1.1.2) /\ (length (insertions x.2.1.1 past') <= x.2.1.2) /\
  (docs64 ops -> x.1.2 < 2 ^ 64)%N /\ (docs64 ops' -> x.2.2 < 2 ^ 64)%N.
Proof.
  induction ops as [|[kw i d|kw] ops IH]; intros past past' [|[kw' i' d'|kw'] ops'] x Hl Hx; cbn [same_leakage] in Hl; try done;
    cbn [hid] in Hx; try (by apply elem_of_nil in Hx).
  - destruct Hl as (-> & Hl1 & Hl).
    apply elem_of_app in Hx as [Hx|Hx].
    + case_decide as Hd; [by apply elem_of_nil in Hx|]. apply elem_of_list_singleton in Hx as ->. cbn [fst snd].
      split; [by exists past, i, d', ops|]. split; [exists past', i', d', ops'; split; [done|]; split; [done|]|].
      { intros Hin. apply Hd. destruct Hl1 as [-> _]; [by right|].
        apply (leakage_finds ops' ops); [by apply leakage_sym|done]. }
      split; [lia|]. split; [lia|]. split; intros H; by apply Forall_cons in H as [? _].
    + destruct (IH _ _ _ _ Hl Hx) as (I1 & I2 & I3 & I4 & I5 & I6). rewrite <- !(assoc_L (++)) in I1, I2.
      rewrite insertions_app, app_length in I3. rewrite insertions_app, app_length in I4.
      split; [done|]. split; [done|]. split; [lia|]. split; [lia|].
      split; intros H; apply Forall_cons in H as [_ H]; auto.
  - destruct Hl as [-> Hl]. destruct (IH _ _ _ _ Hl Hx) as (I1 & I2 & I3 & I4 & I5 & I6). rewrite <- !(assoc_L (++)) in I1, I2.
    rewrite insertions_app, app_length in I3. rewrite insertions_app, app_length in I4.
    split; [done|]. split; [done|]. split; [lia|]. split; [lia|].
    split; intros H; apply Forall_cons in H as [_ H]; auto.
Qed.

Lemma hid_nodup ops : forall past past' ops', same_leakage ops ops' ->
  NoDup ((hid past past' ops ops').*1.*1) /\ NoDup ((hid past past' ops ops').*2.*1).
Proof.
  induction ops as [|[kw i d|kw] ops IH]; intros past past' [|[kw' i' d'|kw'] ops'] Hl; cbn [same_leakage] in Hl; try done;
    cbn [hid]; try (split; constructor).
  - destruct Hl as (-> & Hl1 & Hl). destruct (IH (past ++ [SoIns kw i d']) (past' ++ [SoIns kw' i' d']) ops' Hl) as [I1 I2].
    case_decide as Hd; [done|]. cbn [app fmap list_fmap fst snd]. split; (apply NoDup_cons; split; [|done]).
    + intros Hin. apply elem_of_list_fmap in Hin as (y & E & Hin). apply elem_of_list_fmap in Hin as (x & -> & Hin).
      destruct (hid_hidden _ _ _ _ _ Hl Hin) as (_ & _ & I3 & _). cbn [fst] in E. rewrite <- E in I3. cbn [fst snd] in I3.
      rewrite insertions_app, app_length, insertions_ins, decide_True in I3 by done. cbn in I3. lia.
    + intros Hin. apply elem_of_list_fmap in Hin as (y & E & Hin). apply elem_of_list_fmap in Hin as (x & -> & Hin).
      destruct (hid_hidden _ _ _ _ _ Hl Hin) as (_ & _ & _ & I3 & _). cbn [fst] in E. rewrite <- E in I3. cbn [fst snd] in I3.
      rewrite insertions_app, app_length, insertions_ins, decide_True in I3 by done. cbn in I3. lia.
  - destruct Hl as [-> Hl]. by apply IH.
Qed.

Section sophos.
  Variable S : sophos.
  Variable h h' : list so_op.
  Hypothesis Htdp : tdp_ok S.
  Hypothesis Hleak : same_leakage h h'.
  Hypothesis Hdist : distinct_inputs S h.
  Hypothesis Hdist' : distinct_inputs S h'.
  Hypothesis Hfew : few_insertions h.
  Hypothesis Hfew' : few_insertions h'.
  Hypothesis Hdocs : docs64 h.
  Hypothesis Hdocs' : docs64 h'.

  (** An input of the PRF. *)
  Definition pt (x : bytes * nat) (b : N) : bytes * bytes := (token_key S x.1, token_state S x.1 x.2 ++ [b]).
  Lemma pt_inj x y b c : pt x b = pt y c ->
    token_key S x.1 = token_key S y.1 /\ token_state S x.1 x.2 = token_state S y.1 y.2 /\ b = c.
  Proof. unfold pt. intros [= H1 H2]. apply app_inj_tail in H2 as [H2 H3]. done. Qed.

  Definition moves_of (x : (bytes * nat * N) * (bytes * nat * N)) : list ((bytes * bytes) * (bytes * bytes) * (bytes -> bytes)) :=
    [(pt x.1.1 48, pt x.2.1 48, id); (pt x.1.1 49, pt x.2.1 49, xor_bytes (mask_delta x.1.2 x.2.2))].
  Definition moves : list ((bytes * bytes) * (bytes * bytes) * (bytes -> bytes)) := hid [] [] h h' ≫= moves_of.

  Lemma in_moves1 p : p ∈ moves.*1.*1 -> exists kw n b, hidden h kw n /\ p = pt (kw, n) b.
  Proof.
    intros Hp. apply elem_of_list_fmap in Hp as (q & -> & Hp). apply elem_of_list_fmap in Hp as (t & -> & Hp).
    apply elem_of_list_bind in Hp as (x & Ht & Hx). destruct (hid_hidden _ _ _ _ _ Hleak Hx) as (H1 & _).
    destruct x as [[[kw n] i] y]. cbn in H1. unfold moves_of in Ht.
    apply elem_of_cons in Ht as [->|Ht]; [by exists kw, n, 48%N|]. apply elem_of_list_singleton in Ht as ->. by exists kw, n, 49%N.
  Qed.
  Lemma in_moves2 p : p ∈ moves.*1.*2 -> exists kw n b, hidden h' kw n /\ p = pt (kw, n) b.
  Proof.
    intros Hp. apply elem_of_list_fmap in Hp as (q & -> & Hp). apply elem_of_list_fmap in Hp as (t & -> & Hp).
    apply elem_of_list_bind in Hp as (x & Ht & Hx). destruct (hid_hidden _ _ _ _ _ Hleak Hx) as (_ & H1 & _).
    destruct x as [y [[kw n] i]]. cbn in H1. unfold moves_of in Ht.
    apply elem_of_cons in Ht as [->|Ht]; [by exists kw, n, 48%N|]. apply elem_of_list_singleton in Ht as ->. by exists kw, n, 49%N.
  Qed.

  Lemma nodup_points l : NoDup l -> (forall x, x ∈ l -> forall y, y ∈ l ->
      token_key S x.1 = token_key S y.1 -> token_state S x.1 x.2 = token_state S y.1 y.2 -> x = y) ->
    NoDup (l ≫= fun x => [pt x 48; pt x 49]).
  Proof.
    induction 1 as [|x l Hx Hn IH]; intros Hinj; [constructor|]. cbn [mbind list_bind app].
    assert (Hrest : forall b, pt x b ∉ (l ≫= fun x => [pt x 48; pt x 49])).
    { intros b Hin. apply elem_of_list_bind in Hin as (y & Hy & Hin). apply Hx.
      assert (x = y) as ->; [|done].
      assert (exists c, pt x b = pt y c) as [c E].
      { apply elem_of_cons in Hy as [->|Hy]; [by eexists|]. apply elem_of_list_singleton in Hy as ->. by eexists. }
      apply pt_inj in E as (E1 & E2 & _). apply Hinj; [by left|by right|done|done]. }
    apply NoDup_cons. split.
    - intros [E|Hin]%elem_of_cons; [|by apply (Hrest 48%N)]. by apply pt_inj in E as (_ & _ & ?).
    - apply NoDup_cons. split; [apply Hrest|]. apply IH. intros y Hy z Hz. apply Hinj; by right.
  Qed.
  Lemma moves1 l : (l ≫= moves_of).*1.*1 = (l.*1.*1 ≫= fun x => [pt x 48; pt x 49]).
  Proof. induction l as [|x l IH]; [done|]. cbn. by rewrite <- IH. Qed.
  Lemma moves2 l : (l ≫= moves_of).*1.*2 = (l.*2.*1 ≫= fun x => [pt x 48; pt x 49]).
  Proof. induction l as [|x l IH]; [done|]. cbn. by rewrite <- IH. Qed.
  Lemma moves_nodup1 : NoDup moves.*1.*1.
  Proof.
    unfold moves. rewrite moves1. apply nodup_points; [by apply hid_nodup|].
    assert (forall x, x ∈ (hid [] [] h h').*1.*1 -> x.2 < length (insertions x.1 h)) as Hb.
    { intros x Hx. apply elem_of_list_fmap in Hx as (q & -> & Hx). apply elem_of_list_fmap in Hx as (t & -> & Hx).
      destruct (hid_hidden _ _ _ _ _ Hleak Hx) as (H1 & _). by apply hidden_bound. }
    intros [k n] Hx [k' n'] Hy E1 E2. destruct (Hdist k n k' n') as [-> ->]; try done; [apply (Hb _ Hx)|apply (Hb _ Hy)].
  Qed.
  Lemma moves_nodup2 : NoDup moves.*1.*2.
  Proof.
    unfold moves. rewrite moves2. apply nodup_points; [by apply hid_nodup|].
    assert (forall x, x ∈ (hid [] [] h h').*2.*1 -> x.2 < length (insertions x.1 h')) as Hb.
    { intros x Hx. apply elem_of_list_fmap in Hx as (q & -> & Hx). apply elem_of_list_fmap in Hx as (t & -> & Hx).
      destruct (hid_hidden _ _ _ _ _ Hleak Hx) as (_ & H1 & _). by apply hidden_bound. }
    intros [k n] Hx [k' n'] Hy E1 E2. destruct (Hdist' k n k' n') as [-> ->]; try done; [apply (Hb _ Hx)|apply (Hb _ Hy)].
  Qed.

  Definition ok16 (v : bytes) : Prop := length v = 16 /\ Forall (fun b => (b < 256)%N) v.
  Lemma moves_ok : corr_ok ok16 moves.
  Proof.
    apply Forall_forall. intros t Ht v [Hv1 Hv2]. apply elem_of_list_bind in Ht as (x & Ht & _).
    apply elem_of_cons in Ht as [->|Ht]; [done|]. apply elem_of_list_singleton in Ht as ->. cbn [snd].
    destruct (xor_bytes_ok (mask_delta x.1.2 x.2.2) v) as (I1 & I2 & I3).
    - by rewrite mask_delta_len.
    - apply Forall_app. split; [apply be64_bytes|]. by apply Forall_replicate.
    - done.
    - unfold ok16. rewrite I1. done.
  Qed.

  Definition unc (f : bytes -> bytes -> bytes) (p : bytes * bytes) : bytes := f p.1 p.2.
  Definition prf_there (f : bytes -> bytes -> bytes) (k x : bytes) : bytes := there moves (unc f) (k, x).
  Definition prf_back (f : bytes -> bytes -> bytes) (k x : bytes) : bytes := back moves (unc f) (k, x).

  Lemma prf_bijection : bijection prf_there prf_back.
  Proof.
    pose proof moves_ok as Hm. split.
    - intros f Hf. split; intros k x.
      + apply (there_ok ok16 moves (unc f) Hm). intros [a b]. apply Hf.
      + apply (back_ok ok16 moves (unc f) Hm). intros [a b]. apply Hf.
    - intros f Hf k x. split.
      + assert (forall p, unc (prf_there f) p = there moves (unc f) p) as E by (by intros [a b]).
        change (f k x) with (unc f (k, x)). unfold prf_back. etransitivity; [|apply (back_there ok16 moves (unc f) Hm)].
        * unfold back. by rewrite E.
        * intros [a b]. apply Hf.
      + assert (forall p, unc (prf_back f) p = back moves (unc f) p) as E by (by intros [a b]).
        change (f k x) with (unc f (k, x)). unfold prf_there. etransitivity; [|apply (there_back ok16 moves (unc f) Hm)].
        * unfold there. by rewrite E.
        * intros [a b]. apply Hf.
  Qed.
  Lemma prf_there_out f k x : ~ hidden_input S h k x -> ~ hidden_input S h' k x -> prf_there f k x = f k x.
  Proof.
    intros H1 H2. unfold prf_there. rewrite there_out; [done|..].
    - intros (kw & n & b & Hh & [= -> ->])%in_moves1. apply H1. by exists kw, n, b.
    - intros (kw & n & b & Hh & [= -> ->])%in_moves2. apply H2. by exists kw, n, b.
  Qed.

  (** The inputs of the insertions of a keyword before a search are not hidden. *)
  Lemma early_visible g kw n b p q : distinct_inputs S g -> g = p ++ q -> SoFind kw ∈ q -> n < length (insertions kw p) ->
    ~ hidden_input S g (token_key S kw) (token_state S kw n ++ [b]).
  Proof.
    intros Hd E Hq Hn (kw' & n' & b' & Hh & E1 & E2). apply app_inj_tail in E2 as [E2 _].
    destruct (Hd kw n kw' n') as [-> ->].
    - rewrite E, insertions_app, app_length. lia.
    - by apply hidden_bound.
    - done.
    - done.
    - pose proof (hidden_late _ _ _ _ _ Hh E Hq). lia.
  Qed.

  Definition ctr_inv (c : counters) (past : list so_op) : Prop :=
    forall kw, c !! kw = match length (insertions kw past) with O => None | Datatypes.S n => Some (N.of_nat n) end.
  Lemma ctr_inv_ins g c past kw i d ops : few_insertions g -> g = past ++ SoIns kw i d :: ops -> ctr_inv c past ->
    next_value (c !! kw) = N.of_nat (length (insertions kw past)) /\
    ctr_inv (<[kw := next_value (c !! kw)]> c) (past ++ [SoIns kw i d]).
  Proof.
    intros Hg E Hc.
    assert (Hn : next_value (c !! kw) = N.of_nat (length (insertions kw past))).
    { rewrite (Hc kw). destruct (length (insertions kw past)) as [|n] eqn:El; [done|]. cbn [next_value]. unfold incr32.
      pose proof (Hg kw) as Hlt. rewrite E, insertions_app, app_length, El in Hlt. rewrite N.mod_small by lia. lia. }
    split; [done|]. intros kw'. rewrite insertions_app, app_length, insertions_ins. destruct (decide (kw = kw')) as [->|Hne].
    - rewrite lookup_insert, Hn. cbn. by replace (length (insertions kw' past) + 1) with (Datatypes.S (length (insertions kw' past))) by lia.
    - rewrite lookup_insert_ne by done. cbn. rewrite Nat.add_0_r. apply Hc.
  Qed.

  Lemma search_loop_same f db kw m p q p' q' : h = p ++ q -> h' = p' ++ q' -> SoFind kw ∈ q -> SoFind kw ∈ q' ->
    m < length (insertions kw p) -> m < length (insertions kw p') ->
    so_search_loop (with_prf S f) (Datatypes.S m) db (token_key S kw) (token_state S kw m) =
    so_search_loop (with_prf S (prf_there f)) (Datatypes.S m) db (token_key S kw) (token_state S kw m).
  Proof.
    intros E E' Hq Hq'. induction m as [|m IH]; intros Hm Hm'.
    - cbn [so_search_loop]. f_equal. unfold so_access, gen_update_token_masks, with_prf. cbn [so_prf].
      rewrite !prf_there_out; [done|..]; eapply early_visible; eassumption.
    - cbn [so_search_loop]. f_equal.
      + unfold so_access, gen_update_token_masks, with_prf. cbn [so_prf].
        rewrite !prf_there_out; [done|..]; eapply early_visible; eassumption.
      + assert (so_eval S (token_state S kw (Datatypes.S m)) = token_state S kw m) as He by apply Htdp.
        cbn [so_eval with_prf]. rewrite He. apply IH; lia.
  Qed.

  Lemma view_same f : prf_ok f -> forall ops past past' ops' c c' db,
    h = past ++ ops -> h' = past' ++ ops' -> same_leakage ops ops' ->
    (forall kw, SoFind kw ∈ ops -> insertions kw past = insertions kw past') ->
    (forall x, x ∈ hid past past' ops ops' -> x ∈ hid [] [] h h') ->
    ctr_inv c past -> ctr_inv c' past' ->
    so_view (with_prf S f) c db ops = so_view (with_prf S (prf_there f)) c' db ops'.
  Proof.
    intros Hf. induction ops as [|[kw i d|kw] ops IH]; intros past past' [|[kw' i' d'|kw'] ops'] c c' db E E' Hl Heq Hsub Hc Hc';
      cbn [same_leakage] in Hl; try done.
    - destruct Hl as (<- & Hl1 & Hl).
      destruct (ctr_inv_ins h c past kw i d ops Hfew E Hc) as [Hn Hcn].
      destruct (ctr_inv_ins h' c' past' kw' i' d ops' Hfew' E' Hc') as [Hn' Hcn'].
      assert ((so_insertion_request (with_prf S f) c kw i).2 = (so_insertion_request (with_prf S (prf_there f)) c' kw' i').2) as Hu.
      { unfold so_insertion_request, ctr_get_and_increment. rewrite Hn, Hn'.
        assert (Hst : forall g kw n, (if (N.of_nat n =? 0)%N then so_gen (with_prf S g) (so_keyword_index (with_prf S g) kw)
            else invert_mult (with_prf S g) (so_gen (with_prf S g) (so_keyword_index (with_prf S g) kw)) (N.of_nat n)) = token_state S kw n).
        { intros g k n. unfold invert_mult, with_prf, so_keyword_index, token_state. cbn. rewrite Nnat.Nat2N.id.
          destruct n; done. }
        cbn zeta. rewrite !Hst. unfold gen_update_token_masks. cbn [so_prf so_kprf with_prf snd].
        change (so_keyword_index (with_prf S f) kw) with (take 16 (so_hash S kw)).
        change (so_keyword_index (with_prf S (prf_there f)) kw') with (take 16 (so_hash S kw')).
        change (so_kprf S (take 16 (so_hash S kw))) with (token_key S kw).
        change (so_kprf S (take 16 (so_hash S kw'))) with (token_key S kw').
        cbn [hid] in Hsub. case_decide as Hd.
        - destruct Hl1 as [<- <-]; [by left|]. assert (length (insertions kw past) = length (insertions kw past')) as <-
            by (f_equal; apply Heq; by right).
          assert (SoFind kw ∈ ops') as Hd' by (by eapply leakage_finds).
          assert (forall b, prf_there f (token_key S kw) (token_state S kw (length (insertions kw past)) ++ [b]) =
            f (token_key S kw) (token_state S kw (length (insertions kw past)) ++ [b])) as Hv.
          { intros b. apply prf_there_out.
            - apply (early_visible h kw _ b (past ++ [SoIns kw i d]) ops); [done| |done|].
              + by rewrite E, <- (assoc_L (++)).
              + rewrite insertions_app, app_length, insertions_ins, decide_True by done. cbn. lia.
            - apply (early_visible h' kw _ b (past' ++ [SoIns kw i d]) ops'); [done| |done|].
              + by rewrite E', <- (assoc_L (++)).
              + rewrite insertions_app, app_length, insertions_ins, decide_True by done. cbn.
                assert (insertions kw past = insertions kw past') as -> by (apply Heq; by right). lia. }
          by rewrite !Hv.
        - set (x := ((kw, length (insertions kw past), i), (kw', length (insertions kw' past'), i'))) in *.
          assert (Hx : x ∈ hid [] [] h h') by (apply Hsub; by left).
          assert (Ht : prf_there f (token_key S kw') (token_state S kw' (length (insertions kw' past')) ++ [48%N]) =
            f (token_key S kw) (token_state S kw (length (insertions kw past)) ++ [48%N])).
          { unfold prf_there. rewrite (there_spec moves (unc f) (pt x.1.1 48) (pt x.2.1 48) id); [done|apply moves_nodup1|apply moves_nodup2|].
            apply elem_of_list_bind. exists x. split; [by left|done]. }
          assert (Hm : prf_there f (token_key S kw') (token_state S kw' (length (insertions kw' past')) ++ [49%N]) =
            xor_bytes (mask_delta i i') (f (token_key S kw) (token_state S kw (length (insertions kw past)) ++ [49%N]))).
          { unfold prf_there. rewrite (there_spec moves (unc f) (pt x.1.1 49) (pt x.2.1 49) (xor_bytes (mask_delta i i')));
              [done|apply moves_nodup1|apply moves_nodup2|].
            apply elem_of_list_bind. exists x. split; [by right; left|done]. }
          rewrite Ht, Hm. f_equal. symmetry. destruct (hid_hidden _ _ _ _ _ Hleak Hx) as (_ & _ & _ & _ & H5 & H6).
          apply mask_delta_ok; [by apply H5|by apply H6|]. apply Hf. }
      cbn [so_view]. rewrite Hu. f_equal. eapply (IH (past ++ [SoIns kw i d]) (past' ++ [SoIns kw' i' d])).
      + by rewrite E, <- (assoc_L (++)).
      + by rewrite E', <- (assoc_L (++)).
      + done.
      + intros k Hk. rewrite !insertions_app, !insertions_ins. rewrite (Heq k) by (by right). f_equal.
        destruct (decide (kw = k)) as [->|Hne].
        * destruct Hl1 as [<- <-]; [by left|]. by rewrite decide_True.
        * destruct (decide (kw' = k)) as [->|Hne']; [|done]. exfalso. apply Hne. apply Hl1. right. by eapply leakage_finds.
      + intros x Hx. apply Hsub. cbn [hid]. apply elem_of_app. by right.
      + exact Hcn.
      + exact Hcn'.
    - destruct Hl as [<- Hl]. cbn [so_view].
      assert (Hlen : length (insertions kw past) = length (insertions kw past')) by (f_equal; apply Heq; by left).
      assert (Hr : so_search_request (with_prf S f) c kw = so_search_request (with_prf S (prf_there f)) c' kw).
      { unfold so_search_request, ctr_get. rewrite (Hc kw), (Hc' kw), <- Hlen. done. }
      rewrite <- Hr. f_equal.
      + f_equal. unfold so_server_search, so_search_request, ctr_get. rewrite (Hc kw).
        destruct (length (insertions kw past)) as [|m] eqn:El; [done|]. cbn [ss_count ss_key ss_token].
        assert ((N.of_nat m + 1) mod 2 ^ 32 = N.of_nat (Datatypes.S m))%N as ->.
        { pose proof (Hfew kw) as Hlt. rewrite E, insertions_app, app_length, El in Hlt. rewrite N.mod_small by lia. lia. }
        rewrite Nnat.Nat2N.id.
        assert (invert_mult (with_prf S f) (so_gen (with_prf S f) (so_keyword_index (with_prf S f) kw)) (N.of_nat m) = token_state S kw m) as ->.
        { unfold invert_mult. by rewrite Nnat.Nat2N.id. }
        change (so_kprf (with_prf S f) (so_keyword_index (with_prf S f) kw)) with (token_key S kw).
        apply (search_loop_same f db kw m past (SoFind kw :: ops) past' (SoFind kw :: ops')); try done; [by left|by left|lia|lia].
      + apply (IH (past ++ [SoFind kw]) (past' ++ [SoFind kw])).
        * by rewrite E, <- (assoc_L (++)).
        * by rewrite E', <- (assoc_L (++)).
        * done.
        * intros k Hk. rewrite !insertions_app. rewrite (Heq k) by (by right). done.
        * exact Hsub.
        * intros k. rewrite insertions_app, app_length. cbn. rewrite Nat.add_0_r. apply Hc.
        * intros k. rewrite insertions_app, app_length. cbn. rewrite Nat.add_0_r. apply Hc'.
  Qed.
End sophos.

(** C76 (Sophos): two histories that reveal the same on purpose look the same to the server
    if the PRF of the update tokens is random: there is a bijection of the PRFs that turns
    the view of one history into the view of the other.  The bijection only changes the
    PRF on the inputs of the insertions that come after the last search of their keyword,
    so that a server that cannot compute these inputs cannot tell the PRFs apart. *)
Theorem C76_sophos_updates_hidden :
  forall (S : sophos) h h',
    tdp_ok S -> same_leakage h h' -> distinct_inputs S h -> distinct_inputs S h' ->
    few_insertions h -> few_insertions h' -> docs64 h -> docs64 h' ->
    exists there back, bijection there back /\
      (forall f k x, ~ hidden_input S h k x -> ~ hidden_input S h' k x -> there f k x = f k x) /\
      (forall f, prf_ok f -> so_view (with_prf S f) ∅ ∅ h = so_view (with_prf S (there f)) ∅ ∅ h').
Proof.
  intros S h h' Ht Hl Hd Hd' Hf Hf' Hi Hi'. exists (prf_there S h h'), (prf_back S h h'). split; [|split].
  - by apply prf_bijection.
  - intros f k x. by apply prf_there_out.
  - intros f Hok. apply (view_same S h h' Ht Hl Hd Hd' Hf Hf' Hi Hi' f Hok h [] []); try done.
Qed.
Print Assumptions C76_sophos_updates_hidden.

Lemma state_ctr S ops : forall g past c db, few_insertions g -> g = past ++ ops -> ctr_inv c past ->
  ctr_inv (so_state S c db ops).1 (past ++ ops).
Proof.
  induction ops as [|[kw i d|kw] ops IH]; intros g past c db Hg E Hc.
  - by rewrite app_nil_r.
  - cbn [so_state]. assert (past ++ SoIns kw i d :: ops = (past ++ [SoIns kw i d]) ++ ops) as E'
      by (by rewrite <- (assoc_L (++))). rewrite E'. apply (IH g); [done|by rewrite <- E'|].
    unfold so_insertion_request, ctr_get_and_increment. cbn. by apply (ctr_inv_ins g c past kw i d ops).
  - cbn [so_state]. assert (past ++ SoFind kw :: ops = (past ++ [SoFind kw]) ++ ops) as E'
      by (by rewrite <- (assoc_L (++))). rewrite E'. apply (IH g); [done|by rewrite <- E'|].
    intros k. rewrite insertions_app, app_length. cbn. rewrite Nat.add_0_r. apply Hc.
Qed.

(** C76 (Sophos): a search request gives access to no hidden input: the inputs that the
    server computes from it are those of insertions made before. *)
Theorem C76_sophos_requests :
  forall (S : sophos) h p kw q m b,
    tdp_ok S -> distinct_inputs S h -> few_insertions h -> h = p ++ SoFind kw :: q ->
    let r := so_search_request S (so_state S ∅ ∅ p).1 kw in
    (N.of_nat m < ss_count r)%N -> ~ hidden_input S h (ss_key r) (Nat.iter m (so_eval S) (ss_token r) ++ [b]).
Proof.
  intros S h p kw q m b Ht Hd Hf E. cbn zeta. unfold so_search_request, ctr_get.
  assert (ctr_inv (so_state S ∅ ∅ p).1 p) as Hc.
  { apply (state_ctr S p p [] ∅ ∅); [|done|done]. intros k. pose proof (Hf k) as Hk.
    rewrite E, insertions_app, app_length in Hk. lia. }
  rewrite (Hc kw). destruct (length (insertions kw p)) as [|n] eqn:El; cbn [ss_key ss_token ss_count]; [lia|].
  intros Hm. assert (m <= n) as Hmn.
  { assert ((N.of_nat n + 1) mod 2 ^ 32 <= N.of_nat n + 1)%N by (apply N.mod_le; lia). lia. }
  assert (invert_mult S (so_gen S (so_keyword_index S kw)) (N.of_nat n) = token_state S kw n) as ->.
  { unfold invert_mult. by rewrite Nnat.Nat2N.id. }
  change (so_kprf S (so_keyword_index S kw)) with (token_key S kw).
  assert (forall m n, m <= n -> Nat.iter m (so_eval S) (token_state S kw n) = token_state S kw (n - m)) as Hit.
  { clear -Ht. induction m as [|m IH]; intros n Hn; [by rewrite Nat.sub_0_r|].
    change (Nat.iter (Datatypes.S m) (so_eval S) (token_state S kw n)) with (so_eval S (Nat.iter m (so_eval S) (token_state S kw n))).
    rewrite IH by lia. replace (n - m) with (Datatypes.S (n - Datatypes.S m)) by lia. apply Ht. }
  rewrite Hit by lia. apply (early_visible S h kw _ b p (SoFind kw :: q)); [done|done|by left|lia].
Qed.
Print Assumptions C76_sophos_requests.

(** An insertion after a search of its keyword looks like an insertion of another
    keyword. *)
Definition ex_hide : sophos :=
  Sophos (fun kw => kw) (fun x => x) (fun x => 0%N :: x) tail (fun x => x) (fun _ _ => replicate 16 0%N).
Definition ex_h : list so_op := [SoIns [1%N] 5 true; SoFind [1%N]; SoIns [1%N] 6 true; SoIns [2%N] 7 true].
Definition ex_h' : list so_op := [SoIns [1%N] 5 true; SoFind [1%N]; SoIns [2%N] 8 true; SoIns [2%N] 9 true].
Lemma ex_distinct h : Forall (fun o => match o with SoIns kw _ _ => kw = [1%N] \/ kw = [2%N] | SoFind _ => True end) h ->
  distinct_inputs ex_hide h.
Proof.
  intros Hh kw n kw' n' H1 H2 Hk Hs.
  assert (forall kw n, n < length (insertions kw h) -> kw = [1%N] \/ kw = [2%N]) as Hkw.
  { clear -Hh. intros kw n Hn. induction Hh as [|[k i d|k] h Hk _ IH]; cbn in Hn; [lia| |by apply IH].
    destruct (decide (k = kw)) as [->|]; [done|]. by apply IH. }
  assert (kw = kw') as <-.
  { destruct (Hkw kw n H1) as [->| ->], (Hkw kw' n' H2) as [->| ->]; done. }
  split; [done|].
  assert (forall n, length (token_state ex_hide kw n) = n + length (take 16 kw)) as Hlen.
  { clear. induction n as [|n IH]; [done|]. change (token_state ex_hide kw (S n)) with (0%N :: token_state ex_hide kw n).
    cbn [length]. rewrite IH. lia. }
  apply (f_equal length) in Hs. rewrite !Hlen in Hs. lia.
Qed.
Example C76_ex :
  tdp_ok ex_hide /\ same_leakage ex_h ex_h' /\ distinct_inputs ex_hide ex_h /\ distinct_inputs ex_hide ex_h' /\
  few_insertions ex_h /\ few_insertions ex_h' /\ docs64 ex_h /\ docs64 ex_h' /\
  hidden ex_h [1%N] 1 /\ hidden ex_h' [2%N] 0 /\ ~ hidden ex_h [1%N] 0.
Proof.
  split; [done|]. split.
  { cbn. split; [done|]. split; [by intros _|]. split; [done|]. split; [done|].
    split; [|split; [done|split; [|done]]];
      intros [H|H]; exfalso; repeat (apply elem_of_cons in H as [H|H]; [discriminate H|]); by apply elem_of_nil in H. }
  split; [apply ex_distinct; unfold ex_h; repeat (apply Forall_cons; split; [by auto|]); by apply Forall_nil|].
  split; [apply ex_distinct; unfold ex_h'; repeat (apply Forall_cons; split; [by auto|]); by apply Forall_nil|].
  assert (forall h, length h <= 4 -> few_insertions h) as Hfew.
  { intros h Hh kw. assert (length (insertions kw h) <= length h); [|lia]. clear Hh.
    induction h as [|[k i d|k] h IH]; cbn [length]; [done| |unfold insertions in *; csimpl; lia].
    unfold insertions in *. csimpl. case_decide; cbn [length]; lia. }
  split; [by apply Hfew|]. split; [by apply Hfew|]. split; [by repeat constructor|]. split; [by repeat constructor|].
  split; [|split].
  - exists [SoIns [1%N] 5 true; SoFind [1%N]], 6%N, true, [SoIns [2%N] 7 true]. split; [done|]. split; [done|].
    intros H. by apply elem_of_list_singleton in H.
  - exists [SoIns [1%N] 5 true; SoFind [1%N]], 8%N, true, [SoIns [2%N] 9 true]. split; [done|]. split; [done|].
    intros H. by apply elem_of_list_singleton in H.
  - intros H. assert (length (insertions [1%N] [SoIns [1%N] 5 true]) = 1) as E by done.
    assert (length (insertions [1%N] [SoIns [1%N] 5 true]) <= 0); [|lia].
    apply (hidden_late _ _ _ _ [SoFind [1%N]; SoIns [1%N] 6 true; SoIns [2%N] 7 true] H); [done|by left].
Qed.
