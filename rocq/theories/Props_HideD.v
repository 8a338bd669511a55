(** C77: the updates of Diana reveal nothing until their keyword is searched. *)
From stdpp Require Import prelude gmap.
From Coq Require Import NArith Lia.
From Verif Require Import Base EncModel KvModel UtilsModel DianaModel DianaSpec HideProofs HideDSpec.

Global Instance atom_eq_dec : EqDecision atom.
Proof. solve_decision. Defined.

(** ** Sequences of insertions and searches *)
Lemma a_count_app kw l l' : a_count kw (l ++ l') = a_count kw l + a_count kw l'.
Proof. unfold a_count. by rewrite omap_app, app_length. Qed.
Lemma a_count_ins kw k doc : a_count kw [AIns k doc] = if decide (k = kw) then 1 else 0.
Proof. unfold a_count. csimpl. by case_decide. Qed.

Fixpoint a_leak (h h' : list atom) : Prop :=
  match h, h' with
  | [], [] => True
  | AFind kw :: t, AFind kw' :: t' => kw = kw' /\ a_leak t t'
  | AIns kw i :: t, AIns kw' i' :: t' =>
      (AFind kw ∈ t \/ AFind kw' ∈ t' -> kw = kw' /\ i = i') /\ a_leak t t'
  | _, _ => False
  end.
Lemma a_leak_finds h h' kw : a_leak h h' -> AFind kw ∈ h -> AFind kw ∈ h'.
Proof.
  revert h'. induction h as [|[k i|k] h IH]; intros [|[k' i'|k'] h'] H; cbn [a_leak] in H; try done.
  - intros [E|Hin]%elem_of_cons; [done|]. right. apply IH; [tauto|done].
  - destruct H as [-> H]. intros [E|Hin]%elem_of_cons; [rewrite E; by left|]. right. by apply IH.
Qed.
Lemma a_leak_sym h h' : a_leak h h' -> a_leak h' h.
Proof.
  revert h'. induction h as [|[k i|k] h IH]; intros [|[k' i'|k'] h'] H; cbn [a_leak] in *; try done.
  - destruct H as (H1 & H2). split; [|by apply IH]. intros [H|H]; destruct H1 as [-> ->]; tauto.
  - destruct H as [-> H]. split; [done|]. by apply IH.
Qed.
Lemma searched_atoms kw h : searched kw h <-> AFind kw ∈ d_atoms h.
Proof.
  unfold searched, d_atoms. split.
  - intros [del H]. apply elem_of_list_bind. exists (DFind kw del). split; [by left|done].
  - intros H. apply elem_of_list_bind in H as ([k doc d|l|k del] & Ho & H).
    + by apply elem_of_list_singleton in Ho.
    + by apply elem_of_list_fmap in Ho as (? & ? & _).
    + apply elem_of_list_singleton in Ho as [= ->]. by exists del.
Qed.
Lemma leak_atoms h h' : d_same_leakage h h' -> a_leak (d_atoms h) (d_atoms h').
Proof.
  revert h'. induction h as [|[k doc d|l|k del] h IH]; intros [|[k' doc' d'|l'|k' del'] h'] H; cbn [d_same_leakage] in H; try done.
  - destruct H as (_ & H1 & H2). rewrite !searched_atoms in H1. split; [exact H1|]. by apply IH.
  - destruct H as (H1 & H2). unfold d_atoms. cbn [mbind list_bind]. fold (d_atoms h). fold (d_atoms h').
    induction H1 as [|x x' l l' [_ Hx] _ IHl]; [by apply IH|]. cbn [fmap list_fmap app a_leak]. split; [|exact IHl].
    rewrite !elem_of_app, !elem_of_list_fmap. rewrite !searched_atoms in Hx.
    intros H. assert (x.1 = x'.1) as E.
    { apply Hx. destruct H as [[(? & ? & _)|H]|[(? & ? & _)|H]]; try done; tauto. }
    by rewrite E.
  - destruct H as (-> & _ & H2). split; [done|]. by apply IH.
Qed.

Definition a_hidden (h : list atom) (kw : bytes) (n : nat) : Prop :=
  exists p doc q, h = p ++ AIns kw doc :: q /\ a_count kw p = n /\ AFind kw ∉ q.
Lemma a_hidden_late h kw n p q : a_hidden h kw n -> h = p ++ q -> AFind kw ∈ q -> a_count kw p <= n.
Proof.
  intros (p' & i & q' & E & <- & Hn) E' Hq. rewrite E' in E. clear E'.
  assert (exists l, p' = p ++ l) as [l ->].
  { revert p' E. induction p as [|o p IH]; intros p' E; [by exists p'|]. destruct p' as [|o' p'].
    - exfalso. injection E as _ E. apply Hn. rewrite <- E. apply elem_of_app. by right.
    - injection E as -> E. destruct (IH p' E) as [l ->]. by exists l. }
  rewrite a_count_app. lia.
Qed.
Lemma a_hidden_bound h kw n : a_hidden h kw n -> n < a_count kw h.
Proof.
  intros (p & i & q & -> & <- & _).
  assert (p ++ AIns kw i :: q = p ++ [AIns kw i] ++ q) as -> by done.
  rewrite !a_count_app, a_count_ins, decide_True by done. lia.
Qed.

(** The hidden insertions of two sequences. *)
Fixpoint hid (past past' ops ops' : list atom) : list ((bytes * nat * bytes) * (bytes * nat * bytes)) :=
  match ops, ops' with
  | AIns kw i :: t, AIns kw' i' :: t' =>
      (if decide (AFind kw ∈ t) then []
       else [((kw, a_count kw past, i), (kw', a_count kw' past', i'))]) ++
      hid (past ++ [AIns kw i]) (past' ++ [AIns kw' i']) t t'
  | o :: t, o' :: t' => hid (past ++ [o]) (past' ++ [o']) t t'
  | _, _ => []
  end.
Lemma hid_hidden ops : forall past past' ops' x, a_leak ops ops' -> x ∈ hid past past' ops ops' ->
  a_hidden (past ++ ops) x.1.1.1 x.1.1.2 /\ a_hidden (past' ++ ops') x.2.1.1 x.2.1.2 /\
  (a_count x.1.1.1 past <= x.1.1.2) /\ (a_count x.2.1.1 past' <= x.2.1.2) /\
  AIns x.1.1.1 x.1.2 ∈ ops /\ AIns x.2.1.1 x.2.2 ∈ ops'.
Proof.
  induction ops as [|[kw i|kw] ops IH]; intros past past' [|[kw' i'|kw'] ops'] x Hl Hx; cbn [a_leak] in Hl; try done;
    cbn [hid] in Hx; try (by apply elem_of_nil in Hx).
  - destruct Hl as (Hl1 & Hl).
    apply elem_of_app in Hx as [Hx|Hx].
    + case_decide as Hd; [by apply elem_of_nil in Hx|]. apply elem_of_list_singleton in Hx as ->. cbn [fst snd].
      split; [by exists past, i, ops|]. split; [exists past', i', ops'; split; [done|]; split; [done|]|].
      { intros Hin. apply Hd. destruct Hl1 as [-> _]; [by right|].
        apply (a_leak_finds ops' ops); [by apply a_leak_sym|done]. }
      split; [lia|]. split; [lia|]. split; by left.
    + destruct (IH _ _ _ _ Hl Hx) as (I1 & I2 & I3 & I4 & I5 & I6). rewrite <- !(assoc_L (++)) in I1, I2.
      rewrite a_count_app in I3. rewrite a_count_app in I4.
      split; [done|]. split; [done|]. split; [lia|]. split; [lia|]. split; by right.
  - destruct Hl as [-> Hl]. destruct (IH _ _ _ _ Hl Hx) as (I1 & I2 & I3 & I4 & I5 & I6). rewrite <- !(assoc_L (++)) in I1, I2.
    rewrite a_count_app in I3. rewrite a_count_app in I4.
    split; [done|]. split; [done|]. split; [lia|]. split; [lia|]. split; by right.
Qed.
Lemma hid_nodup ops : forall past past' ops', a_leak ops ops' ->
  NoDup ((hid past past' ops ops').*1.*1) /\ NoDup ((hid past past' ops ops').*2.*1).
Proof.
  induction ops as [|[kw i|kw] ops IH]; intros past past' [|[kw' i'|kw'] ops'] Hl; cbn [a_leak] in Hl; try done;
    cbn [hid]; try (split; constructor).
  - destruct Hl as (Hl1 & Hl). destruct (IH (past ++ [AIns kw i]) (past' ++ [AIns kw' i']) ops' Hl) as [I1 I2].
    case_decide as Hd; [done|]. cbn [app fmap list_fmap fst snd]. split; (apply NoDup_cons; split; [|done]).
    + intros Hin. apply elem_of_list_fmap in Hin as (y & E & Hin). apply elem_of_list_fmap in Hin as (x & -> & Hin).
      destruct (hid_hidden _ _ _ _ _ Hl Hin) as (_ & _ & I3 & _). cbn [fst] in E. rewrite <- E in I3. cbn [fst snd] in I3.
      rewrite a_count_app, a_count_ins, decide_True in I3 by done. lia.
    + intros Hin. apply elem_of_list_fmap in Hin as (y & E & Hin). apply elem_of_list_fmap in Hin as (x & -> & Hin).
      destruct (hid_hidden _ _ _ _ _ Hl Hin) as (_ & _ & _ & I3 & _). cbn [fst] in E. rewrite <- E in I3. cbn [fst snd] in I3.
      rewrite a_count_app, a_count_ins, decide_True in I3 by done. lia.
  - destruct Hl as [-> Hl]. by apply IH.
Qed.

Section diana.
  Variable D : diana.
  Variable h h' : list d_op.
  Hypothesis Hrc : rcprf_ok D.
  Hypothesis Hleak : d_same_leakage h h'.
  Hypothesis Hdist : distinct_leaves D h.
  Hypothesis Hdist' : distinct_leaves D h'.
  Hypothesis Hfew : few_leaves h.
  Hypothesis Hfew' : few_leaves h'.
  Hypothesis Hdocs : docs_bytes (d_len D) h.
  Hypothesis Hdocs' : docs_bytes (d_len D) h'.

  Lemma Hal : a_leak (d_atoms h) (d_atoms h').
  Proof. by apply leak_atoms. Qed.

  Definition lf (x : bytes * nat) : bytes := kw_leaf D x.1 x.2.
  Definition delta (i i' : bytes) : bytes := replicate 16 0%N ++ zip_with N.lxor i i'.
  Definition hids := hid [] [] (d_atoms h) (d_atoms h').
  Definition moves : list (bytes * bytes * (bytes -> bytes)) :=
    (fun x => (lf x.1.1, lf x.2.1, xor_bytes (delta x.1.2 x.2.2))) <$> hids.

  Lemma moves1 : moves.*1.*1 = lf <$> hids.*1.*1.
  Proof. unfold moves. rewrite <- !list_fmap_compose. done. Qed.
  Lemma moves2 : moves.*1.*2 = lf <$> hids.*2.*1.
  Proof. unfold moves. rewrite <- !list_fmap_compose. done. Qed.

  Lemma in_hids1 x : x ∈ hids.*1.*1 -> d_hidden h x.1 x.2.
  Proof.
    intros Hx. apply elem_of_list_fmap in Hx as (q & -> & Hx). apply elem_of_list_fmap in Hx as (t & -> & Hx).
    by destruct (hid_hidden _ _ _ _ _ Hal Hx) as (H1 & _).
  Qed.
  Lemma in_hids2 x : x ∈ hids.*2.*1 -> d_hidden h' x.1 x.2.
  Proof.
    intros Hx. apply elem_of_list_fmap in Hx as (q & -> & Hx). apply elem_of_list_fmap in Hx as (t & -> & Hx).
    by destruct (hid_hidden _ _ _ _ _ Hal Hx) as (_ & H1 & _).
  Qed.
  Lemma nodup_lf g l : distinct_leaves D g -> NoDup l -> (forall x, x ∈ l -> d_hidden g x.1 x.2) -> NoDup (lf <$> l).
  Proof.
    intros Hg Hl Hin. induction Hl as [|x l Hx Hl IH]; [constructor|]. cbn [fmap list_fmap]. apply NoDup_cons. split.
    - intros Hy. apply elem_of_list_fmap in Hy as (y & E & Hy). apply Hx. assert (x = y) as ->; [|done].
      assert (d_hidden g x.1 x.2) as Hhx by (apply Hin; by left). assert (d_hidden g y.1 y.2) as Hhy by (apply Hin; by right).
      destruct x as [k n], y as [k' n']. destruct (Hg k n k' n') as [-> ->]; try done.
      + apply (a_hidden_bound _ _ _ Hhx).
      + apply (a_hidden_bound _ _ _ Hhy).
    - apply IH. intros y Hy. apply Hin. by right.
  Qed.
  Lemma moves_nodup1 : NoDup moves.*1.*1.
  Proof. rewrite moves1. apply (nodup_lf h); [done|apply hid_nodup, Hal|apply in_hids1]. Qed.
  Lemma moves_nodup2 : NoDup moves.*1.*2.
  Proof. rewrite moves2. apply (nodup_lf h'); [done|apply hid_nodup, Hal|apply in_hids2]. Qed.

  Definition okg (v : bytes) : Prop := length v = 16 + d_len D /\ Forall (fun b => (b < 256)%N) v.
  Lemma hids_docs x : x ∈ hids -> (length x.1.2 = d_len D /\ Forall (fun b => (b < 256)%N) x.1.2) /\
    (length x.2.2 = d_len D /\ Forall (fun b => (b < 256)%N) x.2.2).
  Proof.
    intros Hx. destruct (hid_hidden _ _ _ _ _ Hal Hx) as (_ & _ & _ & _ & H1 & H2). split; [by eapply Hdocs|by eapply Hdocs'].
  Qed.
  Lemma moves_ok : corr_ok okg moves.
  Proof.
    apply Forall_forall. intros t Ht v [Hv1 Hv2]. apply elem_of_list_fmap in Ht as (x & -> & Hx). cbn [snd].
    destruct (hids_docs x Hx) as [[L1 B1] [L2 B2]].
    destruct (xor_bytes_ok x.1.2 x.2.2) as (J1 & J2 & _); [lia|done|done|]. unfold xor_bytes in J1, J2.
    destruct (xor_bytes_ok (delta x.1.2 x.2.2) v) as (I1 & I2 & I3).
    - unfold delta. rewrite app_length, replicate_length, J1. lia.
    - unfold delta. apply Forall_app. split; [by apply Forall_replicate|done].
    - done.
    - unfold okg. rewrite I1. done.
  Qed.

  Definition g_there (g : bytes -> bytes) : bytes -> bytes := there moves g.
  Definition g_back (g : bytes -> bytes) : bytes -> bytes := back moves g.
  Lemma g_bijection : prg_bijection (16 + d_len D) g_there g_back.
  Proof.
    pose proof moves_ok as Hm. split.
    - intros g Hg. split; intros st; [by apply (there_ok okg moves g Hm)|by apply (back_ok okg moves g Hm)].
    - intros g Hg st. split; [by apply (back_there okg moves g Hm)|by apply (there_back okg moves g Hm)].
  Qed.
  Lemma g_there_out g st : ~ hidden_leaf D h st -> ~ hidden_leaf D h' st -> g_there g st = g st.
  Proof.
    intros H1 H2. unfold g_there. apply there_out.
    - rewrite moves1. intros Hin. apply elem_of_list_fmap in Hin as (x & -> & Hx). apply H1. exists x.1, x.2.
      split; [by apply in_hids1|done].
    - rewrite moves2. intros Hin. apply elem_of_list_fmap in Hin as (x & -> & Hx). apply H2. exists x.1, x.2.
      split; [by apply in_hids2|done].
  Qed.
  Lemma early_visible g kw n p q : distinct_leaves D g -> d_atoms g = p ++ q -> AFind kw ∈ q -> n < a_count kw p ->
    ~ hidden_leaf D g (kw_leaf D kw n).
  Proof.
    intros Hd E Hq Hn (kw' & n' & Hh & E1).
    destruct (Hd kw n kw' n') as [-> ->].
    - rewrite E, a_count_app. lia.
    - apply (a_hidden_bound _ _ _ Hh).
    - done.
    - pose proof (a_hidden_late _ _ _ _ _ Hh E Hq). lia.
  Qed.

  Definition ctr_inv (c : counters) (past : list atom) : Prop :=
    forall kw, c !! kw = match a_count kw past with O => None | Datatypes.S n => Some (N.of_nat n) end.
  Lemma ctr_inv_ins g c past kw i ops : few_leaves g -> d_atoms g = past ++ AIns kw i :: ops -> ctr_inv c past ->
    next_value (c !! kw) = N.of_nat (a_count kw past) /\
    ctr_inv (<[kw := next_value (c !! kw)]> c) (past ++ [AIns kw i]).
  Proof.
    intros Hg E Hc.
    assert (Hn : next_value (c !! kw) = N.of_nat (a_count kw past)).
    { rewrite (Hc kw). destruct (a_count kw past) as [|n] eqn:El; [done|]. cbn [next_value]. unfold incr32.
      pose proof (Hg kw) as Hlt. rewrite E, a_count_app, El in Hlt. rewrite N.mod_small by lia. lia. }
    split; [done|]. intros kw'. rewrite a_count_app, a_count_ins. destruct (decide (kw = kw')) as [->|Hne].
    - rewrite lookup_insert, Hn. by replace (a_count kw' past + 1) with (Datatypes.S (a_count kw' past)) by lia.
    - rewrite lookup_insert_ne by done. rewrite Nat.add_0_r. apply Hc.
  Qed.
  Lemma ctr_inv_find c past kw : ctr_inv c past -> ctr_inv c (past ++ [AFind kw]).
  Proof. intros Hc k. rewrite a_count_app. cbn. rewrite Nat.add_0_r. apply Hc. Qed.

  (** The two runs, between two insertions or searches. *)
  Record synced (past past' ops ops' : list atom) (c c' : counters) : Prop := {
    sy_h : d_atoms h = past ++ ops; sy_h' : d_atoms h' = past' ++ ops';
    sy_leak : a_leak ops ops';
    sy_eq : forall kw, AFind kw ∈ ops -> a_count kw past = a_count kw past';
    sy_sub : forall x, x ∈ hid past past' ops ops' -> x ∈ hids;
    sy_c : ctr_inv c past; sy_c' : ctr_inv c' past' }.

  Lemma ins_same g past past' kw doc kw' doc' ops ops' c c' : prg_ok (16 + d_len D) g ->
    synced past past' (AIns kw doc :: ops) (AIns kw' doc' :: ops') c c' ->
    d_make_update (with_prg D g) kw (next_value (c !! kw)) doc =
    d_make_update (with_prg D (g_there g)) kw' (next_value (c' !! kw')) doc' /\
    synced (past ++ [AIns kw doc]) (past' ++ [AIns kw' doc']) ops ops'
      (<[kw := next_value (c !! kw)]> c) (<[kw' := next_value (c' !! kw')]> c').
  Proof.
    intros Hg [E E' Hl Heq Hsub Hc Hc']. cbn [a_leak] in Hl. destruct Hl as (Hl1 & Hl).
    destruct (ctr_inv_ins h c past kw doc ops Hfew E Hc) as [Hn Hcn].
    destruct (ctr_inv_ins h' c' past' kw' doc' ops' Hfew' E' Hc') as [Hn' Hcn'].
    split.
    - rewrite Hn, Hn'. unfold d_make_update, d_token_mask. cbn [d_leaf d_root d_prg with_prg d_len].
      change (d_leaf D (d_root D (d_keyword_index (with_prg D g) kw)) (N.of_nat (a_count kw past))) with (kw_leaf D kw (a_count kw past)).
      change (d_leaf D (d_root D (d_keyword_index (with_prg D (g_there g)) kw')) (N.of_nat (a_count kw' past')))
        with (kw_leaf D kw' (a_count kw' past')).
      cbn [hid] in Hsub. case_decide as Hd.
      + destruct Hl1 as [<- <-]; [by left|]. assert (a_count kw past = a_count kw past') as <- by (apply Heq; by right).
        assert (AFind kw ∈ ops') as Hd' by (by eapply a_leak_finds).
        rewrite g_there_out; [done|..].
        * apply (early_visible h kw _ (past ++ [AIns kw doc]) ops); [done| |done|].
          -- by rewrite E, <- (assoc_L (++)).
          -- rewrite a_count_app, a_count_ins, decide_True by done. lia.
        * apply (early_visible h' kw _ (past' ++ [AIns kw doc]) ops'); [done| |done|].
          -- by rewrite E', <- (assoc_L (++)).
          -- rewrite a_count_app, a_count_ins, decide_True by done. rewrite (Heq kw) by (by right). lia.
      + set (x := ((kw, a_count kw past, doc), (kw', a_count kw' past', doc'))) in *.
        assert (Hx : x ∈ hids) by (apply Hsub; by left).
        assert (g_there g (kw_leaf D kw' (a_count kw' past')) = xor_bytes (delta doc doc') (g (kw_leaf D kw (a_count kw past)))) as ->.
        { unfold g_there. rewrite (there_spec moves g (lf x.1.1) (lf x.2.1) (xor_bytes (delta doc doc')));
            [done|apply moves_nodup1|apply moves_nodup2|]. apply elem_of_list_fmap. by exists x. }
        destruct (hids_docs x Hx) as [[L1 B1] [L2 B2]]. cbn [x fst snd] in L1, B1, L2, B2.
        destruct (Hg (kw_leaf D kw (a_count kw past))) as [Lg _].
        set (v := g (kw_leaf D kw (a_count kw past))) in *. clearbody v. rewrite !drop_0.
        assert (Hsplit : v = take 16 v ++ drop 16 v) by (by rewrite take_drop).
        assert (length (take 16 v) = 16) as Lt by (rewrite take_length; lia).
        assert (length (drop 16 v) = d_len D) as Ld by (rewrite drop_length; lia).
        assert (xor_bytes (delta doc doc') v = take 16 v ++ zip_with N.lxor (zip_with N.lxor doc doc') (drop 16 v)) as ->.
        { rewrite Hsplit at 1. unfold xor_bytes, delta. rewrite zip_with_app by (rewrite replicate_length; done). f_equal.
          revert Lt. generalize (take 16 v). intros w Lw. rewrite <- Lw. clear. induction w as [|b w IH]; [done|].
          cbn [length replicate zip_with]. rewrite N.lxor_0_l. by f_equal. }
        rewrite take_app_alt by done. rewrite drop_app_alt by done. f_equal.
        assert (length (zip_with N.lxor (zip_with N.lxor doc doc') (drop 16 v)) = d_len D) as Lz.
        { rewrite !zip_with_length. lia. }
        rewrite (firstn_all2 (drop 16 v)) by lia. rewrite firstn_all2 by lia.
        unfold diana_xor_mask. generalize (drop 16 v) Ld. clear -L1 L2. intros w Lw. rewrite <- Lw in L1, L2. clear Lw.
        revert doc doc' L1 L2. induction w as [|b w IH]; intros [|a doc] [|a' doc'] L1 L2; try done. cbn [zip_with].
        f_equal; [|apply IH; cbn in *; lia].
        rewrite <- !N.lxor_assoc, (N.lxor_comm a' a). rewrite (N.lxor_assoc a a' a'), N.lxor_nilpotent. by rewrite N.lxor_0_r.
    - split.
      + by rewrite E, <- (assoc_L (++)).
      + by rewrite E', <- (assoc_L (++)).
      + done.
      + intros k Hk. rewrite !a_count_app, !a_count_ins. rewrite (Heq k) by (by right). f_equal.
        destruct (decide (kw = k)) as [->|Hne].
        * destruct Hl1 as [<- <-]; [by left|]. by rewrite decide_True.
        * destruct (decide (kw' = k)) as [->|Hne']; [|done]. exfalso. apply Hne. apply Hl1. right. by eapply a_leak_finds.
      + intros x Hx. apply Hsub. cbn [hid]. apply elem_of_app. by right.
      + exact Hcn.
      + exact Hcn'.
  Qed.

  Lemma bulk_same g : prg_ok (16 + d_len D) g -> forall l l' past past' ops ops' c c',
    length l = length l' ->
    synced past past' (((fun x : bytes * bytes => AIns x.1 x.2) <$> l) ++ ops) (((fun x : bytes * bytes => AIns x.1 x.2) <$> l') ++ ops') c c' ->
    let r := d_bulk_request (with_prg D g) c l in let r' := d_bulk_request (with_prg D (g_there g)) c' l' in
    r.2 = r'.2 /\
    synced (past ++ ((fun x : bytes * bytes => AIns x.1 x.2) <$> l)) (past' ++ ((fun x : bytes * bytes => AIns x.1 x.2) <$> l')) ops ops' r.1 r'.1.
  Proof.
    intros Hg. cbn zeta. induction l as [|[kw doc] l IH]; intros [|[kw' doc'] l'] past past' ops ops' c c' Hlen Hs; try done.
    { split; [done|]. cbn. by rewrite !app_nil_r. }
    cbn [fmap list_fmap app fst snd] in Hs. destruct (ins_same g _ _ _ _ _ _ _ _ _ _ Hg Hs) as [Hu Hs'].
    injection Hlen as Hlen. destruct (IH _ _ _ _ _ _ _ Hlen Hs') as [Hr Hs''].
    unfold d_bulk_request in *. cbn [d_get_counters]. unfold ctr_get_and_increment.
    destruct (d_get_counters (<[kw:=next_value (c !! kw)]> c) l) as [c1 r1].
    destruct (d_get_counters (<[kw':=next_value (c' !! kw')]> c') l') as [c2 r2].
    cbn [fst snd fmap list_fmap] in *. rewrite Hu. split; [by f_equal|].
    rewrite <- !(assoc_L (++)) in Hs''. exact Hs''.
  Qed.

  Lemma loop_same g kw del p q p' q' : d_atoms h = p ++ q -> d_atoms h' = p' ++ q' -> AFind kw ∈ q -> AFind kw ∈ q' ->
    forall leaves db, Forall (fun x => exists m, x.2 = kw_leaf D kw m /\ m < a_count kw p /\ m < a_count kw p') leaves ->
    d_search_loop (with_prg D g) db leaves del = d_search_loop (with_prg D (g_there g)) db leaves del.
  Proof.
    intros E E' Hq Hq'. induction leaves as [|[i st] leaves IH]; intros db Hf; [done|].
    apply Forall_cons in Hf as [(m & Hst & Hm & Hm') Hf]. cbn [snd] in Hst. subst st. cbn [d_search_loop].
    assert (d_get_unmask (with_prg D g) db (kw_leaf D kw m) del = d_get_unmask (with_prg D (g_there g)) db (kw_leaf D kw m) del) as <-.
    { unfold d_get_unmask, d_token_mask. cbn [d_prg with_prg d_len].
      by rewrite g_there_out by (eapply early_visible; eassumption). }
    destruct (d_get_unmask (with_prg D g) db (kw_leaf D kw m) del) as [db' r]. by rewrite IH.
  Qed.

  Lemma find_same g past past' kw ops ops' c c' db del :
    synced past past' (AFind kw :: ops) (AFind kw :: ops') c c' ->
    let req := d_search_request (with_prg D g) c kw in let req' := d_search_request (with_prg D (g_there g)) c' kw in
    ds_token req = ds_token req' /\ (ds_con req : option (d_con D)) = ds_con req' /\ ds_count req = ds_count req' /\
    d_server_search_list (with_prg D g) db req del = d_server_search_list (with_prg D (g_there g)) db req' del /\
    (exists x, d_server_search_list (with_prg D g) db req del = Ok x).
  Proof.
    intros [E E' Hl Heq Hsub Hc Hc']. cbn zeta. unfold d_search_request, ctr_get. rewrite (Hc kw), (Hc' kw).
    assert (Hlen : a_count kw past = a_count kw past') by (apply Heq; by left).
    rewrite <- Hlen. destruct (a_count kw past) as [|m] eqn:El.
    { repeat (split; [done|]). by eexists. }
    repeat (split; [done|]). unfold d_server_search_list, d_server_search. cbn [ds_count ds_con].
    assert (((N.of_nat m + 1) mod 2 ^ 32 =? 0)%N = false) as ->.
    { apply N.eqb_neq. pose proof (Hfew kw) as Hlt. rewrite E, a_count_app, El in Hlt. rewrite N.mod_small by lia. lia. }
    unfold d_eval_range. cbn [d_max_leaf d_constrain d_eval d_root with_prg].
    change (d_keyword_index (with_prg D (g_there g)) kw) with (take 16 (d_hash D kw)).
    change (d_keyword_index (with_prg D g) kw) with (take 16 (d_hash D kw)).
    destruct Hrc as [Hmax Hev]. rewrite !Hmax, !N.ltb_irrefl.
    assert ((N.of_nat m <? 0)%N = false) as -> by (apply N.ltb_ge; lia). cbn [orb rbind].
    split; [|by eexists].
    rewrite (loop_same g kw del past (AFind kw :: ops) past' (AFind kw :: ops')); [reflexivity|done|done|by left|by left|].
    apply Forall_forall. intros x Hx. apply elem_of_list_fmap in Hx as (i & -> & Hi). apply elem_of_seq in Hi. cbn [snd].
    exists i. rewrite Hev by lia. split; [unfold kw_leaf; by rewrite N.add_0_l|]. lia.
  Qed.

  Lemma view_same g : prg_ok (16 + d_len D) g -> forall ops ops' past past' c c' db,
    d_same_leakage ops ops' -> synced past past' (d_atoms ops) (d_atoms ops') c c' ->
    d_view D g c db ops = d_view D (g_there g) c' db ops'.
  Proof.
    intros Hg. induction ops as [|[kw doc d|l|kw del] ops IH]; intros [|[kw' doc' d'|l'|kw' del'] ops'] past past' c c' db Hl Hs;
      cbn [d_same_leakage] in Hl; try done.
    - destruct Hl as (<- & _ & Hl). destruct (ins_same g _ _ _ _ _ _ _ _ _ _ Hg Hs) as [Hu Hs'].
      cbn [d_view]. unfold d_insertion_request, ctr_get_and_increment. cbn [fst snd]. rewrite Hu. f_equal. by eapply IH.
    - destruct Hl as (Hll & Hl).
      assert (forall l, ((fun x : bytes * bytes * bool => AIns x.1.1 x.1.2) <$> l) = ((fun x : bytes * bytes => AIns x.1 x.2) <$> l.*1)) as Hm
        by (intros l0; by rewrite <- list_fmap_compose).
      unfold d_atoms in Hs. cbn [mbind list_bind] in Hs. fold (d_atoms ops) in Hs. fold (d_atoms ops') in Hs. rewrite !Hm in Hs.
      destruct (bulk_same g Hg (l.*1) (l'.*1) _ _ _ _ _ _ (ltac:(rewrite !fmap_length; by eapply Forall2_length)) Hs) as [Hu Hs'].
      cbn [d_view]. rewrite Hu. assert (l.*2 = l'.*2) as ->; [|f_equal; by eapply IH].
      clear -Hll. induction Hll as [|x x' l l' [Hx _] _ IHl]; [done|]. cbn. by f_equal.
    - destruct Hl as (<- & <- & Hl).
      destruct (find_same g _ _ _ _ _ _ _ db del Hs) as (H1 & H2 & H3 & H4 & [x H5]).
      cbn [d_view]. rewrite <- H4, H5, H1, H2, H3. f_equal. eapply IH; [done|].
      destruct Hs as [E E' Hl' Heq Hsub Hc Hc']. split.
      + rewrite E, <- (assoc_L (++)). done.
      + rewrite E', <- (assoc_L (++)). done.
      + apply Hl'.
      + intros k Hk. rewrite !a_count_app. rewrite (Heq k); [done|by right].
      + exact Hsub.
      + by apply ctr_inv_find.
      + by apply ctr_inv_find.
  Qed.
End diana.

(** C77 (Diana): two histories that reveal the same on purpose look the same to the server
    if the generator of the update tokens and masks is random: there is a bijection of the
    generators that turns the view of one history into the view of the other.  The bijection
    only changes the generator on the leaves of the insertions that come after the last
    search of their keyword. *)
Theorem C77_diana_updates_hidden :
  forall (D : diana) h h',
    rcprf_ok D -> d_same_leakage h h' -> distinct_leaves D h -> distinct_leaves D h' ->
    few_leaves h -> few_leaves h' -> docs_bytes (d_len D) h -> docs_bytes (d_len D) h' ->
    exists there back, prg_bijection (16 + d_len D) there back /\
      (forall g st, ~ hidden_leaf D h st -> ~ hidden_leaf D h' st -> there g st = g st) /\
      (forall g, prg_ok (16 + d_len D) g -> d_view D g ∅ ∅ h = d_view D (there g) ∅ ∅ h').
Proof.
  intros D h h' Hr Hl Hd Hd' Hf Hf' Hi Hi'. exists (g_there D h h'), (g_back D h h'). split; [|split].
  - by apply g_bijection.
  - intros g st. by apply g_there_out.
  - intros g Hok. apply (view_same D h h' Hr Hl Hd Hd' Hf Hf' Hi Hi' g Hok h h' [] []); [done|].
    split; try done. by apply leak_atoms.
Qed.
Print Assumptions C77_diana_updates_hidden.

Lemma bulk_ctr D l : forall g past ops c, few_leaves g ->
  d_atoms g = past ++ ((fun x : bytes * bytes => AIns x.1 x.2) <$> l) ++ ops -> ctr_inv c past ->
  ctr_inv (d_bulk_request D c l).1 (past ++ ((fun x : bytes * bytes => AIns x.1 x.2) <$> l)).
Proof.
  induction l as [|[kw doc] l IH]; intros g past ops c Hg E Hc; [by rewrite app_nil_r|].
  cbn [fmap list_fmap app fst snd] in *. destruct (ctr_inv_ins g c past kw doc _ Hg E Hc) as [_ Hcn].
  assert (past ++ AIns kw doc :: ((fun x : bytes * bytes => AIns x.1 x.2) <$> l) =
    (past ++ [AIns kw doc]) ++ ((fun x : bytes * bytes => AIns x.1 x.2) <$> l)) as -> by (by rewrite <- (assoc_L (++))).
  specialize (IH g (past ++ [AIns kw doc]) ops (<[kw:=next_value (c !! kw)]> c) Hg).
  unfold d_bulk_request in *. cbn [d_get_counters]. unfold ctr_get_and_increment.
  destruct (d_get_counters (<[kw:=next_value (c !! kw)]> c) l) as [c1 r1]. cbn [fst] in *. apply IH; [|done].
  by rewrite E, <- !(assoc_L (++)).
Qed.
Lemma final_ctr D ops : forall g past c db c' db' rest, few_leaves g -> d_atoms g = past ++ d_atoms ops ++ rest -> ctr_inv c past ->
  d_final D c db ops = Ok (c', db') -> ctr_inv c' (past ++ d_atoms ops).
Proof.
  induction ops as [|[kw doc d|l|kw del] ops IH]; intros g past c db c' db' rest Hg E Hc Hf; cbn [d_final] in Hf.
  - injection Hf as <- <-. by rewrite app_nil_r.
  - change (d_atoms (DIns kw doc d :: ops)) with (AIns kw doc :: d_atoms ops) in *. cbn [app] in E.
    destruct (ctr_inv_ins g c past kw doc _ Hg E Hc) as [_ Hcn].
    assert (past ++ AIns kw doc :: d_atoms ops = (past ++ [AIns kw doc]) ++ d_atoms ops) as -> by (by rewrite <- (assoc_L (++))).
    eapply (IH g); [done| |exact Hcn|exact Hf]. by rewrite E, <- !(assoc_L (++)).
  - assert (d_atoms (DBulk l :: ops) = ((fun x : bytes * bytes => AIns x.1 x.2) <$> l.*1) ++ d_atoms ops) as Ea
      by (rewrite <- list_fmap_compose; done).
    rewrite Ea in *. rewrite (assoc_L (++)). rewrite <- (assoc_L (++)) in E. eapply (IH g); [done| | |exact Hf].
    + by rewrite E, <- (assoc_L (++)).
    + by eapply bulk_ctr.
  - change (d_atoms (DFind kw del :: ops)) with (AFind kw :: d_atoms ops) in *. cbn [app] in E.
    apply rbind_ok in Hf as (x & _ & Hf).
    assert (past ++ AFind kw :: d_atoms ops = (past ++ [AFind kw]) ++ d_atoms ops) as -> by (by rewrite <- (assoc_L (++))).
    eapply (IH g); [done| |by apply ctr_inv_find|exact Hf]. by rewrite E, <- !(assoc_L (++)).
Qed.

(** C77 (Diana): a search request gives access to no hidden leaf. *)
Theorem C77_diana_requests :
  forall (D : diana) h p kw del q c db con i,
    rcprf_ok D -> distinct_leaves D h -> few_leaves h -> h = p ++ DFind kw del :: q ->
    d_final D ∅ ∅ p = Ok (c, db) ->
    ds_con (d_search_request D c kw) = Some con -> (i <= d_max_leaf D con)%N ->
    ~ hidden_leaf D h (d_eval D con i).
Proof.
  intros D h p kw del q c db con i [Hmax Hev] Hd Hf -> Hfin Hcon Hi.
  assert (d_atoms (p ++ DFind kw del :: q) = d_atoms p ++ AFind kw :: d_atoms q) as Ea
    by (unfold d_atoms; by rewrite bind_app).
  assert (ctr_inv c (d_atoms p)) as Hc by (apply (final_ctr D p _ [] ∅ ∅ c db (AFind kw :: d_atoms q) Hf Ea); [by intros k|exact Hfin]).
  unfold d_search_request, ctr_get in Hcon. rewrite (Hc kw) in Hcon.
  destruct (a_count kw (d_atoms p)) as [|n] eqn:El; [done|]. cbn [ds_con] in Hcon. injection Hcon as <-.
  rewrite Hmax in Hi. rewrite Hev by done. rewrite <- (Nnat.N2Nat.id i).
  change (d_leaf D (d_root D (d_keyword_index D kw)) (N.of_nat (N.to_nat i))) with (kw_leaf D kw (N.to_nat i)).
  apply (early_visible D _ kw _ (d_atoms p) (AFind kw :: d_atoms q)); [done|done|by left|lia].
Qed.
Print Assumptions C77_diana_requests.

(** A bulk insertion after a search. *)
Definition ex_hide_d : diana :=
  Diana (fun kw => kw) (fun x => x) (fun x => x) (fun k i => i :: k) (bytes * N) (fun k _ n => (k, n)) snd (fun c i => i :: c.1)
    (fun _ _ len => replicate len 0%N) 2.
Definition ex_dh : list d_op :=
  [DIns [1] [5; 5] true; DFind [1] false; DBulk [([1], [6; 0], true); ([2], [7; 0], false)]]%N.
Definition ex_dh' : list d_op :=
  [DIns [1] [5; 5] true; DFind [1] false; DBulk [([2], [8; 1], true); ([2], [9; 1], false)]]%N.
Lemma ex_dleaves h : Forall (fun a => match a with AIns kw _ => kw = [1%N] \/ kw = [2%N] | AFind _ => True end) (d_atoms h) ->
  distinct_leaves ex_hide_d h.
Proof.
  intros Hh kw n kw' n' H1 H2 Hk. injection Hk as Hn Hk. split; [|lia].
  assert (forall kw n, n < a_count kw (d_atoms h) -> kw = [1%N] \/ kw = [2%N]) as Hkw.
  { clear -Hh. intros kw n Hn. induction Hh as [|[k i|k] l Hk _ IH]; cbn in Hn; [lia| |by apply IH].
    destruct (decide (k = kw)) as [->|]; [done|]. by apply IH. }
  destruct (Hkw kw n H1) as [->| ->], (Hkw kw' n' H2) as [->| ->]; done.
Qed.
Example C77_ex :
  rcprf_ok ex_hide_d /\ d_same_leakage ex_dh ex_dh' /\ distinct_leaves ex_hide_d ex_dh /\ distinct_leaves ex_hide_d ex_dh' /\
  few_leaves ex_dh /\ few_leaves ex_dh' /\ docs_bytes (d_len ex_hide_d) ex_dh /\ docs_bytes (d_len ex_hide_d) ex_dh' /\
  d_hidden ex_dh [1%N] 1 /\ d_hidden ex_dh' [2%N] 0.
Proof.
  split; [split; done|]. split.
  { cbn. split; [done|]. split; [by intros _|]. split; [done|]. split; [done|]. split; [|done].
    repeat constructor; intros [[x H]|[x H]]; by apply elem_of_nil in H. }
  split; [apply ex_dleaves; cbn; repeat (apply Forall_cons; split; [by auto|]); by apply Forall_nil|].
  split; [apply ex_dleaves; cbn; repeat (apply Forall_cons; split; [by auto|]); by apply Forall_nil|].
  assert (forall h, length (d_atoms h) <= 4 -> few_leaves h) as Hfew.
  { intros h Hh kw. assert (a_count kw (d_atoms h) <= length (d_atoms h)); [|lia]. clear Hh.
    induction (d_atoms h) as [|[k i|k] l IH]; cbn [length]; [done| |unfold a_count in *; csimpl; lia].
    unfold a_count in *. csimpl. case_decide; cbn [length]; lia. }
  split; [apply Hfew; cbn; lia|]. split; [apply Hfew; cbn; lia|].
  split; [|split; [|split]].
  - assert (Forall (fun a => match a with AIns _ doc => length doc = 2 /\ Forall (fun b => (b < 256)%N) doc | AFind _ => True end)
      (d_atoms ex_dh)) as HF by (by repeat constructor).
    intros kw doc H. exact (proj1 (Forall_forall _ _) HF _ H).
  - assert (Forall (fun a => match a with AIns _ doc => length doc = 2 /\ Forall (fun b => (b < 256)%N) doc | AFind _ => True end)
      (d_atoms ex_dh')) as HF by (by repeat constructor).
    intros kw doc H. exact (proj1 (Forall_forall _ _) HF _ H).
  - exists [AIns [1] [5; 5]; AFind [1]]%N, [6; 0]%N, [AIns [2] [7; 0]]%N. split; [done|]. split; [done|].
    intros H. by apply elem_of_list_singleton in H.
  - exists [AIns [1] [5; 5]; AFind [1]]%N, [8; 1]%N, [AIns [2] [9; 1]]%N. split; [done|]. split; [done|].
    intros H. by apply elem_of_list_singleton in H.
Qed.
