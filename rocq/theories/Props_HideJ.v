(** Janus: insertions and removals say nothing before a search of the keyword. *)
From stdpp Require Import prelude gmap.
From Coq Require Import NArith Lia.
From Verif Require Import Base EncModel KvModel UtilsModel Props_Utils DianaModel DianaSpec JanusModel JanusSpec JanusProofs
  HideDSpec Props_HideD HideJSpec.

(** Value of a counter that was incremented [n] times. *)
Definition ctr_val (n : nat) : option N := match n with 0 => None | Datatypes.S k => Some (N.of_nat k) end.
Lemma ctr_val_next n : (N.of_nat n < 2 ^ 32)%N -> Some (next_value (ctr_val n)) = ctr_val (Datatypes.S n).
Proof.
  intros H. destruct n as [|n]; [done|]. cbn [ctr_val next_value]. unfold incr32.
  rewrite N.mod_small by lia. f_equal. lia.
Qed.
Lemma ctr_val_count (D : diana) (c : counters) m n : (N.of_nat n < 2 ^ 32)%N -> c !! m = ctr_val n ->
  ds_count (d_search_request D c m) = N.of_nat n.
Proof.
  intros H E. unfold d_search_request, ctr_get. rewrite E. destruct n as [|n]; [done|].
  cbn [ctr_val ds_count]. rewrite N.mod_small by lia. lia.
Qed.

Section janus.
  Variable S : janus.

  (** *** The view, from the views of the two instances of Diana *)
  Inductive frame := KIns | KRem | KFind (token share : bytes).
  Fixpoint frames (h : j_hist) (ops : list jh_op) : list frame :=
    match ops with
    | [] => []
    | o :: ops' =>
        match o with
        | HIns _ _ _ => KIns
        | HRem _ _ _ => KRem
        | HFind kw => KFind (jn_kwtok S kw)
            (pe_share0 S (jn_pekey S (epoch_kw h kw)) (N.of_nat (length (jh_rem h kw (jh_epoch h kw)))))
        end :: frames (j_hist_step h (to_j o)) ops'
    end.
  Definition m_answer (cache : gmap bytes bytes) (token share : bytes) (a a' : res (list bytes)) : res (list cached) :=
    ri <~ a; rd <~ a'; l <~ list_get (jn_tagsize S) cache token;
    Ok (j_filter_cache S rd l ++ j_decrypt S (share :: rd) ri).
  Fixpoint merge (fs : list frame) (vi : list (d_seen (jn_ins S))) (vd : list (d_seen (jn_del S)))
      (cache : gmap bytes bytes) : list (j_seen S) :=
    match fs with
    | [] => []
    | KIns :: fs' => match vi with DSeenUpdates [u] :: vi' => JSeenIns u :: merge fs' vi' vd cache | _ => [] end
    | KRem :: fs' => match vd with DSeenUpdates [u] :: vd' => JSeenRem u :: merge fs' vi vd' cache | _ => [] end
    | KFind t sh :: fs' =>
        match vi, vd with
        | DSeenSearch ti ci ni ai :: vi', DSeenSearch td cd nd ad :: vd' =>
            let r := m_answer cache t sh ai ad in
            @JSeenFind S t sh ti ci ni ai td cd nd ad (x <~ r; Ok x.*1) ::
            match r with Ok l => merge fs' vi' vd' (list_put cache t l) | _ => [] end
        | _, _ => []
        end
    end.

  Record jd_inv (k : nat) (h : j_hist) (c : j_client) (ci cd : counters) : Prop := {
    jd_small : small_h k h;
    jd_epoch : forall kw, j_search_counter c kw = jh_epoch h kw;
    jd_ins : forall kw e, (jh_epoch h kw <= e < 2 ^ 32)%N ->
      jc_ins c !! meta_keyword kw e = ctr_val (jh_ins h kw e) /\ ci !! meta_keyword kw e = ctr_val (jh_ins h kw e);
    jd_del : forall kw e, (jh_epoch h kw <= e < 2 ^ 32)%N ->
      jc_del c !! meta_keyword kw e = ctr_val (length (jh_rem h kw e)) /\
      cd !! meta_keyword kw e = ctr_val (length (jh_rem h kw e)) }.

  Lemma jd_ins_step k h c ci cd kw i : (N.of_nat k < 2 ^ 32)%N -> jd_inv k h c ci cd ->
    jc_ins c !! epoch_kw h kw = ci !! epoch_kw h kw /\
    jd_inv (Datatypes.S k) (j_hist_step h (JIns kw i))
      (JClient (<[epoch_kw h kw := next_value (ci !! epoch_kw h kw)]> (jc_ins c)) (jc_del c) (jc_search c))
      (<[epoch_kw h kw := next_value (ci !! epoch_kw h kw)]> ci) cd.
  Proof.
    intros Hk [Hs He Hi Hd].
    assert ((jh_epoch h kw < 2 ^ 32)%N) as Hb by (destruct Hs as [Hs _]; pose proof (Hs kw); lia).
    assert ((N.of_nat (jh_ins h kw (jh_epoch h kw)) < 2 ^ 32)%N) as Hn
      by (destruct Hs as (_ & Hs & _); specialize (Hs kw (jh_epoch h kw)); lia).
    destruct (Hi kw (jh_epoch h kw) (conj (N.le_refl _) Hb)) as [E1 E2].
    split; [unfold epoch_kw; by rewrite E1, E2|]. split.
    - by apply small_step.
    - exact He.
    - intros k' e Hke. cbn [j_hist_step jh_epoch jh_ins] in *. destruct (Hi k' e Hke) as [E1' E2'].
      cbn [jc_ins]. case_decide as Hdec.
      + destruct Hdec as [-> ->]. unfold epoch_kw. rewrite !lookup_insert, E2. rewrite ctr_val_next by done. done.
      + assert (epoch_kw h kw <> meta_keyword k' e) as Hne.
        { intros Em. apply C45_meta_keyword_injective in Em as [-> <-]; [by destruct Hdec|done|lia]. }
        by rewrite !lookup_insert_ne.
    - exact Hd.
  Qed.
  Lemma jd_del_step k h c ci cd kw i : (N.of_nat k < 2 ^ 32)%N -> jd_inv k h c ci cd ->
    jc_del c !! epoch_kw h kw = cd !! epoch_kw h kw /\
    d_get_match_count (jc_del c) (epoch_kw h kw) = N.of_nat (length (jh_rem h kw (jh_epoch h kw)) - 1) /\
    (N.of_nat (length (jh_rem h kw (jh_epoch h kw))) < 2 ^ 32)%N /\
    jd_inv (Datatypes.S k) (j_hist_step h (JRem kw i))
      (JClient (jc_ins c) (<[epoch_kw h kw := next_value (cd !! epoch_kw h kw)]> (jc_del c)) (jc_search c))
      ci (<[epoch_kw h kw := next_value (cd !! epoch_kw h kw)]> cd).
  Proof.
    intros Hk [Hs He Hi Hd].
    assert ((jh_epoch h kw < 2 ^ 32)%N) as Hb by (destruct Hs as [Hs _]; pose proof (Hs kw); lia).
    assert ((N.of_nat (length (jh_rem h kw (jh_epoch h kw))) < 2 ^ 32)%N) as Hn
      by (destruct Hs as (_ & _ & Hs); specialize (Hs kw (jh_epoch h kw)); lia).
    destruct (Hd kw (jh_epoch h kw) (conj (N.le_refl _) Hb)) as [E1 E2].
    split; [unfold epoch_kw; by rewrite E1, E2|]. split; [|split; [done|]].
    { unfold d_get_match_count, ctr_get, epoch_kw. rewrite E1. destruct (length _) as [|n]; [done|]. cbn [ctr_val]. f_equal. lia. }
    split.
    - by apply small_step.
    - exact He.
    - exact Hi.
    - intros k' e Hke. cbn [j_hist_step jh_epoch jh_rem] in *. destruct (Hd k' e Hke) as [E1' E2'].
      cbn [jc_del]. case_decide as Hdec.
      + destruct Hdec as [-> ->]. unfold epoch_kw. rewrite !lookup_insert, E2. rewrite ctr_val_next by done.
        rewrite app_length, Nat.add_1_r. done.
      + assert (epoch_kw h kw <> meta_keyword k' e) as Hne.
        { intros Em. apply C45_meta_keyword_injective in Em as [-> <-]; [by destruct Hdec|done|lia]. }
        by rewrite !lookup_insert_ne.
  Qed.
  Lemma jd_find_step S' k h c ci cd kw : (N.of_nat (Datatypes.S k) < 2 ^ 32)%N -> jd_inv k h c ci cd ->
    jc_ins c !! epoch_kw h kw = ci !! epoch_kw h kw /\ jc_del c !! epoch_kw h kw = cd !! epoch_kw h kw /\
    ds_count (d_search_request (jn_del S') (jc_del c) (epoch_kw h kw)) = N.of_nat (length (jh_rem h kw (jh_epoch h kw))) /\
    jd_inv (Datatypes.S k) (j_hist_step h (JFind kw)) (j_search_request S' c kw).1 ci cd.
  Proof.
    intros Hk [Hs He Hi Hd].
    assert ((jh_epoch h kw + 1 < 2 ^ 32)%N) as Hb by (destruct Hs as [Hs _]; pose proof (Hs kw); lia).
    assert ((N.of_nat (jh_ins h kw (jh_epoch h kw)) < 2 ^ 32)%N) as Hn
      by (destruct Hs as (_ & Hs & _); specialize (Hs kw (jh_epoch h kw)); lia).
    assert ((N.of_nat (length (jh_rem h kw (jh_epoch h kw))) < 2 ^ 32)%N) as Hn'
      by (destruct Hs as (_ & _ & Hs); specialize (Hs kw (jh_epoch h kw)); lia).
    destruct (Hi kw (jh_epoch h kw) ltac:(lia)) as [E1 E2]. destruct (Hd kw (jh_epoch h kw) ltac:(lia)) as [E3 E4].
    split; [unfold epoch_kw; by rewrite E1, E2|]. split; [unfold epoch_kw; by rewrite E3, E4|].
    split; [by apply ctr_val_count|].
    destruct (j_search_client S' h c kw) as (H1 & H2 & H3).
    - by left.
    - exact He.
    - unfold j_search_request. cbn [snd jr_ins]. rewrite He. by apply ctr_val_count.
    - unfold j_search_request. cbn [snd jr_del]. rewrite He. by apply ctr_val_count.
    - split.
      + by apply small_step.
      + exact H2.
      + intros k' e Hke. cbn [j_hist_step] in *. case_decide as Hq.
        * rewrite (H1 Hq). by apply Hi.
        * cbn [jh_epoch jh_ins] in *.
          destruct (H3 (meta_keyword k' e)) as [H4 _].
          { intros Em. apply C45_meta_keyword_injective in Em as [-> ->]; [|lia|lia]. rewrite decide_True in Hke by done. lia. }
          rewrite H4. apply Hi. case_decide; lia.
      + intros k' e Hke. cbn [j_hist_step] in *. case_decide as Hq.
        * rewrite (H1 Hq). by apply Hd.
        * cbn [jh_epoch jh_rem] in *.
          destruct (H3 (meta_keyword k' e)) as [_ H4].
          { intros Em. apply C45_meta_keyword_injective in Em as [-> ->]; [|lia|lia]. rewrite decide_True in Hke by done. lia. }
          rewrite H4. apply Hd. case_decide; lia.
  Qed.

  Lemma view_merge gi gd : forall ops k h c ci cd s,
    (N.of_nat (k + length ops) < 2 ^ 32)%N -> jd_inv k h c ci cd ->
    j_view S gi gd c s ops =
    merge (frames h ops) (d_view (jn_ins S) gi ci (js_ins s) (ins_ops S h ops))
      (d_view (jn_del S) gd cd (js_del s) (del_ops S h ops)) (js_cache s).
  Proof.
    induction ops as [|[kw i d|kw i d|kw] ops IH]; intros k h c ci cd s Hk I; cbn [length] in Hk; [done| | |].
    - destruct (jd_ins_step k h c ci cd kw i ltac:(lia) I) as [E I'].
      cbn [j_view frames ins_ops del_ops app d_view merge to_j].
      unfold j_insertion_request. rewrite (jd_epoch _ _ _ _ _ I). fold (epoch_kw h kw).
      unfold d_insertion_request, ctr_get_and_increment. cbn [fst snd with_gens jn_ins pe_enc jn_pekey].
      rewrite E. f_equal. rewrite (IH (Datatypes.S k) _ _ _ _ _ ltac:(lia) I'). by destruct d.
    - destruct (jd_del_step k h c ci cd kw i ltac:(lia) I) as (E & En & Hn & I').
      cbn [j_view frames ins_ops del_ops app d_view merge to_j].
      unfold j_removal_request. rewrite (jd_epoch _ _ _ _ _ I). fold (epoch_kw h kw). rewrite En.
      assert (((N.of_nat (length (jh_rem h kw (jh_epoch h kw)) - 1) + 1) mod 2 ^ 32 =
        N.of_nat (1 `max` length (jh_rem h kw (jh_epoch h kw))))%N) as ->.
      { rewrite N.mod_small by lia. lia. }
      unfold d_insertion_request, ctr_get_and_increment. cbn [fst snd with_gens jn_del pe_punct jn_pekey].
      rewrite E. f_equal. rewrite (IH (Datatypes.S k) _ _ _ _ _ ltac:(lia) I'). by destruct d.
    - destruct (jd_find_step (with_gens S gi gd) k h c ci cd kw ltac:(lia) I) as (E1 & E2 & En & I').
      cbn [j_view frames ins_ops del_ops app d_view merge to_j].
      assert ((j_search_request (with_gens S gi gd) c kw).2 =
        JSearch (S := with_gens S gi gd) (jn_kwtok S kw) (d_search_request (with_prg (jn_ins S) gi) ci (epoch_kw h kw))
          (d_search_request (with_prg (jn_del S) gd) cd (epoch_kw h kw))
          (pe_share0 S (jn_pekey S (epoch_kw h kw)) (N.of_nat (length (jh_rem h kw (jh_epoch h kw)))))) as Er.
      { unfold j_search_request. cbn [snd]. rewrite (jd_epoch _ _ _ _ _ I). fold (epoch_kw h kw). rewrite En.
        cbn [with_gens jn_ins jn_del jn_kwtok pe_share0 jn_pekey].
        rewrite (search_request_agree _ _ _ _ E1), (search_request_agree _ _ _ _ E2). done. }
      rewrite Er. cbn [jr_token jr_share jr_ins jr_del].
      unfold j_server_search at 1 2. cbn [jr_token jr_share jr_ins jr_del with_gens jn_ins jn_del jn_tagsize].
      destruct (d_server_search_list (with_prg (jn_ins S) gi) (js_ins s) _ true) as [ri| | |]; cbn [rbind]; [|done..].
      destruct (d_server_search_list (with_prg (jn_del S) gd) (js_del s) _ true) as [rd| | |]; cbn [rbind]; [|done..].
      unfold m_answer. cbn [rbind].
      destruct (list_get (jn_tagsize S) (js_cache s) (jn_kwtok S kw)) as [l| | |]; cbn [rbind]; [|done..].
      f_equal. cbn [fst]. by rewrite (IH (Datatypes.S k) _ _ _ _ _ ltac:(lia) I').
  Qed.

  (** *** Leakage *)
  Definition agree (h h' : j_hist) (kw : bytes) : Prop :=
    jh_epoch h kw = jh_epoch h' kw /\ jh_ins h kw (jh_epoch h kw) = jh_ins h' kw (jh_epoch h kw) /\
    jh_rem h kw (jh_epoch h kw) = jh_rem h' kw (jh_epoch h kw) /\
    (forall e, (jh_epoch h kw < e)%N -> jh_ins h kw e = 0 /\ jh_ins h' kw e = 0 /\ jh_rem h kw e = [] /\ jh_rem h' kw e = []).
  Lemma leak_finds ops : forall ops' kw, j_same_leakage ops ops' -> HFind kw ∈ ops <-> HFind kw ∈ ops'.
  Proof.
    induction ops as [|o ops IH]; intros [|o' ops'] kw; cbn [j_same_leakage]; try done.
    - by destruct o.
    - intros Hl. rewrite !elem_of_cons. destruct o, o'; try done.
      + destruct Hl as (_ & _ & Hl). rewrite (IH _ kw Hl). naive_solver.
      + destruct Hl as (_ & _ & Hl). rewrite (IH _ kw Hl). naive_solver.
      + destruct Hl as (-> & Hl). by rewrite (IH _ kw Hl).
  Qed.
  Lemma agree_other h h' kw o o' : agree h h' kw -> op_kw o <> kw -> op_kw o' <> kw -> agree (j_hist_step h o) (j_hist_step h' o') kw.
  Proof.
    assert (forall h o, op_kw o <> kw -> jh_epoch (j_hist_step h o) kw = jh_epoch h kw /\
      (forall e, jh_ins (j_hist_step h o) kw e = jh_ins h kw e) /\ (forall e, jh_rem (j_hist_step h o) kw e = jh_rem h kw e)) as Hst.
    { clear. intros h [k i|k i|k|k n|k] Hk; cbn [op_kw] in Hk; cbn [j_hist_step jh_epoch jh_ins jh_rem].
      1-2: split_and!; [done| |]; intros e; try done; rewrite decide_False by naive_solver; done.
      all: case_decide; [done|]; cbn [jh_epoch jh_ins jh_rem]; rewrite decide_False by done; done. }
    intros Ha H1 H2. destruct (Hst h o H1) as (A & B & C), (Hst h' o' H2) as (A' & B' & C').
    destruct Ha as (E1 & E2 & E3 & E4). unfold agree. rewrite A, A'. split_and!; [done| | |].
    - by rewrite B, B'.
    - by rewrite C, C'.
    - intros e He. rewrite B, B', C, C'. by apply E4.
  Qed.
  Lemma agree_same h h' kw o : agree h h' kw -> op_kw o = kw -> agree (j_hist_step h o) (j_hist_step h' o) kw.
  Proof.
    intros (E1 & E2 & E3 & E4) Hk.
    assert (forall b : bool, agree (if b then h else JHist (fun k => if decide (k = kw) then (jh_epoch h k + 1)%N else jh_epoch h k) (jh_ins h) (jh_rem h))
       (if b then h' else JHist (fun k => if decide (k = kw) then (jh_epoch h' k + 1)%N else jh_epoch h' k) (jh_ins h') (jh_rem h')) kw) as Hs.
    { intros [|]; [done|]. unfold agree. cbn [jh_epoch jh_ins jh_rem]. rewrite !decide_True by done.
      destruct (E4 (jh_epoch h kw + 1)%N ltac:(lia)) as (-> & -> & -> & ->). split_and!; [by rewrite E1|done|done|].
      intros e He. apply E4. lia. }
    assert (quiet h kw <-> quiet h' kw) as Hq by (unfold quiet; by rewrite E1, <- E1, E2, E3).
    destruct o as [k i|k i|k|k n|k]; cbn [op_kw] in Hk; subst k; cbn [j_hist_step].
    - unfold agree. cbn [jh_epoch jh_ins jh_rem]. rewrite !decide_True by done. rewrite <- ?E1. rewrite ?decide_True by done. split_and!; [done|by rewrite E2|done|].
      intros e He. rewrite !decide_False by (intros [_ ->]; lia). by apply E4.
    - unfold agree. cbn [jh_epoch jh_ins jh_rem]. rewrite !decide_True by done. rewrite <- ?E1. rewrite ?decide_True by done. split_and!; [done|done|by rewrite E3|].
      intros e He. rewrite !decide_False by (intros [_ ->]; lia). by apply E4.
    - destruct (decide (quiet h kw)) as [Q|Q], (decide (quiet h' kw)) as [Q'|Q']; [apply (Hs true)|tauto|tauto|apply (Hs false)].
    - destruct (decide (quiet h kw)) as [Q|Q], (decide (quiet h' kw)) as [Q'|Q']; [apply (Hs true)|tauto|tauto|apply (Hs false)].
    - destruct (decide (quiet h kw)) as [Q|Q], (decide (quiet h' kw)) as [Q'|Q']; [apply (Hs true)|tauto|tauto|apply (Hs false)].
  Qed.

  Lemma searched_find f h ops kw e k : (f = ins_ops S \/ f = del_ops S) -> small_h k h -> (N.of_nat (k + length ops) < 2 ^ 32)%N ->
    (e < 2 ^ 32)%N -> searched (meta_keyword kw e) (f h ops) -> HFind kw ∈ ops.
  Proof.
    intros Hf. revert k h. induction ops as [|o ops IH]; intros k h Hs Hk He [del Hd]; cbn [length] in Hk.
    { destruct Hf as [->| ->]; by apply elem_of_nil in Hd. }
    assert (searched (meta_keyword kw e) (f (j_hist_step h (to_j o)) ops) \/ o = HFind kw) as [Hn| ->]; [| |by left].
    { assert (forall k', (jh_epoch h k' < 2 ^ 32)%N) as Hb by (intros k'; destruct Hs as [Hs _]; specialize (Hs k'); lia).
      destruct Hf as [->| ->]; cbn [ins_ops del_ops] in Hd; apply elem_of_app in Hd as [Hd|Hd];
        try (by left; exists del); destruct o as [k' i d|k' i d|k']; try (by apply elem_of_nil in Hd);
        apply elem_of_list_singleton in Hd; try done; injection Hd as Hm _;
        apply C45_meta_keyword_injective in Hm as [-> _]; try done; by right. }
    right. eapply (IH (Datatypes.S k)); [by apply small_step|lia|done|done].
  Qed.

  Definition agree_all (h h' : j_hist) (ops ops' : list jh_op) : Prop := forall kw, HFind kw ∈ ops \/ HFind kw ∈ ops' -> agree h h' kw.
  Lemma agree_step o o' ops ops' h h' : j_same_leakage (o :: ops) (o' :: ops') -> agree_all h h' (o :: ops) (o' :: ops') ->
    agree_all (j_hist_step h (to_j o)) (j_hist_step h' (to_j o')) ops ops'.
  Proof.
    intros Hl Ha kw Hkw. assert (agree h h' kw) as Hag by (apply Ha; destruct Hkw; [left|right]; by right).
    assert (HFind kw ∈ ops /\ HFind kw ∈ ops') as [Hf Hf'].
    { assert (j_same_leakage ops ops') as Hl' by (cbn [j_same_leakage] in Hl; destruct o, o'; tauto).
      pose proof (leak_finds _ _ kw Hl'). tauto. }
    cbn [j_same_leakage] in Hl. destruct o as [k i d|k i d|k], o' as [k' i' d'|k' i' d'|k']; try done; cbn [to_j].
    1-2: destruct Hl as (_ & Hrev & _); destruct (decide (k = kw)) as [->|Hn]; [|destruct (decide (k' = kw)) as [->|Hn']];
      [destruct Hrev as [<- <-]; [by left|by apply agree_same]|destruct Hrev as [-> ->]; [by right|by apply agree_same]|by apply agree_other].
    destruct Hl as [<- _]. destruct (decide (k = kw)) as [->|Hn]; [by apply agree_same|by apply agree_other].
  Qed.

  Lemma frames_same ops : forall ops' h h', j_same_leakage ops ops' -> agree_all h h' ops ops' -> frames h ops = frames h' ops'.
  Proof.
    induction ops as [|o ops IH]; intros [|o' ops'] h h' Hl Ha; [done|by destruct o'|by destruct o|].
    pose proof (agree_step _ _ _ _ _ _ Hl Ha) as Ha'. cbn [frames].
    cbn [j_same_leakage] in Hl. destruct o as [k i d|k i d|k], o' as [k' i' d'|k' i' d'|k']; try done.
    - f_equal. apply IH; [apply Hl|done].
    - f_equal. apply IH; [apply Hl|done].
    - destruct Hl as [<- Hl]. f_equal; [|by apply IH]. destruct (Ha k ltac:(left; by left)) as (E1 & _ & E3 & _).
      unfold epoch_kw. by rewrite <- E1, E3.
  Qed.
  Lemma ins_leak ops : forall ops' h h' k, j_same_leakage ops ops' -> agree_all h h' ops ops' ->
    small_h k h -> small_h k h' -> (N.of_nat (k + length ops) < 2 ^ 32)%N -> length ops = length ops' ->
    d_same_leakage (ins_ops S h ops) (ins_ops S h' ops').
  Proof.
    induction ops as [|o ops IH]; intros [|o' ops'] h h' k Hl Ha Hs Hs' Hk Hlen; [done|by destruct o'|by destruct o|].
    pose proof (agree_step _ _ _ _ _ _ Hl Ha) as Ha'. pose proof (small_step k h (to_j o) Hs) as Hss. pose proof (small_step k h' (to_j o') Hs') as Hss'.
    cbn [length] in Hlen, Hk. injection Hlen as Hlen.
    assert (forall k', (jh_epoch h k' < 2 ^ 32)%N) as Hb by (intros k'; destruct Hs as [Hs _]; specialize (Hs k'); lia).
    assert (forall k', (jh_epoch h' k' < 2 ^ 32)%N) as Hb' by (intros k'; destruct Hs' as [Hs' _]; specialize (Hs' k'); lia).
    cbn [ins_ops]. cbn [j_same_leakage] in Hl. destruct o as [kw i d|kw i d|kw], o' as [kw' i' d'|kw' i' d'|kw']; try done; cbn [app].
    - destruct Hl as (<- & Hrev & Hl). cbn [d_same_leakage]. split; [done|]. split.
      + intros Hse. assert (HFind kw ∈ ops \/ HFind kw' ∈ ops') as Hf.
        { destruct Hse as [Hse|Hse]; [left|right].
          - eapply (searched_find (ins_ops S)); [by left|exact Hss|lia| |exact Hse]. apply Hb.
          - eapply (searched_find (ins_ops S)); [by left|exact Hss'|lia| |exact Hse]. apply Hb'. }
        destruct (Hrev Hf) as [<- <-]. destruct (Ha kw) as (E1 & _).
        { destruct Hf; [left|right]; by right. }
        unfold epoch_kw. by rewrite <- E1.
      + eapply IH; [done|done|done|done|lia|done].
    - destruct Hl as (_ & _ & Hl). eapply IH; [done|done|done|done|lia|done].
    - destruct Hl as (<- & Hl). cbn [d_same_leakage]. split.
      + destruct (Ha kw ltac:(left; by left)) as (E1 & _). unfold epoch_kw. by rewrite <- E1.
      + split; [done|]. eapply IH; [done|done|done|done|lia|done].
  Qed.
  Lemma del_leak ops : forall ops' h h' k, j_same_leakage ops ops' -> agree_all h h' ops ops' ->
    small_h k h -> small_h k h' -> (N.of_nat (k + length ops) < 2 ^ 32)%N -> length ops = length ops' ->
    d_same_leakage (del_ops S h ops) (del_ops S h' ops').
  Proof.
    induction ops as [|o ops IH]; intros [|o' ops'] h h' k Hl Ha Hs Hs' Hk Hlen; [done|by destruct o'|by destruct o|].
    pose proof (agree_step _ _ _ _ _ _ Hl Ha) as Ha'. pose proof (small_step k h (to_j o) Hs) as Hss. pose proof (small_step k h' (to_j o') Hs') as Hss'.
    cbn [length] in Hlen, Hk. injection Hlen as Hlen.
    assert (forall k', (jh_epoch h k' < 2 ^ 32)%N) as Hb by (intros k'; destruct Hs as [Hs _]; specialize (Hs k'); lia).
    assert (forall k', (jh_epoch h' k' < 2 ^ 32)%N) as Hb' by (intros k'; destruct Hs' as [Hs' _]; specialize (Hs' k'); lia).
    cbn [del_ops]. cbn [j_same_leakage] in Hl. destruct o as [kw i d|kw i d|kw], o' as [kw' i' d'|kw' i' d'|kw']; try done; cbn [app].
    - destruct Hl as (_ & _ & Hl). eapply IH; [done|done|done|done|lia|done].
    - destruct Hl as (<- & Hrev & Hl). cbn [d_same_leakage]. split; [done|]. split.
      + intros Hse. assert (HFind kw ∈ ops \/ HFind kw' ∈ ops') as Hf.
        { destruct Hse as [Hse|Hse]; [left|right].
          - eapply (searched_find (del_ops S)); [by right|exact Hss|lia| |exact Hse]. apply Hb.
          - eapply (searched_find (del_ops S)); [by right|exact Hss'|lia| |exact Hse]. apply Hb'. }
        destruct (Hrev Hf) as [<- <-]. destruct (Ha kw) as (E1 & _ & E3 & _).
        { destruct Hf; [left|right]; by right. }
        unfold epoch_kw. by rewrite <- E1, E3.
      + eapply IH; [done|done|done|done|lia|done].
    - destruct Hl as (<- & Hl). cbn [d_same_leakage]. split.
      + destruct (Ha kw ltac:(left; by left)) as (E1 & _). unfold epoch_kw. by rewrite <- E1.
      + split; [done|]. eapply IH; [done|done|done|done|lia|done].
  Qed.
  Lemma leak_length ops : forall ops', j_same_leakage ops ops' -> length ops = length ops'.
  Proof.
    induction ops as [|o ops IH]; intros [|o' ops'] Hl; [done|by destruct o'|by destruct o|]. cbn [length]. f_equal. apply IH.
    cbn [j_same_leakage] in Hl. destruct o, o'; tauto.
  Qed.

  (** *** Hypotheses of the theorem on Diana *)
  Lemma atoms_length f h ops : (f = ins_ops S \/ f = del_ops S) -> length (d_atoms (f h ops)) <= length ops.
  Proof.
    intros Hf. revert h. induction ops as [|o ops IH]; intros h; [destruct Hf as [->| ->]; done|].
    specialize (IH (j_hist_step h (to_j o))). destruct Hf as [->| ->]; cbn [ins_ops del_ops]; unfold d_atoms in *;
      rewrite bind_app, app_length; destruct o; cbn [mbind list_bind app length] in *; lia.
  Qed.
  Lemma a_count_le kw l : a_count kw l <= length l.
  Proof.
    induction l as [|[k i|k] l IH]; cbn [length]; [done| |unfold a_count in *; csimpl; lia].
    unfold a_count in *. csimpl. case_decide; cbn [length]; lia.
  Qed.
  Lemma few_ops f h ops : (f = ins_ops S \/ f = del_ops S) -> (N.of_nat (length ops) < 2 ^ 32)%N -> few_leaves (f h ops).
  Proof. intros Hf Hn kw. pose proof (atoms_length f h ops Hf). pose proof (a_count_le kw (d_atoms (f h ops))). lia. Qed.
  Lemma ins_docs h ops : j_hide_ok S -> docs_bytes (d_len (jn_ins S)) (ins_ops S h ops).
  Proof.
    intros (_ & _ & He & _). revert h. induction ops as [|o ops IH]; intros h kw doc Hin; [by apply elem_of_nil in Hin|].
    cbn [ins_ops] in Hin. unfold d_atoms in Hin. rewrite bind_app in Hin. apply elem_of_app in Hin as [Hin|Hin]; [|by eapply IH].
    destruct o; csimpl; [|by apply elem_of_nil in Hin|]; csimpl in Hin; apply elem_of_list_singleton in Hin; [|done].
    injection Hin as -> ->. apply He.
  Qed.
  Lemma del_docs h ops : j_hide_ok S -> docs_bytes (d_len (jn_del S)) (del_ops S h ops).
  Proof.
    intros (_ & _ & _ & He). revert h. induction ops as [|o ops IH]; intros h kw doc Hin; [by apply elem_of_nil in Hin|].
    cbn [del_ops] in Hin. unfold d_atoms in Hin. rewrite bind_app in Hin. apply elem_of_app in Hin as [Hin|Hin]; [|by eapply IH].
    destruct o; csimpl; [by apply elem_of_nil in Hin| |]; csimpl in Hin; apply elem_of_list_singleton in Hin; [|done].
    injection Hin as -> ->. apply He.
  Qed.
  Lemma ins_split ops : forall h p' m doc q', d_atoms (ins_ops S h ops) = p' ++ AIns m doc :: q' ->
    exists p kw i d q, ops = p ++ HIns kw i d :: q /\
      let hs := foldl j_hist_step h (to_j <$> p) in
      p' = d_atoms (ins_ops S h p) /\ m = epoch_kw hs kw /\ q' = d_atoms (ins_ops S (j_hist_step hs (JIns kw i)) q).
  Proof.
    induction ops as [|o ops IH]; intros h p' m doc q' E; [by destruct p'|].
    assert (forall a, (forall q, d_atoms (ins_ops S h (o :: q)) = a ++ d_atoms (ins_ops S (j_hist_step h (to_j o)) q)) ->
      forall p'', p' = a ++ p'' -> d_atoms (ins_ops S (j_hist_step h (to_j o)) ops) = p'' ++ AIns m doc :: q' ->
      exists p kw i d q, o :: ops = p ++ HIns kw i d :: q /\
      let hs := foldl j_hist_step h (to_j <$> p) in
      p' = d_atoms (ins_ops S h p) /\ m = epoch_kw hs kw /\ q' = d_atoms (ins_ops S (j_hist_step hs (JIns kw i)) q)) as Hstep.
    { intros a Ha p'' -> E'. destruct (IH _ _ _ _ _ E') as (p & kw & i & d & q & -> & -> & -> & ->).
      exists (o :: p), kw, i, d, q. split; [done|]. split; [by rewrite Ha|]. done. }
    assert (forall q, d_atoms (ins_ops S h (o :: q)) = match o with HIns kw i d => d_atoms (ins_ops S h [o]) | HRem _ _ _ => [] | HFind kw => [AFind (epoch_kw h kw)] end
      ++ d_atoms (ins_ops S (j_hist_step h (to_j o)) q)) as Eo.
    { intros q. destruct o; reflexivity. }
    rewrite Eo in E. destruct o as [kw i d|kw i d|kw].
    - destruct p' as [|x p'].
      + exists [], kw, i, d, ops. injection E as <- _ <-. done.
      + injection E as <- E. by eapply (Hstep [AIns _ _]).
    - by eapply (Hstep []).
    - destruct p' as [|x p']; [done|]. injection E as <- E. by eapply (Hstep [AFind _]).
  Qed.
  Lemma ins_count ops kw e k : forall h, small_h k h -> (N.of_nat (k + length ops) < 2 ^ 32)%N -> (e < 2 ^ 32)%N ->
    a_count (meta_keyword kw e) (d_atoms (ins_ops S h ops)) + jh_ins h kw e = jh_ins (foldl j_hist_step h (to_j <$> ops)) kw e.
  Proof.
    revert k. induction ops as [|o ops IH]; intros k h Hs Hk He; [done|]. cbn [length] in Hk.
    assert (forall k', (jh_epoch h k' < 2 ^ 32)%N) as Hb by (intros k'; destruct Hs as [Hs _]; specialize (Hs k'); lia).
    specialize (IH (Datatypes.S k) (j_hist_step h (to_j o)) ltac:(by apply small_step) ltac:(lia) He). cbn [fmap list_fmap foldl].
    rewrite <- IH. clear IH. cbn [ins_ops]. unfold d_atoms. rewrite bind_app. unfold a_count. rewrite omap_app, app_length. fold (a_count (meta_keyword kw e)).
    change (length (omap _ (mbind _ (ins_ops S (j_hist_step h (to_j o)) ops)))) with
      (a_count (meta_keyword kw e) (d_atoms (ins_ops S (j_hist_step h (to_j o)) ops))).
    destruct o as [k' i d|k' i d|k']; cbn [to_j j_hist_step jh_ins jh_rem].
    - csimpl. destruct (decide (epoch_kw h k' = meta_keyword kw e)) as [Em|Em].
      + apply C45_meta_keyword_injective in Em as [-> <-]; [|done|done]. rewrite decide_True by done. cbn [length]. lia.
      + rewrite decide_False; [cbn [length]; lia|]. intros [-> ->]. by apply Em.
    - csimpl. lia.
    - case_decide; csimpl; lia.
  Qed.
  Lemma ins_nofind ops kw : forall h, AFind (epoch_kw h kw) ∉ d_atoms (ins_ops S h ops) -> HFind kw ∉ ops.
  Proof.
    induction ops as [|o ops IH]; intros h Hn; [apply not_elem_of_nil|].
    cbn [ins_ops] in Hn. unfold d_atoms in Hn. rewrite bind_app in Hn. apply not_elem_of_app in Hn as [Hn1 Hn2].
    assert (o <> HFind kw) as Ho.
    { intros ->. apply Hn1. by left. }
    apply not_elem_of_cons. split; [done|]. apply (IH (j_hist_step h (to_j o))).
    assert (epoch_kw (j_hist_step h (to_j o)) kw = epoch_kw h kw) as ->; [|exact Hn2].
    unfold epoch_kw. destruct o as [k i d|k i d|k]; cbn [to_j j_hist_step]; [done|done|].
    case_decide; [done|]. cbn [jh_epoch]. by rewrite decide_False by congruence.
  Qed.
  Lemma ins_hidden ops st : (N.of_nat (length ops) < 2 ^ 32)%N -> hidden_leaf (jn_ins S) (ins_ops S j_hist0 ops) st -> j_hidden_ins S ops st.
  Proof.
    intros Hlen (m & n & (p' & doc & q' & E & Hc & Hq) & ->).
    destruct (ins_split _ _ _ _ _ _ E) as (p & kw & i & d & q & -> & -> & -> & ->).
    rewrite app_length in Hlen. cbn [length] in Hlen.
    assert (small_h 0 j_hist0) as Hs0 by (split_and!; intros; simpl; lia).
    set (hs := foldl j_hist_step j_hist0 (to_j <$> p)) in *.
    assert ((jh_epoch hs kw < 2 ^ 32)%N) as Hb.
    { destruct (small_steps (to_j <$> p) 0 j_hist0 Hs0) as [Hb _]. specialize (Hb kw). rewrite fmap_length in Hb. fold hs in Hb. lia. }
    exists p, kw, i, d, q, n. split; [done|]. split.
    - apply (ins_nofind _ _ (j_hist_step hs (JIns kw i))). exact Hq.
    - fold hs. cbn zeta. split; [|done].
      pose proof (ins_count p kw (jh_epoch hs kw) 0 j_hist0 Hs0 ltac:(lia) Hb) as Hcn. fold hs in Hcn. cbn [jh_ins jh_rem j_hist0 length] in Hcn.
      unfold epoch_kw in Hc. fold hs in Hc. lia.
  Qed.

  Lemma del_split ops : forall h p' m doc q', d_atoms (del_ops S h ops) = p' ++ AIns m doc :: q' ->
    exists p kw i d q, ops = p ++ HRem kw i d :: q /\
      let hs := foldl j_hist_step h (to_j <$> p) in
      p' = d_atoms (del_ops S h p) /\ m = epoch_kw hs kw /\ q' = d_atoms (del_ops S (j_hist_step hs (JRem kw i)) q).
  Proof.
    induction ops as [|o ops IH]; intros h p' m doc q' E; [by destruct p'|].
    assert (forall a, (forall q, d_atoms (del_ops S h (o :: q)) = a ++ d_atoms (del_ops S (j_hist_step h (to_j o)) q)) ->
      forall p'', p' = a ++ p'' -> d_atoms (del_ops S (j_hist_step h (to_j o)) ops) = p'' ++ AIns m doc :: q' ->
      exists p kw i d q, o :: ops = p ++ HRem kw i d :: q /\
      let hs := foldl j_hist_step h (to_j <$> p) in
      p' = d_atoms (del_ops S h p) /\ m = epoch_kw hs kw /\ q' = d_atoms (del_ops S (j_hist_step hs (JRem kw i)) q)) as Hstep.
    { intros a Ha p'' -> E'. destruct (IH _ _ _ _ _ E') as (p & kw & i & d & q & -> & -> & -> & ->).
      exists (o :: p), kw, i, d, q. split; [done|]. split; [by rewrite Ha|]. done. }
    assert (forall q, d_atoms (del_ops S h (o :: q)) = match o with HRem kw i d => d_atoms (del_ops S h [o]) | HIns _ _ _ => [] | HFind kw => [AFind (epoch_kw h kw)] end
      ++ d_atoms (del_ops S (j_hist_step h (to_j o)) q)) as Eo.
    { intros q. destruct o; reflexivity. }
    rewrite Eo in E. destruct o as [kw i d|kw i d|kw].
    - by eapply (Hstep []).
    - destruct p' as [|x p'].
      + exists [], kw, i, d, ops. injection E as <- _ <-. done.
      + injection E as <- E. by eapply (Hstep [AIns _ _]).
    - destruct p' as [|x p']; [done|]. injection E as <- E. by eapply (Hstep [AFind _]).
  Qed.
  Lemma del_count ops kw e k : forall h, small_h k h -> (N.of_nat (k + length ops) < 2 ^ 32)%N -> (e < 2 ^ 32)%N ->
    a_count (meta_keyword kw e) (d_atoms (del_ops S h ops)) + length (jh_rem h kw e) = length (jh_rem (foldl j_hist_step h (to_j <$> ops)) kw e).
  Proof.
    revert k. induction ops as [|o ops IH]; intros k h Hs Hk He; [done|]. cbn [length] in Hk.
    assert (forall k', (jh_epoch h k' < 2 ^ 32)%N) as Hb by (intros k'; destruct Hs as [Hs _]; specialize (Hs k'); lia).
    specialize (IH (Datatypes.S k) (j_hist_step h (to_j o)) ltac:(by apply small_step) ltac:(lia) He). cbn [fmap list_fmap foldl].
    rewrite <- IH. clear IH. cbn [del_ops]. unfold d_atoms. rewrite bind_app. unfold a_count. rewrite omap_app, app_length. fold (a_count (meta_keyword kw e)).
    change (length (omap _ (mbind _ (del_ops S (j_hist_step h (to_j o)) ops)))) with
      (a_count (meta_keyword kw e) (d_atoms (del_ops S (j_hist_step h (to_j o)) ops))).
    destruct o as [k' i d|k' i d|k']; cbn [to_j j_hist_step jh_ins jh_rem].
    - csimpl. lia.
    - csimpl. destruct (decide (epoch_kw h k' = meta_keyword kw e)) as [Em|Em].
      + apply C45_meta_keyword_injective in Em as [-> <-]; [|done|done]. rewrite decide_True by done. rewrite app_length. cbn [length]. lia.
      + rewrite decide_False; [cbn [length]; lia|]. intros [-> ->]. by apply Em.
    - case_decide; csimpl; lia.
  Qed.
  Lemma del_nofind ops kw : forall h, AFind (epoch_kw h kw) ∉ d_atoms (del_ops S h ops) -> HFind kw ∉ ops.
  Proof.
    induction ops as [|o ops IH]; intros h Hn; [apply not_elem_of_nil|].
    cbn [del_ops] in Hn. unfold d_atoms in Hn. rewrite bind_app in Hn. apply not_elem_of_app in Hn as [Hn1 Hn2].
    assert (o <> HFind kw) as Ho.
    { intros ->. apply Hn1. by left. }
    apply not_elem_of_cons. split; [done|]. apply (IH (j_hist_step h (to_j o))).
    assert (epoch_kw (j_hist_step h (to_j o)) kw = epoch_kw h kw) as ->; [|exact Hn2].
    unfold epoch_kw. destruct o as [k i d|k i d|k]; cbn [to_j j_hist_step]; [done|done|].
    case_decide; [done|]. cbn [jh_epoch]. by rewrite decide_False by congruence.
  Qed.
  Lemma del_hidden ops st : (N.of_nat (length ops) < 2 ^ 32)%N -> hidden_leaf (jn_del S) (del_ops S j_hist0 ops) st -> j_hidden_rem S ops st.
  Proof.
    intros Hlen (m & n & (p' & doc & q' & E & Hc & Hq) & ->).
    destruct (del_split _ _ _ _ _ _ E) as (p & kw & i & d & q & -> & -> & -> & ->).
    rewrite app_length in Hlen. cbn [length] in Hlen.
    assert (small_h 0 j_hist0) as Hs0 by (split_and!; intros; simpl; lia).
    set (hs := foldl j_hist_step j_hist0 (to_j <$> p)) in *.
    assert ((jh_epoch hs kw < 2 ^ 32)%N) as Hb.
    { destruct (small_steps (to_j <$> p) 0 j_hist0 Hs0) as [Hb _]. specialize (Hb kw). rewrite fmap_length in Hb. fold hs in Hb. lia. }
    exists p, kw, i, d, q, n. split; [done|]. split.
    - apply (del_nofind _ _ (j_hist_step hs (JRem kw i))). exact Hq.
    - fold hs. cbn zeta. split; [|done].
      pose proof (del_count p kw (jh_epoch hs kw) 0 j_hist0 Hs0 ltac:(lia) Hb) as Hcn. fold hs in Hcn. cbn [jh_ins jh_rem j_hist0 length] in Hcn.
      unfold epoch_kw in Hc. fold hs in Hc. lia.
  Qed.
End janus.

(** C79: two histories of Janus that reveal the same on purpose look the same to the server
    if the generators of the update tokens and masks are random: there are bijections of the
    generators that turn the view of one history into the view of the other.  They only change
    the generators on the leaves of the insertions and of the removals that come after the last
    search of their keyword. *)
Theorem C79_janus_updates_hidden :
  forall (S : janus) h h',
    j_hide_ok S -> j_same_leakage h h' -> j_distinct_leaves S h -> j_distinct_leaves S h' ->
    (N.of_nat (length h) < 2 ^ 32)%N ->
    exists there back there' back',
      prg_bijection (16 + d_len (jn_ins S)) there back /\ prg_bijection (16 + d_len (jn_del S)) there' back' /\
      (forall g st, ~ j_hidden_ins S h st -> ~ j_hidden_ins S h' st -> there g st = g st) /\
      (forall g st, ~ j_hidden_rem S h st -> ~ j_hidden_rem S h' st -> there' g st = g st) /\
      (forall gi gd, prg_ok (16 + d_len (jn_ins S)) gi -> prg_ok (16 + d_len (jn_del S)) gd ->
         j_view S gi gd j_new_client j_new_server h = j_view S (there gi) (there' gd) j_new_client j_new_server h').
Proof.
  intros S h h' Hok Hl [Hd1 Hd2] [Hd1' Hd2'] Hn. pose proof (leak_length _ _ Hl) as Hlen.
  assert (small_h 0 j_hist0) as Hs0 by (split_and!; intros; simpl; lia).
  assert (agree_all j_hist0 j_hist0 h h') as Ha by (intros kw _; split_and!; done).
  assert (jd_inv 0 j_hist0 j_new_client ∅ ∅) as I0.
  { split; [done|done| |]; intros kw e _; cbn [j_new_client jc_ins jc_del]; by rewrite !lookup_empty. }
  destruct (C77_diana_updates_hidden (jn_ins S) (ins_ops S j_hist0 h) (ins_ops S j_hist0 h')) as (t & b & Hb & Ho & Hv).
  { apply Hok. } { by apply (ins_leak S h h' j_hist0 j_hist0 0). } { done. } { done. }
  { apply (few_ops S (ins_ops S)); [by left|done]. } { apply (few_ops S (ins_ops S)); [by left|by rewrite <- Hlen]. }
  { by apply ins_docs. } { by apply ins_docs. }
  destruct (C77_diana_updates_hidden (jn_del S) (del_ops S j_hist0 h) (del_ops S j_hist0 h')) as (t' & b' & Hb' & Ho' & Hv').
  { apply Hok. } { by apply (del_leak S h h' j_hist0 j_hist0 0). } { done. } { done. }
  { apply (few_ops S (del_ops S)); [by right|done]. } { apply (few_ops S (del_ops S)); [by right|by rewrite <- Hlen]. }
  { by apply del_docs. } { by apply del_docs. }
  exists t, b, t', b'. split; [done|]. split; [done|]. split; [|split].
  - intros g st H1 H2. apply Ho; intros Hh; [apply H1|apply H2]; apply ins_hidden; congruence || done.
  - intros g st H1 H2. apply Ho'; intros Hh; [apply H1|apply H2]; apply del_hidden; congruence || done.
  - intros gi gd Hgi Hgd. rewrite (view_merge S gi gd h 0 j_hist0 _ ∅ ∅ _ Hn I0).
    rewrite (view_merge S (t gi) (t' gd) h' 0 j_hist0 _ ∅ ∅ _ ltac:(rewrite <- Hlen; exact Hn) I0).
    cbn [j_new_server js_ins js_del js_cache]. rewrite (Hv gi Hgi), (Hv' gd Hgd). by rewrite (frames_same S h h' _ _ Hl Ha).
Qed.
Print Assumptions C79_janus_updates_hidden.

(** A removal and an insertion after a search. *)
Definition ex_hide_j : janus :=
  Janus ex_hide_d ex_hide_d (fun kw => kw) (fun x => x) (fun k => k)
    (fun _ i _ => [i mod 256; 1]%N) (fun _ n => [n]) (fun _ n t => [n mod 256; default 0 (t !! 1%nat) mod 256]%N)
    (fun s => drop 1 s) (fun ct => take 1 ct) (fun _ ct => head ct) 8.
Definition ex_jh : list jh_op :=
  [HIns [1] 5 true; HRem [1] 4 true; HFind [1]; HIns [1] 6 true; HRem [2] 7 false]%N.
Definition ex_jh' : list jh_op :=
  [HIns [1] 5 true; HRem [1] 4 true; HFind [1]; HIns [2] 9 true; HRem [1] 3 false]%N.
Lemma ex_jleaves h : Forall (fun a => match a with AIns kw _ => length kw <= 16 | AFind _ => True end) (d_atoms h) ->
  distinct_leaves ex_hide_d h.
Proof.
  intros Hh kw n kw' n' H1 H2 Hk.
  assert (forall kw n, n < a_count kw (d_atoms h) -> length kw <= 16) as Hkw.
  { clear -Hh. intros kw n Hn. induction Hh as [|[k i|k] l Hk _ IH]; cbn in Hn; [lia| |by apply IH].
    destruct (decide (k = kw)) as [->|]; [done|]. by apply IH. }
  unfold kw_leaf in Hk. cbn [ex_hide_d d_leaf d_root d_hash] in Hk. injection Hk as Hn Hk.
  rewrite !take_ge in Hk by eauto. split; [done|lia].
Qed.
Ltac short_atoms :=
  match goal with |- Forall _ ?l => let l' := eval vm_compute in l in change l with l' end;
  repeat (apply Forall_cons; split; [first [exact I|apply Nat.leb_le; reflexivity]|]); apply Forall_nil; exact I.
Example C79_ex :
  j_hide_ok ex_hide_j /\ j_same_leakage ex_jh ex_jh' /\ j_distinct_leaves ex_hide_j ex_jh /\ j_distinct_leaves ex_hide_j ex_jh' /\
  (exists st, j_hidden_ins ex_hide_j ex_jh st) /\ (exists st, j_hidden_rem ex_hide_j ex_jh' st) /\
  length (j_view ex_hide_j (fun st => 1%N :: st) (fun st => 2%N :: st) j_new_client j_new_server ex_jh) = 5.
Proof.
  assert (forall x, (x mod 256 < 256)%N) as Hm by (intros x; by apply N.mod_lt).
  split_and!.
  - split_and!; [done..| |]; intros; (split; [done|]); repeat constructor; apply Hm.
  - cbn. split_and!; try done; intros H; try done; exfalso; destruct H as [H|H]; by apply not_elem_of_nil in H || (apply elem_of_list_singleton in H).
  - split; apply ex_jleaves; short_atoms.
  - split; apply ex_jleaves; short_atoms.
  - eexists. exists [HIns [1] 5 true; HRem [1] 4 true; HFind [1]]%N, [1%N], 6%N, true, [HRem [2] 7 false]%N, 0%nat.
    split; [done|]. split; [|by cbn zeta]. intros H. by apply elem_of_list_singleton in H.
  - eexists. exists [HIns [1] 5 true; HRem [1] 4 true; HFind [1]; HIns [2] 9 true]%N, [1%N], 3%N, false, [], 0%nat.
    split; [done|]. split; [|by cbn zeta]. by apply not_elem_of_nil.
  - by vm_compute.
Qed.
