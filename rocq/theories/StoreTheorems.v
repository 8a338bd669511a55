(** The Tethys store, from insertion to lookup. *)
From stdpp Require Import prelude gmap.
From Coq Require Import ZArith NArith Lia.
From Verif Require Import Base GraphModel GraphSpec GraphProofs GraphFlow AllocModel AllocSpec
  AllocProofs AllocFlow AllocTheorems EncModel EncSpec EncProofs EncStash StoreModel StoreSpec
  StoreProofs.
Local Open Scope nat_scope.

(** The parts written to the stash. *)
Definition spart (acc : list (bytes * list bytes)) (L : list edge) (q : eptr) : list part :=
  match acc !! ep_idx q, L !! ep_idx q with
  | Some kv, Some e => [mk Incoming kv e]
  | _, _ => []
  end.
Definition sparts acc L (l : list eptr) : list part := mjoin (spart acc L <$> l).

Record built (sp : sparams) (kvs : list (bytes * list bytes)) (its : list item)
  (L : list edge) (l : list eptr) (f : sfiles) : Prop := Built {
  bt_items : Forall2 (item_of sp kvs) (accepted (sp_enc sp) kvs) its;
  bt_edges : Forall2 (fun it e => same_ends (item_edge it) e) its L;
  bt_fits : fits (sp_n sp) (cap sp) its (parts_of L);
  bt_table : sf_table f = stored_page sp (accepted (sp_enc sp) kvs) L <$> seq 0 (sp_n sp);
  bt_used : sf_used f = mjoin (page_nonces sp <$> seq 0 (sp_n sp));
  bt_pages : forall v, v < sp_n sp ->
     Forall (part_ok (sp_enc sp)) (page_parts (accepted (sp_enc sp) kvs) L v) /\
     length (parts_bytes (sp_enc sp) (page_parts (accepted (sp_enc sp) kvs) L v)) <= kp_page (sp_enc sp);
  bt_stashed : forall q, q ∈ l <-> ep_rec q = false /\ exists it e,
     its !! ep_idx q = Some it /\ L !! ep_idx q = Some e /\ (e_flow e + e_recf e < it_len it)%Z;
  bt_nodup : NoDup l;
  bt_sparts : Forall (part_ok (sp_enc sp)) (sparts (accepted (sp_enc sp) kvs) L l);
  bt_stash : (l = [] /\ sf_stash f = None) \/
     exists file, sf_stash f = Some file /\
       serialize_parts (sp_enc sp) (sparts (accepted (sp_enc sp) kvs) L l) = Ok file
}.

Lemma accepted_adm p kvs kv : kv ∈ accepted p kvs -> admissible p kv /\ kv ∈ kvs.
Proof. unfold accepted. rewrite elem_of_list_filter. done. Qed.

Lemma mk_ok sp kvs its L o i kv it e :
  aligned (sp_enc sp) -> Forall (fun kv => obj_ok (sp_enc sp) kv.1 kv.2) kvs ->
  parts_ok its (parts_of L) -> item_of sp kvs kv it -> same_ends (item_edge it) e ->
  kv ∈ accepted (sp_enc sp) kvs ->
  its !! i = Some it -> L !! i = Some e -> part_ok (sp_enc sp) (mk o kv e).
Proof.
  intros Hal Ho Hp (H1 & H2 & H3) (E1 & E2 & E3 & E4) Hacc Hit He.
  apply accepted_adm in Hacc as [Hadm Hin].
  assert (Hx : parts_of L !! i = Some (e_flow e, e_recf e)).
  { unfold parts_of. by rewrite list_lookup_fmap, He. }
  destruct (Forall2_lookup_lr _ _ _ _ _ _ Hp Hit Hx) as (P1 & P2 & P3). simpl in *.
  split; simpl.
  - by apply (proj1 (Forall_forall _ _) Ho).
  - destruct Hal as (Ht & _ & _ & HP).
    assert (Hc : (it_len it < 2 ^ 64)%Z).
    { unfold admissible, bucket_size in Hadm.
      assert (kp_page (sp_enc sp) / kp_val (sp_enc sp) <= kp_page (sp_enc sp)).
      { apply Nat.div_le_upper_bound; nia. }
      rewrite H2. lia. }
    destruct o; split_and!; simpl; lia.
Qed.

Lemma item_edge_data sp kvs acc its L :
  Forall2 (item_of sp kvs) acc its -> Forall2 (fun it e => same_ends (item_edge it) e) its L ->
  Forall2 (edge_data kvs) acc L.
Proof.
  intros H. revert L. induction H as [|kv it acc its (H1 & _) H IH]; intros L HL.
  - apply Forall2_nil_inv_l in HL as ->. constructor.
  - apply Forall2_cons_inv_l in HL as (e & L' & (_ & _ & _ & E) & HL & ->). constructor; [|auto].
    exists (it_idx it). simpl in E. auto.
Qed.

Lemma build_stash_ok p data L X acc l :
  Forall2 (edge_data data) acc L -> (forall q, q ∈ l -> ep_idx q < length L) ->
  Forall (part_ok p) (sparts acc L l) ->
  build_stash p data (L ++ X) l = serialize_parts p (sparts acc L l).
Proof.
  intros HL. unfold sparts. induction l as [|q l IH]; intros Hl Hok; csimpl in *; [done|].
  destruct (lookup_lt_is_Some_2 L (ep_idx q)) as [e He]; [apply Hl; left|].
  destruct (Forall2_lookup_r _ _ _ _ _ HL He) as (kv & Hkv & (i & Hv & Hd)).
  unfold spart in *. rewrite Hkv, He in *. csimpl. simpl in Hok.
  apply Forall_cons in Hok as [Hq Hok].
  unfold vat at 1. rewrite (lookup_app_l_Some _ _ _ _ He). cbn [rbind].
  rewrite Hv. unfold vat. rewrite Hd. cbn [rbind].
  rewrite IH; [done| |done]. intros q' Hq'. apply Hl. by right.
Qed.

Lemma fuel_le sp kvs its :
  Forall2 (item_of sp kvs) (accepted (sp_enc sp) kvs) its ->
  alloc_fuel its <= store_fuel (sp_enc sp) kvs.
Proof.
  unfold alloc_fuel, store_fuel. generalize (accepted (sp_enc sp) kvs) as acc.
  intros acc H. assert (0 <= zsum (it_len <$> its) <=
    Z.of_nat (foldr (λ kv s, length kv.2 + list_control (sp_enc sp) + s)%nat 0%nat acc))%Z; [|lia].
  induction H as [|kv it acc its (_ & H2 & _) H IH]; csimpl; [lia|]. rewrite H2. lia.
Qed.

Lemma store_build_ok sp kvs b its :
  aligned (sp_enc sp) -> 2 <= sp_n sp -> cipher_ok (sp_cipher sp) ->
  Forall (fun kv => obj_ok (sp_enc sp) kv.1 kv.2) kvs -> sinv sp kvs b its ->
  exists a L l f,
    (forall fuel, store_fuel (sp_enc sp) kvs <= fuel ->
       store_build fuel sp b = (SB a kvs true, Ok f)) /\
    built sp kvs its L l f.
Proof.
  intros Hal Hn Hc Ho [Sb Sd Sa Si Sk].
  destruct (allocate_ok (sp_n sp) (cap sp) its (sb_alloc b)) as (a & E & AL); auto.
  { unfold cap. lia. }
  destruct AL as [D Hs Hp Hl Hv (L & X & HE & Hlen & HL & HX & HF & HM & HS) HO].
  set (acc := accepted (sp_enc sp) kvs) in *.
  pose proof (item_edge_data sp kvs acc its L Si HL) as HD.
  assert (Hmk : forall o i kv e, acc !! i = Some kv -> L !! i = Some e ->
     part_ok (sp_enc sp) (mk o kv e)).
  { intros o i kv e Hkv He. destruct (Forall2_lookup_l _ _ _ _ _ Si Hkv) as (it & Hit & Hit').
    pose proof (Forall2_lookup_lr _ _ _ _ _ _ HL Hit He) as Hse. simpl in Hse.
    eapply (mk_ok sp kvs its L o i kv it e); eauto; [apply HF|by eapply elem_of_list_lookup_2]. }
  assert (HPg : forall v, v < sp_n sp ->
     Forall (part_ok (sp_enc sp)) (page_parts acc L v) /\
     length (parts_bytes (sp_enc sp) (page_parts acc L v)) <= kp_page (sp_enc sp)).
  { intros v Hvn. assert (Hok : Forall (part_ok (sp_enc sp)) (page_parts acc L v)).
    { apply Forall_forall. intros q Hq. unfold page_parts in Hq. apply elem_of_app in Hq as [Hq|Hq];
        apply elem_of_sel in Hq as (i & kv & e & Hkv & He & _ & ->); eauto. }
    split; [done|]. pose proof (parts_bytes_le _ _ Hal Hok) as Hb.
    rewrite (granted_page sp kvs acc L its v Si HL) in Hb.
    destruct HF as [_ HF]. specialize (HF v Hvn). unfold cap, bucket_size in HF.
    destruct Hal as (Ht & _).
    assert (kp_page (sp_enc sp) / kp_val (sp_enc sp) * kp_val (sp_enc sp) <= kp_page (sp_enc sp)).
    { pose proof (Nat.div_mod (kp_page (sp_enc sp)) (kp_val (sp_enc sp))). lia. }
    nia. }
  assert (Hsp : Forall (part_ok (sp_enc sp)) (sparts acc L (al_stash a))).
  { unfold sparts. apply Forall_forall. intros q Hq. apply elem_of_list_join in Hq as (qs & Hq & Hqs).
    apply elem_of_list_fmap in Hqs as (x & -> & _). unfold spart in Hq.
    destruct (acc !! ep_idx x) as [kv|] eqn:Hkv; [|by apply elem_of_nil in Hq].
    destruct (L !! ep_idx x) as [e|] eqn:He; [|by apply elem_of_nil in Hq].
    apply elem_of_list_singleton in Hq as ->. eauto. }
  pose proof (build_pages_ok sp kvs acc L X (al_graph a) Hal HX HD HE) as BP.
  rewrite Hl in BP. specialize (BP ltac:(by rewrite <- HE) HPg (sp_n sp) 0 [] [] eq_refl eq_refl).
  simpl in BP.
  pose proof (build_stash_ok (sp_enc sp) kvs L X acc (al_stash a) HD) as BS.
  specialize (BS ltac:(intros q Hq; apply HS in Hq as (_ & it & e & _ & He & _); by eapply lookup_lt_Some) Hsp).
  rewrite serialize_parts_ok in BS by done.
  set (file := entries_bytes (entries (sp_enc sp) (sparts acc L (al_stash a)))) in *.
  exists a, L, (al_stash a), (SFiles (stored_page sp acc L <$> seq 0 (sp_n sp))
     (if decide (al_stash a = []) then None else Some file)
     (mjoin (page_nonces sp <$> seq 0 (sp_n sp)))). split.
  - intros fuel Hfuel. unfold store_build. rewrite Sb.
    rewrite E by (pose proof (fuel_le sp kvs its Si); lia).
    unfold write_files, get_allocation_graph, get_stashed_edges. rewrite D, Sd. cbn [rbind].
    rewrite BP. cbn [rbind fst snd]. rewrite HE, BS. cbn [rbind].
    destruct (decide (al_stash a = [])) as [->|Hne]; [done|].
    rewrite bool_decide_true by (destruct (al_stash a); [done|simpl; lia]). done.
  - split; simpl; auto.
    + by apply ssorted_NoDup.
    + destruct (decide (al_stash a = [])) as [->|Hne]; [by left|]. right. exists file.
      split; [done|]. by apply serialize_parts_ok.
Qed.

(** * Lookup *)
Lemma lookup_parts_in p qs q : NoDup (pt_key <$> qs) -> q ∈ qs -> lookup_parts p (pt_key q) qs = kept p q.
Proof.
  intros Hnd Hq. unfold lookup_parts.
  destruct (list_find _ qs) as [[i x]|] eqn:Ef.
  - apply list_find_Some in Ef as (Hi & Hx & _). apply elem_of_list_lookup in Hq as [j Hj].
    assert (i = j).
    { eapply (NoDup_lookup _ _ _ (pt_key q) Hnd); rewrite list_lookup_fmap;
        [rewrite Hi|rewrite Hj]; simpl; congruence. }
    by simplify_eq.
  - apply list_find_None in Ef. rewrite Forall_forall in Ef. by destruct (Ef q Hq).
Qed.
Lemma lookup_parts_out p qs k : k ∉ pt_key <$> qs -> lookup_parts p k qs = [].
Proof.
  intros Hn. unfold lookup_parts. destruct (list_find _ qs) as [[i x]|] eqn:Ef; [|done].
  apply list_find_Some in Ef as (Hi & Hx & _). exfalso. apply Hn. rewrite <- Hx.
  apply elem_of_list_fmap. exists x. split; [done|]. by eapply elem_of_list_lookup_2.
Qed.
Lemma lookup_stash_in p qs q : NoDup (pt_key <$> qs) -> q ∈ qs ->
  default [] (lookup_stash p (pt_key q) qs) = stashed p q.
Proof.
  intros Hnd Hq. unfold lookup_stash.
  destruct (list_find _ qs) as [[i x]|] eqn:Ef.
  - apply list_find_Some in Ef as (Hi & Hx & _). apply elem_of_list_lookup in Hq as [j Hj].
    assert (i = j).
    { eapply (NoDup_lookup _ _ _ (pt_key q) Hnd); rewrite list_lookup_fmap;
        [rewrite Hi|rewrite Hj]; simpl; congruence. }
    simplify_eq. by case_decide.
  - apply list_find_None in Ef. rewrite Forall_forall in Ef. by destruct (Ef q Hq).
Qed.
Lemma lookup_stash_out p qs k : k ∉ pt_key <$> qs -> lookup_stash p k qs = None.
Proof.
  intros Hn. unfold lookup_stash. destruct (list_find _ qs) as [[i x]|] eqn:Ef; [|done].
  apply list_find_Some in Ef as (Hi & Hx & _). exfalso. apply Hn. rewrite <- Hx.
  apply elem_of_list_fmap. exists x. split; [done|]. by eapply elem_of_list_lookup_2.
Qed.

Lemma values_of_in k v acc : NoDup acc.*1 -> (k, v) ∈ acc -> values_of k acc = v.
Proof.
  intros Hnd Hin. unfold values_of. destruct (list_find _ acc) as [[i x]|] eqn:Ef.
  - apply list_find_Some in Ef as (Hi & Hx & _). apply elem_of_list_lookup in Hin as [j Hj].
    assert (i = j).
    { eapply (NoDup_lookup _ _ _ k Hnd); rewrite list_lookup_fmap;
        [rewrite Hi|rewrite Hj]; simpl; congruence. }
    subst i. assert (x = (k, v)) as -> by congruence. done.
  - apply list_find_None in Ef. rewrite Forall_forall in Ef. by destruct (Ef _ Hin).
Qed.
Lemma values_of_out k acc : k ∉ acc.*1 -> values_of k acc = [].
Proof.
  intros Hn. unfold values_of. destruct (list_find _ acc) as [[i x]|] eqn:Ef; [|done].
  apply list_find_Some in Ef as (Hi & Hx & _). exfalso. apply Hn. rewrite <- Hx.
  apply elem_of_list_fmap. exists x. split; [done|]. by eapply elem_of_list_lookup_2.
Qed.

Lemma sparts_keys_elem acc L l k : k ∈ pt_key <$> sparts acc L l -> k ∈ acc.*1.
Proof.
  unfold sparts. rewrite !elem_of_list_fmap. intros (q & -> & Hq).
  apply elem_of_list_join in Hq as (qs & Hq & Hqs). apply elem_of_list_fmap in Hqs as (x & -> & _).
  unfold spart in Hq. destruct (acc !! ep_idx x) as [kv|] eqn:Hkv; [|by apply elem_of_nil in Hq].
  destruct (L !! ep_idx x) as [e|] eqn:He; [|by apply elem_of_nil in Hq].
  apply elem_of_list_singleton in Hq as ->. exists kv. split; [done|]. by eapply elem_of_list_lookup_2.
Qed.

Lemma sparts_nodup acc L l :
  NoDup acc.*1 -> NoDup l -> (forall q, q ∈ l -> ep_rec q = false) ->
  NoDup (pt_key <$> sparts acc L l).
Proof.
  intros Ha. induction l as [|q l IH]; intros Hl Hr; csimpl; [constructor|].
  apply NoDup_cons in Hl as [Hq Hl]. unfold sparts in *. csimpl.
  assert (IH' := IH Hl ltac:(intros q' Hq'; apply Hr; by right)).
  unfold spart at 1. destruct (acc !! ep_idx q) as [kv|] eqn:Hkv; [|done].
  destruct (L !! ep_idx q) as [e|] eqn:He; [|done]. csimpl. constructor; [|done].
  intros Hin. apply elem_of_list_fmap in Hin as (x & Hk & Hx).
  apply elem_of_list_join in Hx as (qs & Hx & Hqs). apply elem_of_list_fmap in Hqs as (q' & -> & Hq').
  unfold spart in Hx. destruct (acc !! ep_idx q') as [kv'|] eqn:Hkv'; [|by apply elem_of_nil in Hx].
  destruct (L !! ep_idx q') as [e'|] eqn:He'; [|by apply elem_of_nil in Hx].
  apply elem_of_list_singleton in Hx as ->. simpl in Hk.
  assert (Hi : ep_idx q = ep_idx q').
  { eapply (NoDup_lookup _ _ _ kv.1 Ha); rewrite list_lookup_fmap; [by rewrite Hkv|].
    rewrite Hkv'. simpl. congruence. }
  apply Hq. replace q with q'; [done|].
  pose proof (Hr q ltac:(by left)). pose proof (Hr q' ltac:(by right)).
  destruct q, q'; simpl in *; congruence.
Qed.

Lemma page_parts_keys acc L v k : k ∈ pt_key <$> page_parts acc L v -> k ∈ acc.*1.
Proof.
  unfold page_parts. rewrite fmap_app. intros H. apply elem_of_app in H as [H|H];
    eauto using sel_keys.
Qed.

Lemma page_parts_nodup sp kvs acc its L v :
  2 <= sp_n sp -> NoDup acc.*1 -> Forall2 (item_of sp kvs) acc its ->
  Forall2 (fun it e => same_ends (item_edge it) e) its L ->
  NoDup (pt_key <$> page_parts acc L v).
Proof.
  intros Hn Hnd HA HL. unfold page_parts. rewrite fmap_app. apply NoDup_app. split_and!.
  - by apply sel_nodup.
  - intros k H1 H2. apply elem_of_list_fmap in H1 as (q1 & -> & H1).
    apply elem_of_list_fmap in H2 as (q2 & Hk & H2).
    apply elem_of_sel in H1 as (i & kv & e & Hkv & He & Hends & ->).
    apply elem_of_sel in H2 as (j & kv' & e' & Hkv' & He' & Hst & ->). simpl in Hk.
    assert (i = j).
    { eapply (NoDup_lookup _ _ _ kv.1 Hnd); rewrite list_lookup_fmap; [by rewrite Hkv|].
      rewrite Hkv'. simpl. congruence. }
    simplify_eq. destruct (Forall2_lookup_l _ _ _ _ _ HA Hkv) as (it & Hit & (_ & _ & Hpos)).
    destruct (Forall2_lookup_lr _ _ _ _ _ _ HL Hit He) as (E1 & E2 & _). simpl in *.
    unfold ends, starts in *. apply bool_decide_eq_true in Hends, Hst.
    destruct (positions_ok (sp_n sp) (sp_hash sp kv.1) Hn) as (x & y & Hp & Hx & Hy).
    rewrite Hp in Hpos. simplify_eq. rewrite <- E2 in Hends. rewrite <- E1 in Hst. simplify_eq. lia.
  - by apply sel_nodup.
Qed.

(** Nothing remains of a list whose two grants cover it. *)
Lemma leftover_nil p n (x y : Z) : (0 <= x)%Z -> (0 <= y)%Z ->
  (x + y = Z.of_nat n + Z.of_nat (list_control p))%Z -> n - room p n x - room p n y = 0.
Proof. unfold room, list_control. lia. Qed.

(** A page holds parts of one orientation only. *)
Lemma sel_nil o P acc L : Forall (fun e => P e = false) L -> sel o P acc L = [].
Proof.
  intros H. revert acc. induction H as [|e L He H IH]; intros [|kv acc]; simpl; auto.
  by rewrite He.
Qed.

Lemma sel_app o P a1 a2 L1 L2 : length a1 = length L1 ->
  sel o P (a1 ++ a2) (L1 ++ L2) = sel o P a1 L1 ++ sel o P a2 L2.
Proof.
  revert L1. induction a1 as [|kv a1 IH]; intros [|e L1] H; simpl in *; try done.
  rewrite IH by lia. by destruct (P e).
Qed.

Lemma sel_last o P a1 a2 L : length (a1 ++ a2) = length L ->
  Forall (fun kv : bytes * list bytes => kv.2 <> []) a1 ->
  Forall (fun kv : bytes * list bytes => kv.2 = []) a2 ->
  empties_last (sel o P (a1 ++ a2) L).
Proof.
  intros Hl H1 H2. rewrite app_length in Hl. rewrite <- (take_drop (length a1) L).
  rewrite sel_app by (rewrite take_length; lia). eexists _, _. split; [done|].
  split; apply Forall_forall; intros q Hq; apply elem_of_sel in Hq as (i & kv & e & Hkv & _ & _ & ->);
    simpl; [rewrite Forall_forall in H1; apply H1|rewrite Forall_forall in H2; apply H2];
    by eapply elem_of_list_lookup_2.
Qed.

Lemma page_parts_last sp kvs its L v :
  2 <= sp_n sp -> Forall2 (item_of sp kvs) (accepted (sp_enc sp) kvs) its ->
  Forall2 (fun it e => same_ends (item_edge it) e) its L ->
  empty_lists_last (sp_enc sp) kvs ->
  empties_last (page_parts (accepted (sp_enc sp) kvs) L v).
Proof.
  intros Hn HA HL (a1 & a2 & Ea & H1 & H2). set (acc := accepted (sp_enc sp) kvs) in *.
  assert (Hlen : length acc = length L).
  { rewrite (Forall2_length _ _ _ HA). by apply Forall2_length in HL. }
  assert (Hpos : forall i e, L !! i = Some e -> exists x y, e_start e = VInner x /\ e_end e = VInner y /\
     x < sp_n sp / 2 /\ sp_n sp / 2 <= y).
  { intros i e He. destruct (Forall2_lookup_r _ _ _ _ _ HL He) as (it & Hit & (E1 & E2 & _)).
    destruct (Forall2_lookup_r _ _ _ _ _ HA Hit) as (kv & Hkv & (_ & _ & Hp)).
    destruct (positions_ok (sp_n sp) (sp_hash sp kv.1) Hn) as (x & y & Hp' & Hx & Hy).
    rewrite Hp in Hp'. simplify_eq. exists (it_h0 it), (it_h1 it). simpl in *. split_and!; auto; lia. }
  unfold page_parts. destruct (decide (v < sp_n sp / 2)) as [Hv|Hv].
  - rewrite (sel_nil Incoming).
    + simpl. rewrite Ea in *. by apply sel_last.
    + apply Forall_forall. intros e He. apply elem_of_list_lookup in He as [i He].
      destruct (Hpos i e He) as (x & y & _ & Hy & _ & Hy'). unfold ends. rewrite Hy.
      apply bool_decide_eq_false. intros [= ->]. lia.
  - rewrite (sel_nil Outgoing).
    + rewrite app_nil_r. rewrite Ea in *. by apply sel_last.
    + apply Forall_forall. intros e He. apply elem_of_list_lookup in He as [i He].
      destruct (Hpos i e He) as (x & y & Hx & _ & Hx' & _). unfold starts. rewrite Hx.
      apply bool_decide_eq_false. intros [= ->]. lia.
Qed.

Lemma decode_stored sp kvs its L l f v key :
  words (sp_enc sp) -> 2 <= sp_n sp -> cipher_ok (sp_cipher sp) ->
  NoDup (accepted (sp_enc sp) kvs).*1 ->
  empty_lists_last (sp_enc sp) kvs ->
  built sp kvs its L l f -> v < sp_n sp ->
  decode_single (sp_enc sp) key (plain_page (sp_enc sp) (accepted (sp_enc sp) kvs) L v) =
  Ok (lookup_parts (sp_enc sp) key (page_parts (accepted (sp_enc sp) kvs) L v)).
Proof.
  intros Hw Hn Hc Hnd Hne B Hv. destruct (bt_pages _ _ _ _ _ _ B v Hv) as [Hok Hlen].
  unfold plain_page. apply decode_page_ok; auto.
  - by apply words_aligned.
  - eapply page_parts_last; [done|apply B|apply B|done].
  - eapply page_parts_nodup; [done|done|apply B|apply B].
  - by apply words_slack.
Qed.

Lemma get_list_ok sp kvs its L l f :
  db_ok sp kvs -> empty_lists_last (sp_enc sp) kvs ->
  built sp kvs its L l f ->
  exists s, open_store (sp_enc sp) f = Ok s /\
    forall k, exists r, get_list sp s k = Ok r /\ r ≡ₚ values_of k (accepted (sp_enc sp) kvs).
Proof.
  intros [Hw Hn Hc Ho Hk] Hne B. set (p := sp_enc sp) in *. set (acc := accepted p kvs) in *.
  pose proof (sparts_nodup acc L l Hk (bt_nodup _ _ _ _ _ _ B)
    ltac:(intros q Hq; by apply (bt_stashed _ _ _ _ _ _ B) in Hq as [? _])) as Hsn.
  assert (HO : exists s, open_store p f = Ok s /\ st_table s = sf_table f /\
     forall k, default [] (st_stash s !! k) = default [] (lookup_stash p k (sparts acc L l))).
  { unfold open_store. destruct (bt_stash _ _ _ _ _ _ B) as [[-> ->]|(file & -> & Hf)].
    - simpl. eexists. split; [done|]. split; [done|]. intros k. done.
    - destruct (stash_roundtrip p (sparts acc L l) (bt_sparts _ _ _ _ _ _ B) Hsn)
        as (file' & m & E1 & E2 & E3).
      change (serialize_parts p (sparts acc L l) = Ok file) in Hf. rewrite E1 in Hf. simplify_eq. rewrite E2. simpl. eexists. split; [done|].
      split; [done|]. intros k. simpl. by rewrite E3. }
  destruct HO as (s & Es & Et & Est). exists s. split; [done|]. intros k.
  assert (Hlt : length (st_table s) = sp_n sp).
  { rewrite Et, (bt_table _ _ _ _ _ _ B), fmap_length, seq_length. done. }
  destruct (positions_ok (sp_n sp) (sp_hash sp k) Hn) as (i & j & Hp & Hi & Hj).
  assert (Hlt2 : sp_n sp / 2 < sp_n sp) by (apply Nat.div_lt; lia).
  unfold get_list, get_buckets. rewrite Hlt, Hp. cbn [rbind fst snd].
  assert (Hvat : forall v, v < sp_n sp -> vat (st_table s) v = Ok (stored_page sp acc L v)).
  { intros v Hv. apply vat_ok. rewrite Et, (bt_table _ _ _ _ _ _ B), list_lookup_fmap.
    rewrite lookup_seq_lt by done. done. }
  rewrite !Hvat by lia. cbn [rbind fst snd].
  assert (Hdec : decode_list sp k (stored_page sp acc L i) i (stored_page sp acc L j) j =
     Ok (lookup_parts p k (page_parts acc L i) ++ lookup_parts p k (page_parts acc L j))).
  { assert (Hdb : decode_buckets p k (plain_page p acc L i) (plain_page p acc L j) =
     Ok (lookup_parts p k (page_parts acc L i) ++ lookup_parts p k (page_parts acc L j))).
    { unfold decode_buckets.
      pose proof (decode_stored sp kvs its L l f i k Hw Hn Hc Hk Hne B ltac:(lia)) as D1.
      pose proof (decode_stored sp kvs its L l f j k Hw Hn Hc Hk Hne B ltac:(lia)) as D2.
      fold p in D1, D2. fold acc in D1, D2. rewrite D1. cbn [rbind]. rewrite D2. done. }
    assert (Hpl : forall v, v < sp_n sp -> length (plain_page p acc L v) = kp_page p).
    { intros v Hv. destruct (bt_pages _ _ _ _ _ _ B v Hv) as [_ Hb]. fold p acc in Hb. unfold plain_page.
      rewrite app_length, replicate_length. lia. }
    unfold decode_list, stored_page. fold p. destruct (sp_cipher sp) as [|ks ek]; [done|].
    unfold dec_decode_buckets. simpl in Hc.
    rewrite !xor_bytes_involutive by (rewrite Hc, Hpl by lia; done). done. }
  rewrite Hdec. cbn [rbind]. rewrite Est. eexists. split; [done|].
  destruct (decide (k ∈ acc.*1)) as [Hin|Hout].
  2:{ rewrite values_of_out by done.
      rewrite !lookup_parts_out by (intros ?; apply Hout; eauto using page_parts_keys).
      rewrite lookup_stash_out by (intros ?; apply Hout; eauto using sparts_keys_elem). done. }
  apply elem_of_list_fmap in Hin as ([k' vs] & Hkk & Hin). simpl in Hkk. subst k'.
  rewrite (values_of_in k vs acc Hk Hin).
  apply elem_of_list_lookup in Hin as [x Hx].
  destruct (Forall2_lookup_l _ _ _ _ _ (bt_items _ _ _ _ _ _ B) Hx) as (it & Hit & (H1 & H2 & H3)).
  destruct (Forall2_lookup_l _ _ _ _ _ (bt_edges _ _ _ _ _ _ B) Hit) as (e & He & (E1 & E2 & E3 & E4)).
  simpl in *. rewrite Hp in H3. simplify_eq.
  assert (Ps : mk Outgoing (k, vs) e ∈ page_parts acc L (it_h0 it)).
  { unfold page_parts. apply elem_of_app. right. apply elem_of_sel. exists x, (k, vs), e.
    split_and!; auto. unfold starts. apply bool_decide_eq_true. done. }
  assert (Pe : mk Incoming (k, vs) e ∈ page_parts acc L (it_h1 it)).
  { unfold page_parts. apply elem_of_app. left. apply elem_of_sel. exists x, (k, vs), e.
    split_and!; auto. unfold ends. apply bool_decide_eq_true. done. }
  assert (Hnp : forall v, NoDup (pt_key <$> page_parts acc L v)).
  { intros v. eapply page_parts_nodup; [done|done|apply B|apply B]. }
  pose proof (lookup_parts_in p _ _ (Hnp _) Ps) as L1. pose proof (lookup_parts_in p _ _ (Hnp _) Pe) as L2.
  simpl in L1, L2. rewrite L1, L2.
  destruct (bt_fits _ _ _ _ _ _ B) as [HP _].
  assert (Hpx : parts_of L !! x = Some (e_flow e, e_recf e)).
  { unfold parts_of. by rewrite list_lookup_fmap, He. }
  destruct (Forall2_lookup_lr _ _ _ _ _ _ HP Hit Hpx) as (P1 & P2 & P3). simpl in *.
  assert (Hroom : room p (length vs) (e_recf e) + room p (length vs) (e_flow e) <= length vs).
  { rewrite H2 in P3. unfold room, list_control, p in *. lia. }
  assert (Hst : default [] (lookup_stash p k (sparts acc L l)) = leftover p vs (e_recf e) (e_flow e)).
  { destruct (decide (EP false x ∈ l)) as [Hl|Hl].
    - assert (Pst : mk Incoming (k, vs) e ∈ sparts acc L l).
      { unfold sparts. apply elem_of_list_join. exists [mk Incoming (k, vs) e].
        split; [by left|]. apply elem_of_list_fmap. exists (EP false x). split; [|done].
        unfold spart. simpl. by rewrite Hx, He. }
      pose proof (lookup_stash_in p _ _ Hsn Pst) as L3. simpl in L3. rewrite L3. done.
    - assert (Hfull : (e_recf e + e_flow e = Z.of_nat (length vs) + Z.of_nat (list_control p))%Z).
      { destruct (decide (e_flow e + e_recf e < it_len it)%Z) as [Hlt3|Hge].
        - exfalso. apply Hl, (bt_stashed _ _ _ _ _ _ B). split; [done|]. exists it, e. done.
        - rewrite H2 in *. unfold p. lia. }
      rewrite lookup_stash_out.
      + unfold leftover. rewrite (leftover_nil p _ _ _ P2 P1 Hfull). done.
      + intros Hk'. unfold sparts in Hk'. apply elem_of_list_fmap in Hk' as (q & Hqk & Hq).
        apply elem_of_list_join in Hq as (qs & Hq & Hqs). apply elem_of_list_fmap in Hqs as (y & -> & Hy).
        unfold spart in Hq. destruct (acc !! ep_idx y) as [kv'|] eqn:Hkv'; [|by apply elem_of_nil in Hq].
        destruct (L !! ep_idx y) as [e'|] eqn:He'; [|by apply elem_of_nil in Hq].
        apply elem_of_list_singleton in Hq as ->. simpl in Hqk.
        assert (x = ep_idx y).
        { eapply (NoDup_lookup _ _ _ k Hk); rewrite list_lookup_fmap; [by rewrite Hx|].
          rewrite Hkv'. simpl. congruence. }
        pose proof (proj1 (bt_stashed _ _ _ _ _ _ B y) Hy) as (Hr & _).
        apply Hl. destruct y as [ry iy]. simpl in *. subst. done. }
  rewrite Hst. pose proof (split_exact p vs (e_recf e) (e_flow e) Hroom) as Hse.
  assert (K1 : kept p (mk Incoming (k, vs) e) = take (room p (length vs) (e_recf e)) vs) by done.
  assert (K2 : kept p (mk Outgoing (k, vs) e) =
    drop (length vs - room p (length vs) (e_flow e)) vs) by done.
  rewrite K1, K2.
  assert (Hperm : forall z, take (room p (length vs) (e_recf e)) vs ++ leftover p vs (e_recf e) (e_flow e) ++
    drop (length vs - room p (length vs) (e_flow e)) vs = z ->
    (drop (length vs - room p (length vs) (e_flow e)) vs ++ take (room p (length vs) (e_recf e)) vs) ++
    leftover p vs (e_recf e) (e_flow e) ≡ₚ z); [|by apply Hperm].
  intros z <-.
  rewrite <- app_assoc, (app_assoc (take _ vs)). apply Permutation_app_comm.
Qed.

Lemma store_correct sp kvs b0 :
  db_ok sp kvs -> new_store_builder sp = Ok b0 ->
  empty_lists_last (sp_enc sp) kvs ->
  exists b2 f s,
    (run_inserts sp b0 kvs).2 =
      ((fun kv => if decide (admissible (sp_enc sp) kv) then Ok tt else Throw InvalidArgument) <$> kvs) /\
    (forall fuel, store_fuel (sp_enc sp) kvs <= fuel ->
       store_build fuel sp (run_inserts sp b0 kvs).1 = (b2, Ok f)) /\
    open_store (sp_enc sp) f = Ok s /\
    forall k, exists r, get_list sp s k = Ok r /\ r ≡ₚ values_of k (accepted (sp_enc sp) kvs).
Proof.
  intros Hdb Hb Hne. pose proof Hdb as [Hw Hn Hc Ho Hk].
  destruct (run_inserts_inv sp Hn kvs [] b0 [] (new_builder_inv sp b0 Hb)) as (its & Hs & Hr).
  simpl in Hs.
  destruct (store_build_ok sp kvs _ its (words_aligned _ Hw) Hn Hc Ho Hs) as (a & L & l & f & Hf & B).
  destruct (get_list_ok sp kvs its L l f Hdb Hne B) as (s & Es & Hg).
  eexists _, f, s. split_and!; eauto.
Qed.
