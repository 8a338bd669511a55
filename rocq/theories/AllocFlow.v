(** From the maximal flow to the properties of the allocation. *)
From stdpp Require Import prelude.
From Coq Require Import ZArith Lia.
From Verif Require Import Base GraphModel GraphSpec GraphProofs GraphSearch GraphFlow
  GraphTheorems AllocModel AllocSpec AllocProofs.
Local Open Scope Z_scope.

(** * Sums *)
Lemma zsum_swap {A B} (f : A -> B -> Z) (l : list A) (k : list B) :
  zsum ((fun a => zsum (f a <$> k)) <$> l) = zsum ((fun b => zsum ((fun a => f a b) <$> l)) <$> k).
Proof.
  induction l as [|a l IH]; csimpl.
  - symmetry. apply zsum_map_0.
  - rewrite IH. by rewrite <- zsum_map_add.
Qed.

Lemma zsum_map_sub {A} (f g : A -> Z) l :
  zsum ((fun x => f x - g x) <$> l) = zsum (f <$> l) - zsum (g <$> l).
Proof. induction l; csimpl; lia. Qed.

Lemma zsum_mjoin {A} (f : A -> Z) (l : list (list A)) :
  zsum (f <$> mjoin l) = zsum ((fun k => zsum (f <$> k)) <$> l).
Proof. induction l as [|a l IH]; csimpl; [done|]. by rewrite fmap_app, zsum_app, IH. Qed.

Lemma zsum_single_nat (F : nat -> Z) n i :
  (i < n)%nat -> (forall j, j <> i -> F j = 0) -> zsum (F <$> seq 0 n) = F i.
Proof.
  intros Hi HF. induction n as [|n IH]; [lia|]. rewrite seq_S, fmap_app, zsum_app. csimpl.
  destruct (decide (i = n)) as [->|Hne].
  - rewrite (zsum_map_ext _ (fun _ => 0)), zsum_map_0; [lia|].
    intros j Hj. apply elem_of_seq in Hj. apply HF. lia.
  - rewrite IH by lia. rewrite (HF n) by done. lia.
Qed.

(** Sum over the vertices of a set of the amounts attached to one vertex. *)
Lemma zsum_pick (A : nat -> bool) n u (x : Z) :
  (u < n)%nat ->
  zsum ((fun i => if A i then (if bool_decide (u = i) then x else 0) else 0) <$> seq 0 n)
  = if A u then x else 0.
Proof.
  intros Hu. rewrite (zsum_single_nat _ n u Hu).
  - by rewrite bool_decide_true.
  - intros j Hj. rewrite bool_decide_false by congruence. by destruct (A j).
Qed.

(** * Construction *)
Definition item_edge (it : item) : edge :=
  Edge (Some (it_idx it)) (it_len it) (it_len it) 0 (VInner (it_h0 it)) (VInner (it_h1 it)).
Definition src_edge (c : Z) (i : nat) : edge := Edge None c c 0 VSource (VInner i).
Definition snk_edge (c : Z) (i : nat) : edge := Edge None c c 0 (VInner i) VSink.

Definition deg (its : list item) (i : nat) : Z :=
  zsum ((fun it => if bool_decide (it_h0 it = i) then it_len it else 0) <$> its).

Definition ext_of (page : Z) (its : list item) (i : nat) : list edge :=
  if bool_decide (page < deg its i) then [src_edge (deg its i - page) i]
  else if bool_decide (deg its i < page) then [snk_edge (page - deg its i) i] else [].

Record bstate (n : nat) (es : list edge) (g : graph) : Prop := BState {
  bs_wf : wf g;
  bs_state : g_state g = Building;
  bs_size : g_size g = n;
  bs_edges : g_edges g = es;
  bs_zero : Forall (fun e => e_recf e = 0) es;
  bs_comp : Forall (fun v => v_comp v = 0%nat) (g_verts g)
}.

Definition edge_of (o : gop) : edge :=
  match o with
  | AddEdge vi c s e => Edge vi c c 0 (VInner s) (VInner e)
  | AddFromSource vi c e => Edge vi c c 0 VSource (VInner e)
  | AddToSink vi c s => Edge vi c c 0 (VInner s) VSink
  end.

Lemma bstate_op n es g o :
  bstate n es g -> op_ok n o ->
  exists p g', run_op g o = Ok (p, g') /\ bstate n (es ++ [edge_of o]) g'.
Proof.
  intros [W B S E Z C] Hok. subst n es.
  destruct (run_op_step g o W B Hok Z) as (g' & Er & W' & B' & S' & A' & Z' & C').
  eexists _, g'. split; [exact Er|].
  assert (HE : g_edges g' = g_edges g ++ [edge_of o]).
  { destruct o; simpl in Er; unfold add_edge, add_edge_from_source, add_edge_to_sink in Er;
      rewrite B in Er; repeat case_bool_decide; simplify_eq; done. }
  split; auto.
  - by rewrite <- HE.
  - apply Forall_lookup_2. intros i x Hx.
    assert (Hc : (v_comp <$> g_verts g') !! i = Some (v_comp x)) by (by rewrite list_lookup_fmap, Hx).
    rewrite C', list_lookup_fmap in Hc. destruct (g_verts g !! i) as [y|] eqn:Hy; [|done].
    simpl in Hc. pose proof (Forall_lookup_1 _ _ _ _ C Hy). simpl in *. congruence.
Qed.

(** State of the allocator before the allocation. *)
Record astate (n : nat) (page : Z) (its : list item) (a : allocator) : Prop := AState {
  as_graph : bstate n (item_edge <$> its) (al_graph a);
  as_size : al_size a = n;
  as_page : al_page a = page;
  as_done : al_done a = false;
  as_stash : al_stash a = []
}.

Lemma new_allocator_ok n page a : new_allocator n page = Ok a -> (0 < n)%nat /\ astate n page [] a.
Proof.
  unfold new_allocator. intros H. apply rbind_ok in H as (g & Hg & H). simplify_eq.
  destruct (new_graph_wf n g Hg) as (W & B & S & E & Hn & _ & C).
  split; [done|]. split; auto. simpl. split; auto.
Qed.

Lemma alloc_insert_ok n page its a it :
  astate n page its a -> item_ok n page it ->
  exists a', alloc_insert a (it_h0 it) (it_h1 it) (it_len it) (Some (it_idx it)) = Ok a' /\
    astate n page (its ++ [it]) a'.
Proof.
  intros [G S P D H] (H0 & H1 & Hl). unfold alloc_insert. rewrite D, P.
  rewrite bool_decide_false by lia.
  destruct (bstate_op n _ _ (AddEdge (Some (it_idx it)) (it_len it) (it_h0 it) (it_h1 it)) G)
    as (p & g' & E & B).
  { simpl. lia. }
  simpl in E. rewrite E. simpl. eexists; split; [reflexivity|].
  split; simpl; auto. by rewrite fmap_app.
Qed.

Lemma insert_items_ok n page its2 : forall its a,
  astate n page its a -> Forall (item_ok n page) its2 ->
  exists a', insert_items a its2 = Ok a' /\ astate n page (its ++ its2) a'.
Proof.
  induction its2 as [|it its2 IH]; intros its a A H; simpl.
  - exists a. by rewrite app_nil_r.
  - apply Forall_cons in H as [H1 H2].
    destruct (alloc_insert_ok n page its a it A H1) as (a1 & E1 & A1).
    rewrite E1. simpl. destruct (IH _ _ A1 H2) as (a2 & E2 & A2).
    exists a2. split; [done|]. by rewrite <- app_assoc in A2.
Qed.

(** ** Step 1 *)
Lemma deg_edges its i :
  zsum ((fun e => if starts (VInner i) e then e_cap e else 0) <$> (item_edge <$> its)) = deg its i.
Proof.
  unfold deg. induction its as [|it its IH]; csimpl; [done|]. rewrite IH.
  unfold starts. simpl. f_equal. repeat case_bool_decide; congruence.
Qed.

Lemma deg_nonneg n page its i : Forall (item_ok n page) its -> 0 <= deg its i.
Proof.
  unfold deg. induction 1 as [|it its (_ & _ & H) _ IH]; csimpl; [lia|]. case_bool_decide; lia.
Qed.

Lemma alloc_degrees_ok n page its :
  forall l ext g,
  bstate n ((item_edge <$> its) ++ ext) g -> NoDup l -> (forall i, i ∈ l -> (i < n)%nat) ->
  (forall i e, i ∈ l -> e ∈ ext -> e_start e <> VInner i) ->
  exists g', alloc_degrees page l g = Ok g' /\
    bstate n ((item_edge <$> its) ++ ext ++ mjoin (ext_of page its <$> l)) g'.
Proof.
  induction l as [|i l IH]; intros ext g B HN Hl Hext.
  - exists g. split; [done|]. csimpl. by rewrite app_nil_r.
  - apply NoDup_cons in HN as [Hi HN].
    assert (Hin : (i < n)%nat) by (apply Hl; left).
    assert (Hd : get_vertex_out_capacity g (VInner i) = Ok (deg its i)).
    { unfold get_vertex_out_capacity. simpl. unfold vat.
      assert (Hlt : (i < length (g_verts g))%nat).
      { rewrite (wf_len _ (bs_wf _ _ _ B)), (bs_size _ _ _ B). done. }
      apply lookup_lt_is_Some in Hlt as [x Hx]. rewrite Hx. simpl.
      destruct (wf_verts _ (bs_wf _ _ _ B) _ _ Hx) as [_ ->]. rewrite sum_ptrs_idxs.
      rewrite (bs_edges _ _ _ B), fmap_app, zsum_app, deg_edges.
      rewrite (zsum_map_ext _ (fun _ => 0) ext), zsum_map_0; [f_equal; lia|].
      intros e He. unfold starts. rewrite bool_decide_false; [done|]. apply Hext; [left|done]. }
    cbn [alloc_degrees]. rewrite Hd. cbn [rbind]. csimpl. unfold ext_of at 1.
    case_bool_decide as H1.
    + destruct (bstate_op n _ g (AddFromSource None (deg its i - page) i) B) as (p & g1 & E & B1).
      { simpl. lia. }
      simpl in E. rewrite E. cbn [rbind snd].
      rewrite <- app_assoc in B1.
      destruct (IH (ext ++ [src_edge (deg its i - page) i]) g1 B1) as (g' & E' & B').
      { done. } { intros; apply Hl; by right. }
      { intros j e Hj He. apply elem_of_app in He as [He|He]; [by apply Hext; [right|]|].
        apply elem_of_list_singleton in He as ->. done. }
      exists g'. split; [done|]. by rewrite <- app_assoc in B'.
    + case_bool_decide as H2.
      * destruct (bstate_op n _ g (AddToSink None (page - deg its i) i) B) as (p & g1 & E & B1).
        { simpl. lia. }
        simpl in E. rewrite E. cbn [rbind snd].
        rewrite <- app_assoc in B1.
        destruct (IH (ext ++ [snk_edge (page - deg its i) i]) g1 B1) as (g' & E' & B').
        { done. } { intros; apply Hl; by right. }
        { intros j e Hj He. apply elem_of_app in He as [He|He]; [by apply Hext; [right|]|].
          apply elem_of_list_singleton in He as ->. simpl. intros [= ->]. done. }
        exists g'. split; [done|]. by rewrite <- app_assoc in B'.
      * destruct (IH ext g B) as (g' & E' & B').
        { done. } { intros; apply Hl; by right. } { intros; apply Hext; [by right|done]. }
        exists g'. done.
Qed.

(** * The network handed to the flow computation *)
Definition all_edges (n : nat) (page : Z) (its : list item) : list edge :=
  (item_edge <$> its) ++ mjoin (ext_of page its <$> seq 0 n).

Definition kind_ok (e : edge) : Prop :=
  (is_list e = true /\ (exists i, e_start e = VInner i) /\ exists j, e_end e = VInner j) \/
  (is_list e = false /\ e_start e = VSource /\ exists j, e_end e = VInner j) \/
  (is_list e = false /\ e_end e = VSink /\ exists j, e_start e = VInner j).

Lemma all_edges_kind n page its : Forall kind_ok (all_edges n page its).
Proof.
  unfold all_edges. apply Forall_app; split.
  - apply Forall_fmap, Forall_forall. intros it _. left. simpl. eauto.
  - apply Forall_forall. intros e He. apply elem_of_list_join in He as (l & He & Hl).
    apply elem_of_list_fmap in Hl as (i & -> & _). unfold ext_of in He.
    repeat case_bool_decide; simpl in He; try (by inversion He);
      apply elem_of_list_singleton in He as ->; unfold kind_ok; simpl.
    + right; left. eauto.
    + right; right. eauto.
Qed.

Definition srcc (f : edge -> Z) (v : vptr) (e : edge) : Z :=
  if is_list e then 0 else if ends v e then f e else 0.
Definition snkc (f : edge -> Z) (v : vptr) (e : edge) : Z :=
  if is_list e then 0 else if starts v e then f e else 0.
Definition degc (v : vptr) (e : edge) : Z :=
  if is_list e then (if starts v e then e_cap e else 0) else 0.

Lemma items_zero (F : edge -> Z) its :
  (forall e, is_list e = true -> F e = 0) -> zsum (F <$> (item_edge <$> its)) = 0.
Proof.
  intros HF. rewrite (zsum_map_ext _ (fun _ => 0)), ?zsum_map_0; [done|].
  intros e He. apply elem_of_list_fmap in He as (it & -> & _). by apply HF.
Qed.

Lemma all_src n page its i :
  (i < n)%nat -> zsum (srcc e_cap (VInner i) <$> all_edges n page its) = Z.max 0 (deg its i - page).
Proof.
  intros Hi. unfold all_edges. rewrite fmap_app, zsum_app, items_zero.
  2: { intros e He. unfold srcc. by rewrite He. }
  rewrite zsum_mjoin, <- list_fmap_compose. unfold compose.
  rewrite (zsum_single_nat _ n i Hi).
  - unfold ext_of. repeat case_bool_decide; unfold srcc, is_list, ends; simpl;
      rewrite ?bool_decide_true by done; lia.
  - intros j Hj. unfold ext_of. repeat case_bool_decide; unfold srcc, is_list, ends; simpl;
      rewrite ?bool_decide_false by congruence; lia.
Qed.

Lemma all_snk n page its i :
  (i < n)%nat -> zsum (snkc e_cap (VInner i) <$> all_edges n page its) = Z.max 0 (page - deg its i).
Proof.
  intros Hi. unfold all_edges. rewrite fmap_app, zsum_app, items_zero.
  2: { intros e He. unfold snkc. by rewrite He. }
  rewrite zsum_mjoin, <- list_fmap_compose. unfold compose.
  rewrite (zsum_single_nat _ n i Hi).
  - unfold ext_of. repeat case_bool_decide; unfold snkc, is_list, starts; simpl;
      rewrite ?bool_decide_true by done; lia.
  - intros j Hj. unfold ext_of. repeat case_bool_decide; unfold snkc, is_list, starts; simpl;
      rewrite ?bool_decide_false by congruence; lia.
Qed.

Lemma all_deg n page its i :
  zsum (degc (VInner i) <$> all_edges n page its) = deg its i.
Proof.
  unfold all_edges. rewrite fmap_app, zsum_app.
  rewrite (zsum_map_ext (degc (VInner i)) (fun _ => 0) (mjoin _)), zsum_map_0.
  - rewrite <- deg_edges, Z.add_0_r. apply zsum_map_ext. intros e He.
    apply elem_of_list_fmap in He as (it & -> & _). done.
  - intros e He. apply elem_of_list_join in He as (l & He & Hl).
    apply elem_of_list_fmap in Hl as (j & -> & _). unfold ext_of in He.
    repeat case_bool_decide; simpl in He; try (by inversion He);
      apply elem_of_list_singleton in He as ->; done.
Qed.

(** Total capacity of the source edges. *)
Lemma all_src_cap n page its :
  0 <= page -> Forall (item_ok n page) its -> src_cap (all_edges n page its) <= zsum (it_len <$> its).
Proof.
  intros Hp Hok. unfold src_cap, all_edges. rewrite fmap_app, zsum_app.
  assert (E : zsum ((fun e => if starts VSource e then e_cap e else 0) <$> (item_edge <$> its)) = 0).
  { rewrite (zsum_map_ext _ (fun _ => 0)), ?zsum_map_0; [done|].
    intros e He. apply elem_of_list_fmap in He as (it & -> & _). done. }
  rewrite E. rewrite zsum_mjoin, <- list_fmap_compose. unfold compose.
  etransitivity.
  - apply (zsum_map_le _ (fun i => deg its i)). intros i _.
    pose proof (deg_nonneg n page its i Hok).
    unfold ext_of. repeat case_bool_decide; simpl; lia.
  - unfold deg. rewrite (zsum_swap (fun i it => if bool_decide (it_h0 it = i) then it_len it else 0)).
    apply Z.eq_le_incl. apply zsum_map_ext. intros it Hit.
    destruct (proj1 (Forall_forall _ _) Hok it Hit) as (H0 & _).
    apply (zsum_pick (fun _ => true) n (it_h0 it) (it_len it) H0).
Qed.

(** * After the flow computation *)
Section flow.
  Context (n : nat) (page : Z) (its : list item) (g : graph) (S : vptr -> bool).
  Context (Hpage : 0 <= page) (W : wf g) (C : conserved g) (Hn : g_size g = n).
  Context (Hsame : Forall2 same_ends (all_edges n page its) (g_edges g)).
  Context (HSs : S VSource = true) (HSt : S VSink = false).
  Context (Hcl : forall p u v, parc (g_edges g) p u v -> S u = true -> S v = true).

  Let es := g_edges g.
  Let A (i : nat) : bool := S (VInner i).

  Lemma flow_kind : Forall kind_ok es.
  Proof.
    apply Forall_lookup_2. intros k e He.
    destruct (Forall2_lookup_r _ _ _ _ _ Hsame He) as (e0 & He0 & HS).
    pose proof (Forall_lookup_1 _ _ _ _ (all_edges_kind n page its) He0) as HK.
    unfold kind_ok in *. rewrite (is_list_same _ _ HS). destruct HS as (<- & <- & _). done.
  Qed.

  Lemma flow_edge e : e ∈ es -> edge_ok n e.
  Proof. intros He. rewrite <- Hn. by apply (proj1 (Forall_forall _ _) (wf_edges _ W)). Qed.

  Lemma cap_sum (F : (edge -> Z) -> vptr -> edge -> Z) v :
    (forall a b, same_ends a b -> F e_cap v a = F e_cap v b) ->
    zsum (F e_cap v <$> es) = zsum (F e_cap v <$> all_edges n page its).
  Proof.
    intros HF. symmetry. apply zsum_Forall2. eapply Forall2_impl; [exact Hsame|]. apply HF.
  Qed.

  Lemma flow_src_cap i : (i < n)%nat ->
    zsum (srcc e_cap (VInner i) <$> es) = Z.max 0 (deg its i - page).
  Proof.
    intros Hi. rewrite cap_sum; [by apply all_src|]. intros a b H. unfold srcc, ends.
    rewrite (is_list_same _ _ H). by destruct H as (_ & -> & -> & _).
  Qed.
  Lemma flow_snk_cap i : (i < n)%nat ->
    zsum (snkc e_cap (VInner i) <$> es) = Z.max 0 (page - deg its i).
  Proof.
    intros Hi. rewrite cap_sum; [by apply all_snk|]. intros a b H. unfold snkc, starts.
    rewrite (is_list_same _ _ H). by destruct H as (-> & _ & -> & _).
  Qed.
  Lemma flow_deg i : zsum (degc (VInner i) <$> es) = deg its i.
  Proof.
    rewrite (cap_sum (fun _ => degc)); [apply all_deg|]. intros a b H. unfold degc, starts.
    rewrite (is_list_same _ _ H). by destruct H as (-> & _ & -> & _).
  Qed.

  (** Load of a bin in terms of the flow through the source and sink edges. *)
  Lemma load_eq i :
    eload es (VInner i) = deg its i + zsum (snkc e_recf (VInner i) <$> es)
                          - zsum (srcc e_recf (VInner i) <$> es).
  Proof.
    rewrite <- flow_deg. pose proof (C i) as HC. unfold net in HC. fold es in HC.
    assert (E : eload es (VInner i) = zsum (netc (VInner i) <$> es) +
      zsum (degc (VInner i) <$> es) + zsum (snkc e_recf (VInner i) <$> es)
      - zsum (srcc e_recf (VInner i) <$> es)); [|lia].
    unfold eload. rewrite <- !zsum_map_add, <- zsum_map_sub. apply zsum_map_ext.
    intros e He. destruct (flow_edge e He) as (H1 & H2 & H3 & _).
    pose proof (proj1 (Forall_forall _ _) flow_kind e He) as HK.
    unfold loadc, netc, degc, snkc, srcc, pval, get_field, ends, starts.
    destruct HK as [(-> & (a & ->) & (b & ->))|[(-> & -> & (b & ->))|(-> & -> & (a & ->))]];
      repeat case_bool_decide; simplify_eq; lia.
  Qed.

  Lemma src_rec_bounds i : 0 <= zsum (srcc e_recf (VInner i) <$> es) <= zsum (srcc e_cap (VInner i) <$> es).
  Proof.
    split.
    - etransitivity; [|apply (zsum_map_le (fun _ => 0))]; [by rewrite zsum_map_0|].
      intros e He. destruct (flow_edge e He) as (H1 & H2 & H3 & _). unfold srcc.
      destruct (is_list e), (ends (VInner i) e); lia.
    - apply zsum_map_le. intros e He. destruct (flow_edge e He) as (H1 & H2 & H3 & _). unfold srcc.
      destruct (is_list e), (ends (VInner i) e); lia.
  Qed.
  Lemma snk_rec_bounds i : 0 <= zsum (snkc e_recf (VInner i) <$> es) <= zsum (snkc e_cap (VInner i) <$> es).
  Proof.
    split.
    - etransitivity; [|apply (zsum_map_le (fun _ => 0))]; [by rewrite zsum_map_0|].
      intros e He. destruct (flow_edge e He) as (H1 & H2 & H3 & _). unfold snkc.
      destruct (is_list e), (starts (VInner i) e); lia.
    - apply zsum_map_le. intros e He. destruct (flow_edge e He) as (H1 & H2 & H3 & _). unfold snkc.
      destruct (is_list e), (starts (VInner i) e); lia.
  Qed.

  (** Saturation across the cut. *)
  Lemma cut_flow e : e ∈ es -> S (e_start e) = true -> S (e_end e) = false -> e_flow e = 0.
  Proof.
    intros He H1 H2. destruct (flow_edge e He) as (F1 & _).
    destruct (decide (0 < e_flow e)) as [Hp|]; [|lia].
    apply elem_of_list_lookup in He as [k He].
    rewrite (Hcl (EP false k) (e_start e) (e_end e)) in H2; [done| |done].
    exists e. simpl. auto.
  Qed.
  Lemma cut_rec e : e ∈ es -> S (e_end e) = true -> S (e_start e) = false -> e_recf e = 0.
  Proof.
    intros He H1 H2. destruct (flow_edge e He) as (_ & F1 & _).
    destruct (decide (0 < e_recf e)) as [Hp|]; [|lia].
    apply elem_of_list_lookup in He as [k He].
    rewrite (Hcl (EP true k) (e_end e) (e_start e)) in H2; [done| |done].
    exists e. simpl. auto.
  Qed.

  Lemma load_in i : (i < n)%nat -> A i = true -> page <= eload es (VInner i).
  Proof.
    intros Hi HA. rewrite load_eq.
    assert (E : zsum (snkc e_recf (VInner i) <$> es) = zsum (snkc e_cap (VInner i) <$> es)).
    { apply zsum_map_ext. intros e He. unfold snkc. destruct (is_list e) eqn:El; [done|].
      destruct (starts (VInner i) e) eqn:Es; [|done].
      unfold starts in Es. apply bool_decide_eq_true in Es.
      destruct (flow_edge e He) as (_ & _ & H3 & _).
      pose proof (proj1 (Forall_forall _ _) flow_kind e He) as HK.
      rewrite cut_flow in H3; [lia|done| |].
      - by rewrite Es.
      - destruct HK as [(? & _)|[(_ & ? & _)|(_ & -> & _)]]; [congruence|congruence|done]. }
    rewrite E, flow_snk_cap by done. pose proof (src_rec_bounds i) as HB.
    rewrite flow_src_cap in HB by done. lia.
  Qed.

  Lemma load_out i : (i < n)%nat -> A i = false -> eload es (VInner i) <= page.
  Proof.
    intros Hi HA. rewrite load_eq.
    assert (E : zsum (srcc e_recf (VInner i) <$> es) = zsum (srcc e_cap (VInner i) <$> es)).
    { apply zsum_map_ext. intros e He. unfold srcc. destruct (is_list e) eqn:El; [done|].
      destruct (ends (VInner i) e) eqn:Es; [|done].
      unfold ends in Es. apply bool_decide_eq_true in Es.
      destruct (flow_edge e He) as (_ & _ & H3 & _).
      pose proof (proj1 (Forall_forall _ _) flow_kind e He) as HK.
      rewrite cut_flow in H3; [lia|done| |].
      - destruct HK as [(? & _)|[(_ & -> & _)|(_ & ? & _)]]; [congruence|done|congruence].
      - by rewrite Es. }
    rewrite E, flow_src_cap by done. pose proof (snk_rec_bounds i) as HB.
    rewrite flow_snk_cap in HB by done. lia.
  Qed.

  (** Sum of the loads of a set of bins. *)
  Lemma loads_sum (B : nat -> bool) (es' : list edge) :
    Forall2 same_ends es es' ->
    zsum ((fun i => if B i then eload es' (VInner i) else 0) <$> seq 0 n) =
    zsum ((fun e => (match e_end e with VInner j => if B j then pval true e else 0 | _ => 0 end) +
                    (match e_start e with VInner j => if B j then pval false e else 0 | _ => 0 end)) <$> es').
  Proof.
    intros Hs'. unfold eload.
    rewrite (zsum_map_ext _ (fun i => zsum ((fun e => if B i then loadc (VInner i) e else 0) <$> es')) (seq 0 n)).
    2: { intros i _. destruct (B i); [done|]. by rewrite zsum_map_0. }
    rewrite (zsum_swap (fun i e => if B i then loadc (VInner i) e else 0)).
    apply zsum_map_ext. intros e' He'.
    apply elem_of_list_lookup in He' as [k He'].
    destruct (Forall2_lookup_r _ _ _ _ _ Hs' He') as (e & He & (Es & Ee & _)).
    assert (Hin : e ∈ es) by (apply elem_of_list_lookup; eauto).
    destruct (flow_edge e Hin) as (_ & _ & _ & H4 & H5 & _). rewrite Es in H4. rewrite Ee in H5.
    rewrite (zsum_map_ext _ (fun i =>
       (if B i then (if ends (VInner i) e' then pval true e' else 0) else 0) +
       (if B i then (if starts (VInner i) e' then pval false e' else 0) else 0))).
    2: { intros i _. unfold loadc. destruct (B i); lia. }
    rewrite zsum_map_add. f_equal.
    - unfold ends. destruct H5 as [->|(j & -> & Hj)].
      + rewrite (zsum_map_ext _ (fun _ => 0)); [apply zsum_map_0|]. intros i _. by destruct (B i).
      + rewrite <- (zsum_pick B n j _ Hj). apply zsum_map_ext. intros i _.
        destruct (B i); [|done]. repeat case_bool_decide; congruence.
    - unfold starts. destruct H4 as [->|(j & -> & Hj)].
      + rewrite (zsum_map_ext _ (fun _ => 0)); [apply zsum_map_0|]. intros i _. by destruct (B i).
      + rewrite <- (zsum_pick B n j _ Hj). apply zsum_map_ext. intros i _.
        destruct (B i); [|done]. repeat case_bool_decide; congruence.
  Qed.

  Definition leftc (e : edge) : Z := if is_list e then e_cap e - e_flow e - e_recf e else 0.

  (** Total of the entries left out, in terms of the loads. *)
  Lemma left_eq es' :
    Forall2 same_ends es es' ->
    zsum (leftc <$> es') =
    zsum ((fun i => eload es (VInner i) - eload es' (VInner i)) <$> seq 0 n).
  Proof.
    intros Hs'. rewrite zsum_map_sub.
    pose proof (loads_sum (fun _ => true) es (same_ends_refl es)) as L1.
    pose proof (loads_sum (fun _ => true) es' Hs') as L2. cbn beta iota in L1, L2.
    rewrite L1, L2.
    assert (E : forall l l' : list edge, Forall2 same_ends l l' -> Forall kind_ok l ->
      (forall e, e ∈ l -> edge_ok n e) ->
      zsum (leftc <$> l') =
      zsum ((fun e => (match e_end e with VInner j => pval true e | _ => 0 end) +
         (match e_start e with VInner j => pval false e | _ => 0 end)) <$> l) -
      zsum ((fun e => (match e_end e with VInner j => pval true e | _ => 0 end) +
         (match e_start e with VInner j => pval false e | _ => 0 end)) <$> l')).
    { clear. induction 1 as [|e e' l l' (E1 & E2 & E3 & E4) H IH]; intros HK HO; csimpl; [done|].
      apply Forall_cons in HK as [HK1 HK2]. rewrite IH; [|done|intros; apply HO; by right].
      destruct (HO e) as (_ & _ & H3 & _); [left|].
      unfold leftc, pval, get_field. unfold is_list in *. rewrite <- E1, <- E2, <- E3, <- E4.
      unfold kind_ok, is_list in HK1.
      destruct HK1 as [(-> & (a & ->) & (b & ->))|[(-> & -> & (b & ->))|(-> & -> & (a & ->))]]; lia. }
    apply E; auto.
    - apply flow_kind.
    - apply flow_edge.
  Qed.

  Definition insideb (e : edge) : bool :=
    match e_start e, e_end e with VInner a, VInner b => A a && A b | _, _ => false end.

  (** Entries left out by the allocator: at most the excess of the lists that
      lie inside the cut. *)
  Lemma left_bound es' :
    Forall2 same_ends es es' ->
    (forall i, (i < n)%nat -> eload es' (VInner i) = Z.min page (eload es (VInner i))) ->
    zsum (leftc <$> es') <=
    zsum ((fun e => if is_list e then (if insideb e then e_cap e else 0) else 0) <$> es) -
    zsum ((fun i => if A i then page else 0) <$> seq 0 n).
  Proof.
    intros Hs' Hmin. rewrite (left_eq es' Hs').
    rewrite (zsum_map_ext _ (fun i => (if A i then eload es (VInner i) else 0) - (if A i then page else 0))).
    2: { intros i Hi. apply elem_of_seq in Hi. rewrite Hmin by lia.
         destruct (A i) eqn:HA.
         - pose proof (load_in i ltac:(lia) HA). lia.
         - pose proof (load_out i ltac:(lia) HA). lia. }
    rewrite zsum_map_sub. apply Z.sub_le_mono_r.
    rewrite (loads_sum A es (same_ends_refl es)).
    apply zsum_map_le. intros e He. destruct (flow_edge e He) as (H1 & H2 & H3 & _).
    pose proof (proj1 (Forall_forall _ _) flow_kind e He) as HK.
    pose proof (cut_flow e He) as K1. pose proof (cut_rec e He) as K2.
    unfold pval, get_field, insideb.
    destruct HK as [(-> & (a & Ha) & (b & Hb))|[(-> & Ha & (b & Hb))|(-> & Hb & (a & Ha))]];
      rewrite ?Ha, ?Hb in *.
    - change (S (VInner a)) with (A a) in *. change (S (VInner b)) with (A b) in *.
      destruct (A a), (A b); simpl; try rewrite (K1 eq_refl eq_refl);
        try rewrite (K2 eq_refl eq_refl); lia.
    - destruct (A b); lia.
    - destruct (A a); lia.
  Qed.
End flow.

(** * Items and edges *)
Lemma items_split n page its es :
  Forall2 same_ends (all_edges n page its) es ->
  exists L X, es = L ++ X /\ length L = length its /\
    Forall2 (fun it e => same_ends (item_edge it) e) its L /\
    Forall (fun e => is_list e = false) X.
Proof.
  unfold all_edges. intros H. apply Forall2_app_inv_l in H as (L & X & HL & HX & ->).
  exists L, X. split; [done|]. rewrite Forall2_fmap_l in HL. split; [symmetry; exact (Forall2_length _ _ _ HL)|].
  split; [done|]. apply Forall_lookup_2. intros k e He.
  destruct (Forall2_lookup_r _ _ _ _ _ HX He) as (e0 & He0 & HS). rewrite (is_list_same _ _ HS).
  apply elem_of_list_lookup_2, elem_of_list_join in He0 as (l & He0 & Hl).
  apply elem_of_list_fmap in Hl as (j & -> & _). unfold ext_of in He0.
  repeat case_bool_decide; simpl in He0; try (by inversion He0);
    apply elem_of_list_singleton in He0 as ->; done.
Qed.

Definition parts_of (L : list edge) : assignment := (fun e => (e_flow e, e_recf e)) <$> L.

Lemma eload_bin its L X b :
  Forall2 (fun it e => same_ends (item_edge it) e) its L -> Forall (fun e => is_list e = false) X ->
  eload (L ++ X) (VInner b) = bin_load its (parts_of L) b.
Proof.
  intros HL HX. unfold eload. rewrite fmap_app, zsum_app.
  rewrite (zsum_map_ext _ (fun _ => 0) X), zsum_map_0.
  2: { intros e He. unfold loadc, pval. rewrite (proj1 (Forall_forall _ _) HX e He).
       by destruct (ends _ e), (starts _ e). }
  unfold bin_load, parts_of. rewrite Z.add_0_r.
  induction HL as [|it e its L (E1 & E2 & E3 & E4) HL IH]; csimpl; [done|]. rewrite IH.
  rewrite Z.add_comm, (Z.add_comm _ (zsum (zip_with _ _ _))). f_equal.
  unfold loadc, pval, is_list, ends, starts. rewrite <- E4, <- E1, <- E2. simpl.
  repeat case_bool_decide; simplify_eq; simpl; try lia; congruence.
Qed.

Lemma left_unplaced its L X :
  Forall2 (fun it e => same_ends (item_edge it) e) its L -> Forall (fun e => is_list e = false) X ->
  zsum (leftc <$> (L ++ X)) = unplaced its (parts_of L).
Proof.
  intros HL HX. rewrite fmap_app, zsum_app.
  rewrite (zsum_map_ext leftc (fun _ => 0) X), zsum_map_0.
  2: { intros e He. unfold leftc. by rewrite (proj1 (Forall_forall _ _) HX e He). }
  unfold unplaced, parts_of. rewrite Z.add_0_r.
  induction HL as [|it e its L (E1 & E2 & E3 & E4) HL IH]; csimpl; [done|]. rewrite IH.
  unfold leftc, is_list. rewrite <- E4, <- E3. simpl. done.
Qed.

Lemma inside_items A its L X :
  Forall2 (fun it e => same_ends (item_edge it) e) its L -> Forall (fun e => is_list e = false) X ->
  zsum ((fun e => if is_list e then (if insideb A e then e_cap e else 0) else 0) <$> (L ++ X)) =
  zsum ((fun it => if A (VInner (it_h0 it)) && A (VInner (it_h1 it)) then it_len it else 0) <$> its).
Proof.
  intros HL HX. rewrite fmap_app, zsum_app.
  rewrite (zsum_map_ext _ (fun _ => 0) X), zsum_map_0.
  2: { intros e He. by rewrite (proj1 (Forall_forall _ _) HX e He). }
  rewrite Z.add_0_r.
  induction HL as [|it e its L (E1 & E2 & E3 & E4) HL IH]; csimpl; [done|]. rewrite IH.
  unfold insideb, is_list. rewrite <- E4, <- E3, <- E1, <- E2. simpl. done.
Qed.

(** Any assignment leaves out at least that excess. *)
Lemma unplaced_lower n page (A : nat -> bool) its xs :
  Forall (item_ok n page) its -> fits n page its xs ->
  zsum ((fun it => if A (it_h0 it) && A (it_h1 it) then it_len it else 0) <$> its) -
  zsum ((fun i => if A i then page else 0) <$> seq 0 n) <= unplaced its xs.
Proof.
  intros Hok [HP Hload].
  assert (E : zsum ((fun i => if A i then bin_load its xs i else 0) <$> seq 0 n) =
     zsum (zip_with (fun it x => (if A (it_h0 it) then x.1 else 0) + (if A (it_h1 it) then x.2 else 0)) its xs)).
  { clear Hload. unfold bin_load. revert Hok. induction HP as [|it x its xs Hx HP IH]; intros Hok; csimpl.
    - rewrite (zsum_map_ext _ (fun _ => 0)); [apply zsum_map_0|]. intros i _. by destruct (A i).
    - apply Forall_cons in Hok as [(H0 & H1 & _) Hok]. rewrite <- IH by done.
      rewrite <- (zsum_pick A n (it_h0 it) x.1 H0), <- (zsum_pick A n (it_h1 it) x.2 H1).
      rewrite <- !zsum_map_add. apply zsum_map_ext. intros i _. destruct (A i); lia. }
  assert (L : zsum ((fun i => if A i then bin_load its xs i else 0) <$> seq 0 n) <=
              zsum ((fun i => if A i then page else 0) <$> seq 0 n)).
  { apply zsum_map_le. intros i Hi. apply elem_of_seq in Hi. pose proof (Hload i ltac:(lia)).
    destruct (A i); lia. }
  rewrite E in L.
  assert (K : zsum ((fun it => if A (it_h0 it) && A (it_h1 it) then it_len it else 0) <$> its) -
     zsum (zip_with (fun it x => (if A (it_h0 it) then x.1 else 0) + (if A (it_h1 it) then x.2 else 0)) its xs)
     <= unplaced its xs); [|lia].
  clear -HP. unfold unplaced. induction HP as [|it x its xs Hx HP IH]; csimpl; [lia|].
  destruct (A (it_h0 it)), (A (it_h1 it)); simpl; lia.
Qed.

(** * The allocation *)
Record allocated (n : nat) (page : Z) (its : list item) (a : allocator) : Prop := Allocated {
  ad_done : al_done a = true;
  ad_size : al_size a = n;
  ad_page : al_page a = page;
  ad_len : length (g_verts (al_graph a)) = n;
  ad_verts : forall i x, g_verts (al_graph a) !! i = Some x ->
     adj_ok (g_edges (al_graph a)) (VInner i) x;
  ad_split : exists L X, g_edges (al_graph a) = L ++ X /\ length L = length its /\
     Forall2 (fun it e => same_ends (item_edge it) e) its L /\
     Forall (fun e => is_list e = false) X /\
     fits n page its (parts_of L) /\
     (forall xs, fits n page its xs -> unplaced its (parts_of L) <= unplaced its xs) /\
     (forall q, q ∈ al_stash a <-> ep_rec q = false /\ exists it e,
        its !! ep_idx q = Some it /\ L !! ep_idx q = Some e /\ e_flow e + e_recf e < it_len it);
  ad_sorted : ssorted (al_stash a)
}.

Lemma aug_loop_mono f f' g g' c :
  aug_loop f g c = Ok g' -> (f <= f')%nat -> aug_loop f' g c = Ok g'.
Proof.
  revert f' g g'. induction f as [|f IH]; intros f' g g' H Hle; simpl in H; [done|].
  destruct f' as [|f']; [lia|]. simpl. apply rbind_ok in H as (o & Ho & H). rewrite Ho. simpl.
  destruct o; [|done]. apply IH; auto. lia.
Qed.

Lemma allocate_ok n page its a :
  0 <= page -> Forall (item_ok n page) its -> astate n page its a ->
  exists a', (forall fuel, (alloc_fuel its <= fuel)%nat -> allocate fuel a = Ok a') /\
    allocated n page its a'.
Proof.
  intros Hpage Hok [G Hsz Hpg Hd Hst].
  destruct (alloc_degrees_ok n page its (seq 0 n) [] (al_graph a)) as (g1 & E1 & B1).
  { by rewrite app_nil_r. } { apply NoDup_seq. } { intros i Hi. apply elem_of_seq in Hi. lia. }
  { intros i e _ He. inversion He. }
  change (bstate n (all_edges n page its) g1) in B1.
  assert (Hnet : forall v, net (g_edges g1) v = 0).
  { intros v. unfold net. rewrite (zsum_map_ext _ (fun _ => 0)); [apply zsum_map_0|].
    intros e He. rewrite (bs_edges _ _ _ B1) in He. unfold netc.
    rewrite (proj1 (Forall_forall _ _) (bs_zero _ _ _ B1) e He).
    by destruct (ends v e), (starts v e). }
  destruct (aug_loop_ok (alloc_fuel its) g1 0 (bs_wf _ _ _ B1)) as (g' & E' & W' & C' & F' & BL').
  { intros i. apply Hnet. }
  { unfold alloc_fuel, remaining. rewrite Hnet, (bs_edges _ _ _ B1).
    pose proof (all_src_cap n page its Hpage Hok). lia. }
  destruct F' as (F1 & F2 & F3 & F4 & F5).
  set (g2 := with_state g' ResidualComputed).
  assert (W2 : wf g2) by (destruct W'; by split).
  rewrite (bs_edges _ _ _ B1) in F4.
  assert (Hn2 : g_size g2 = n) by (simpl; rewrite F2; apply B1).
  destruct (trim_vertices_ok page (g_verts g2) Hpage 0 (g_edges g2) []) as (es3 & st & E3 & T3 & L3 & S3 & O3).
  { intros j x Hx. by apply (wf_verts _ W2). }
  { eapply Forall_impl; [apply (wf_edges _ W2)|]. intros e (? & ? & _). by split. }
  assert (Hlv : length (g_verts g2) = n) by (rewrite (wf_len _ W2); exact Hn2).
  exists (Alloc (with_edges g2 es3) n page true st). split.
  { intros fuel Hf. unfold allocate. rewrite Hd, Hpg, Hsz, E1. cbn [rbind].
    unfold compute_residual_maxflow. rewrite (bs_state _ _ _ B1).
    rewrite (aug_loop_mono _ _ _ _ _ E' Hf). cbn [rbind]. rewrite Hst. fold g2.
    rewrite E3. done. }
  (* the cut *)
  destruct BL' as (D & HD & Hex).
  assert (Hcl : forall p u v, parc (g_edges g2) p u v -> reachedb D u = true -> reachedb D v = true).
  { intros p u v Hp Hu. apply reachedb_spec in Hu. apply reachedb_spec.
    specialize (Hex u Hu p v Hp). destruct v as [| |j]; simpl in *; auto.
    destruct Hex as [?|Hc]; [done|]. exfalso. apply Hc.
    pose proof (parc_to_bound _ _ _ _ _ (wf_edges _ W2) Hp) as Hj.
    rewrite <- (wf_len _ W2) in Hj. apply lookup_lt_is_Some in Hj as [x Hx]. simpl in Hx.
    assert (Hc' : (v_comp <$> g_verts g') !! j = Some (v_comp x)) by (by rewrite list_lookup_fmap, Hx).
    rewrite Hc'. f_equal. rewrite F5, list_lookup_fmap in Hc'.
    destruct (g_verts g1 !! j) as [y|] eqn:Hy; [|done]. simpl in Hc'.
    pose proof (Forall_lookup_1 _ _ _ _ (bs_comp _ _ _ B1) Hy). simpl in *. congruence. }
  assert (Hs23 : Forall2 same_ends (g_edges g2) es3) by (eapply Forall2_impl; [exact T3|]; by intros ?? [? _]).
  assert (Hs13 : Forall2 same_ends (all_edges n page its) es3) by (by eapply same_ends_trans).
  destruct (items_split n page its es3 Hs13) as (L & X & HLX & Hlen & HL & HX).
  destruct (items_split n page its (g_edges g2) F4) as (L2 & X2 & HLX2 & Hlen2 & HL2 & HX2).
  assert (Hload : forall i, (i < n)%nat -> eload es3 (VInner i) = Z.min page (eload (g_edges g2) (VInner i))).
  { intros i Hi. apply L3. lia. }
  assert (Hrel : forall k e e3, g_edges g2 !! k = Some e -> es3 !! k = Some e3 -> 
     edge_ok n e /\ trimX (fun i => (0 <= i < 0 + length (g_verts g2))%nat) e e3).
  { intros k e e3 He He3. split; [|by eapply Forall2_lookup_lr].
    rewrite <- Hn2. by eapply Forall_lookup_1; [apply (wf_edges _ W2)|]. }
  split; simpl; auto.
  - intros i x Hx. eapply same_ends_adj; [exact Hs23|]. by apply (wf_verts _ W2).
  - exists L, X. split; [done|]. split; [done|]. split; [done|]. split; [done|]. split; [|split].
    + split.
      * unfold parts_ok, parts_of. apply Forall2_fmap_r.
        apply Forall2_same_length_lookup_2; [done|]. intros k it e3 Hit He3.
        pose proof (Forall2_lookup_lr _ _ _ _ _ _ HL Hit He3) as (_ & _ & Hc & _). simpl in Hc.
        assert (He3' : es3 !! k = Some e3) by (rewrite HLX; by apply lookup_app_l_Some).
        destruct (Forall2_lookup_r _ _ _ _ _ Hs23 He3') as (e & He & HS).
        destruct (Hrel k e e3 He He3') as [(H1 & H2 & H3 & _) (_ & T1 & T2 & T4 & _)].
        destruct T4 as [T4 T5]; [by split|]. destruct HS as (_ & _ & HS & _). simpl. lia.
      * intros b Hb. rewrite <- (eload_bin its L X b HL HX), <- HLX, Hload by done. lia.
    + intros xs Hxs. rewrite <- (left_unplaced its L X HL HX), <- HLX.
      etransitivity.
      * apply (left_bound n page its g2 (reachedb D)); auto.
      * rewrite HLX2, (inside_items (reachedb D) its L2 X2 HL2 HX2).
        apply (unplaced_lower n page (fun i => reachedb D (VInner i))); auto.
    + intros q. rewrite S3. rewrite elem_of_nil. split.
      * intros [[]|(Hr & e & e3 & He & He3 & Hlt)]. split; [done|].
        destruct (Hrel _ e e3 He He3) as [(H1 & H2 & H3 & _) (HS & T1 & T2 & T4 & T5 & _)].
        rewrite HLX in He3. apply lookup_app_Some in He3 as [He3|[Hge He3]].
        -- destruct (Forall2_lookup_r _ _ _ _ _ HL He3) as (it & Hit & (_ & _ & Hc & _)). simpl in Hc.
           exists it, e3. split_and!; auto. destruct HS as (_ & _ & HS & _). lia.
        -- exfalso. pose proof (Forall_lookup_1 _ _ _ _ HX He3) as Hl. simpl in Hl.
           rewrite (is_list_same _ _ HS) in Hl. rewrite (T5 Hl) in Hlt. lia.
      * intros (Hr & it & e3 & Hit & He3 & Hlt). right. split; [done|].
        pose proof (Forall2_lookup_lr _ _ _ _ _ _ HL Hit He3) as (_ & _ & Hc & _). simpl in Hc.
        assert (He3' : es3 !! ep_idx q = Some e3) by (rewrite HLX; by apply lookup_app_l_Some).
        destruct (Forall2_lookup_r _ _ _ _ _ Hs23 He3') as (e & He & HS).
        destruct (Hrel _ e e3 He He3') as [(H1 & H2 & H3 & _) (_ & T1 & T2 & _)].
        destruct HS as (_ & _ & HS & _). exists e, e3. split_and!; auto. lia.
  - apply O3. constructor.
Qed.
