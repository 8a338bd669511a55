(** Augmentation, termination and optimality. *)
From stdpp Require Import prelude.
From Coq Require Import ZArith Lia.
From Verif Require Import Base GraphModel GraphSpec GraphProofs GraphSearch.
Local Open Scope Z_scope.

(** * Weak duality for the specification *)
Lemma zsum_single (S : vptr -> bool) (Vs : list vptr) u (x : Z) :
  NoDup Vs -> u ∈ Vs ->
  zsum ((fun v => if S v then (if bool_decide (u = v) then x else 0) else 0) <$> Vs)
  = if S u then x else 0.
Proof.
  intros HN. induction HN as [|w Vs Hw HN IH]; intros Hu; csimpl; [inversion Hu|].
  apply elem_of_cons in Hu as [->|Hu].
  - rewrite bool_decide_true by done.
    assert (E : zsum ((fun v => if S v then (if bool_decide (w = v) then x else 0) else 0) <$> Vs) = 0).
    { clear IH HN. induction Vs as [|y Vs IH]; csimpl; [done|].
      apply not_elem_of_cons in Hw as [Hne Hw]. rewrite IH by done.
      rewrite bool_decide_false by done. by destruct (S y). }
    rewrite E. lia.
  - rewrite IH by done. rewrite bool_decide_false by (intros ->; done). destruct (S w); lia.
Qed.

Lemma zip_with_cons_sum {A} (f : A -> Z -> Z) a x (arcs : list A) fl :
  zsum (zip_with f (a :: arcs) (x :: fl)) = f a x + zsum (zip_with f arcs fl).
Proof. done. Qed.

Lemma cut_identity (S : vptr -> bool) Vs arcs fl :
  NoDup Vs -> length arcs = length fl ->
  Forall (fun a => a_from a ∈ Vs /\ a_to a ∈ Vs) arcs ->
  zsum ((fun v => if S v then outflow arcs fl v - inflow arcs fl v else 0) <$> Vs) =
  zsum (zip_with (fun a x => (if S (a_from a) then x else 0) -
                             (if S (a_to a) then x else 0)) arcs fl).
Proof.
  intros HN. revert fl. induction arcs as [|a arcs IH]; intros [|x fl] Hlen HV; try done.
  - simpl. etransitivity; [|apply (zsum_map_0 Vs)]. apply zsum_map_ext. intros v _.
    by destruct (S v).
  - apply Forall_cons in HV as [[H1 H2] HV].
    rewrite zip_with_cons_sum, <- IH by (simpl in *; auto).
    rewrite <- (zsum_single S Vs (a_from a) x HN H1).
    rewrite <- (zsum_single S Vs (a_to a) x HN H2).
    unfold outflow, inflow.
    assert (E : forall (f g h : vptr -> Z), (forall v, f v - g v + h v = f v - g v + h v) ->
       zsum (f <$> Vs) - zsum (g <$> Vs) + zsum (h <$> Vs) =
       zsum ((fun v => f v - g v + h v) <$> Vs)).
    { intros f g h _. clear. induction Vs as [|y Vs IH]; csimpl; lia. }
    rewrite E by done. apply zsum_map_ext. intros v _.
    rewrite !zip_with_cons_sum. destruct (S v); lia.
Qed.

Definition arc_ok (n : nat) (a : arc) : Prop :=
  (a_from a = VSource \/ exists i, a_from a = VInner i /\ (i < n)%nat) /\
  (a_to a = VSink \/ exists i, a_to a = VInner i /\ (i < n)%nat).

Definition allv (n : nat) : list vptr := VSource :: VSink :: (VInner <$> seq 0 n).

Lemma allv_NoDup n : NoDup (allv n).
Proof.
  unfold allv. constructor.
  { rewrite elem_of_cons, elem_of_list_fmap. intros [?|(i & ? & _)]; done. }
  constructor.
  { rewrite elem_of_list_fmap. intros (i & ? & _); done. }
  apply NoDup_fmap; [intros ?? [=]; done|]. apply NoDup_seq.
Qed.

Lemma arc_ok_allv n a : arc_ok n a -> a_from a ∈ allv n /\ a_to a ∈ allv n.
Proof.
  unfold arc_ok, allv. intros [Hf Ht]. rewrite !elem_of_cons, !elem_of_list_fmap. split.
  - destruct Hf as [->|(i & -> & Hi)]; auto. right; right. exists i. split; auto.
    apply elem_of_seq. lia.
  - destruct Ht as [->|(i & -> & Hi)]; auto. right; right. exists i. split; auto.
    apply elem_of_seq. lia.
Qed.

Lemma inflow_source_0 n arcs fl :
  Forall (arc_ok n) arcs -> inflow arcs fl VSource = 0.
Proof.
  unfold inflow. intros H. revert fl. induction H as [|a arcs [_ Ht] H IH]; intros [|x fl]; try done.
  rewrite zip_with_cons_sum, IH. rewrite bool_decide_false; [lia|].
  intros E. destruct Ht as [Ht|(i & Ht & _)]; congruence.
Qed.

Lemma value_cut n (S : vptr -> bool) arcs fl :
  Forall (arc_ok n) arcs -> feasible arcs fl -> S VSource = true -> S VSink = false ->
  value arcs fl = zsum (zip_with (fun a x => (if S (a_from a) then x else 0) -
                             (if S (a_to a) then x else 0)) arcs fl).
Proof.
  intros Hok [Hcap Hcons] Hs Ht.
  rewrite <- (cut_identity S (allv n)).
  - unfold allv. csimpl. rewrite Hs, Ht. rewrite (inflow_source_0 n) by done.
    rewrite (zsum_map_ext _ (fun _ => 0)).
    { rewrite zsum_map_0. unfold value. lia. }
    intros v Hv. apply elem_of_list_fmap in Hv as (i & -> & _). rewrite Hcons.
    destruct (S (VInner i)); lia.
  - apply allv_NoDup.
  - by eapply Forall2_length.
  - eapply Forall_impl; [exact Hok|]. intros a. apply arc_ok_allv.
Qed.

(** A feasible flow that saturates a cut is maximal. *)
Lemma cut_max n (S : vptr -> bool) arcs fl :
  Forall (arc_ok n) arcs -> feasible arcs fl -> S VSource = true -> S VSink = false ->
  Forall2 (fun a x =>
     (S (a_from a) = true -> S (a_to a) = false -> x = a_cap a) /\
     (S (a_from a) = false -> S (a_to a) = true -> x = 0)) arcs fl ->
  max_flow arcs fl.
Proof.
  intros Hok Hf Hs Ht Hsat. split; [done|]. intros fl' Hf'.
  rewrite (value_cut n S arcs fl), (value_cut n S arcs fl') by done.
  destruct Hf as [Hc _], Hf' as [Hc' _]. clear Hok.
  revert fl' Hc'. induction Hsat as [|a x arcs fl [H1 H2] Hsat IH]; intros fl' Hc'.
  { inversion Hc'. done. }
  inversion Hc' as [|? x' ? fl'' Hx' Hc'']; subst. inversion Hc as [|? ? ? ? Hx Hc3]; subst.
  rewrite !zip_with_cons_sum. specialize (IH Hc3 fl'' Hc'').
  destruct (S (a_from a)), (S (a_to a)); lia.
Qed.

(** * Augmentation *)
Definition same_ends (e e' : edge) : Prop :=
  e_start e = e_start e' /\ e_end e = e_end e' /\ e_cap e = e_cap e' /\ e_val e = e_val e'.

Lemma upd_same_ends rec c e : same_ends e (upd_edge rec c e).
Proof. unfold upd_edge. destruct rec; done. Qed.

Lemma update_flow_same es p c : Forall2 same_ends es (update_flow es p c).
Proof.
  unfold update_flow. generalize (ep_idx p). induction es as [|e es IH]; intros [|i]; simpl.
  - constructor.
  - constructor.
  - constructor; [apply upd_same_ends|]. apply Forall2_same_length_lookup_2; [done|].
    intros ? ? ? ? ?. simplify_eq. done.
  - constructor; [done|]. apply IH.
Qed.

Lemma same_ends_refl es : Forall2 same_ends es es.
Proof. apply Forall2_same_length_lookup_2; [done|]. intros. simplify_eq. done. Qed.

Lemma same_ends_trans es1 es2 es3 :
  Forall2 same_ends es1 es2 -> Forall2 same_ends es2 es3 -> Forall2 same_ends es1 es3.
Proof.
  intros H. revert es3. induction H as [|a b l k (A1 & A2 & A3 & A4) H IH]; intros es3 H3;
    inversion H3 as [|? c ? es3' (B1 & B2 & B3 & B4) H3']; subst; constructor; auto.
  unfold same_ends. split_and!; congruence.
Qed.

Lemma augment_same path es c : Forall2 same_ends es (augment es path c).
Proof.
  revert es. induction path as [|p path IH]; intros es; simpl.
  - apply same_ends_refl.
  - eapply same_ends_trans; [apply (update_flow_same es p c)|]. apply IH.
Qed.

Lemma same_ends_arcs es es' : Forall2 same_ends es es' -> arcs_of es = arcs_of es'.
Proof.
  unfold arcs_of. induction 1 as [|a b l k (A1 & A2 & A3 & A4) H IH]; csimpl; [done|].
  rewrite A1, A2, A3, IH. done.
Qed.

Lemma same_ends_adj es es' v x : Forall2 same_ends es es' -> adj_ok es v x -> adj_ok es' v x.
Proof.
  intros H [Hi Ho]. split; [rewrite Hi|rewrite Ho]; apply idxs_ext;
    (eapply Forall2_impl; [exact H|]); intros a b (A1 & A2 & A3 & A4).
  - unfold ends. by rewrite A2.
  - unfold starts. by rewrite A1.
Qed.

Lemma augment_notin path es c i :
  i ∉ ep_idx <$> path -> augment es path c !! i = es !! i.
Proof.
  revert es. induction path as [|p path IH]; intros es; csimpl; [done|].
  intros Hi. apply not_elem_of_cons in Hi as [Hne Hi]. unfold augment. simpl.
  change (augment (update_flow es p c) path c !! i = es !! i).
  rewrite IH by done. unfold update_flow. by apply list_lookup_alter_ne.
Qed.

Lemma augment_in path es c p :
  NoDup (ep_idx <$> path) -> p ∈ path ->
  augment es path c !! ep_idx p = upd_edge (ep_rec p) c <$> es !! ep_idx p.
Proof.
  revert es. induction path as [|q path IH]; intros es; csimpl; [intros _ Hp; inversion Hp|].
  intros HN Hp. apply NoDup_cons in HN as [Hq HN].
  unfold augment. simpl.
  change (augment (update_flow es q c) path c !! ep_idx p = upd_edge (ep_rec p) c <$> es !! ep_idx p).
  apply elem_of_cons in Hp as [->|Hp].
  - rewrite augment_notin by done. unfold update_flow. apply list_lookup_alter.
  - rewrite IH by done. unfold update_flow. rewrite list_lookup_alter_ne; [done|].
    intros E. apply Hq. rewrite E. apply elem_of_list_fmap. eauto.
Qed.

Lemma zsum_alter {A} (f : A -> Z) (g : A -> A) (i : nat) (l : list A) x :
  l !! i = Some x -> zsum (f <$> alter g i l) = zsum (f <$> l) + (f (g x) - f x).
Proof.
  revert i. induction l as [|y l IH]; intros [|i] H; csimpl in *; try done.
  - simplify_eq. simpl. lia.
  - rewrite (IH i H). lia.
Qed.

Definition ind (b : bool) : Z := if b then 1 else 0.

Definition conn (es : list edge) (p : eptr) (u v : vptr) : Prop :=
  exists e, es !! ep_idx p = Some e /\ edge_from e (ep_rec p) = u /\ edge_to e (ep_rec p) = v.

Fixpoint is_route (es : list edge) (u : vptr) (path : list eptr) (v : vptr) : Prop :=
  match path with
  | [] => u = v
  | p :: ps => exists w, conn es p u w /\ is_route es w ps v
  end.

Lemma is_path_route es u path v : is_path es u path v -> is_route es u path v.
Proof.
  revert u; induction path as [|p path IH]; intros u; simpl; [done|].
  intros (w & (e & ? & ? & ? & ?) & Hr). exists w. split; auto. exists e; auto.
Qed.

Lemma conn_same es es' p u v : Forall2 same_ends es es' -> conn es p u v -> conn es' p u v.
Proof.
  intros H (e & He & Hf & Ht). destruct (Forall2_lookup_l _ _ _ _ _ H He) as (e' & He' & A1 & A2 & _).
  exists e'. split; [done|]. destruct (ep_rec p); simpl in *; split; congruence.
Qed.

Lemma is_route_same es es' u path v :
  Forall2 same_ends es es' -> is_route es u path v -> is_route es' u path v.
Proof.
  intros H. revert u; induction path as [|p path IH]; intros u; simpl; [done|].
  intros (w & Hc & Hr). exists w. split; auto. by eapply conn_same.
Qed.

Lemma net_update es p c u w v :
  conn es p u w ->
  net (update_flow es p c) v =
  net es v + c * (ind (bool_decide (w = v)) - ind (bool_decide (u = v))).
Proof.
  intros (e & He & Hf & Ht). unfold net, update_flow. rewrite (zsum_alter _ _ _ _ _ He).
  f_equal. unfold netc, ends, starts, upd_edge.
  destruct (ep_rec p); simpl in *; subst; unfold ind;
    repeat case_bool_decide; lia.
Qed.

Lemma net_augment path es c u w v :
  is_route es u path w ->
  net (augment es path c) v =
  net es v + c * (ind (bool_decide (w = v)) - ind (bool_decide (u = v))).
Proof.
  revert es u. induction path as [|p path IH]; intros es u Hr; simpl in *.
  - subst. lia.
  - destruct Hr as (x & Hc & Hr).
    change (net (augment (update_flow es p c) path c) v =
      net es v + c * (ind (bool_decide (w = v)) - ind (bool_decide (u = v)))).
    rewrite (IH _ x).
    + rewrite (net_update es p c u x v Hc). lia.
    + eapply is_route_same; [apply update_flow_same|done].
Qed.

Arguments augment : simpl never.

Lemma augment_edge_ok n path es c :
  Forall (edge_ok n) es -> NoDup (ep_idx <$> path) -> 0 <= c ->
  (forall p, p ∈ path -> c <= edge_at_flow es p) ->
  Forall (edge_ok n) (augment es path c).
Proof.
  intros Hes HN Hc Hmin. apply Forall_lookup_2. intros i e' He'.
  destruct (decide (i ∈ ep_idx <$> path)) as [Hi|Hi].
  - apply elem_of_list_fmap in Hi as (p & -> & Hp). rewrite augment_in in He' by done.
    destruct (es !! ep_idx p) as [e|] eqn:He; [|done]. simpl in He'. simplify_eq.
    specialize (Hmin p Hp). unfold edge_at_flow in Hmin. rewrite He in Hmin.
    pose proof (Forall_lookup_1 _ _ _ _ Hes He) as (H1 & H2 & H3 & H4 & H5 & H6).
    unfold upd_edge. destruct (ep_rec p); simpl in *; split_and!; simpl; auto; lia.
  - rewrite augment_notin in He' by done. by eapply Forall_lookup_1.
Qed.

(** Everything that an augmentation leaves unchanged. *)
Definition frame (g g' : graph) : Prop :=
  g_state g' = g_state g /\ g_size g' = g_size g /\ g_ncomp g' = g_ncomp g /\
  Forall2 same_ends (g_edges g) (g_edges g') /\
  v_comp <$> g_verts g' = v_comp <$> g_verts g.

Lemma frame_refl g : frame g g.
Proof. split_and!; auto. apply same_ends_refl. Qed.

Lemma frame_trans g1 g2 g3 : frame g1 g2 -> frame g2 g3 -> frame g1 g3.
Proof.
  intros (A & B & C & D & E) (A' & B' & C' & D' & E'). unfold frame. split_and!; try congruence.
  by eapply same_ends_trans.
Qed.

(** No augmenting path is left inside a component. *)
Definition blocked (g : graph) (comp : nat) : Prop :=
  exists D, (forall j, j ∈ D -> (v_comp <$> g_verts g) !! j = Some comp) /\
    forall v, reached D v -> explored (g_edges g) comp (v_comp <$> g_verts g) D v.

Lemma aug_step_ok g comp :
  wf g -> conserved g ->
  (aug_step g comp = Ok None /\ blocked g comp) \/
  (exists g' path c D, aug_step g comp = Ok (Some g') /\ wf g' /\ conserved g' /\ frame g g' /\
     0 < c /\ net (g_edges g') VSource = net (g_edges g) VSource - c /\
     g_edges g' = augment (g_edges g) path c /\
     (forall j, j ∈ D -> (v_comp <$> g_verts g) !! j = Some comp) /\
     (forall p, p ∈ path -> touches (g_edges g) p (fun v => reached D v \/ v = VSink))).
Proof.
  intros W C. destruct (find_path_ok g comp W) as (path & c & vs & E & Hadj & Hcase).
  unfold aug_step. rewrite E. simpl. destruct Hcase as [(-> & -> & HD)|(Hne & HP & HN & Hc & Hmin & _ & HD)].
  - left. auto.
  - right. destruct HD as (D & HD1 & HD2). destruct path as [|p path]; [done|].
    set (pth := p :: path) in *.
    pose proof (augment_same pth (g_edges g) c) as Hsame.
    assert (Hroute : is_route (g_edges g) VSource pth VSink) by by apply is_path_route.
    eexists _, pth, c, D. split; [reflexivity|]. split; [|split; [|split; [|split; [done|split; [|split_and!; auto]]]]].
    + split; simpl.
      * rewrite (same_adj_len _ _ Hadj). apply W.
      * eapply same_ends_adj; [exact Hsame|apply W].
      * eapply same_ends_adj; [exact Hsame|apply W].
      * intros i x Hx. destruct (Forall2_lookup_r _ _ _ _ _ Hadj Hx) as (y & Hy & H1 & H2 & H3).
        destruct (wf_verts _ W _ _ Hy) as [Hi Ho].
        eapply same_ends_adj; [exact Hsame|]. split; congruence.
      * apply augment_edge_ok; auto; [apply W|lia].
      * apply W.
    + intros i. simpl. rewrite (net_augment _ _ _ VSource VSink) by done.
      rewrite (C i). simpl. lia.
    + split_and!; simpl; auto. symmetry. by apply same_adj_comp.
    + simpl. rewrite (net_augment _ _ _ VSource VSink) by done. simpl. lia.
Qed.

(** ** Termination measure: the capacity of the source that is not used yet. *)
Definition src_cap (es : list edge) : Z :=
  zsum ((fun e => if starts VSource e then e_cap e else 0) <$> es).

Lemma src_cap_same es es' : Forall2 same_ends es es' -> src_cap es = src_cap es'.
Proof.
  unfold src_cap. induction 1 as [|a b l k (A1 & A2 & A3 & A4) H IH]; csimpl; [done|].
  unfold starts in *. rewrite A1, A3, IH. done.
Qed.

Lemma src_measure n es :
  Forall (edge_ok n) es -> 0 <= src_cap es + net es VSource.
Proof.
  unfold src_cap, net. induction 1 as [|e es (H1 & H2 & H3 & H4 & H5 & H6) H IH]; csimpl; [lia|].
  unfold netc at 1. assert (ends VSource e = false) as ->.
  { unfold ends. apply bool_decide_eq_false. destruct H5 as [->|(i & -> & _)]; done. }
  destruct (starts VSource e); lia.
Qed.

Definition remaining (g : graph) : Z := src_cap (g_edges g) + net (g_edges g) VSource.

Lemma remaining_nonneg g : wf g -> 0 <= remaining g.
Proof. intros W. eapply src_measure. apply W. Qed.

Lemma aug_loop_ok fuel g comp :
  wf g -> conserved g -> (Z.to_nat (remaining g) < fuel)%nat ->
  exists g', aug_loop fuel g comp = Ok g' /\ wf g' /\ conserved g' /\ frame g g' /\
    blocked g' comp.
Proof.
  revert g. induction fuel as [|fuel IH]; intros g W C Hf; [lia|]. simpl.
  destruct (aug_step_ok g comp W C) as [[E B]|(g' & path & c & D & E & W' & C' & F & Hc & Hnet & _)].
  - rewrite E. simpl. exists g. split_and!; auto. apply frame_refl.
  - rewrite E. simpl. destruct (IH g' W' C') as (g2 & E2 & W2 & C2 & F2 & B2).
    { unfold remaining in *. destruct F as (_ & _ & _ & Hs & _).
      rewrite <- (src_cap_same _ _ Hs), Hnet. pose proof (remaining_nonneg g W). unfold remaining in *.
      pose proof (remaining_nonneg g' W'). unfold remaining in *.
      rewrite <- (src_cap_same _ _ Hs), Hnet in *. lia. }
    exists g2. split_and!; auto. by eapply frame_trans.
Qed.

(** ** From the residual graph to a flow of the specification *)
Definition rec_flows (es : list edge) : flow := e_recf <$> es.

Lemma inflow_rec es v :
  inflow (arcs_of es) (rec_flows es) v = zsum ((fun e => if ends v e then e_recf e else 0) <$> es).
Proof.
  unfold inflow, arcs_of, rec_flows, ends. induction es as [|e es IH]; csimpl; [done|].
  rewrite IH. done.
Qed.

Lemma outflow_rec es v :
  outflow (arcs_of es) (rec_flows es) v = zsum ((fun e => if starts v e then e_recf e else 0) <$> es).
Proof.
  unfold outflow, arcs_of, rec_flows, starts. induction es as [|e es IH]; csimpl; [done|].
  rewrite IH. done.
Qed.

Lemma net_flows es v :
  net es v = inflow (arcs_of es) (rec_flows es) v - outflow (arcs_of es) (rec_flows es) v.
Proof.
  rewrite inflow_rec, outflow_rec. unfold net.
  induction es as [|e es IH]; csimpl; [done|]. rewrite IH. unfold netc. lia.
Qed.

Lemma rec_feasible g :
  wf g -> conserved g -> feasible (arcs_of (g_edges g)) (rec_flows (g_edges g)).
Proof.
  intros W C. split.
  - unfold arcs_of, rec_flows. apply Forall2_fmap, Forall_Forall2_diag.
    eapply Forall_impl; [apply W|]. intros e (H1 & H2 & H3 & H4 & H5 & H6). simpl. lia.
  - intros i. specialize (C i). rewrite net_flows in C. lia.
Qed.

Lemma arcs_ok_of g : wf g -> Forall (arc_ok (g_size g)) (arcs_of (g_edges g)).
Proof.
  intros W. unfold arcs_of. apply Forall_fmap. eapply Forall_impl; [apply W|].
  intros e (H1 & H2 & H3 & H4 & H5 & H6). split; auto.
Qed.

(** A set of vertices that no residual arc leaves certifies the optimality. *)
Lemma closed_max g (S : vptr -> bool) :
  wf g -> conserved g -> S VSource = true -> S VSink = false ->
  (forall p u v, parc (g_edges g) p u v -> S u = true -> S v = true) ->
  max_flow (arcs_of (g_edges g)) (rec_flows (g_edges g)).
Proof.
  intros W C Hs Ht Hcl. apply (cut_max (g_size g) S); auto.
  - by apply arcs_ok_of.
  - by apply rec_feasible.
  - unfold arcs_of, rec_flows. apply Forall2_fmap, Forall_Forall2_diag.
    apply Forall_lookup_2. intros i e He. simpl.
    pose proof (Forall_lookup_1 _ _ _ _ (wf_edges _ W) He) as (H1 & H2 & H3 & _).
    split; intros HS HE.
    + destruct (decide (0 < e_flow e)) as [Hpos|Hpos]; [|lia].
      rewrite (Hcl (EP false i) (e_start e) (e_end e)) in HE; [done| |done].
      exists e. simpl. auto.
    + destruct (decide (0 < e_recf e)) as [Hpos|Hpos]; [|lia].
      rewrite (Hcl (EP true i) (e_end e) (e_start e)) in HS; [done| |done].
      exists e. simpl. auto.
Qed.

Definition reachedb (D : list nat) (v : vptr) : bool :=
  match v with VSource => true | VSink => false | VInner j => bool_decide (j ∈ D) end.

Lemma reachedb_spec D v : reachedb D v = true <-> reached D v.
Proof.
  destruct v; simpl; split; try done. all: by rewrite bool_decide_eq_true.
Qed.

Lemma parc_to_bound n es p u j :
  Forall (edge_ok n) es -> parc es p u (VInner j) -> (j < n)%nat.
Proof.
  intros H (e & He & _ & Hto & _).
  pose proof (Forall_lookup_1 _ _ _ _ H He) as Hok.
  pose proof (edge_to_bound n e (ep_rec p) Hok) as Hb. by rewrite Hto in Hb.
Qed.

Lemma blocked_max g :
  wf g -> conserved g -> Forall (fun v => v_comp v = 0%nat) (g_verts g) -> blocked g 0 ->
  max_flow (arcs_of (g_edges g)) (rec_flows (g_edges g)).
Proof.
  intros W C H0 (D & HD & Hex).
  apply (closed_max g (reachedb D)); auto.
  intros p u v Hp Hu. apply reachedb_spec in Hu. apply reachedb_spec.
  specialize (Hex u Hu p v Hp). destruct v as [| |j]; simpl in *; auto.
  destruct Hex as [?|Hc]; [done|]. exfalso. apply Hc.
  pose proof (parc_to_bound _ _ _ _ _ (wf_edges _ W) Hp) as Hj.
  rewrite <- (wf_len _ W) in Hj. apply lookup_lt_is_Some in Hj as [x Hx].
  rewrite list_lookup_fmap, Hx. simpl. f_equal. by eapply (Forall_lookup_1 _ _ _ _ H0).
Qed.

(** ** Reading the flow off the transformed graph *)
Lemma transform_ok g :
  g_state g = ResidualComputed ->
  exists g', transform_residual_to_flow g = Ok g' /\ g_state g' = MaxFlowComputed /\
    g_size g' = g_size g /\ g_source g' = g_source g /\ g_sink g' = g_sink g /\
    g_verts g' = g_verts g /\
    arcs_of (g_edges g') = arcs_of (g_edges g) /\
    e_flow <$> g_edges g' = rec_flows (g_edges g) /\
    Forall2 same_ends (g_edges g) (g_edges g').
Proof.
  intros HS. unfold transform_residual_to_flow. rewrite HS. eexists; split; [reflexivity|].
  simpl. split_and!; auto.
  - unfold arcs_of. induction (g_edges g) as [|e es IH]; csimpl; [done|]. by rewrite IH.
  - unfold rec_flows. induction (g_edges g) as [|e es IH]; csimpl; [done|]. by rewrite IH.
  - induction (g_edges g) as [|e es IH]; csimpl; constructor; auto. done.
Qed.

Lemma flows_sum (P : edge -> bool) (Q : arc -> bool) es fl :
  e_flow <$> es = fl ->
  (forall e, P e = Q (Arc (e_start e) (e_end e) (e_cap e))) ->
  zsum ((fun e => if P e then e_flow e else 0) <$> es) =
  zsum (zip_with (fun a x => if Q a then x else 0) (arcs_of es) fl).
Proof.
  intros <- HPQ. unfold arcs_of. induction es as [|e es IH]; csimpl; [done|].
  rewrite IH, HPQ. done.
Qed.
