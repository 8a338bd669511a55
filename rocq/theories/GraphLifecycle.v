(** Histories of API calls on a graph. *)
From stdpp Require Import prelude.
From Coq Require Import ZArith Lia.
From Verif Require Import Base GraphModel GraphSpec GraphProofs GraphSearch GraphFlow
  GraphComponents GraphParallel GraphTheorems.
Local Open Scope Z_scope.

(** A call of the public API. *)
Inductive gcall :=
| CAdd (o : gop)
| CComponents
| CMaxflow
| CTransform
| CGetFlow
| CEdgeFlow (p : eptr)
| CVertexIn (v : vptr)
| CVertexOut (v : vptr).

Inductive outcome := Returned | Refused | Broken.

Definition outcome_of {A} (r : res A) : outcome :=
  match r with Ok _ => Returned | Throw _ => Refused | _ => Broken end.

(** A call that does not return normally leaves the object as it was: all the
    checks of the modelled functions precede their first write. *)
Definition upd {A} (g : graph) (r : res A) (f : A -> graph) : graph :=
  match r with Ok a => f a | _ => g end.

Definition do_call (g : graph) (c : gcall) : graph * outcome :=
  match c with
  | CAdd o => let r := run_op g o in (upd g r snd, outcome_of r)
  | CComponents => let r := compute_connected_components g in (upd g r id, outcome_of r)
  | CMaxflow =>
      let r := compute_residual_maxflow (S (Z.to_nat (src_cap (g_edges g)))) g in
      (upd g r id, outcome_of r)
  | CTransform => let r := transform_residual_to_flow g in (upd g r id, outcome_of r)
  | CGetFlow => (g, outcome_of (get_flow g))
  | CEdgeFlow p => (g, outcome_of (get_edge_flow g p))
  | CVertexIn v => (g, outcome_of (get_vertex_in_flow g v))
  | CVertexOut v => (g, outcome_of (get_vertex_out_flow g v))
  end.

Fixpoint do_calls (g : graph) (cs : list gcall) : graph * list outcome :=
  match cs with
  | [] => (g, [])
  | c :: cs' =>
      let r := do_call g c in
      let r' := do_calls r.1 cs' in (r'.1, r.2 :: r'.2)
  end.

(** The specification automaton: a phase and the number of edges. *)
Inductive phase := PBuild | PResidual | PFlow.

Definition in_range (n : nat) (o : gop) : bool :=
  match o with
  | AddEdge _ _ s e => bool_decide (s < n)%nat && bool_decide (e < n)%nat
  | AddFromSource _ _ e => bool_decide (e < n)%nat
  | AddToSink _ _ s => bool_decide (s < n)%nat
  end.

Definition spec_call (n : nat) (st : phase * nat) (c : gcall) : (phase * nat) * outcome :=
  let '(ph, m) := st in
  match c, ph with
  | CAdd o, PBuild => if in_range n o then ((ph, S m), Returned) else (st, Refused)
  | CAdd _, _ => (st, Refused)
  | CComponents, _ => (st, Returned)
  | CMaxflow, PBuild => ((PResidual, m), Returned)
  | CMaxflow, _ => (st, Refused)
  | CTransform, PResidual => ((PFlow, m), Returned)
  | CTransform, _ => (st, Refused)
  | CGetFlow, PFlow | CEdgeFlow _, PFlow | CVertexIn _, PFlow | CVertexOut _, PFlow =>
      (st, Returned)
  | CGetFlow, _ | CEdgeFlow _, _ | CVertexIn _, _ | CVertexOut _, _ => (st, Refused)
  end.

Fixpoint spec_calls (n : nat) (st : phase * nat) (cs : list gcall) : (phase * nat) * list outcome :=
  match cs with
  | [] => (st, [])
  | c :: cs' =>
      let r := spec_call n st c in
      let r' := spec_calls n r.1 cs' in (r'.1, r.2 :: r'.2)
  end.

(** Capacities are size_t values; edge pointers must have been handed out and
    vertex pointers must designate a vertex. *)
Definition gop_cap (o : gop) : Z :=
  match o with AddEdge _ c _ _ | AddFromSource _ c _ | AddToSink _ c _ => c end.

Definition call_ok (n m : nat) (c : gcall) : Prop :=
  match c with
  | CAdd o => 0 <= gop_cap o
  | CEdgeFlow p => (ep_idx p < m)%nat
  | CVertexIn (VInner i) | CVertexOut (VInner i) => (i < n)%nat
  | _ => True
  end.

Fixpoint calls_ok (n : nat) (st : phase * nat) (cs : list gcall) : Prop :=
  match cs with
  | [] => True
  | c :: cs' => call_ok n st.2 c /\ calls_ok n (spec_call n st c).1 cs'
  end.

Definition phase_of (s : gstate) : phase :=
  match s with Building => PBuild | ResidualComputed => PResidual | MaxFlowComputed => PFlow end.

(** * Proofs *)

(** What remains true in all phases. *)
Record shape (g : graph) : Prop := Shape {
  sh_len : length (g_verts g) = g_size g;
  sh_source : adj_ok (g_edges g) VSource (g_source g);
  sh_sink : adj_ok (g_edges g) VSink (g_sink g);
  sh_verts : forall i x, g_verts g !! i = Some x -> adj_ok (g_edges g) (VInner i) x;
  sh_bound : Forall (fun e =>
    (e_start e = VSource \/ exists i, e_start e = VInner i /\ (i < g_size g)%nat) /\
    (e_end e = VSink \/ exists i, e_end e = VInner i /\ (i < g_size g)%nat)) (g_edges g)
}.

Record hist_inv (n m : nat) (ph : phase) (g : graph) : Prop := HistInv {
  hi_size : g_size g = n;
  hi_edges : length (g_edges g) = m;
  hi_phase : phase_of (g_state g) = ph;
  hi_shape : shape g;
  hi_wf : ph = PBuild -> wf g /\ Forall (fun e => e_recf e = 0) (g_edges g)
}.

Lemma wf_shape g : wf g -> shape g.
Proof.
  intros W. split; try apply W. eapply Forall_impl; [apply W|].
  intros e (_ & _ & _ & ? & ? & _). auto.
Qed.

(** Components of an arbitrary labelling: only totality is needed here. *)
Lemma cc_scan_total n es ci rec l :
  Forall (fun e => match edge_to e rec with VInner j => (j < n)%nat | _ => True end) es ->
  forall vs q, length vs = n -> Forall (fun j => (j < n)%nat) q ->
  (forall p, p ∈ l -> exists e, es !! ep_idx p = Some e) ->
  ci <> 0%nat ->
  exists New vs', cc_scan es ci rec l vs q = Ok (vs', New ++ q) /\ same_links vs vs' /\
    Forall (fun j => (j < n)%nat) (New ++ q) /\ 
    (length New + length (filter (fun x => v_comp x = 0%nat) vs') =
     length (filter (fun x => v_comp x = 0%nat) vs))%nat.
Proof.
  intros Hes. induction l as [|p l IH]; intros vs q Hlen Hq Hl Hci; simpl.
  - exists [], vs. split; [done|]. split; [apply same_links_refl|]. split; [done|]. done.
  - destruct (Hl p) as [e He]; [left|].
    assert (Hl' : forall p, p ∈ l -> exists e, es !! ep_idx p = Some e)
      by (intros; apply Hl; by right).
    unfold vat at 1. rewrite He. simpl.
    pose proof (Forall_lookup_1 _ _ _ _ Hes He) as Hb. simpl in Hb.
    destruct (edge_to e rec) as [| |j]; [by apply IH|by apply IH|].
    assert (Hx : exists x, vs !! j = Some x) by (apply lookup_lt_is_Some; lia).
    destruct Hx as [x Hx]. unfold vat at 1. rewrite Hx. simpl.
    case_bool_decide as Hz; [|by apply IH].
    destruct (IH (alter (set_comp ci) j vs) (j :: q)) as (New & vs' & E & A & B & C).
    { by rewrite alter_length. } { by constructor. } { done. } { done. }
    exists (New ++ [j]), vs'. rewrite E, <- app_assoc. split; [done|]. split.
    { eapply same_links_trans; [apply same_links_alter|exact A]. }
    split; [done|]. rewrite app_length. simpl.
    assert (Hc : forall vs j x, vs !! j = Some x -> v_comp x = 0%nat ->
      length (filter (fun x => v_comp x = 0%nat) vs) =
      S (length (filter (fun x => v_comp x = 0%nat) (alter (set_comp ci) j vs)))).
    { clear -Hci. induction vs as [|y vs IH]; intros [|j] x Hx Hz; simpl in *; try done.
      - simplify_eq. rewrite filter_cons_True by done. rewrite filter_cons_False by done. done.
      - change (list_alter (set_comp ci) j vs) with (alter (set_comp ci) j vs).
        destruct (decide (v_comp y = 0%nat)).
        + rewrite !filter_cons_True by done. simpl. by rewrite (IH j x).
        + rewrite !filter_cons_False by done. by rewrite (IH j x). }
    rewrite (Hc vs j x Hx Hz). lia.
Qed.

Lemma shape_idx_in g v x p :
  adj_ok (g_edges g) v x -> p ∈ v_in x \/ p ∈ v_out x -> exists e, g_edges g !! ep_idx p = Some e.
Proof.
  intros [Hi Ho] [H|H]; [rewrite Hi in H|rewrite Ho in H];
    apply elem_of_idxs in H as (i & e & He & _ & ->); eauto.
Qed.

Lemma cc_loop_total g ci vs0 fuel :
  shape g -> ci <> 0%nat -> same_links (g_verts g) vs0 ->
  forall vs q sz,
  same_links vs0 vs -> Forall (fun j => (j < g_size g)%nat) q ->
  (length q + length (filter (fun x => v_comp x = 0%nat) vs) < fuel)%nat ->
  exists vs' sz', cc_loop fuel (g_edges g) ci vs q sz = Ok (vs', sz') /\ same_links vs0 vs'.
Proof.
  intros Sh Hci A0. induction fuel as [|fuel IH]; intros vs q sz A Hq Hf; [lia|].
  simpl. destruct q as [|v q]; [eauto|].
  apply Forall_cons in Hq as [Hv Hq].
  assert (A' : same_links (g_verts g) vs) by (by eapply same_links_trans).
  assert (Hlen : length vs = g_size g) by (rewrite (same_links_len _ _ A'); apply Sh).
  assert (Hx : exists x, vs !! v = Some x) by (apply lookup_lt_is_Some; lia).
  destruct Hx as [x Hx]. unfold vat at 1. rewrite Hx. simpl.
  destruct (Forall2_lookup_r _ _ _ _ _ A' Hx) as (y & Hy & B1 & B2 & _).
  pose proof (sh_verts _ Sh _ _ Hy) as Hadj.
  destruct (cc_scan_total (g_size g) (g_edges g) ci false (v_out x)) with (vs := vs) (q := q)
    as (New1 & vs1 & E1 & L1 & F1 & C1); auto.
  { eapply Forall_impl; [apply Sh|]. intros e [_ He]. simpl. destruct He as [->|(i & -> & ?)]; done. }
  { intros p Hp. eapply shape_idx_in; [exact Hadj|]. right. by rewrite B2. }
  rewrite E1. simpl.
  destruct (cc_scan_total (g_size g) (g_edges g) ci true (v_in x)) with (vs := vs1) (q := New1 ++ q)
    as (New2 & vs2 & E2 & L2 & F2 & C2); auto.
  { eapply Forall_impl; [apply Sh|]. intros e [He _]. simpl. destruct He as [->|(i & -> & ?)]; done. }
  { rewrite (same_links_len _ _ L1). done. }
  { intros p Hp. eapply shape_idx_in; [exact Hadj|]. left. by rewrite B1. }
  rewrite E2. simpl. apply IH; auto.
  - eapply same_links_trans; [exact A|]. by eapply same_links_trans.
  - simpl in Hf. rewrite !app_length. lia.
Qed.

Lemma cc_outer_total g l :
  shape g -> Forall (fun j => (j < g_size g)%nat) l ->
  forall vs ci, same_links (g_verts g) vs -> ci <> 0%nat ->
  exists vs' ci', cc_outer (g_edges g) l vs ci = Ok (vs', ci') /\ same_links (g_verts g) vs'.
Proof.
  intros Sh Hl. induction l as [|v l IH]; intros vs ci A Hci; simpl; [eauto|].
  apply Forall_cons in Hl as [Hv Hl].
  assert (Hlen : length vs = g_size g) by (rewrite (same_links_len _ _ A); apply Sh).
  assert (Hx : exists x, vs !! v = Some x) by (apply lookup_lt_is_Some; lia).
  destruct Hx as [x Hx]. unfold vat at 1. rewrite Hx. simpl.
  case_bool_decide; [by apply IH|].
  assert (A1 : same_links (g_verts g) (alter (set_comp ci) v vs)).
  { eapply same_links_trans; [exact A|apply same_links_alter]. }
  destruct (cc_loop_total g ci _ (length vs + 2) Sh Hci A1 (alter (set_comp ci) v vs) [v] 0)
    as (vs' & sz & E & L).
  { apply same_links_refl. } { by constructor. }
  { pose proof (filter_length (fun x => v_comp x = 0%nat) (alter (set_comp ci) v vs)) as Hfl.
    rewrite alter_length in Hfl. simpl. lia. }
  rewrite E. simpl.
  assert (A2 : same_links (g_verts g) vs') by (by eapply same_links_trans).
  case_bool_decide.
  - apply IH; auto. eapply same_links_trans; [exact A2|apply same_links_alter].
  - apply IH; auto.
Qed.

Lemma components_total g :
  shape g -> exists g', compute_connected_components g = Ok g' /\
    same_links (g_verts g) (g_verts g') /\ g_edges g' = g_edges g /\ g_state g' = g_state g /\
    g_size g' = g_size g /\ g_source g' = g_source g /\ g_sink g' = g_sink g.
Proof.
  intros Sh. unfold compute_connected_components.
  destruct (cc_outer_total g (seq 0 (length (g_verts g))) Sh) with (vs := g_verts g) (ci := 1%nat)
    as (vs & ci & E & A).
  { apply Forall_forall. intros j Hj. apply elem_of_seq in Hj. rewrite (sh_len _ Sh) in Hj. lia. }
  { apply same_links_refl. } { lia. }
  rewrite E. simpl. eexists; split; [reflexivity|]. simpl. split_and!; auto.
Qed.

Lemma shape_verts g g' :
  shape g -> same_links (g_verts g) (g_verts g') -> g_edges g' = g_edges g ->
  g_size g' = g_size g -> g_source g' = g_source g -> g_sink g' = g_sink g -> shape g'.
Proof.
  intros Sh A He Hs H1 H2. split; rewrite ?He, ?Hs, ?H1, ?H2; try apply Sh.
  - rewrite (same_links_len _ _ A). apply Sh.
  - intros i x Hx. destruct (Forall2_lookup_r _ _ _ _ _ A Hx) as (y & Hy & B1 & B2 & _).
    destruct (sh_verts _ Sh _ _ Hy). split; congruence.
Qed.

Lemma sum_ptrs_total f es P : exists s, sum_ptrs f es (idxs P 0 es) = Ok s.
Proof. rewrite sum_ptrs_idxs. eauto. Qed.

Lemma get_vertex_total g v :
  shape g -> (match v with VInner i => (i < g_size g)%nat | _ => True end) ->
  exists x, get_vertex (g_source g) (g_sink g) (g_verts g) v = Ok x /\ adj_ok (g_edges g) v x.
Proof.
  intros Sh Hv. destruct v as [| |i]; simpl.
  - eexists; split; [done|]. apply Sh.
  - eexists; split; [done|]. apply Sh.
  - rewrite <- (sh_len _ Sh) in Hv. apply lookup_lt_is_Some in Hv as [x Hx].
    exists x. unfold vat. rewrite Hx. split; [done|]. by apply Sh.
Qed.

Local Arguments aug_loop : simpl never.

Lemma do_call_step n st g c :
  hist_inv n st.2 st.1 g -> call_ok n st.2 c ->
  (do_call g c).2 = (spec_call n st c).2 /\
  hist_inv n (spec_call n st c).1.2 (spec_call n st c).1.1 (do_call g c).1 /\
  ((do_call g c).2 = Refused -> (do_call g c).1 = g).
Proof.
  destruct st as [ph m]. simpl. intros I Hc. pose proof I as [Hn Hm Hph Sh HW].
  destruct c as [o| | | | |p|v|v].
  - (* add *)
    assert (Hnb : ph <> PBuild -> exists e, run_op g o = Throw e).
    { intros Hne. destruct (g_state g) eqn:E; simpl in Hph; [congruence| |];
        destruct o; simpl; unfold add_edge, add_edge_from_source, add_edge_to_sink; rewrite E; eauto. }
    destruct ph.
    + destruct (HW eq_refl) as [W Hz].
      assert (HB : g_state g = Building) by (destruct (g_state g); done).
      simpl. destruct (in_range n o) eqn:Hr.
      * destruct (run_op_step g o W HB) as (g' & E & W' & B' & S' & A' & Z' & C').
        { rewrite Hn. destruct o; simpl in *; repeat rewrite andb_true_iff in Hr;
            repeat rewrite bool_decide_eq_true in Hr; tauto. }
        { done. }
        rewrite E. simpl. split; [done|]. split; [|done].
        split; simpl; auto.
        -- congruence.
        -- pose proof (f_equal length A') as Hl. unfold arcs_of in Hl.
           rewrite app_length, !fmap_length in Hl. simpl in Hl. lia.
        -- by rewrite B'.
        -- by apply wf_shape.
      * assert (E : exists e, run_op g o = Throw e).
        { destruct o; simpl in *; unfold add_edge, add_edge_from_source, add_edge_to_sink; rewrite HB, Hn;
            repeat case_bool_decide; simpl in Hr; try done; eauto; lia. }
        destruct E as [e E]. rewrite E. simpl. split; [done|]. split; [done|done].
    + destruct Hnb as [e E]; [done|]. simpl. rewrite E. simpl. done.
    + destruct Hnb as [e E]; [done|]. simpl. rewrite E. simpl. done.
  - destruct (components_total g Sh) as (g' & E & A & He & Hst & Hsz & Hso & Hsi).
    simpl. rewrite E. simpl. split; [by destruct ph|]. split; [|done].
    assert (hist_inv n m ph g') as HI; [|by destruct ph].
    split; try congruence.
    + by eapply shape_verts.
    + intros Hp. destruct (HW Hp) as [W Hz]. rewrite He. split; [|done].
      pose proof (shape_verts g g' Sh A He Hsz Hso Hsi) as Sh'.
      split; try apply Sh'; rewrite ?He, ?Hsz, ?Hso; apply W.
  - simpl. unfold compute_residual_maxflow.
    destruct (g_state g) eqn:HS; simpl in Hph; subst ph; simpl.
    + destruct (HW eq_refl) as [W Hz].
      assert (Hnet : forall v, net (g_edges g) v = 0).
      { intros v. unfold net. rewrite (zsum_map_ext _ (fun _ => 0)); [apply zsum_map_0|].
        intros e He. unfold netc. rewrite (proj1 (Forall_forall _ _) Hz e He).
        by destruct (ends v e), (starts v e). }
      destruct (aug_loop_ok (S (Z.to_nat (src_cap (g_edges g)))) g 0 W) as (g' & E' & W' & C' & F' & B').
      { intros i. apply Hnet. }
      { unfold remaining. rewrite Hnet. lia. }
      rewrite E'. simpl. split; [done|]. split; [|done].
      destruct F' as (F1 & F2 & F3 & F4 & F5). split; simpl; auto; try congruence.
      * rewrite <- (Forall2_length _ _ _ F4). done.
      * apply wf_shape. destruct W'. by split.
    + done.
    + done.
  - simpl. unfold transform_residual_to_flow.
    destruct (g_state g) eqn:HS; simpl in Hph; subst ph; simpl; try done.
    split; [done|]. split; [|done].
    destruct (transform_ok g HS) as (g' & E & S' & Sz & Hso & Hsi & Hv & Ha & Hf & Hsame).
    unfold transform_residual_to_flow in E. rewrite HS in E. injection E as <-.
    split; simpl; auto.
    + by rewrite fmap_length.
    + destruct Sh as [L1 L2 L3 L4 L5]. split; simpl.
      * done.
      * eapply same_ends_adj; [exact Hsame|done].
      * eapply same_ends_adj; [exact Hsame|done].
      * intros i x Hx. eapply same_ends_adj; [exact Hsame|]. by apply L4.
      * apply Forall_fmap. eapply Forall_impl; [exact L5|]. done.
    + done.
  - simpl. unfold get_flow. destruct (g_state g) eqn:HS; simpl in Hph; subst ph; simpl; try done.
    destruct (sh_source _ Sh) as [_ ->]. rewrite sum_ptrs_idxs. done.
  - simpl. unfold get_edge_flow. destruct (g_state g) eqn:HS; simpl in Hph; subst ph; simpl; try done.
    simpl in Hc. rewrite <- Hm in Hc. apply lookup_lt_is_Some in Hc as [e He]. unfold vat. rewrite He. done.
  - simpl. unfold get_vertex_in_flow. destruct (g_state g) eqn:HS; simpl in Hph; subst ph; simpl; try done.
    destruct (get_vertex_total g v Sh) as (x & Hx & [Hi _]).
    { destruct v; simpl in *; try done. lia. }
    rewrite Hx. simpl. rewrite Hi, sum_ptrs_idxs. done.
  - simpl. unfold get_vertex_out_flow. destruct (g_state g) eqn:HS; simpl in Hph; subst ph; simpl; try done.
    destruct (get_vertex_total g v Sh) as (x & Hx & [_ Ho]).
    { destruct v; simpl in *; try done. lia. }
    rewrite Hx. simpl. rewrite Ho, sum_ptrs_idxs. done.
Qed.

Lemma do_calls_spec n cs :
  forall st g, hist_inv n st.2 st.1 g -> calls_ok n st cs ->
  (do_calls g cs).2 = (spec_calls n st cs).2 /\
  hist_inv n (spec_calls n st cs).1.2 (spec_calls n st cs).1.1 (do_calls g cs).1.
Proof.
  induction cs as [|c cs IH]; intros st g I Hc; simpl; [done|].
  destruct Hc as [Hc Hcs]. destruct (do_call_step n st g c I Hc) as (H1 & H2 & _).
  destruct (IH _ _ H2 Hcs) as [H3 H4]. split; [|done]. by rewrite H1, H3.
Qed.

Lemma new_graph_hist n g : new_graph n = Ok g -> hist_inv n 0 PBuild g.
Proof.
  intros H. destruct (new_graph_wf n g H) as (W & B & S & E & _ & _ & _).
  split; auto.
  - by rewrite E.
  - by rewrite B.
  - by apply wf_shape.
  - intros _. rewrite E. done.
Qed.

Lemma lifecycle n g cs c :
  new_graph n = Ok g -> calls_ok n (PBuild, 0%nat) (cs ++ [c]) ->
  (do_calls g cs).2 = (spec_calls n (PBuild, 0%nat) cs).2 /\
  (do_call (do_calls g cs).1 c).2 = (spec_call n (spec_calls n (PBuild, 0%nat) cs).1 c).2 /\
  ((do_call (do_calls g cs).1 c).2 = Refused ->
   (do_call (do_calls g cs).1 c).1 = (do_calls g cs).1).
Proof.
  intros H Hok.
  assert (Hsplit : forall st, calls_ok n st (cs ++ [c]) ->
    calls_ok n st cs /\ call_ok n (spec_calls n st cs).1.2 c).
  { clear. induction cs as [|d cs IH]; intros st; simpl; [tauto|].
    intros [H1 H2]. apply IH in H2. tauto. }
  apply Hsplit in Hok as [Hcs Hc].
  destruct (do_calls_spec n cs (PBuild, 0%nat) g (new_graph_hist n g H) Hcs) as [H1 H2].
  destruct (do_call_step n _ _ c H2 Hc) as (H3 & _ & H4). done.
Qed.
