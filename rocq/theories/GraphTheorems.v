(** End-to-end statements about the graph API, proved from the invariants. *)
From stdpp Require Import prelude.
From Coq Require Import ZArith Lia.
From Verif Require Import Base GraphModel GraphSpec GraphProofs GraphSearch GraphFlow
  GraphComponents GraphParallel.
Local Open Scope Z_scope.

(** * Building a graph *)
Lemma build_ok n ops g0 :
  new_graph n = Ok g0 -> Forall (op_ok n) ops ->
  exists g, run_ops g0 ops = Ok (EP false <$> seq 0 (length ops), g) /\
    wf g /\ conserved g /\ g_state g = Building /\ g_size g = n /\
    arcs_of (g_edges g) = arc_of <$> ops /\
    Forall (fun v => v_comp v = 0%nat) (g_verts g) /\
    net (g_edges g) VSource = 0.
Proof.
  intros H0 Hok. destruct (new_graph_wf n g0 H0) as (W0 & B0 & S0 & E0 & Hn & _ & C0).
  destruct (run_ops_ok ops g0 W0 B0) as (g & E & W & B & S & A & Z & C).
  { by rewrite S0. } { by rewrite E0. }
  rewrite E0 in E, A. simpl in E, A.
  assert (Hnet : forall v, net (g_edges g) v = 0).
  { intros v. unfold net. rewrite (zsum_map_ext _ (fun _ => 0)); [apply zsum_map_0|].
    intros e He. unfold netc. rewrite (proj1 (Forall_forall _ _) Z e He).
    by destruct (ends v e), (starts v e). }
  exists g. split_and!; auto.
  - intros i. apply Hnet.
  - congruence.
  - apply Forall_lookup_2. intros i x Hx.
    assert (Hc : (v_comp <$> g_verts g) !! i = Some (v_comp x)) by (by rewrite list_lookup_fmap, Hx).
    rewrite C, list_lookup_fmap in Hc. destruct (g_verts g0 !! i) as [y|] eqn:Hy; [|done].
    simpl in Hc. pose proof (Forall_lookup_1 _ _ _ _ C0 Hy). simpl in *. congruence.
Qed.

Lemma src_cap_spec es : src_cap es = source_capacity (arcs_of es).
Proof.
  unfold src_cap, source_capacity, outflow, arcs_of, starts.
  induction es as [|e es IH]; csimpl; [done|]. rewrite IH. done.
Qed.

(** Bound on the number of iterations of the augmentation loop. *)
Definition iterations (ops : list gop) : nat :=
  S (Z.to_nat (source_capacity (arc_of <$> ops))).

(** Reading flows through the API. *)
Lemma get_edge_flow_all g :
  g_state g = MaxFlowComputed ->
  Forall2 (fun p x => get_edge_flow g p = Ok x)
    (EP false <$> seq 0 (length (g_edges g))) (e_flow <$> g_edges g).
Proof.
  intros HS. apply Forall2_same_length_lookup_2.
  { by rewrite !fmap_length, seq_length. }
  intros i p x Hp Hx. rewrite list_lookup_fmap in Hp. rewrite list_lookup_fmap in Hx.
  destruct (seq 0 (length (g_edges g)) !! i) as [k|] eqn:Ek; [|done].
  apply lookup_seq in Ek as [-> Hi]. simpl in *. simplify_eq.
  destruct (g_edges g !! i) as [e|] eqn:He; [|done]. simpl in *. simplify_eq.
  unfold get_edge_flow. rewrite HS. unfold vat. simpl. rewrite He. done.
Qed.

Lemma get_edge_capacity_all g :
  Forall2 (fun p x => get_edge_capacity g p = Ok x)
    (EP false <$> seq 0 (length (g_edges g))) (e_cap <$> g_edges g).
Proof.
  apply Forall2_same_length_lookup_2.
  { by rewrite !fmap_length, seq_length. }
  intros i p x Hp Hx. rewrite list_lookup_fmap in Hp. rewrite list_lookup_fmap in Hx.
  destruct (seq 0 (length (g_edges g)) !! i) as [k|] eqn:Ek; [|done].
  apply lookup_seq in Ek as [-> Hi]. simpl in *. simplify_eq.
  destruct (g_edges g !! i) as [e|] eqn:He; [|done]. simpl in *. simplify_eq.
  unfold get_edge_capacity, vat. simpl. rewrite He. done.
Qed.

Lemma outflow_flows es v :
  zsum ((fun e => if starts v e then e_flow e else 0) <$> es) =
  outflow (arcs_of es) (e_flow <$> es) v.
Proof. unfold outflow, starts. by apply flows_sum with (Q := fun a => bool_decide (a_from a = v)). Qed.
Lemma inflow_flows es v :
  zsum ((fun e => if ends v e then e_flow e else 0) <$> es) =
  inflow (arcs_of es) (e_flow <$> es) v.
Proof. unfold inflow, ends. by apply flows_sum with (Q := fun a => bool_decide (a_to a = v)). Qed.

(** The value leaving the source arrives at the sink. *)
Lemma value_sink n arcs fl :
  Forall (arc_ok n) arcs -> feasible arcs fl ->
  inflow arcs fl VSink = value arcs fl.
Proof.
  intros Hok Hf.
  rewrite (value_cut n (fun v => negb (bool_decide (v = VSink))) arcs fl) by done.
  destruct Hf as [Hf _]. unfold inflow. clear -Hok Hf.
  induction Hf as [|a x arcs fl Hx Hf IH]; [done|].
  apply Forall_cons in Hok as [[Ha1 Ha2] Hok]. rewrite !zip_with_cons_sum, IH by done.
  assert (bool_decide (a_from a = VSink) = false) as ->.
  { apply bool_decide_eq_false. destruct Ha1 as [->|(i & -> & _)]; done. }
  case_bool_decide; simpl; lia.
Qed.

(** Everything the API shows after the computation. *)
Record api_flow (n : nat) (arcs : list arc) (g : graph) (ptrs : list eptr)
  (fl : flow) (val : Z) : Prop := ApiFlow {
  af_edges : Forall2 (fun p x => get_edge_flow g p = Ok x) ptrs fl;
  af_caps : Forall2 (fun p a => get_edge_capacity g p = Ok (a_cap a)) ptrs arcs;
  af_flow : get_flow g = Ok val;
  af_value : val = value arcs fl;
  af_inner : forall i, (i < n)%nat ->
     get_vertex_in_flow g (VInner i) = Ok (inflow arcs fl (VInner i)) /\
     get_vertex_out_flow g (VInner i) = Ok (outflow arcs fl (VInner i));
  af_sink : get_vertex_in_flow g VSink = Ok (inflow arcs fl VSink);
  af_source : get_vertex_out_flow g VSource = Ok val
}.

Lemma transform_api g :
  wf g -> g_state g = ResidualComputed ->
  exists g', transform_residual_to_flow g = Ok g' /\
    api_flow (g_size g) (arcs_of (g_edges g)) g' (EP false <$> seq 0 (length (g_edges g)))
      (rec_flows (g_edges g)) (value (arcs_of (g_edges g)) (rec_flows (g_edges g))).
Proof.
  intros W HS. destruct (transform_ok g HS) as (g' & E & S' & Sz & Hso & Hsi & Hv & Ha & Hf & Hsame).
  exists g'. split; [done|].
  assert (Hlen : length (g_edges g') = length (g_edges g)) by (symmetry; by eapply Forall2_length).
  assert (Hsrc : v_out (g_source g') = idxs (starts VSource) 0 (g_edges g')).
  { rewrite Hso. apply (same_ends_adj _ _ _ _ Hsame (wf_source _ W)). }
  split.
  - rewrite <- Hf, <- Hlen. by apply get_edge_flow_all.
  - pose proof (get_edge_capacity_all g') as Hc. rewrite Hlen in Hc. rewrite <- Ha.
    unfold arcs_of. apply Forall2_fmap_r. apply Forall2_fmap_r in Hc. exact Hc.
  - unfold get_flow. rewrite S', Hsrc, sum_ptrs_idxs, outflow_flows, Ha, Hf. done.
  - done.
  - intros i Hi. unfold get_vertex_in_flow, get_vertex_out_flow. rewrite S'. simpl. unfold vat.
    rewrite <- (wf_len _ W), <- Hv in Hi. apply lookup_lt_is_Some in Hi as [x Hx]. rewrite Hx. simpl.
    rewrite Hv in Hx.
    destruct (same_ends_adj _ _ _ _ Hsame (wf_verts _ W _ _ Hx)) as [-> ->].
    rewrite !sum_ptrs_idxs, outflow_flows, inflow_flows, Ha, Hf. done.
  - unfold get_vertex_in_flow. rewrite S'. simpl. rewrite Hsi.
    destruct (same_ends_adj _ _ _ _ Hsame (wf_sink _ W)) as [-> _].
    rewrite !sum_ptrs_idxs, inflow_flows, Ha, Hf. done.
  - unfold get_vertex_out_flow. rewrite S'. simpl.
    rewrite Hsrc, sum_ptrs_idxs, outflow_flows, Ha, Hf. done.
Qed.

(** * Sequential computation *)
Lemma maxflow_api n ops g0 :
  new_graph n = Ok g0 -> Forall (op_ok n) ops ->
  exists ptrs g1 g2 g3 fl val,
    run_ops g0 ops = Ok (ptrs, g1) /\
    (forall fuel, (iterations ops <= fuel)%nat -> compute_residual_maxflow fuel g1 = Ok g2) /\
    transform_residual_to_flow g2 = Ok g3 /\
    api_flow n (arc_of <$> ops) g3 ptrs fl val /\
    max_flow (arc_of <$> ops) fl /\
    inflow (arc_of <$> ops) fl VSink = val.
Proof.
  intros H0 Hok. destruct (build_ok n ops g0 H0 Hok) as (g & E & W & C & B & S & A & Z & Hnet).
  assert (Hbound : remaining g = source_capacity (arc_of <$> ops)).
  { unfold remaining. rewrite Hnet, src_cap_spec, A. lia. }
  destruct (aug_loop_ok (iterations ops) g 0 W C) as (g' & E' & W' & C' & F' & B').
  { unfold iterations. rewrite Hbound. lia. }
  assert (Hmono : forall f f' g g', aug_loop f g 0 = Ok g' -> (f <= f')%nat -> aug_loop f' g 0 = Ok g').
  { clear. induction f as [|f IH]; intros f' g g' H Hle; simpl in H; [done|].
    destruct f' as [|f']; [lia|]. simpl. apply rbind_ok in H as (o & Ho & H). rewrite Ho. simpl.
    destruct o; [|done]. apply IH; auto. lia. }
  pose proof F' as (F1 & F2 & F3 & F4 & F5).
  assert (Harcs : arcs_of (g_edges g') = arc_of <$> ops) by (rewrite <- A; symmetry; by apply same_ends_arcs).
  assert (Hmax : max_flow (arcs_of (g_edges g')) (rec_flows (g_edges g'))).
  { apply blocked_max; auto. apply Forall_lookup_2. intros i x Hx.
    assert (Hc : (v_comp <$> g_verts g') !! i = Some (v_comp x)) by (by rewrite list_lookup_fmap, Hx).
    rewrite F5, list_lookup_fmap in Hc. destruct (g_verts g !! i) as [y|] eqn:Hy; [|done].
    simpl in Hc. pose proof (Forall_lookup_1 _ _ _ _ Z Hy). simpl in *. congruence. }
  set (g2 := with_state g' ResidualComputed).
  assert (W2 : wf g2) by (destruct W'; by split).
  destruct (transform_api g2 W2 eq_refl) as (g3 & E3 & AF).
  simpl in AF. rewrite Harcs in AF, Hmax.
  exists (EP false <$> seq 0 (length ops)), g, g2, g3, (rec_flows (g_edges g')), 
    (value (arc_of <$> ops) (rec_flows (g_edges g'))).
  split; [done|]. split.
  { intros fuel Hfuel. unfold compute_residual_maxflow. rewrite B.
    rewrite (Hmono _ _ _ _ E' Hfuel). done. }
  split; [done|]. split; [|split; [done|]].
  - rewrite <- S, <- F2. assert (length ops = length (g_edges g')) as ->; [|exact AF].
    rewrite <- (fmap_length arc_of ops), <- Harcs. unfold arcs_of. by rewrite fmap_length.
  - apply (value_sink n); [|apply Hmax]. rewrite <- Harcs, <- S, <- F2. by apply arcs_ok_of.
Qed.

(** ** No unsigned underflow at any moment *)
Definition edge_in_range (e : edge) : Prop :=
  0 <= e_flow e /\ 0 <= e_recf e /\ e_flow e + e_recf e = e_cap e.

(** States of the augmentation loop for component 0. *)
Inductive loop_state (g : graph) : graph -> Prop :=
| loop_init : loop_state g g
| loop_next g1 g2 : loop_state g g1 -> aug_step g1 0 = Ok (Some g2) -> loop_state g g2.

Lemma loop_state_inv n ops g0 ptrs g g1 :
  new_graph n = Ok g0 -> Forall (op_ok n) ops -> run_ops g0 ops = Ok (ptrs, g) ->
  loop_state g g1 -> wf g1 /\ conserved g1 /\ frame g g1.
Proof.
  intros H0 Hok Hr L. destruct (build_ok n ops g0 H0 Hok) as (g' & E & W & C & _).
  rewrite Hr in E. simplify_eq.
  induction L as [|g1 g2 L (W1 & C1 & F1) Hs]; [split_and!; auto; apply frame_refl|].
  destruct (aug_step_ok g1 0 W1 C1) as [[E' _]|(g3 & ? & ? & ? & E' & W3 & C3 & F3 & _)]; [congruence|].
  rewrite Hs in E'. simplify_eq. split_and!; auto. by eapply frame_trans.
Qed.

Lemma no_underflow n ops g0 ptrs g g1 path c vs k :
  new_graph n = Ok g0 -> Forall (op_ok n) ops -> run_ops g0 ops = Ok (ptrs, g) ->
  loop_state g g1 -> find_path g1 0 = Ok (path, c, vs) ->
  Forall edge_in_range (augment (g_edges g1) (take k path) c).
Proof.
  intros H0 Hok Hr L Hp. destruct (loop_state_inv n ops g0 ptrs g g1 H0 Hok Hr L) as (W1 & C1 & F1).
  destruct (find_path_ok g1 0 W1) as (path' & c' & vs' & E & _ & Hcase).
  rewrite Hp in E. simplify_eq.
  assert (Hgo : Forall (edge_ok (g_size g1)) (augment (g_edges g1) (take k path') c')).
  { destruct Hcase as [(-> & -> & _)|(_ & _ & HN & Hc & Hmin & _)].
    - rewrite take_nil. apply W1.
    - apply augment_edge_ok; [apply W1| |lia|].
      + rewrite fmap_take. rewrite <- (take_drop k (ep_idx <$> path')) in HN.
        by apply NoDup_app in HN as (? & _ & _).
      + intros p Hin. apply Hmin. eapply elem_of_submseteq; [exact Hin|].
        apply sublist_submseteq, sublist_take. }
  eapply Forall_impl; [exact Hgo|]. intros e (? & ? & ? & _). by split.
Qed.

(** * Parallel computation *)
Lemma parallel_api n ops g0 :
  new_graph n = Ok g0 -> Forall (op_ok n) ops ->
  exists ptrs g1 s0,
    run_ops g0 ops = Ok (ptrs, g1) /\ par_start g1 = Ok s0 /\
    (forall k s, nsteps par_step k s0 s ->
       (k <= iterations ops + length (par_done s0))%nat /\
       (~ par_finished s -> exists s', par_step s s') /\
       (par_finished s ->
          exists g3 fl val,
            transform_residual_to_flow (par_result s) = Ok g3 /\
            api_flow n (arc_of <$> ops) g3 ptrs fl val /\
            max_flow (arc_of <$> ops) fl)).
Proof.
  intros H0 Hok. destruct (build_ok n ops g0 H0 Hok) as (g & E & W & C & B & S & A & Z & Hnet).
  destruct (components_ok g W Z) as (g' & E' & W' & K' & He' & Hst' & Hsz').
  exists (EP false <$> seq 0 (length ops)), g, (Par g' (replicate (Datatypes.S (g_ncomp g')) false)).
  split; [done|]. split; [unfold par_start; rewrite B, E'; done|].
  assert (I0 : par_inv g' (Par g' (replicate (Datatypes.S (g_ncomp g')) false))).
  { split; simpl; auto.
    - intros i. rewrite He'. apply C.
    - apply frame_refl.
    - by rewrite replicate_length.
    - intros c Hc. change (false :: replicate (g_ncomp g') false) with
        (replicate (Datatypes.S (g_ncomp g')) false) in Hc.
      apply lookup_replicate in Hc as [? _]. done. }
  intros k s Hs. destruct (par_steps_inv _ _ _ _ I0 Hs) as [I M].
  split; [|split].
  - cbn [par_g par_done] in M.
    assert (Hrem : remaining g' = source_capacity (arc_of <$> ops)).
    { unfold remaining. rewrite He', Hnet, src_cap_spec, A. lia. }
    rewrite Hrem in M. cbn [par_done].
    assert (pending (replicate (Datatypes.S (g_ncomp g')) false) <=
            length (replicate (Datatypes.S (g_ncomp g')) false))%nat.
    { unfold pending. apply filter_length. }
    unfold iterations. lia.
  - by eapply par_progress.
  - intros Hfin. pose proof (par_finished_max _ _ I Hfin) as Hmax.
    assert (Harcs : arcs_of (g_edges (par_g s)) = arc_of <$> ops).
    { rewrite <- A, <- He'. symmetry. apply same_ends_arcs. apply I. }
    assert (Hsz : g_size (par_g s) = n).
    { destruct (pi_frame _ _ I) as (_ & F2 & _). congruence. }
    assert (W2 : wf (par_result s)) by (destruct (pi_wf _ _ I); by split).
    destruct (transform_api (par_result s) W2 eq_refl) as (g3 & E3 & AF).
    cbn [par_result with_state g_size g_edges] in AF. rewrite Harcs in AF, Hmax.
    exists g3, (rec_flows (g_edges (par_g s))), (value (arc_of <$> ops) (rec_flows (g_edges (par_g s)))).
    split; [done|]. split; [|done].
    rewrite Hsz in AF. assert (length ops = length (g_edges (par_g s))) as ->; [|exact AF].
    rewrite <- (fmap_length arc_of ops), <- Harcs. unfold arcs_of. by rewrite fmap_length.
Qed.

Lemma max_flow_unique_value arcs fl fl' :
  max_flow arcs fl -> max_flow arcs fl' -> value arcs fl = value arcs fl'.
Proof. intros [H1 H2] [H3 H4]. pose proof (H2 _ H3). pose proof (H4 _ H1). lia. Qed.
