(** Final theorems about the max-flow graph (properties C01-C05, C55). *)
From stdpp Require Import prelude.
From Coq Require Import ZArith Lia.
From Verif Require Import Base GraphModel GraphSpec GraphProofs GraphSearch GraphFlow
  GraphComponents GraphParallel GraphTheorems GraphLifecycle.
Local Open Scope Z_scope.

(** A graph whose maximum flow needs an augmentation through a reciprocal edge,
    with parallel edges, a self loop and an edge of capacity 0. *)
Definition ex_ops : list gop :=
  [ AddFromSource None 3 0; AddFromSource None 2 1;
    AddEdge (Some 0%nat) 2 0 1; AddEdge (Some 1%nat) 2 0 2; AddEdge (Some 2%nat) 3 1 3;
    AddEdge (Some 3%nat) 4 2 2; AddEdge (Some 4%nat) 0 1 2; AddEdge (Some 5%nat) 2 1 2;
    AddToSink None 3 2; AddToSink None 1 3 ].

Example ex_ops_ok : Forall (op_ok 4) ex_ops.
Proof. repeat constructor; simpl; lia. Qed.

Definition res_get {A} (d : A) (r : res A) : A := match r with Ok a => a | _ => d end.
Definition dummy_graph : graph := Graph Building 0 empty_vertex empty_vertex [] [] 0.
Definition ex_g0 : graph := res_get dummy_graph (new_graph 4).
Definition ex_g1 : graph := (res_get ([], dummy_graph) (run_ops ex_g0 ex_ops)).2.

Example ex_new : new_graph 4 = Ok ex_g0.
Proof. reflexivity. Qed.

Example ex_run :
  (g2 <~ compute_residual_maxflow (iterations ex_ops) ex_g1;
   g3 <~ transform_residual_to_flow g2;
   get_flow g3) = Ok 4.
Proof. vm_compute. reflexivity. Qed.

(** ** C01 *)
Theorem C01_maxflow_optimal :
  forall n ops g0,
    new_graph n = Ok g0 -> Forall (op_ok n) ops ->
    exists ptrs g1 g2 g3 fl val,
      run_ops g0 ops = Ok (ptrs, g1) /\
      (forall fuel, (iterations ops <= fuel)%nat -> compute_residual_maxflow fuel g1 = Ok g2) /\
      transform_residual_to_flow g2 = Ok g3 /\
      get_flow g3 = Ok val /\
      Forall2 (fun p x => get_edge_flow g3 p = Ok x) ptrs fl /\
      val = value (arc_of <$> ops) fl /\
      feasible (arc_of <$> ops) fl /\
      (forall fl', feasible (arc_of <$> ops) fl' -> value (arc_of <$> ops) fl' <= val).
Proof.
  intros n ops g0 H0 Hok.
  destruct (maxflow_api n ops g0 H0 Hok) as (ptrs & g1 & g2 & g3 & fl & val & H1 & H2 & H3 & H4 & [H5 H6] & _).
  exists ptrs, g1, g2, g3, fl, val. pose proof (af_value _ _ _ _ _ _ H4) as Hv.
  split_and!; auto; try apply H4. rewrite Hv. done.
Qed.
Print Assumptions C01_maxflow_optimal.

(** ** C02 *)
Theorem C02_flow_feasible :
  forall n ops g0,
    new_graph n = Ok g0 -> Forall (op_ok n) ops ->
    exists ptrs g1 g2 g3,
      run_ops g0 ops = Ok (ptrs, g1) /\
      compute_residual_maxflow (iterations ops) g1 = Ok g2 /\
      transform_residual_to_flow g2 = Ok g3 /\
      (** every edge carries between 0 and its capacity *)
      Forall2 (fun p o => exists x, get_edge_flow g3 p = Ok x /\
                 get_edge_capacity g3 p = Ok (gop_cap o) /\ 0 <= x <= gop_cap o) ptrs ops /\
      (** conservation at the inner vertices *)
      (forall i, (i < n)%nat -> exists x,
         get_vertex_in_flow g3 (VInner i) = Ok x /\ get_vertex_out_flow g3 (VInner i) = Ok x) /\
      (** what leaves the source reaches the sink *)
      (exists val, get_flow g3 = Ok val /\ get_vertex_out_flow g3 VSource = Ok val /\
         get_vertex_in_flow g3 VSink = Ok val).
Proof.
  intros n ops g0 H0 Hok.
  destruct (maxflow_api n ops g0 H0 Hok) as (ptrs & g1 & g2 & g3 & fl & val & H1 & H2 & H3 & H4 & [[H5 H5'] H6] & H7).
  exists ptrs, g1, g2, g3. split_and!; auto.
  - pose proof (af_edges _ _ _ _ _ _ H4) as He. pose proof (af_caps _ _ _ _ _ _ H4) as Hc.
    apply Forall2_fmap_r in Hc. clear -He Hc H5. revert fl ops He Hc H5.
    induction ptrs as [|p ptrs IH]; intros [|x fl] [|o ops] He Hc H5;
      inversion He; inversion Hc; inversion H5; subst; constructor; eauto.
    assert (gop_cap o = a_cap (arc_of o)) as -> by by destruct o.
    exists x. split_and!; auto; tauto.
  - intros i Hi. destruct (af_inner _ _ _ _ _ _ H4 i Hi) as [E1 E2].
    exists (inflow (arc_of <$> ops) fl (VInner i)). split; [done|]. by rewrite H5'.
  - exists val. split_and!; try apply H4. rewrite <- H7. apply H4.
Qed.
Print Assumptions C02_flow_feasible.

Theorem C02_no_underflow :
  forall n ops g0 ptrs g g1 path c vs k,
    new_graph n = Ok g0 -> Forall (op_ok n) ops -> run_ops g0 ops = Ok (ptrs, g) ->
    (** any state of the augmentation loop, any prefix of the updates along the path *)
    loop_state g g1 -> find_path g1 0 = Ok (path, c, vs) ->
    Forall (fun e => 0 <= e_flow e /\ 0 <= e_recf e /\ e_flow e + e_recf e = e_cap e)
      (augment (g_edges g1) (take k path) c).
Proof. exact no_underflow. Qed.
Print Assumptions C02_no_underflow.

Example C02_no_underflow_ex :
  loop_state ex_g1 ex_g1 /\ exists path c vs, find_path ex_g1 0 = Ok (path, c, vs) /\ (2 < length path)%nat.
Proof.
  split; [constructor|]. eexists _, _, _. split; [vm_compute; reflexivity|]. simpl. lia.
Qed.

(** The capacities that the graph reports for a vertex, at any moment. *)
Lemma caps_sum (P : edge -> bool) (Q : arc -> bool) es :
  (forall e, P e = Q (Arc (e_start e) (e_end e) (e_cap e))) ->
  zsum ((fun e => if P e then e_cap e else 0) <$> es) =
  zsum (zip_with (fun a x => if Q a then x else 0) (arcs_of es) (a_cap <$> arcs_of es)).
Proof.
  intros HP. unfold arcs_of. induction es as [|e es IH]; csimpl; [done|]. by rewrite IH, HP.
Qed.
Lemma wf_capacities g v : wf g -> v = VSource \/ v = VSink \/ (exists i, (i < g_size g)%nat /\ v = VInner i) ->
  get_vertex_in_capacity g v = Ok (inflow (arcs_of (g_edges g)) (a_cap <$> arcs_of (g_edges g)) v) /\
  get_vertex_out_capacity g v = Ok (outflow (arcs_of (g_edges g)) (a_cap <$> arcs_of (g_edges g)) v).
Proof.
  intros W Hv.
  assert (exists x, get_vertex (g_source g) (g_sink g) (g_verts g) v = Ok x /\ adj_ok (g_edges g) v x) as (x & Hx & Hi & Ho).
  { destruct Hv as [->|[->|(i & Hi & ->)]]; cbn.
    - eexists; split; [done|apply W].
    - eexists; split; [done|apply W].
    - rewrite <- (wf_len _ W) in Hi. apply lookup_lt_is_Some in Hi as [x Hx]. unfold vat. rewrite Hx.
      eexists; split; [done|by apply W]. }
  unfold get_vertex_in_capacity, get_vertex_out_capacity. rewrite Hx. cbn [rbind]. rewrite Hi, Ho, !sum_ptrs_idxs.
  unfold inflow, outflow. split; f_equal.
  - by apply (caps_sum (ends v) (fun a => bool_decide (a_to a = v))).
  - by apply (caps_sum (starts v) (fun a => bool_decide (a_from a = v))).
Qed.
Theorem C02_capacities :
  forall n ops g0 ptrs g g1 v,
    new_graph n = Ok g0 -> Forall (op_ok n) ops -> run_ops g0 ops = Ok (ptrs, g) -> loop_state g g1 ->
    v = VSource \/ v = VSink \/ (exists i, (i < n)%nat /\ v = VInner i) ->
    let arcs := arc_of <$> ops in
    (get_vertex_in_capacity g1 v = Ok (inflow arcs (a_cap <$> arcs) v) /\
     get_vertex_out_capacity g1 v = Ok (outflow arcs (a_cap <$> arcs) v)) /\
    (exists g2, transform_residual_to_flow (with_state g1 ResidualComputed) = Ok g2 /\
     get_vertex_in_capacity g2 v = Ok (inflow arcs (a_cap <$> arcs) v) /\
     get_vertex_out_capacity g2 v = Ok (outflow arcs (a_cap <$> arcs) v)).
Proof.
  intros n ops g0 ptrs g g1 v H0 Hok Hr HL Hv arcs.
  destruct (loop_state_inv n ops g0 ptrs g g1 H0 Hok Hr HL) as (W & _ & F).
  destruct (build_ok n ops g0 H0 Hok) as (g' & E & _ & _ & _ & Sz & A & _). rewrite Hr in E. injection E as _ <-.
  pose proof F as (F1 & F2 & F3 & F4 & F5).
  assert (Harcs : arcs_of (g_edges g1) = arcs) by (unfold arcs; rewrite <- A; symmetry; by apply same_ends_arcs).
  assert (Hs : g_size g1 = n) by congruence.
  split; [rewrite <- Harcs; apply wf_capacities; [done|by rewrite Hs]|].
  destruct (transform_ok (with_state g1 ResidualComputed) eq_refl) as (g2 & E2 & S2 & Sz2 & So & Si & Hv2 & Ha & _ & Hsame).
  cbn in Sz2, So, Si, Hv2, Ha, Hsame. exists g2. split; [done|].
  assert (exists x, get_vertex (g_source g2) (g_sink g2) (g_verts g2) v = Ok x /\ adj_ok (g_edges g2) v x) as (x & Hx & Hi & Ho).
  { rewrite So, Si, Hv2. destruct Hv as [->|[->|(i & Hi & ->)]]; cbn.
    - eexists; split; [done|]. by apply (same_ends_adj _ _ _ _ Hsame (wf_source _ W)).
    - eexists; split; [done|]. by apply (same_ends_adj _ _ _ _ Hsame (wf_sink _ W)).
    - rewrite <- Hs, <- (wf_len _ W) in Hi. apply lookup_lt_is_Some in Hi as [x Hx]. unfold vat. rewrite Hx.
      eexists; split; [done|]. by apply (same_ends_adj _ _ _ _ Hsame (wf_verts _ W _ _ Hx)). }
  unfold get_vertex_in_capacity, get_vertex_out_capacity. rewrite Hx. cbn [rbind]. rewrite Hi, Ho, !sum_ptrs_idxs.
  assert (Ha2 : arcs_of (g_edges g2) = arcs) by (rewrite <- Harcs; exact Ha). rewrite <- Ha2. unfold inflow, outflow. split; f_equal.
  - by apply (caps_sum (ends v) (fun a => bool_decide (a_to a = v))).
  - by apply (caps_sum (starts v) (fun a => bool_decide (a_from a = v))).
Qed.
Print Assumptions C02_capacities.
(** The self loop at vertex 2 counts on both sides. *)
Example C02_capacities_ex : run_ops ex_g0 ex_ops = Ok (EP false <$> seq 0 10, ex_g1) /\
  get_vertex_in_capacity ex_g1 (VInner 2) = Ok 8 /\ get_vertex_out_capacity ex_g1 (VInner 2) = Ok 7.
Proof. split_and!; vm_compute; reflexivity. Qed.

(** ** C03 *)
(** [find_path] gives each search a budget of one iteration per vertex plus two,
    and [compute_residual_maxflow] is given one iteration per unit of capacity
    leaving the source, plus one for the last search: neither runs out. *)
Theorem C03_terminates :
  forall n ops g0,
    new_graph n = Ok g0 -> Forall (op_ok n) ops ->
    exists ptrs g1 g2,
      run_ops g0 ops = Ok (ptrs, g1) /\
      compute_residual_maxflow (S (Z.to_nat (source_capacity (arc_of <$> ops)))) g1 = Ok g2 /\
      (forall g', loop_state g1 g' -> exists path c vs, find_path g' 0 = Ok (path, c, vs)).
Proof.
  intros n ops g0 H0 Hok.
  destruct (maxflow_api n ops g0 H0 Hok) as (ptrs & g1 & g2 & g3 & fl & val & H1 & H2 & _).
  exists ptrs, g1, g2. split_and!; auto.
  intros g' L. destruct (loop_state_inv n ops g0 ptrs g1 g' H0 Hok H1 L) as (W & _ & _).
  destruct (find_path_ok g' 0 W) as (path & c & vs & E & _). eauto.
Qed.
Print Assumptions C03_terminates.

(** ** C04 *)
Theorem C04_lifecycle :
  (** an empty graph cannot be created *)
  (exists e, new_graph 0 = Throw e) /\
  forall n g cs c,
    new_graph n = Ok g -> calls_ok n (PBuild, 0%nat) (cs ++ [c]) ->
    (** the outcomes of any history are those of the specification automaton *)
    (do_calls g cs).2 = (spec_calls n (PBuild, 0%nat) cs).2 /\
    (do_call (do_calls g cs).1 c).2 = (spec_call n (spec_calls n (PBuild, 0%nat) cs).1 c).2 /\
    (** and a refused call leaves the graph unchanged *)
    ((do_call (do_calls g cs).1 c).2 = Refused ->
     (do_call (do_calls g cs).1 c).1 = (do_calls g cs).1).
Proof. split; [eexists; reflexivity|]. exact lifecycle. Qed.
Print Assumptions C04_lifecycle.

Example C04_ex :
  let cs := (CAdd <$> ex_ops) ++
    [CGetFlow; CAdd (AddEdge None 1 0 9); CTransform; CMaxflow; CMaxflow; CAdd (AddToSink None 1 0);
     CTransform; CGetFlow; CEdgeFlow (EP false 2); CVertexIn (VInner 3)] in
  calls_ok 4 (PBuild, 0%nat) cs /\
  drop 10 (do_calls ex_g0 cs).2 =
    [Refused; Refused; Refused; Returned; Refused; Refused; Returned; Returned; Returned; Returned].
Proof. split; [simpl; repeat split; lia|vm_compute; reflexivity]. Qed.

(** ** C05 *)
Theorem C05_parallel_maxflow :
  forall n ops g0,
    new_graph n = Ok g0 -> Forall (op_ok n) ops ->
    exists ptrs g1 s0,
      run_ops g0 ops = Ok (ptrs, g1) /\ par_start g1 = Ok s0 /\
      (** in every interleaving of the jobs ... *)
      forall k s, nsteps par_step k s0 s ->
        (** ... there are finitely many steps, and some job can move until all are done *)
        (k <= iterations ops + length (par_done s0))%nat /\
        (~ par_finished s -> exists s', par_step s s') /\
        (** and the result is a feasible flow of the same value as the sequential one *)
        (par_finished s ->
           exists g3 fl val g2' g3',
             transform_residual_to_flow (par_result s) = Ok g3 /\
             get_flow g3 = Ok val /\
             Forall2 (fun p x => get_edge_flow g3 p = Ok x) ptrs fl /\
             feasible (arc_of <$> ops) fl /\ value (arc_of <$> ops) fl = val /\
             compute_residual_maxflow (iterations ops) g1 = Ok g2' /\
             transform_residual_to_flow g2' = Ok g3' /\
             get_flow g3' = Ok val).
Proof.
  intros n ops g0 H0 Hok.
  destruct (parallel_api n ops g0 H0 Hok) as (ptrs & g1 & s0 & H1 & H2 & H3).
  destruct (maxflow_api n ops g0 H0 Hok) as (ptrs' & g1' & g2' & g3' & fl' & val' & E1 & E2 & E3 & E4 & E5 & _).
  exists ptrs, g1, s0. split; [done|]. split; [done|]. intros k s Hs.
  destruct (H3 k s Hs) as (A & B & C). split; [done|]. split; [done|]. intros Hf.
  destruct (C Hf) as (g3 & fl & val & D1 & D2 & D3).
  rewrite H1 in E1. simplify_eq.
  exists g3, fl, val, g2', g3'. split_and!; auto; try apply D2; try apply D3.
  - symmetry. apply D2.
  - rewrite (af_flow _ _ _ _ _ _ E4). rewrite (af_value _ _ _ _ _ _ E4), (af_value _ _ _ _ _ _ D2).
    f_equal. by apply max_flow_unique_value.
Qed.
Print Assumptions C05_parallel_maxflow.

(** The example has two components, one of them being the isolated vertices. *)
Example C05_ex : exists s0, par_start ex_g1 = Ok s0 /\ length (par_done s0) = 2%nat /\
  exists s1, par_step s0 s1.
Proof.
  eexists. split; [vm_compute; reflexivity|]. split; [reflexivity|].
  eexists. eapply (par_step_aug _ _ 1); [reflexivity|]. vm_compute. reflexivity.
Qed.

(** ** C55: labelling the components first breaks the flow computation *)
Definition c55_ops : list gop :=
  [AddFromSource None 1 0; AddEdge (Some 0%nat) 1 0 1; AddToSink None 1 1].

Theorem C55_components_first_refuted :
  exists n ops g0 ptrs g1 gc,
    new_graph n = Ok g0 /\ Forall (op_ok n) ops /\ run_ops g0 ops = Ok (ptrs, g1) /\
    compute_connected_components g1 = Ok gc /\
    (** sequentially *)
    (exists g2 g3, compute_residual_maxflow (iterations ops) gc = Ok g2 /\
       transform_residual_to_flow g2 = Ok g3 /\ get_flow g3 = Ok 0) /\
    (** or in parallel *)
    (exists s0 s g3, par_start gc = Ok s0 /\ nsteps par_step 1 s0 s /\ par_finished s /\
       transform_residual_to_flow (par_result s) = Ok g3 /\ get_flow g3 = Ok 0) /\
    (** although a flow of value 1 exists *)
    (exists fl, feasible (arc_of <$> ops) fl /\ value (arc_of <$> ops) fl = 1).
Proof.
  eexists 2%nat, c55_ops, _, _, _, _.
  split; [reflexivity|]. split; [repeat constructor; simpl; lia|].
  split; [vm_compute; reflexivity|]. split; [vm_compute; reflexivity|].
  split; [eexists _, _; split; [vm_compute; reflexivity|]; split; vm_compute; reflexivity|].
  split.
  { eexists _, _, _. split; [vm_compute; reflexivity|]. split.
    { eapply nsteps_once. eapply (par_step_end _ _ 0); [reflexivity|vm_compute; reflexivity]. }
    split; [repeat constructor|]. split; vm_compute; reflexivity. }
  exists [1; 1; 1]. split; [|reflexivity]. split.
  - repeat constructor; simpl; lia.
  - intros i. destruct i as [|[|i]]; reflexivity.
Qed.
Print Assumptions C55_components_first_refuted.
