(** Final theorems about the memory accesses of the parallel max-flow jobs (C72). *)
From stdpp Require Import prelude.
From Coq Require Import ZArith Lia.
From Verif Require Import Base GraphModel GraphSpec GraphProofs GraphSearch GraphFlow
  GraphComponents GraphParallel GraphTheorems RaceModel RaceSpec RaceProofs RaceInter.
Local Open Scope Z_scope.

Lemma jobs_setup n ops g0 fuel :
  new_graph n = Ok g0 -> Forall (op_ok n) ops -> Forall cap_fits ops ->
  (iterations ops <= fuel)%nat ->
  exists g1 st G fin,
    run_ops g0 ops = Ok (EP false <$> seq 0 (length ops), g1) /\
    jobs_start fuel g1 = Ok (Pool ((fun c => job_p fuel st c 0) <$> seq 0 (S (g_ncomp st))) st) /\
    wf st /\ conserved st /\ comp_ok st /\ g_size st = n /\
    arcs_of (g_edges st) = arc_of <$> ops /\ net (g_edges st) VSource = 0 /\
    Forall (fun e => e_cap e <= size_max) (g_edges st) /\
    (Z.to_nat (remaining st) < fuel)%nat /\
    good st fin ((fun c => job_p fuel st c 0) <$> seq 0 (S (g_ncomp st))) st G.
Proof.
  intros H0 Hok Hfit Hfuel.
  destruct (build_ok n ops g0 H0 Hok) as (g & E & W & C & B & S & A & Z & Hnet).
  destruct (components_ok g W Z) as (st & E' & W' & K' & He' & Hst' & Hsz').
  set (fin := fun c => match run (job_p fuel st c 0) st with Some x => x | None => (0, st) end).
  assert (HC : Forall (fun e => e_cap e <= size_max) (g_edges st)).
  { rewrite He'. apply Forall_lookup_2. intros i e Hi.
    assert (Ha : (arc_of <$> ops) !! i = Some (Arc (e_start e) (e_end e) (e_cap e))).
    { rewrite <- A. unfold arcs_of. by rewrite list_lookup_fmap, Hi. }
    rewrite list_lookup_fmap in Ha. destruct (ops !! i) as [o|] eqn:Ho; [|done]. simpl in Ha.
    pose proof (Forall_lookup_1 _ _ _ _ Hfit Ho) as Hc. unfold cap_fits in Hc.
    injection Ha as Ha. rewrite Ha in Hc. unfold size_max. simpl in Hc. lia. }
  assert (C' : conserved st) by (intros i; rewrite He'; apply C).
  assert (Hr : (Z.to_nat (remaining st) < fuel)%nat).
  { assert (Hrem : remaining st = source_capacity (arc_of <$> ops)).
    { unfold remaining. rewrite He', Hnet, src_cap_spec, A. lia. }
    unfold iterations in Hfuel. rewrite Hrem. lia. }
  exists g, st, (fun _ => st), fin. split; [done|]. split.
  { unfold jobs_start. rewrite B, E'. done. }
  split; [done|]. split; [done|]. split; [done|]. split; [congruence|].
  split; [by rewrite He'|]. split; [by rewrite He'|]. split; [done|]. split; [done|].
  split.
  - apply sframe_refl.
  - intros c P HP. rewrite list_lookup_fmap in HP.
    destruct (seq 0 (Datatypes.S (g_ncomp st)) !! c) as [c'|] eqn:Hc; [|done].
    apply lookup_seq in Hc as [Hc _]. simpl in Hc. subst c'. simpl in HP. injection HP as <-.
    pose proof (job_wp st c fuel st 0 (sframe_refl st) W' C' HC Hr) as Hw.
    eapply wp_mono; [|eapply wp_self; exact Hw].
    intros a g' Hrun. unfold fin. by rewrite Hrun.
  - intros c P _. split; done.
Qed.

Lemma net_source_le g : wf g -> net (g_edges g) VSource <= 0.
Proof.
  intros W. unfold net. pose proof (wf_edges _ W) as H.
  induction H as [|e es (H1 & H2 & H3 & H4 & H5 & H6) H IH]; csimpl; [lia|].
  unfold netc at 1. assert (ends VSource e = false) as ->.
  { unfold ends. apply bool_decide_eq_false. destruct H5 as [->|(i & -> & _)]; done. }
  destruct (starts VSource e); lia.
Qed.

(** ** C72: interleavings of single accesses *)
Theorem C72_single_accesses :
  forall n ops g0,
    new_graph n = Ok g0 -> Forall (op_ok n) ops -> Forall cap_fits ops ->
    exists ptrs g1, run_ops g0 ops = Ok (ptrs, g1) /\
    forall fuel, (iterations ops <= fuel)%nat ->
    exists s0 N caps fl es,
      jobs_start fuel g1 = Ok s0 /\
      (** the capacities added by the jobs sum up to the value of a maximum flow *)
      max_flow (arc_of <$> ops) fl /\ value (arc_of <$> ops) fl = zsum caps /\
      (** in every interleaving of the memory accesses, races included, ... *)
      forall k s, nsteps jstep k s0 s ->
        (** ... there are finitely many accesses, none of them out of range, and some job
            can move until all are done; *)
        (k <= N)%nat /\ (jobs_done s caps \/ exists s', jstep s s') /\
        (** ... and the result does not depend on the interleaving *)
        forall caps', jobs_done s caps' ->
          caps' = caps /\ g_edges (mem s) = es /\
          exists g3, transform_residual_to_flow (jobs_result s) = Ok g3 /\
            get_flow g3 = Ok (zsum caps) /\
            Forall2 (fun p x => get_edge_flow g3 p = Ok x) ptrs fl.
Proof.
  intros n ops g0 H0 Hok Hfit.
  destruct (jobs_setup n ops g0 (iterations ops) H0 Hok Hfit) as (g1 & _ & _ & _ & E & _); [done|].
  exists (EP false <$> seq 0 (length ops)), g1. split; [done|]. intros fuel Hfuel.
  destruct (jobs_setup n ops g0 fuel H0 Hok Hfit Hfuel) as
    (g1' & st & G & fin & E1 & Es & W & C & K & Hsz & A & Hnet & HC & Hr & Gd).
  rewrite E in E1. injection E1 as <-.
  destruct (sequential st fuel (S (g_ncomp st)) W C K HC Hr) as
    (k & caps & g & Hs & Hl & Wg & Cg & Fg & Bg & Sg); [|done|].
  { intros g F Wg. unfold remaining. rewrite (src_cap_same _ _ (sf_edges _ _ F)), Hnet.
    pose proof (net_source_le g Wg). lia. }
  rewrite Nat.sub_diag in Hs. simpl (_ <$> seq _ 0) in Hs. rewrite app_nil_r in Hs.
  set (js0 := (fun c => job_p fuel st c 0) <$> seq 0 (S (g_ncomp st))) in *.
  assert (Hmax : max_flow (arc_of <$> ops) (rec_flows (g_edges g))).
  { assert (I : par_inv st (Par g (replicate (S (g_ncomp st)) true))).
    { split; simpl; auto.
      - eapply comp_ok_frame; [by apply sframe_frame|done].
      - by apply sframe_frame.
      - rewrite replicate_length, (sf_ncomp _ _ Fg). done.
      - intros c Hc. change (true :: replicate (g_ncomp st) true) with
          (replicate (S (g_ncomp st)) true) in Hc. apply lookup_replicate in Hc as [_ Hc]. auto. }
    pose proof (par_finished_max _ _ I) as H. cbn [par_g] in H.
    rewrite <- (same_ends_arcs _ _ (sf_edges _ _ Fg)), A in H. apply H.
    unfold par_finished. cbn [par_done]. apply Forall_replicate. done. }
  assert (Hval : value (arc_of <$> ops) (rec_flows (g_edges g)) = zsum caps).
  { rewrite Sg, Hnet, net_flows. rewrite <- (same_ends_arcs _ _ (sf_edges _ _ Fg)), A.
    rewrite (inflow_source_0 n); [unfold value; lia|].
    rewrite <- A, <- Hsz. by apply arcs_ok_of. }
  exists (Pool js0 st), (total js0 G), caps, (rec_flows (g_edges g)), (g_edges g).
  split; [done|]. split; [done|]. split; [done|].
  destruct (jsteps_good st K fin _ (Pool js0 st) _ G Gd Hs) as (Lf & Gf & Gdf & _). cbn [jobs mem] in *.
  intros k' s Hk. destruct (jsteps_good st K fin _ (Pool js0 st) _ G Gd Hk) as (L & G' & Gd' & Ht).
  cbn [jobs mem] in *. split; [lia|].
  assert (Hall : forall caps', jobs_done s caps' -> caps' = caps /\ g_edges (mem s) = g_edges g).
  { intros caps' Hd. unfold jobs_done in Hd.
    apply (good_final_edges st K fin (PRet <$> caps) g Gf caps (jobs s) (mem s) G' caps'); auto.
    rewrite Hd, fmap_length in L. rewrite L. subst js0. by rewrite fmap_length, seq_length. }
  split.
  - destruct (good_progress _ _ _ _ _ Gd') as [(caps' & Hd)|Hst]; [left|right].
    + destruct (Hall caps' Hd) as [<- _]. done.
    + destruct s. done.
  - intros caps' Hd. destruct (Hall caps' Hd) as [-> He]. split; [done|]. split; [done|].
    assert (Fs : sframe st (mem s)) by apply Gd'.
    assert (Ws : wf (jobs_result s)).
    { destruct Wg as [w1 w2 w3 w4 w5 w6]. split; simpl.
      - rewrite (same_adj_len _ _ (sf_verts _ _ Fs)), (sf_size _ _ Fs). apply W.
      - rewrite (sf_source _ _ Fs), He, <- (sf_source _ _ Fg). done.
      - rewrite (sf_sink _ _ Fs), He, <- (sf_sink _ _ Fg). done.
      - intros i x Hx. destruct (sframe_vert _ _ _ _ Fs Hx) as (x0 & Hx0 & _ & Hi & Ho).
        destruct (Forall2_lookup_l _ _ _ _ _ (sf_verts _ _ Fg) Hx0) as (y & Hy & K1 & K2 & _).
        destruct (w4 _ _ Hy) as [W1 W2]. rewrite He. split; congruence.
      - rewrite He, (sf_size _ _ Fs), <- (sf_size _ _ Fg). done.
      - rewrite (sf_source _ _ Fs), <- (sf_source _ _ Fg). done. }
    destruct (transform_api (jobs_result s) Ws eq_refl) as (g3 & E3 & AF).
    cbn [jobs_result with_state g_size g_edges] in AF. rewrite He in AF.
    rewrite <- (same_ends_arcs _ _ (sf_edges _ _ Fg)), A, (sf_size _ _ Fs), Hsz, Hval in AF.
    exists g3. split; [done|]. split; [apply AF|].
    assert (length ops = length (g_edges g)) as ->; [|apply AF].
    rewrite <- (fmap_length arc_of ops), <- A, (same_ends_arcs _ _ (sf_edges _ _ Fg)).
    unfold arcs_of. by rewrite fmap_length.
Qed.
Print Assumptions C72_single_accesses.

(** ** C72: the only races are reads of the flow of an edge leaving the source, and the job
    that reads does not use the value *)
Theorem C72_races :
  forall n ops g0 ptrs g1 fuel s0 k s c c' x,
    new_graph n = Ok g0 -> Forall (op_ok n) ops -> Forall cap_fits ops ->
    run_ops g0 ops = Ok (ptrs, g1) -> (iterations ops <= fuel)%nat ->
    jobs_start fuel g1 = Ok s0 -> nsteps jstep k s0 s -> race s c c' x ->
    exists i o P, x = CFlow i false /\ ops !! i = Some o /\ a_from (arc_of o) = VSource /\
      jobs s !! c = Some P /\ next_read P = Some x /\ ignores_read P.
Proof.
  intros n ops g0 ptrs g1 fuel s0 k s c c' x H0 Hok Hfit E Hfuel Es Hk Hrace.
  destruct (jobs_setup n ops g0 fuel H0 Hok Hfit Hfuel) as
    (g1' & st & G & fin & E1 & Es' & W & C & K & Hsz & A & Hnet & HC & Hr & Gd).
  rewrite E in E1. injection E1 as -> ->. rewrite Es in Es'. injection Es' as ->.
  destruct (jsteps_good st K fin _ (Pool _ st) _ G Gd Hk) as (L & G' & Gd' & Ht).
  destruct s as [js g]. destruct (good_race st K fin js g G' c c' x Gd' Hrace) as
    (i & P & Hx & (e & He & Hse) & HP & Hn & Hi).
  assert (Ha : (arc_of <$> ops) !! i = Some (Arc (e_start e) (e_end e) (e_cap e))).
  { rewrite <- A. unfold arcs_of. by rewrite list_lookup_fmap, He. }
  rewrite list_lookup_fmap in Ha. destruct (ops !! i) as [o|] eqn:Ho; [|done]. simpl in Ha.
  injection Ha as Ha. exists i, o, P. rewrite Ha. simpl. split_and!; auto.
Qed.
Print Assumptions C72_races.

(** *** Executing a schedule *)
Definition step_of (c : nat) (s : pool) : option pool :=
  match jobs s !! c with
  | Some (PRdFlow i r k) =>
      match g_edges (mem s) !! i with
      | Some e => Some (Pool (<[c := k (edge_flow e r)]> (jobs s)) (mem s))
      | None => None
      end
  | Some (PWrFlow i r z k) =>
      match g_edges (mem s) !! i with
      | Some e => Some (Pool (<[c := k]> (jobs s)) (wr_flow (mem s) i r z))
      | None => None
      end
  | Some (PRdPar j k) =>
      match g_verts (mem s) !! j with
      | Some x => Some (Pool (<[c := k (v_parent x)]> (jobs s)) (mem s))
      | None => None
      end
  | Some (PWrPar j p k) =>
      match g_verts (mem s) !! j with
      | Some x => Some (Pool (<[c := k]> (jobs s)) (wr_par (mem s) j p))
      | None => None
      end
  | _ => None
  end.

Lemma step_of_jstep c s s' : step_of c s = Some s' -> jstep s s'.
Proof.
  destruct s as [js g]. unfold step_of. cbn [jobs mem].
  destruct (js !! c) as [[a| | |i r k|i r z k|j k|j p k]|] eqn:Hc; try done.
  - destruct (g_edges g !! i) eqn:He; [|done]. intros [= <-]. by eapply j_rdflow.
  - destruct (g_edges g !! i) eqn:He; [|done]. intros [= <-]. by eapply j_wrflow.
  - destruct (g_verts g !! j) eqn:He; [|done]. intros [= <-]. by eapply j_rdpar.
  - destruct (g_verts g !! j) eqn:He; [|done]. intros [= <-]. by eapply j_wrpar.
Qed.

(** A finished job skips its turn. *)
Fixpoint sched (l : list nat) (s : pool) : pool :=
  match l with
  | [] => s
  | c :: l' => match step_of c s with Some s' => sched l' s' | None => sched l' s end
  end.

Lemma sched_nsteps l : forall s, exists k, nsteps jstep k s (sched l s).
Proof.
  induction l as [|c l IH]; intros s; simpl; [exists 0%nat; constructor|].
  destruct (step_of c s) as [s'|] eqn:E; [|apply IH].
  destruct (IH s') as [k Hk]. exists (S k). econstructor; [by eapply step_of_jstep|done].
Qed.

Definition race_b (s : pool) (c c' : nat) (i : nat) (r : bool) : bool :=
  match jobs s !! c, jobs s !! c' with
  | Some (PRdFlow i1 r1 _), Some (PWrFlow i2 r2 _ _) =>
      bool_decide (c <> c' /\ i1 = i /\ i2 = i /\ r1 = r /\ r2 = r)
  | _, _ => false
  end.

Lemma race_b_race s c c' i r : race_b s c c' i r = true -> race s c c' (CFlow i r).
Proof.
  unfold race_b, race.
  destruct (jobs s !! c) as [[]|]; try done. destruct (jobs s !! c') as [[]|]; try done.
  intros H. apply bool_decide_eq_true in H as (Hne & -> & -> & -> & ->).
  eexists _, _. split_and!; eauto.
Qed.

Definition done_caps (s : pool) : option (list Z) :=
  mapM (fun P => match P with PRet z => Some z | _ => None end) (jobs s).

Lemma done_caps_done s caps : done_caps s = Some caps -> jobs_done s caps.
Proof.
  unfold done_caps, jobs_done. generalize (jobs s). intros l H. revert caps H.
  induction l as [|P l IH]; intros caps H; [by injection H as <-|]. simpl in H.
  destruct P; simpl in H; try done.
  destruct (mapM _ l) as [caps'|] eqn:E; simpl in H; [|done]. injection H as <-.
  csimpl. f_equal. by apply IH.
Qed.

(** Two components of two vertices and an isolated vertex. *)
Definition race_ops : list gop :=
  [ AddFromSource None 2 0; AddFromSource None 3 2; AddFromSource None 5 4;
    AddEdge (Some 0%nat) 1 0 1; AddEdge (Some 1%nat) 2 0 1; AddEdge (Some 2%nat) 2 2 3;
    AddEdge (Some 3%nat) 1 3 2; AddToSink None 4 1; AddToSink None 4 3; AddToSink None 1 4 ].
Definition race_g0 : graph := Graph Building 5 empty_vertex empty_vertex (replicate 5 empty_vertex) [] 0.
Definition race_g1 : graph :=
  match run_ops race_g0 race_ops with Ok r => r.2 | _ => race_g0 end.
Definition race_st : graph :=
  match compute_connected_components race_g1 with Ok g => g | _ => race_g1 end.
Definition race_s0 : pool :=
  Pool ((fun c => job_p (iterations race_ops) race_st c 0) <$> seq 0 (S (g_ncomp race_st))) race_st.

Lemma race_start : jobs_start (iterations race_ops) race_g1 = Ok race_s0.
Proof.
  assert (E : compute_connected_components race_g1 = Ok race_st) by (vm_compute; reflexivity).
  assert (B : g_state race_g1 = Building) by (vm_compute; reflexivity).
  unfold jobs_start. rewrite B, E. reflexivity.
Qed.

(** ** C72, refuted: the parallel computation has data races *)
Theorem C72_no_race_refuted :
  exists n ops g0 ptrs g1 s0 k s c c' x,
    new_graph n = Ok g0 /\ Forall (op_ok n) ops /\ Forall cap_fits ops /\
    run_ops g0 ops = Ok (ptrs, g1) /\ jobs_start (iterations ops) g1 = Ok s0 /\
    nsteps jstep k s0 s /\ race s c c' x.
Proof.
  destruct (sched_nsteps (replicate 31 1%nat) race_s0) as [k Hk].
  eexists 5%nat, race_ops, race_g0, _, race_g1, race_s0, k, _, 2%nat, 1%nat, (CFlow 0 false).
  split; [reflexivity|]. split; [repeat constructor; simpl; lia|].
  split; [repeat constructor; unfold cap_fits; simpl; lia|].
  split; [vm_compute; reflexivity|]. split; [exact race_start|].
  split; [exact Hk|]. apply race_b_race. vm_compute. reflexivity.
Qed.
Print Assumptions C72_no_race_refuted.

(** A schedule in which the three jobs alternate and finish. *)
Example C72_ex :
  Forall (op_ok 5) race_ops /\ Forall cap_fits race_ops /\
  exists k s, nsteps jstep k race_s0 s /\ jobs_done s [1; 2; 2].
Proof.
  split; [repeat constructor; simpl; lia|].
  split; [repeat constructor; unfold cap_fits; simpl; lia|].
  destruct (sched_nsteps (mjoin (replicate 200 [0; 1; 2]%nat)) race_s0) as [k Hk].
  eexists k, _. split; [exact Hk|]. apply done_caps_done. vm_compute. reflexivity.
Qed.
