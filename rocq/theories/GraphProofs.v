(** Proofs about the graph model: the search, the augmentation loop and the
    optimality of the computed flow. *)
From stdpp Require Import prelude.
From Coq Require Import ZArith Lia.
From Verif Require Import Base GraphModel GraphSpec.
Local Open Scope Z_scope.

(** * Sums *)
Lemma zsum_app l k : zsum (l ++ k) = zsum l + zsum k.
Proof. induction l; csimpl; lia. Qed.

Lemma zsum_map_ext {A} (f g : A -> Z) l :
  (forall x, x ∈ l -> f x = g x) -> zsum (f <$> l) = zsum (g <$> l).
Proof.
  induction l as [|x l IH]; intros H; csimpl; [done|].
  rewrite H by (left; done). rewrite IH; [done|]. intros; apply H; right; done.
Qed.

Lemma zsum_map_add {A} (f g : A -> Z) l :
  zsum ((fun x => f x + g x) <$> l) = zsum (f <$> l) + zsum (g <$> l).
Proof. induction l; csimpl; lia. Qed.

Lemma zsum_map_le {A} (f g : A -> Z) l :
  (forall x, x ∈ l -> f x <= g x) -> zsum (f <$> l) <= zsum (g <$> l).
Proof.
  induction l as [|x l IH]; intros H; csimpl; [lia|].
  assert (f x <= g x) by (apply H; left; done).
  assert (zsum (f <$> l) <= zsum (g <$> l)) by (apply IH; intros; apply H; right; done).
  lia.
Qed.

Lemma zsum_map_0 {A} (l : list A) : zsum ((fun _ => 0) <$> l) = 0.
Proof. induction l; csimpl; lia. Qed.

(** * Lists of edge pointers selected by a predicate *)
Fixpoint idxs (P : edge -> bool) (k : nat) (es : list edge) : list eptr :=
  match es with
  | [] => []
  | e :: es' => if P e then EP false k :: idxs P (S k) es' else idxs P (S k) es'
  end.

Lemma idxs_snoc P k es e :
  idxs P k (es ++ [e]) =
  idxs P k es ++ (if P e then [EP false (k + length es)] else []).
Proof.
  revert k; induction es as [|x es IH]; intros k; simpl.
  - replace (k + 0)%nat with k by lia. by destruct (P e).
  - rewrite IH. replace (S k + length es)%nat with (k + S (length es))%nat by lia.
    by destruct (P x).
Qed.

Lemma elem_of_idxs P k es p :
  p ∈ idxs P k es <->
  exists i e, es !! i = Some e /\ P e = true /\ p = EP false (k + i).
Proof.
  revert k; induction es as [|x es IH]; intros k; simpl.
  - split; [intros H; inversion H | intros (i & e & H & _); destruct i; discriminate].
  - destruct (P x) eqn:Hx; rewrite ?elem_of_cons, IH; split.
    + intros [->|(i & e & He & HP & ->)].
      * exists 0%nat, x. repeat split; auto; f_equal; lia.
      * exists (S i), e. repeat split; auto; f_equal; lia.
    + intros ([|i] & e & He & HP & ->).
      * left. f_equal; lia.
      * right. exists i, e. repeat split; auto; f_equal; lia.
    + intros (i & e & He & HP & ->).
      exists (S i), e. repeat split; auto; f_equal; lia.
    + intros ([|i] & e & He & HP & ->); simpl in *.
      * simplify_eq. congruence.
      * exists i, e. repeat split; auto; f_equal; lia.
Qed.

Lemma idxs_ext P Q k es es' :
  Forall2 (fun e e' => P e = Q e') es es' -> idxs P k es = idxs Q k es'.
Proof.
  intros H. revert k. induction H as [|e e' es es' He H IH]; intros k; simpl; [done|].
  rewrite He, IH. done.
Qed.

Lemma sum_ptrs_idxs_gen f P pre es :
  sum_ptrs f (pre ++ es) (idxs P (length pre) es) =
  Ok (zsum ((fun e => if P e then f e else 0) <$> es)).
Proof.
  revert pre; induction es as [|x es IH]; intros pre; simpl; [done|].
  assert (E : sum_ptrs f (pre ++ x :: es) (idxs P (S (length pre)) es) =
              Ok (zsum ((fun e => if P e then f e else 0) <$> es))).
  { specialize (IH (pre ++ [x])). rewrite <- app_assoc in IH. simpl in IH.
    rewrite app_length in IH. simpl in IH.
    replace (length pre + 1)%nat with (S (length pre)) in IH by lia. done. }
  destruct (P x) eqn:Hx; simpl.
  - unfold vat. rewrite list_lookup_middle by done. simpl. rewrite E. done.
  - rewrite E. done.
Qed.

Lemma sum_ptrs_idxs f P es :
  sum_ptrs f es (idxs P 0 es) =
  Ok (zsum ((fun e => if P e then f e else 0) <$> es)).
Proof. apply (sum_ptrs_idxs_gen f P []). Qed.

(** * Well-formed graphs *)
Definition starts (v : vptr) (e : edge) : bool := bool_decide (e_start e = v).
Definition ends (v : vptr) (e : edge) : bool := bool_decide (e_end e = v).

Definition edge_ok (n : nat) (e : edge) : Prop :=
  0 <= e_flow e /\ 0 <= e_recf e /\ e_flow e + e_recf e = e_cap e /\
  (e_start e = VSource \/ exists i, e_start e = VInner i /\ (i < n)%nat) /\
  (e_end e = VSink \/ exists i, e_end e = VInner i /\ (i < n)%nat) /\
  ~ (e_start e = VSource /\ e_end e = VSink).

Definition adj_ok (es : list edge) (v : vptr) (x : vertex) : Prop :=
  v_in x = idxs (ends v) 0 es /\ v_out x = idxs (starts v) 0 es.

Record wf (g : graph) : Prop := Wf {
  wf_len : length (g_verts g) = g_size g;
  wf_source : adj_ok (g_edges g) VSource (g_source g);
  wf_sink : adj_ok (g_edges g) VSink (g_sink g);
  wf_verts : forall i x, g_verts g !! i = Some x -> adj_ok (g_edges g) (VInner i) x;
  wf_edges : Forall (edge_ok (g_size g)) (g_edges g);
  wf_srcpar : v_parent (g_source g) = None
}.

(** Net amount carried into a vertex by the reciprocal flows. *)
Definition netc (v : vptr) (e : edge) : Z :=
  (if ends v e then e_recf e else 0) - (if starts v e then e_recf e else 0).
Definition net (es : list edge) (v : vptr) : Z := zsum (netc v <$> es).

Definition conserved (g : graph) : Prop := forall i : nat, net (g_edges g) (VInner i) = 0.

Definition arcs_of (es : list edge) : list arc :=
  (fun e => Arc (e_start e) (e_end e) (e_cap e)) <$> es.

(** ** Construction *)
Lemma adj_ok_snoc es e v x x' :
  adj_ok es v x ->
  v_in x' = v_in x ++ (if ends v e then [EP false (length es)] else []) ->
  v_out x' = v_out x ++ (if starts v e then [EP false (length es)] else []) ->
  adj_ok (es ++ [e]) v x'.
Proof.
  intros [Hi Ho] Hi' Ho'. split; rewrite idxs_snoc; simpl.
  - rewrite Hi', Hi. done.
  - rewrite Ho', Ho. done.
Qed.

Lemma new_graph_wf n g :
  new_graph n = Ok g ->
  wf g /\ g_state g = Building /\ g_size g = n /\ g_edges g = [] /\
  (0 < n)%nat /\ g_ncomp g = 0%nat /\ Forall (fun v => v_comp v = 0%nat) (g_verts g).
Proof.
  unfold new_graph. destruct n; [done|]. intros [= <-]. split; [|split; [done|split; [done|split;[done|]]]].
  - split; simpl; try done.
    + by rewrite replicate_length.
    + intros i x Hx. change (empty_vertex :: replicate n empty_vertex) with
        (replicate (S n) empty_vertex) in Hx.
      apply lookup_replicate in Hx as [-> _]. done.
  - split; [lia|]. split; [done|]. cbn [g_verts]. constructor; [done|]. by apply Forall_replicate.
Qed.

Lemma bool_decide_inner_ne i j :
  i <> j -> bool_decide (VInner i = VInner j) = false.
Proof. intros. apply bool_decide_eq_false. congruence. Qed.

Definition graph_step (g g' : graph) (o : gop) : Prop :=
  wf g' /\ g_state g' = Building /\ g_size g' = g_size g /\
  arcs_of (g_edges g') = arcs_of (g_edges g) ++ [arc_of o] /\
  Forall (fun e => e_recf e = 0) (g_edges g') /\
  (v_comp <$> g_verts g') = (v_comp <$> g_verts g).

Lemma fmap_comp_alter (f : vertex -> vertex) (i : nat) (vs : list vertex) :
  (forall x, v_comp (f x) = v_comp x) ->
  v_comp <$> alter f i vs = v_comp <$> vs.
Proof.
  intros H. revert i; induction vs as [|x vs IH]; intros [|i]; simpl; try done.
  - by rewrite H.
  - f_equal. apply IH.
Qed.

Lemma run_op_step g o :
  wf g -> g_state g = Building -> op_ok (g_size g) o ->
  Forall (fun e => e_recf e = 0) (g_edges g) ->
  exists g', run_op g o = Ok (EP false (length (g_edges g)), g') /\ graph_step g g' o.
Proof.
  intros W HB Hok Hz. destruct o as [vi c s e|vi c e|vi c s]; simpl in Hok;
    unfold run_op, add_edge, add_edge_from_source, add_edge_to_sink; rewrite HB.
  - destruct Hok as (Hc & Hs & He).
    rewrite !bool_decide_false by lia. simpl. eexists; split; [reflexivity|].
    unfold graph_step. simpl. split; [|split; [done|split; [done|split; [|split]]]].
    + split; simpl.
      * rewrite !alter_length. apply W.
      * eapply adj_ok_snoc; [apply W| |]; unfold ends, starts; simpl; by rewrite app_nil_r.
      * eapply adj_ok_snoc; [apply W| |]; unfold ends, starts; simpl; by rewrite app_nil_r.
      * intros i x Hx.
        destruct (decide (i = e)) as [->|Hie].
        -- rewrite list_lookup_alter in Hx.
           destruct (decide (e = s)) as [->|Hse].
           ++ rewrite list_lookup_alter in Hx.
              destruct (g_verts g !! s) as [y|] eqn:Hy; [|done]. simpl in Hx. simplify_eq.
              eapply adj_ok_snoc; [by eapply wf_verts|..]; unfold ends, starts; simpl;
              by rewrite bool_decide_true.
           ++ rewrite list_lookup_alter_ne in Hx by done.
              destruct (g_verts g !! e) as [y|] eqn:Hy; [|done]. simpl in Hx. simplify_eq.
              eapply adj_ok_snoc; [by eapply wf_verts|..]; unfold ends, starts; simpl.
              ** by rewrite bool_decide_true.
              ** rewrite bool_decide_inner_ne by done. by rewrite app_nil_r.
        -- rewrite list_lookup_alter_ne in Hx by done.
           destruct (decide (i = s)) as [->|His].
           ++ rewrite list_lookup_alter in Hx.
              destruct (g_verts g !! s) as [y|] eqn:Hy; [|done]. simpl in Hx. simplify_eq.
              eapply adj_ok_snoc; [by eapply wf_verts|..]; unfold ends, starts; simpl.
              ** rewrite bool_decide_inner_ne by done. by rewrite app_nil_r.
              ** by rewrite bool_decide_true.
           ++ rewrite list_lookup_alter_ne in Hx by done.
              eapply adj_ok_snoc; [by eapply wf_verts|..]; unfold ends, starts; simpl;
              (rewrite bool_decide_inner_ne by done; by rewrite app_nil_r).
      * apply Forall_app; split; [apply W|]. constructor; [|done].
        split; simpl; [lia|]. split; [lia|]. split; [lia|].
        split; [eauto|]. split; [eauto|]. intros [? ?]; done.
      * apply W.
    + unfold arcs_of. rewrite fmap_app. done.
    + apply Forall_app; split; [done|]. by constructor.
    + by rewrite !fmap_comp_alter.
  - destruct Hok as (Hc & He).
    rewrite !bool_decide_false by lia. simpl. eexists; split; [reflexivity|].
    unfold graph_step. simpl. split; [|split; [done|split; [done|split; [|split]]]].
    + split; simpl.
      * rewrite !alter_length. apply W.
      * eapply adj_ok_snoc; [apply W| |]; unfold ends, starts; simpl; by rewrite ?app_nil_r.
      * eapply adj_ok_snoc; [apply W| |]; unfold ends, starts; simpl; by rewrite ?app_nil_r.
      * intros i x Hx.
        destruct (decide (i = e)) as [->|Hie].
        -- rewrite list_lookup_alter in Hx.
           destruct (g_verts g !! e) as [y|] eqn:Hy; [|done]. simpl in Hx. simplify_eq.
           eapply adj_ok_snoc; [by eapply wf_verts|..]; unfold ends, starts; simpl.
           ++ by rewrite bool_decide_true.
           ++ by rewrite ?app_nil_r.
        -- rewrite list_lookup_alter_ne in Hx by done.
           eapply adj_ok_snoc; [by eapply wf_verts|..]; unfold ends, starts; simpl.
           ++ rewrite bool_decide_inner_ne by done; by rewrite app_nil_r.
           ++ by rewrite app_nil_r.
      * apply Forall_app; split; [apply W|]. constructor; [|done].
        split; simpl; [lia|]. split; [lia|]. split; [lia|].
        split; [eauto|]. split; [eauto|]. intros [? ?]; done.
      * apply W.
    + unfold arcs_of. rewrite fmap_app. done.
    + apply Forall_app; split; [done|]. by constructor.
    + by rewrite !fmap_comp_alter.
  - destruct Hok as (Hc & He).
    rewrite !bool_decide_false by lia. simpl. eexists; split; [reflexivity|].
    unfold graph_step. simpl. split; [|split; [done|split; [done|split; [|split]]]].
    + split; simpl.
      * rewrite !alter_length. apply W.
      * eapply adj_ok_snoc; [apply W| |]; unfold ends, starts; simpl; by rewrite ?app_nil_r.
      * eapply adj_ok_snoc; [apply W| |]; unfold ends, starts; simpl; by rewrite ?app_nil_r.
      * intros i x Hx.
        destruct (decide (i = s)) as [->|Hie].
        -- rewrite list_lookup_alter in Hx.
           destruct (g_verts g !! s) as [y|] eqn:Hy; [|done]. simpl in Hx. simplify_eq.
           eapply adj_ok_snoc; [by eapply wf_verts|..]; unfold ends, starts; simpl.
           ++ by rewrite ?app_nil_r.
           ++ by rewrite bool_decide_true.
        -- rewrite list_lookup_alter_ne in Hx by done.
           eapply adj_ok_snoc; [by eapply wf_verts|..]; unfold ends, starts; simpl.
           ++ by rewrite app_nil_r.
           ++ rewrite bool_decide_inner_ne by done; by rewrite app_nil_r.
      * apply Forall_app; split; [apply W|]. constructor; [|done].
        split; simpl; [lia|]. split; [lia|]. split; [lia|].
        split; [eauto|]. split; [eauto|]. intros [? ?]; done.
      * apply W.
    + unfold arcs_of. rewrite fmap_app. done.
    + apply Forall_app; split; [done|]. by constructor.
    + by rewrite !fmap_comp_alter.
Qed.

Lemma run_ops_ok os g :
  wf g -> g_state g = Building -> Forall (op_ok (g_size g)) os ->
  Forall (fun e => e_recf e = 0) (g_edges g) ->
  exists g', run_ops g os = Ok (EP false <$> seq (length (g_edges g)) (length os), g') /\
    wf g' /\ g_state g' = Building /\ g_size g' = g_size g /\
    arcs_of (g_edges g') = arcs_of (g_edges g) ++ (arc_of <$> os) /\
    Forall (fun e => e_recf e = 0) (g_edges g') /\
    (v_comp <$> g_verts g') = (v_comp <$> g_verts g).
Proof.
  revert g. induction os as [|o os IH]; intros g W HB Hok Hz; simpl.
  - exists g. csimpl. rewrite app_nil_r. split_and!; auto.
  - apply Forall_cons in Hok as [Ho Hos].
    destruct (run_op_step g o W HB Ho Hz) as (g1 & -> & W1 & HB1 & Hs1 & Ha1 & Hz1 & Hc1).
    simpl. destruct (IH g1 W1 HB1) as (g2 & E2 & W2 & HB2 & Hs2 & Ha2 & Hz2 & Hc2); auto.
    { by rewrite Hs1. }
    assert (Hl : length (g_edges g1) = S (length (g_edges g))).
    { pose proof (f_equal length Ha1) as H. unfold arcs_of in H.
      rewrite app_length, !fmap_length in H. simpl in H. lia. }
    exists g2. rewrite E2. simpl. rewrite Hl. split; [done|]. split; [done|]. split; [done|].
    split; [congruence|]. split; [|split; [done|congruence]].
    rewrite Ha2, Ha1, <- app_assoc. done.
Qed.
