(** Footprint and result of the programs of the parallel jobs, run alone. *)
From stdpp Require Import prelude.
From Coq Require Import ZArith Lia.
From Verif Require Import Base GraphModel GraphSpec GraphProofs GraphSearch GraphFlow
  GraphComponents GraphParallel RaceModel RaceSpec.
Local Open Scope Z_scope.

(** A graph with the same immutable part. *)
Record sframe (st g : graph) : Prop := Sframe {
  sf_state : g_state g = g_state st;
  sf_size : g_size g = g_size st;
  sf_ncomp : g_ncomp g = g_ncomp st;
  sf_source : g_source g = g_source st;
  sf_sink : g_sink g = g_sink st;
  sf_edges : Forall2 same_ends (g_edges st) (g_edges g);
  sf_verts : same_adj (g_verts st) (g_verts g)
}.

Lemma same_adj_refl vs : same_adj vs vs.
Proof. induction vs; constructor; auto. Qed.

Lemma same_adj_trans a b c : same_adj a b -> same_adj b c -> same_adj a c.
Proof.
  unfold same_adj. intros H. revert c.
  induction H as [|x y l k (H1 & H2 & H3) H IH]; intros c Hc; inversion Hc as [|? z ? k' (K1 & K2 & K3) Hk]; subst; constructor; auto.
  split_and!; congruence.
Qed.

Lemma sframe_refl g : sframe g g.
Proof. split; auto using same_ends_refl, same_adj_refl. Qed.

Lemma same_ends_set r z e : same_ends e (set_flow r z e).
Proof. by destruct r. Qed.

Lemma sframe_wr_flow st g i r z : sframe st g -> sframe st (wr_flow g i r z).
Proof.
  intros []. split; auto. simpl. eapply same_ends_trans; [done|].
  clear. revert i. induction (g_edges g) as [|e es IH]; intros [|i]; simpl; constructor; auto using same_ends_set.
  - apply same_ends_refl.
  - by split_and!.
  - apply IH.
Qed.

Lemma sframe_wr_par st g j p : sframe st g -> sframe st (wr_par g j p).
Proof. intros []. split; auto. simpl. by apply same_adj_set_parent. Qed.

Lemma sframe_with_verts st g vs : sframe st g -> same_adj (g_verts g) vs -> sframe st (with_verts g vs).
Proof. intros [] H. split; auto. simpl. by eapply same_adj_trans. Qed.

Lemma sframe_with_edges st g es : sframe st g -> Forall2 same_ends (g_edges g) es -> sframe st (with_edges g es).
Proof. intros [] H. split; auto. simpl. by eapply same_ends_trans. Qed.

Lemma sframe_edge st g i e :
  sframe st g -> g_edges st !! i = Some e ->
  exists e', g_edges g !! i = Some e' /\ same_ends e e'.
Proof. intros F He. destruct (Forall2_lookup_l _ _ _ _ _ (sf_edges _ _ F) He) as (e' & H & S). eauto. Qed.

Lemma sframe_edge_r st g i e' :
  sframe st g -> g_edges g !! i = Some e' ->
  exists e, g_edges st !! i = Some e /\ same_ends e e'.
Proof. intros F He. destruct (Forall2_lookup_r _ _ _ _ _ (sf_edges _ _ F) He) as (e & H & S). eauto. Qed.

Lemma sframe_vert st g j w :
  sframe st g -> g_verts g !! j = Some w ->
  exists w0, g_verts st !! j = Some w0 /\ v_comp w0 = v_comp w /\ v_in w0 = v_in w /\ v_out w0 = v_out w.
Proof.
  intros F He. destruct (Forall2_lookup_r _ _ _ _ _ (sf_verts _ _ F) He) as (e & H & S & S' & S''). eauto.
Qed.

Lemma sframe_comps st g : sframe st g -> v_comp <$> g_verts g = v_comp <$> g_verts st.
Proof. intros F. symmetry. apply same_adj_comp, F. Qed.

Lemma sframe_frame st g : sframe st g -> frame st g.
Proof. intros F. split_and!; try apply F. by apply sframe_comps. Qed.

Lemma same_ends_to e e' r : same_ends e e' -> edge_to e' r = edge_to e r.
Proof. intros (A & B & _). destruct r; simpl; congruence. Qed.
Lemma same_ends_from e e' r : same_ends e e' -> edge_from e' r = edge_from e r.
Proof. intros (A & B & _). destruct r; simpl; congruence. Qed.

Lemma with_verts_self g : with_verts g (g_verts g) = g.
Proof. by destruct g. Qed.

Lemma walk_len fuel src snk vs es : forall u acc fl pa fl',
  walk fuel src snk vs es u acc fl = Ok (pa, fl') -> (length acc <= length pa)%nat.
Proof.
  induction fuel as [|f IH]; intros u acc fl pa fl' E; [done|]. cbn [walk] in E.
  apply rbind_ok in E as (x & _ & E). destruct (v_parent x) as [p|]; [|by simplify_eq].
  apply rbind_ok in E as (e & _ & E). apply IH in E. simpl in E. lia.
Qed.

Section footprint.
  Context (st : graph) (c : nat).

  (** The cells of component [c]. *)
  Definition own_e (i : nat) : Prop :=
    exists e j, g_edges st !! i = Some e /\ (e_start e = VInner j \/ e_end e = VInner j) /\
      lab (g_verts st) j c.
  Definition own_v (j : nat) : Prop := lab (g_verts st) j c.

  Definition src_edge (i : nat) : Prop :=
    exists e, g_edges st !! i = Some e /\ e_start e = VSource.

  (** A program that runs alone from [g], only writes the cells of [c], ignores what it reads
      from other cells, and ends with [Q]. *)
  Fixpoint wp {A} (P : prog A) (g : graph) (Q : A -> graph -> Prop) : Prop :=
    match P with
    | PRet a => Q a g
    | PUB | PFuel => False
    | PRdFlow i r k =>
        exists e, g_edges g !! i = Some e /\
          (own_e i \/ (r = false /\ src_edge i /\ forall z z', k z = k z')) /\
          wp (k (edge_flow e r)) g Q
    | PWrFlow i r z k =>
        (exists e, g_edges g !! i = Some e) /\ own_e i /\ wp k (wr_flow g i r z) Q
    | PRdPar j k => exists x, g_verts g !! j = Some x /\ own_v j /\ wp (k (v_parent x)) g Q
    | PWrPar j p k =>
        (exists x, g_verts g !! j = Some x) /\ own_v j /\ wp k (wr_par g j p) Q
    end.

  Lemma wp_mono {A} (P : prog A) g (Q Q' : A -> graph -> Prop) :
    (forall a g', Q a g' -> Q' a g') -> wp P g Q -> wp P g Q'.
  Proof.
    intros H. revert g. induction P as [a| | |i r k IH|i r z k IH|j k IH|j p k IH]; intros g; simpl; auto.
    - intros (e & He & Ho & Hw). exists e. auto.
    - intros (He & Ho & Hw). auto.
    - intros (x & Hx & Ho & Hw). exists x. auto.
    - intros (He & Ho & Hw). auto.
  Qed.

  Lemma wp_bind {A B} (P : prog A) (K : A -> prog B) g Q :
    wp P g (fun a g' => wp (K a) g' Q) -> wp (pbind P K) g Q.
  Proof.
    revert g. induction P as [a| | |i r k IH|i r z k IH|j k IH|j p k IH]; intros g; simpl; auto.
    - intros (e & He & Ho & Hw). exists e. split; [done|]. split; [|auto].
      destruct Ho as [Ho|(? & ? & Ho)]; [by left|right]. split_and!; auto. intros z z'. by rewrite (Ho z z').
    - intros (He & Ho & Hw). auto.
    - intros (x & Hx & Ho & Hw). exists x. auto.
    - intros (He & Ho & Hw). auto.
  Qed.

  Definition loc_of (d : dfs) : loc := Loc (d_visited d) (d_queue d) (d_sinkp d) (d_found d).

  (** Edges that may be read while scanning. *)
  Definition readable (r : bool) (p : eptr) : Prop :=
    exists e, g_edges st !! ep_idx p = Some e /\
      (own_e (ep_idx p) \/
       (r = false /\ src_edge (ep_idx p) /\
        exists j, edge_to e r = VInner j /\ (j < length (g_verts st))%nat /\
          ~ lab (g_verts st) j c)).

  Lemma scan_wp r l : forall g d d',
    sframe st g -> d_vs d = g_verts g -> length (d_visited d) = length (g_verts st) ->
    Forall (readable r) l ->
    scan (g_edges g) c r l d = Ok d' ->
    wp (scan_p st c r l (loc_of d)) g (fun a g' => a = loc_of d' /\ g' = with_verts g (d_vs d')).
  Proof.
    induction l as [|p l IH]; intros g d d' F Hd Hv Hl E.
    { simpl in *. simplify_eq. rewrite Hd, with_verts_self. done. }
    inversion Hl as [|? ? Hp Hl']; subst. destruct Hp as (e0 & He0 & Hown).
    destruct (sframe_edge _ _ _ _ F He0) as (e & He & Hse).
    cbn [scan] in E. unfold vat at 1 in E. rewrite He in E. cbn [rbind] in E.
    cbn [scan_p]. rewrite He0. cbn [wp]. exists e. split; [done|].
    split.
    - destruct Hown as [Ho|(-> & Hsrc & j & Hj & Hjl & Hlab)]; [by left|right].
      split; [done|]. split; [done|].
      assert (forall z, (if bool_decide (0 < z) then
         match edge_to e0 false with
         | VSource => scan_p st c false l (loc_of d)
         | VSink => PRet (Loc (l_visited (loc_of d)) (l_queue (loc_of d)) (Some p) true)
         | VInner j =>
           match vat (l_visited (loc_of d)) j, vat (g_verts st) j with
           | Ok vis, Ok w =>
               if vis then scan_p st c false l (loc_of d)
               else if bool_decide (v_comp w = c)
               then PWrPar j p (scan_p st c false l
                       (Loc (<[j := true]> (l_visited (loc_of d))) (VInner j :: l_queue (loc_of d))
                            (l_sinkp (loc_of d)) (l_found (loc_of d))))
               else scan_p st c false l (loc_of d)
           | _, _ => PUB
           end
         end else scan_p st c false l (loc_of d)) = scan_p st c false l (loc_of d)) as Hk.
      { intros z. destruct (bool_decide (0 < z)); [|reflexivity]. rewrite Hj.
        assert (Hvl : is_Some (d_visited d !! j)) by (apply lookup_lt_is_Some; lia).
        destruct Hvl as [b Hb].
        apply lookup_lt_is_Some in Hjl as [w Hw].
        unfold vat. cbn [loc_of l_visited]. rewrite Hb, Hw. destruct b; [done|].
        rewrite bool_decide_eq_false_2; [done|]. intros Hc. apply Hlab. unfold lab. rewrite Hw. simpl. by f_equal. }
      intros z z'. rewrite (Hk z), (Hk z'). done.
    - rewrite <- (same_ends_to _ _ r Hse).
      case_bool_decide as Hpos; [|by apply IH].
      destruct (edge_to e r) as [| |j] eqn:Hto.
      + by apply IH.
      + simplify_eq. cbn [wp d_vs]. rewrite Hd, with_verts_self. done.
      + apply rbind_ok in E as (vis & Ev & E). apply rbind_ok in E as (w & Ew & E).
        apply vat_ok in Ev, Ew. rewrite Hd in Ew.
        destruct (sframe_vert _ _ _ _ F Ew) as (w0 & Hw0 & Hcw & _).
        unfold vat. cbn [loc_of l_visited l_queue l_sinkp l_found]. rewrite Ev, Hw0, Hcw.
        destruct vis; [by apply IH|].
        case_bool_decide as Hc; [|by apply IH].
        cbn [wp]. split; [by eexists|]. split.
        { unfold own_v, lab. rewrite Hw0. simpl. congruence. }
        eapply wp_mono; [|eapply (IH (wr_par g j (if r then reciprocal p else p))
                                   (dfs_push d j (if r then reciprocal p else p)) d')].
        * intros a g' [-> ->]. split; done.
        * by apply sframe_wr_par.
        * simpl. by rewrite Hd.
        * simpl. by rewrite insert_length.
        * done.
        * done.
  Qed.

  Lemma tree_in es comps vs D j :
    tree es c comps vs D -> j ∈ D ->
    exists x p u, vs !! j = Some x /\ v_parent x = Some p /\ parc es p u (VInner j) /\
      reached D u /\ comps !! j = Some c.
  Proof.
    induction 1 as [|k D p x u T IH Hk Hx Hp Ha Hr Hc]; intros Hj; [inversion Hj|].
    apply elem_of_cons in Hj as [->|Hj].
    - exists x, p, u. split_and!; auto. by apply (reached_app _ [k]).
    - destruct (IH Hj) as (x' & p' & u' & ? & ? & ? & ? & ?). exists x', p', u'.
      split_and!; auto. by apply (reached_app _ [k]).
  Qed.

  Lemma lab_st g j : sframe st g -> (v_comp <$> g_verts g) !! j = Some c <-> lab (g_verts st) j c.
  Proof. intros F. rewrite (sframe_comps _ _ F), lab_fmap. done. Qed.

  (** Entries of the adjacency lists of a reached vertex. *)
  Lemma readable_adj g v x D r :
    sframe st g -> wf g -> (forall j, j ∈ D -> lab (g_verts st) j c) -> reached D v ->
    adj_ok (g_edges g) v x ->
    Forall (readable r) (if r then v_in x else v_out x).
  Proof.
    intros F W HD Hr [Hin Hout]. apply Forall_forall. intros p Hp.
    assert (Hpe : exists i e, g_edges g !! i = Some e /\ edge_from e r = v /\ ep_idx p = i).
    { destruct r.
      - rewrite Hin in Hp. apply elem_of_idxs in Hp as (i & e & He & HP & ->).
        exists i, e. split_and!; auto. unfold ends in HP. by apply bool_decide_eq_true in HP.
      - rewrite Hout in Hp. apply elem_of_idxs in Hp as (i & e & He & HP & ->).
        exists i, e. split_and!; auto. unfold starts in HP. by apply bool_decide_eq_true in HP. }
    destruct Hpe as (i & e & He & Hfrom & Hi).
    destruct (sframe_edge_r _ _ _ _ F He) as (e0 & He0 & Hse).
    pose proof (Forall_lookup_1 _ _ _ _ (wf_edges _ W) He) as (_ & _ & _ & Hs & Ht & Hns).
    exists e0. rewrite Hi. split; [done|].
    destruct v as [| |j]; simpl in Hr; [|done|].
    - destruct r; simpl in Hfrom.
      { destruct Ht as [?|(? & ? & _)]; congruence. }
      destruct Ht as [Ht|(j & Ht & Hj)]; [exfalso; by apply Hns|].
      destruct Hse as (A1 & A2 & _).
      assert (Decision (lab (g_verts st) j c)) as Hdec by (unfold lab; apply _).
      destruct (decide (lab (g_verts st) j c)) as [Hl|Hl].
      + left. exists e0, j. split_and!; auto. right. congruence.
      + right. split; [done|]. split; [exists e0; split; congruence|]. exists j.
        simpl. split; [congruence|]. split; [|done].
        pose proof (same_adj_len _ _ (sf_verts _ _ F)). rewrite (wf_len _ W) in *. lia.
    - left. destruct Hse as (A1 & A2 & _). exists e0, j. split; [done|]. split; [|auto].
      destruct r; simpl in Hfrom; [right|left]; congruence.
  Qed.

  Lemma search_wp fuel : forall g D d d',
    sframe st g -> wf g -> d_vs d = g_verts g ->
    dinv (g_edges g) c (length (g_verts st)) (v_comp <$> g_verts st) (g_verts st) D d ->
    dfs_loop fuel (g_source st) (g_sink st) (g_edges g) c d = Ok d' ->
    wp (search_p fuel st c (loc_of d)) g
      (fun a g' => a = loc_of d' /\ g' = with_verts g (d_vs d')).
  Proof.
    induction fuel as [|fuel IH]; intros g D d d' F W Hd I E; [done|].
    cbn [dfs_loop] in E. cbn [search_p]. cbn [loc_of l_found l_queue l_visited l_sinkp].
    destruct (d_found d) eqn:Hf.
    { simplify_eq. cbn [wp]. rewrite Hd, with_verts_self. unfold loc_of. rewrite Hf. done. }
    destruct (d_queue d) as [|v q] eqn:Hq.
    { simplify_eq. cbn [wp]. rewrite Hd, with_verts_self. unfold loc_of. rewrite Hf, Hq. done. }
    set (n := length (g_verts st)) in *. set (comps := v_comp <$> g_verts st) in *.
    assert (Hn : g_size g = n).
    { rewrite <- (wf_len _ W). symmetry. apply eq_sym. apply (same_adj_len _ _ (sf_verts _ _ F)). }
    assert (Hes : Forall (edge_ok n) (g_edges g)) by (rewrite <- Hn; apply W).
    assert (Hcl : length comps = n) by apply fmap_length.
    assert (HDl : forall D vs, tree (g_edges g) c comps vs D -> forall j, j ∈ D -> lab (g_verts st) j c).
    { intros D0 vs T j Hj. destruct (tree_in _ _ _ _ _ T Hj) as (_ & _ & _ & _ & _ & _ & _ & Hc).
      by apply lab_fmap. }
    assert (Hrv : reached D v) by (apply (di_queue _ _ _ _ _ _ _ I); rewrite Hq; left).
    apply rbind_ok in E as (vx & Ex & E). apply rbind_ok in E as (d1 & E1 & E).
    apply rbind_ok in E as (d2 & E2 & E).
    (* the same vertex in the immutable graph *)
    assert (Hvx : exists vx0, get_vertex (g_source st) (g_sink st) (g_verts st) v = Ok vx0 /\
              v_in vx0 = v_in vx /\ v_out vx0 = v_out vx /\ adj_ok (g_edges g) v vx).
    { destruct v as [| |j]; simpl in Hrv; [|done|]; simpl in Ex |- *.
      - simplify_eq. eexists. split; [done|]. split; [done|]. split; [done|].
        rewrite <- (sf_source _ _ F). apply W.
      - apply vat_ok in Ex. rewrite Hd in Ex.
        destruct (sframe_vert _ _ _ _ F Ex) as (w0 & Hw0 & _ & Hi & Ho).
        exists w0. unfold vat. rewrite Hw0. split_and!; auto. by apply W. }
    destruct Hvx as (vx0 & Hvx0 & Hin0 & Hout0 & Hadj). rewrite Hvx0, Hin0, Hout0.
    set (d0 := Dfs (d_vs d) (d_visited d) q (d_sinkp d) false) in *.
    assert (I0 : dinv (g_edges g) c n comps (g_verts st) D d0).
    { destruct I as [A V VD T Q Fd NF]. split; simpl; auto; [|done]. intros w Hw. apply Q. rewrite Hq. by right. }
    destruct (scan_ok (g_edges g) c n comps Hes Hcl false v (v_out vx) (g_verts st) eq_refl D d0 I0 Hrv) as
      (D1 & d1' & E1' & I1 & _).
    { intros p Hp. destruct Hadj as [_ Ho]. rewrite Ho in Hp. apply elem_of_idxs in Hp as (i & e & He & HP & ->).
      split; [done|]. exists e. split; [done|]. by apply bool_decide_eq_true in HP. }
    rewrite E1 in E1'. injection E1' as <-.
    assert (Hr1 : reached (D1 ++ D) v) by by apply reached_app.
    destruct (scan_ok (g_edges g) c n comps Hes Hcl true v (v_in vx) (g_verts st) eq_refl (D1 ++ D) d1 I1 Hr1) as
      (D2 & d2' & E2' & I2 & _).
    { intros p Hp. destruct Hadj as [Hi _]. rewrite Hi in Hp. apply elem_of_idxs in Hp as (i & e & He & HP & ->).
      split; [done|]. exists e. split; [done|]. by apply bool_decide_eq_true in HP. }
    rewrite E2 in E2'. injection E2' as <-.
    pose proof (HDl _ _ (di_tree _ _ _ _ _ _ _ I)) as HD0.
    pose proof (HDl _ _ (di_tree _ _ _ _ _ _ _ I1)) as HD1.
    assert (F1 : sframe st (with_verts g (d_vs d1))).
    { destruct F. split; auto. apply I1. }
    assert (F2 : sframe st (with_verts g (d_vs d2))).
    { destruct F. split; auto. apply I2. }
    assert (Wv : forall vs, same_adj (g_verts st) vs -> wf (with_verts g vs)).
    { intros vs Hvs. destruct W as [w1 w2 w3 w4 w5 w6]. split; simpl; auto.
      - rewrite Hn. apply (same_adj_len _ _ Hvs).
      - intros i x Hx. destruct (Forall2_lookup_r _ _ _ _ _ Hvs Hx) as (y & Hy & H1 & H2 & H3).
        destruct (Forall2_lookup_l _ _ _ _ _ (sf_verts _ _ F) Hy) as (z & Hz & K1 & K2 & K3).
        destruct (w4 _ _ Hz) as [Hi Ho]. split; congruence. }
    apply wp_bind. eapply wp_mono; [|apply (scan_wp false (v_out vx) g d0 d1); auto].
    2:{ apply I. }
    2:{ apply (readable_adj g v vx D false); auto. }
    intros a g1 [-> ->]. apply wp_bind.
    eapply wp_mono; [|apply (scan_wp true (v_in vx) (with_verts g (d_vs d1)) d1 d2); auto].
    2:{ apply I1. }
    2:{ apply (readable_adj (with_verts g (d_vs d1)) v vx (D1 ++ D) true); auto.
        apply Wv, I1. }
    intros a g2 [-> ->]. cbn [d_vs].
    eapply wp_mono; [|apply (IH (with_verts g (d_vs d2)) (D2 ++ D1 ++ D) d2 d'); auto].
    2:{ apply Wv, I2. }
    intros a g3 [-> ->]. done.
  Qed.

  Lemma parc_own g p u j :
    sframe st g -> parc (g_edges g) p u (VInner j) -> lab (g_verts st) j c -> own_e (ep_idx p).
  Proof.
    intros F (e & He & Hf & Ht & _) Hj. destruct (sframe_edge_r _ _ _ _ F He) as (e0 & He0 & A1 & A2 & _).
    exists e0, j. split_and!; auto. destruct (ep_rec p); simpl in Ht; [left|right]; congruence.
  Qed.

  Lemma wp_rd_parent {A} g cur x (k : option eptr -> prog A) Q :
    sframe st g -> (match cur with VInner j => lab (g_verts st) j c | VSource => True | VSink => False end) ->
    get_vertex (g_source st) (g_sink st) (g_verts g) cur = Ok x ->
    wp (k (v_parent x)) g Q -> wp (rd_parent st cur k) g Q.
  Proof.
    intros F Hc Hx Hk. destruct cur as [| |j]; simpl in *; [by simplify_eq|done|].
    apply vat_ok in Hx. exists x. done.
  Qed.

  Definition tree_at (g : graph) (D : list nat) : Prop :=
    tree (g_edges g) c (v_comp <$> g_verts st) (g_verts g) D.

  (** A step of a walk along the parent edges. *)
  Lemma walk_step g D cur x :
    sframe st g -> tree_at g D -> reached D cur ->
    get_vertex (g_source st) (g_sink st) (g_verts g) cur = Ok x ->
    (match cur with VInner j => lab (g_verts st) j c | VSource => True | VSink => False end) /\
    (cur = VSource \/ exists p u e e0, v_parent x = Some p /\ g_edges g !! ep_idx p = Some e /\
        edge_from e (ep_rec p) = u /\ reached D u /\ own_e (ep_idx p) /\
        g_edges st !! ep_idx p = Some e0 /\ same_ends e0 e).
  Proof.
    intros F T Hr Hx. destruct cur as [| |j]; simpl in Hr; [auto|done|].
    destruct (tree_in _ _ _ _ _ T Hr) as (x' & p & u & Hx' & Hp & Ha & Hu & Hc).
    assert (Hj : lab (g_verts st) j c) by by apply lab_fmap.
    split; [done|]. right. simpl in Hx. apply vat_ok in Hx. assert (x' = x) as -> by congruence.
    pose proof (parc_own _ _ _ _ F Ha Hj) as Ho.
    destruct Ha as (e & He & Hf & _). destruct (sframe_edge_r _ _ _ _ F He) as (e0 & He0 & Hse).
    exists p, u, e, e0. done.
  Qed.

  Lemma walk1_wp fuel : forall g D cur acc fl size pa fl',
    sframe st g -> v_parent (g_source st) = None -> tree_at g D -> reached D cur ->
    walk fuel (g_source st) (g_sink st) (g_verts g) (g_edges g) cur acc fl = Ok (pa, fl') ->
    wp (walk1_p fuel st cur size fl) g
      (fun r g' => g' = g /\ (r.1 + length acc = size + length pa)%nat /\ r.2 = fl').
  Proof.
    induction fuel as [|fuel IH]; intros g D cur acc fl size pa fl' F Hs T Hr E; [done|].
    cbn [walk] in E. apply rbind_ok in E as (x & Ex & E).
    destruct (walk_step g D cur x F T Hr Ex) as [Hc Hcase].
    cbn [walk1_p]. eapply wp_rd_parent; [done|done|done|].
    destruct Hcase as [->|(p & u & e & e0 & Hp & He & Hf & Hu & Ho & He0 & Hse)].
    - simpl in Ex. simplify_eq. rewrite Hs in *. simplify_eq. simpl. split_and!; auto.
    - rewrite Hp in E |- *. apply rbind_ok in E as (e' & Ee & E). apply vat_ok in Ee.
      assert (e' = e) as -> by congruence.
      eapply wp_rd_parent; [done|done|done|]. rewrite Hp. unfold edge_at. rewrite He0.
      eapply wp_rd_parent; [done|done|done|]. rewrite Hp, He0.
      cbn [wp]. exists e. split; [done|]. split; [by left|].
      eapply wp_rd_parent; [done|done|done|]. rewrite Hp. cbn [rec_of].
      rewrite <- (same_ends_from _ _ _ Hse), Hf. rewrite Hf in E.
      eapply wp_mono; [|eapply (IH g D u (p :: acc) _ (S size)); eauto].
      intros r g' (-> & H1 & H2). split_and!; auto. simpl in H1. lia.
  Qed.

  Lemma walk2_wp fuel : forall g D cur acc fl pa fl' L,
    sframe st g -> v_parent (g_source st) = None -> tree_at g D -> reached D cur ->
    walk fuel (g_source st) (g_sink st) (g_verts g) (g_edges g) cur acc fl = Ok (pa, fl') ->
    (length pa <= L)%nat ->
    wp (walk2_p fuel st cur (length acc) (replicate (L - length acc) None ++ (Some <$> acc))) g
      (fun r g' => g' = g /\ r = replicate (L - length pa) None ++ (Some <$> pa)).
  Proof.
    induction fuel as [|fuel IH]; intros g D cur acc fl pa fl' L F Hs T Hr E HL; [done|].
    cbn [walk] in E. apply rbind_ok in E as (x & Ex & E).
    destruct (walk_step g D cur x F T Hr Ex) as [Hc Hcase].
    cbn [walk2_p]. eapply wp_rd_parent; [done|done|done|].
    destruct Hcase as [->|(p & u & e & e0 & Hp & He & Hf & Hu & Ho & He0 & Hse)].
    - simpl in Ex. simplify_eq. rewrite Hs in *. simplify_eq. simpl. done.
    - rewrite Hp in E |- *. apply rbind_ok in E as (e' & Ee & E). apply vat_ok in Ee.
      assert (e' = e) as -> by congruence. rewrite Hf in E.
      assert (Hlen' : (S (length acc) <= length pa)%nat).
      { apply walk_len in E. done. }
      assert (Hlp : length (replicate (L - length acc) (@None eptr) ++ (Some <$> acc)) = L).
      { rewrite app_length, replicate_length, fmap_length. lia. }
      eapply wp_rd_parent; [done|done|done|]. rewrite Hp, Hlp.
      rewrite bool_decide_eq_true_2 by lia.
      eapply wp_rd_parent; [done|done|done|]. rewrite Hp. unfold edge_at. rewrite He0.
      eapply wp_rd_parent; [done|done|done|]. rewrite Hp. cbn [rec_of].
      rewrite <- (same_ends_from _ _ _ Hse), Hf.
      assert (<[(L - length acc - 1)%nat:=Some p]> (replicate (L - length acc) None ++ (Some <$> acc)) =
        replicate (L - length (p :: acc)) None ++ (Some <$> (p :: acc))) as ->.
      { rewrite insert_app_l by (rewrite replicate_length; lia).
        replace (L - length acc)%nat with (L - length (p :: acc) + 1)%nat by (simpl; lia).
        rewrite replicate_add. replace (L - length (p :: acc) + 1 - 1)%nat with
          (length (replicate (L - length (p :: acc)) (@None eptr)) + 0)%nat by (rewrite replicate_length; lia).
        rewrite insert_app_r. simpl. by rewrite <- app_assoc. }
      change (S (length acc)) with (length (p :: acc)).
      eapply IH; eauto.
  Qed.

  Lemma find_path_wp g path cc vs :
    sframe st g -> wf g -> Forall (fun e => e_cap e <= size_max) (g_edges g) ->
    find_path g c = Ok (path, cc, vs) ->
    wp (find_path_p st c) g (fun r g' => r = (Some <$> path, cc) /\ g' = with_verts g vs).
  Proof.
    intros F W HC E. unfold find_path in E. unfold find_path_p.
    assert (Hn : length (g_verts g) = length (g_verts st)) by apply (same_adj_len _ _ (sf_verts _ _ F)).
    rewrite Hn, (sf_source _ _ F), (sf_sink _ _ F) in E.
    set (n := length (g_verts st)) in *.
    assert (Hgn : g_size g = n) by (rewrite <- Hn; symmetry; apply W).
    assert (Hes : Forall (edge_ok n) (g_edges g)) by (rewrite <- Hgn; apply W).
    set (comps := v_comp <$> g_verts st).
    assert (Hcl : length comps = n) by apply fmap_length.
    set (d0 := Dfs (g_verts g) (replicate n false) [VSource] None false) in *.
    assert (I0 : dinv (g_edges g) c n comps (g_verts st) [] d0).
    { split; simpl; try done.
      - apply F.
      - apply replicate_length.
      - intros j. split; [|intros H; inversion H]. intros H.
        apply lookup_replicate in H as [? _]. done.
      - constructor.
      - intros v Hv. apply elem_of_list_singleton in Hv as ->. done. }
    destruct (dfs_loop_ok (g_edges g) c n comps Hes Hcl (g_source st) (g_sink st) (g_verts st))
      with (fuel := (n + 2)%nat) (D := @nil nat) (d := d0) as (D & d & Ed & I & _); auto.
    { rewrite <- (sf_source _ _ F). apply W. }
    { intros i x Hx. destruct (Forall2_lookup_l _ _ _ _ _ (sf_verts _ _ F) Hx) as (y & Hy & K1 & K2 & K3).
      destruct (wf_verts _ W _ _ Hy) as [Hi Ho]. split; congruence. }
    { intros _ v Hv. destruct v as [| |j]; simpl in *; [|done|inversion Hv]. left. left. }
    { simpl. lia. }
    rewrite Ed in E. cbn [rbind] in E.
    apply wp_bind. eapply wp_mono; [|apply (search_wp (n + 2) g [] d0 d); auto].
    intros a g1 [-> ->]. cbn [loc_of l_sinkp].
    destruct (d_sinkp d) as [p|] eqn:Hsp.
    2:{ simplify_eq. cbn [wp]. done. }
    assert (Hfd : d_found d = true).
    { destruct (d_found d) eqn:Hf; [done|]. rewrite (di_nfound _ _ _ _ _ _ _ I Hf) in Hsp. done. }
    destruct (di_found _ _ _ _ _ _ _ I Hfd) as (p' & u & Hp' & (e & He & Hfrom & Hto & Hpos) & Hru).
    rewrite Hsp in Hp'. injection Hp' as <-.
    apply rbind_ok in E as (e' & Ee & E). apply vat_ok in Ee. assert (e' = e) as -> by congruence.
    apply rbind_ok in E as ([pa fl'] & Ew & E). injection E as <- <- <-. cbn [fst snd].
    rewrite Hfrom in Ew.
    destruct (sframe_edge_r _ _ _ _ F He) as (e0 & He0 & Hse). rewrite He0.
    assert (F1 : sframe st (with_verts g (d_vs d))).
    { destruct F. split; auto. apply I. }
    assert (T : tree_at (with_verts g (d_vs d)) D) by apply I.
    pose proof (Forall_lookup_1 _ _ _ _ Hes He) as (P1 & P2 & P3 & Hs & Ht & Hns).
    pose proof (Forall_lookup_1 _ _ _ _ HC He) as Hcap. cbn beta in Hcap.
    cbn [wp]. exists e. split; [done|]. split.
    { left. destruct u as [| |j]; simpl in Hru; [|done|].
      - exfalso. destruct (ep_rec p); simpl in *.
        + destruct Ht as [?|(? & ? & _)]; congruence.
        + by apply Hns.
      - destruct (tree_in _ _ _ _ _ T Hru) as (_ & _ & _ & _ & _ & _ & _ & Hc). destruct Hse as (A1 & A2 & _).
        exists e0, j. split; [done|]. split; [|by apply lab_fmap].
        destruct (ep_rec p); simpl in Hfrom; [right|left]; congruence. }
    rewrite Z.min_l by (destruct (ep_rec p); simpl; lia).
    rewrite <- (same_ends_from _ _ _ Hse), Hfrom.
    assert (Hs0 : v_parent (g_source st) = None) by (rewrite <- (sf_source _ _ F); apply W).
    apply wp_bind. eapply wp_mono; [|eapply (walk1_wp (n + 2) (with_verts g (d_vs d)) D u [p]); eauto].
    intros [sz fl] g1 (-> & Hsz & Hfl). cbn [fst snd length] in *. subst fl.
    assert (sz = length pa) as -> by lia.
    assert (Hpa : (1 <= length pa)%nat).
    { apply walk_len in Ew. done. }
    assert (<[(length pa - 1)%nat:=Some p]> (replicate (length pa) None) =
       replicate (length pa - length [p]) None ++ (Some <$> [p])) as ->.
    { cbn [length]. destruct (length pa) as [|m]; [lia|]. replace (S m - 1)%nat with m by lia.
      rewrite replicate_S_end. 
      assert (Hm : m = (length (replicate m (@None eptr)) + 0)%nat) by (rewrite replicate_length; lia).
      rewrite Hm at 1. rewrite insert_app_r. done. }
    apply wp_bind. eapply wp_mono; [|eapply (walk2_wp (n + 2) (with_verts g (d_vs d)) D u [p]); eauto].
    intros r g1 (-> & ->). cbn [wp]. rewrite Nat.sub_diag. done.
  Qed.

  Lemma alter_set_upd p cc es :
    forall e, es !! ep_idx p = Some e ->
    alter (set_flow true (if ep_rec p then e_recf e - cc else e_recf e + cc)) (ep_idx p)
      (alter (set_flow false (if ep_rec p then e_flow e + cc else e_flow e - cc)) (ep_idx p) es)
    = update_flow es p cc.
  Proof.
    intros e He. unfold update_flow. apply list_eq. intros k.
    destruct (decide (k = ep_idx p)) as [->|Hne].
    - rewrite !list_lookup_alter, He. simpl. destruct (ep_rec p); done.
    - rewrite !list_lookup_alter_ne by done. done.
  Qed.

  Lemma augment_wp {A} path cc : forall g (k : prog A) Q,
    sframe st g -> Forall (fun p => own_e (ep_idx p)) path ->
    wp k (with_edges g (augment (g_edges g) path cc)) Q ->
    wp (augment_p (Some <$> path) cc k) g Q.
  Proof.
    induction path as [|p path IH]; intros g k Q F Ho Hk; csimpl.
    { simpl in Hk. by destruct g. }
    inversion Ho as [|? ? Hp Ho']; subst.
    destruct Hp as (e0 & j & He0 & Hj). destruct (sframe_edge _ _ _ _ F He0) as (e & He & _).
    assert (Hp : own_e (ep_idx p)) by (exists e0, j; done).
    cbn [augment_p]. unfold update_flow_p. cbn [wp].
    exists e. split; [done|]. split; [by left|]. split; [by eexists|]. split; [done|].
    eexists. split.
    { unfold wr_flow. simpl. rewrite list_lookup_alter, He. reflexivity. }
    split; [by left|]. split; [eexists; simpl; rewrite list_lookup_alter, He; reflexivity|].
    split; [done|].
    cbn [edge_flow set_flow e_recf].
    match goal with |- wp _ ?g' _ => assert (g' = with_edges g (update_flow (g_edges g) p cc)) as -> end.
    { unfold wr_flow, with_edges. simpl. f_equal. by apply alter_set_upd. }
    apply IH.
    - apply sframe_with_edges; auto. apply update_flow_same.
    - done.
    - done.
  Qed.

  Lemma touches_own g p D :
    sframe st g -> wf g -> is_Some (g_edges g !! ep_idx p) ->
    (forall j, j ∈ D -> lab (g_verts st) j c) ->
    touches (g_edges g) p (fun v => reached D v \/ v = VSink) -> own_e (ep_idx p).
  Proof.
    intros F W [e He] HD HT. destruct (HT e He) as [T1 T2].
    destruct (sframe_edge_r _ _ _ _ F He) as (e0 & He0 & A1 & A2 & _).
    pose proof (Forall_lookup_1 _ _ _ _ (wf_edges _ W) He) as (_ & _ & _ & Hs & Ht & Hns).
    destruct Hs as [Hs|(i & Hs & _)].
    - destruct Ht as [Ht|(j & Ht & _)]; [exfalso; by apply Hns|].
      rewrite Ht in T2. destruct T2 as [T2|?]; [|done]. simpl in T2.
      exists e0, j. split_and!; auto. right. congruence.
    - rewrite Hs in T1. destruct T1 as [T1|?]; [|done]. simpl in T1.
      exists e0, i. split_and!; auto. left. congruence.
  Qed.

  Lemma caps_same es es' :
    Forall2 same_ends es es' -> Forall (fun e => e_cap e <= size_max) es ->
    Forall (fun e => e_cap e <= size_max) es'.
  Proof.
    induction 1 as [|a b l k (_ & _ & H & _) H' IH]; intros Hl; inversion Hl; subst; constructor; auto.
    congruence.
  Qed.

  (** What a job does when it runs alone. *)
  Record job_post (g : graph) (cap z : Z) (g' : graph) : Prop := JobPost {
    jp_wf : wf g';
    jp_cons : conserved g';
    jp_frame : sframe st g';
    jp_blocked : blocked g' c;
    jp_others : forall c', c' <> c -> blocked g c' -> blocked g' c';
    jp_cap : z - net (g_edges g) VSource = cap - net (g_edges g') VSource
  }.

  Lemma wf_with_verts g vs : wf g -> same_adj (g_verts g) vs -> wf (with_verts g vs).
  Proof.
    intros [w1 w2 w3 w4 w5 w6] Hvs. split; simpl; auto.
    - rewrite <- w1. apply (same_adj_len _ _ Hvs).
    - intros i x Hx. destruct (Forall2_lookup_r _ _ _ _ _ Hvs Hx) as (y & Hy & H1 & H2 & H3).
      destruct (w4 _ _ Hy) as [Hi Ho]. split; congruence.
  Qed.

  Lemma blocked_with_verts g vs c' :
    same_adj (g_verts g) vs -> blocked g c' -> blocked (with_verts g vs) c'.
  Proof. intros H (D & H1 & H2). exists D. simpl. rewrite <- (same_adj_comp _ _ H). done. Qed.

  Lemma job_wp fuel : forall g cap,
    sframe st g -> wf g -> conserved g -> Forall (fun e => e_cap e <= size_max) (g_edges g) ->
    (Z.to_nat (remaining g) < fuel)%nat ->
    wp (job_p fuel st c cap) g (job_post g cap).
  Proof.
    induction fuel as [|fuel IH]; intros g cap F W C HC Hf; [lia|].
    cbn [job_p]. apply wp_bind.
    destruct (find_path_ok g c W) as (path & cc & vs & E & Hadj & Hcase).
    eapply wp_mono; [|by apply (find_path_wp g path cc vs)].
    intros r g1 [-> ->]. cbn [fst snd].
    assert (F1 : sframe st (with_verts g vs)) by by apply sframe_with_verts.
    assert (W1 : wf (with_verts g vs)) by by apply wf_with_verts.
    destruct (aug_step_ok g c W C) as [[E' B]|(g2 & path' & k & D & E' & W' & C' & F' & Hk & Hnet & He & HD & HT)].
    - assert (path = []) as ->.
      { unfold aug_step in E'. rewrite E in E'. simpl in E'. by destruct path. }
      assert (Hb0 : blocked (with_verts g vs) c) by by apply blocked_with_verts.
      cbn [fmap list_fmap wp]. split; auto.
      intros c' _ Hb. by apply blocked_with_verts.
    - destruct Hcase as [(-> & _)|(Hne & HP & HN & Hc & Hmin & _ & HD')].
      { unfold aug_step in E'. rewrite E in E'. simpl in E'. done. }
      assert (Hg2 : g2 = with_edges (with_verts g vs) (augment (g_edges g) path cc)).
      { unfold aug_step in E'. rewrite E in E'. simpl in E'. destruct path; [done|]. by injection E' as <-. }
      destruct HD' as (D' & HD1 & HD2).
      assert (Hnet' : net (g_edges g2) VSource = net (g_edges g) VSource - cc).
      { subst g2. simpl. rewrite (net_augment _ _ _ VSource VSink) by by apply is_path_route.
        simpl. lia. }
      assert (Hown : Forall (fun p => own_e (ep_idx p)) path).
      { apply Forall_forall. intros p Hp. apply (touches_own g p D'); auto.
        - specialize (Hmin p Hp). unfold edge_at_flow in Hmin. destruct (g_edges g !! ep_idx p); [by eexists|lia].
        - intros j Hj. apply (lab_st g j F). auto. }
      assert (Fin : wp (augment_p (Some <$> path) cc (job_p fuel st c (cap + cc))) (with_verts g vs) (job_post g cap)).
      { apply augment_wp; auto. cbn [with_verts g_edges]. 
        rewrite <- Hg2.
        eapply wp_mono; [|apply (IH g2 (cap + cc)); auto].
        - intros z g' [P1 P2 P3 P4 P5 P6]. split; auto.
          + intros c' Hc' Hb. apply P5; auto.
            apply (blocked_other g g2 path cc D' c' c); auto.
            * by subst g2.
            * apply W.
          + lia.
        - subst g2. apply sframe_with_edges; auto. apply augment_same.
        - subst g2. simpl. eapply caps_same; [apply augment_same|done].
        - pose proof (remaining_nonneg g W) as R1. pose proof (remaining_nonneg g2 W') as R2.
          unfold remaining in *. destruct F' as (_ & _ & _ & F4 & _).
          rewrite <- (src_cap_same _ _ F4), Hnet' in *. lia. }
      destruct path as [|p path]; [done|]. cbn [fmap list_fmap] in *. exact Fin.
  Qed.
End footprint.
