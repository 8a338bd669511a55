(** Proofs about the depth-first search of the graph model. *)
From stdpp Require Import prelude.
From Coq Require Import ZArith Lia.
From Verif Require Import Base GraphModel GraphSpec GraphProofs.
Local Open Scope Z_scope.

(** A residual arc: an edge pointer that can still carry flow. *)
Definition parc (es : list edge) (p : eptr) (u v : vptr) : Prop :=
  exists e, es !! ep_idx p = Some e /\ edge_from e (ep_rec p) = u /\
            edge_to e (ep_rec p) = v /\ 0 < edge_flow e (ep_rec p).

(** The vertices reached so far. *)
Definition reached (D : list nat) (v : vptr) : Prop :=
  match v with VSource => True | VSink => False | VInner j => j ∈ D end.

Lemma reached_app D D' v : reached D v -> reached (D' ++ D) v.
Proof. destruct v; simpl; auto. intros. apply elem_of_app; auto. Qed.

Section search.
  Context (es : list edge) (comp : nat) (n : nat) (comps : list nat).
  Context (Hes : Forall (edge_ok n) es) (Hcomps : length comps = n).

  (** Parent edges form a tree rooted at the source; [D] lists the reached
      vertices, most recent first. *)
  Inductive tree (vs : list vertex) : list nat -> Prop :=
  | tree_nil : tree vs []
  | tree_cons j D p x u :
      tree vs D -> j ∉ D -> vs !! j = Some x -> v_parent x = Some p ->
      parc es p u (VInner j) -> reached D u -> comps !! j = Some comp ->
      tree vs (j :: D).

  Definition done_arc (D : list nat) (v : vptr) : Prop :=
    match v with
    | VSource => True
    | VSink => False
    | VInner j => j ∈ D \/ comps !! j <> Some comp
    end.

  Lemma done_arc_mono D D' v : done_arc D v -> done_arc (D' ++ D) v.
  Proof.
    destruct v; simpl; auto. intros [H|H]; auto. left. apply elem_of_app; auto.
  Qed.

  Definition explored (D : list nat) (v : vptr) : Prop :=
    forall p w, parc es p v w -> done_arc D w.

  Lemma explored_mono D D' v : explored D v -> explored (D' ++ D) v.
  Proof. intros H p w Hp. apply done_arc_mono. eauto. Qed.

  (** Vertices are only changed in their parent edge. *)
  Definition same_adj (vs0 vs : list vertex) : Prop :=
    Forall2 (fun x y => v_in x = v_in y /\ v_out x = v_out y /\ v_comp x = v_comp y) vs0 vs.

  Record dinv (vs0 : list vertex) (D : list nat) (d : dfs) : Prop := Dinv {
    di_adj : same_adj vs0 (d_vs d);
    di_vis : length (d_visited d) = n;
    di_visD : forall j, d_visited d !! j = Some true <-> j ∈ D;
    di_tree : tree (d_vs d) D;
    di_queue : forall v, v ∈ d_queue d -> reached D v;
    di_found : d_found d = true ->
      exists p u, d_sinkp d = Some p /\ parc es p u VSink /\ reached D u;
    di_nfound : d_found d = false -> d_sinkp d = None
  }.

  Lemma same_adj_len vs0 vs : same_adj vs0 vs -> length vs = length vs0.
  Proof. intros H. symmetry. by eapply Forall2_length. Qed.

  Lemma same_adj_comp vs0 vs : same_adj vs0 vs -> v_comp <$> vs0 = v_comp <$> vs.
  Proof.
    induction 1 as [|x y l k (H1 & H2 & H3) H IH]; [done|]. csimpl. by rewrite H3, IH.
  Qed.

  Lemma tree_alter vs D j f :
    tree vs D -> j ∉ D -> tree (alter f j vs) D.
  Proof.
    intros T. induction T as [|k D p x u T IH Hk Hx Hp Ha Hr Hc]; intros Hj; [constructor|].
    apply not_elem_of_cons in Hj as [Hne Hj].
    econstructor; eauto. rewrite list_lookup_alter_ne; auto.
  Qed.

  Lemma tree_NoDup vs D : tree vs D -> NoDup D.
  Proof. induction 1; constructor; auto. Qed.

  Lemma tree_bound vs D j : tree vs D -> j ∈ D -> (j < n)%nat.
  Proof.
    induction 1 as [|k D p x u T IH Hk Hx Hp Ha Hr Hc]; intros Hj; [inversion Hj|].
    apply elem_of_cons in Hj as [->|Hj]; auto.
    rewrite <- Hcomps. by eapply lookup_lt_Some.
  Qed.

  Lemma tree_length vs D : tree vs D -> (length D <= n)%nat.
  Proof.
    intros T. assert (Hs : (length D <= length (seq 0 n))%nat).
    { apply submseteq_length. apply NoDup_submseteq; [by eapply tree_NoDup|].
      intros j Hj. apply elem_of_seq. pose proof (tree_bound _ _ _ T Hj). lia. }
    by rewrite seq_length in Hs.
  Qed.

  Lemma edge_to_bound e rec :
    edge_ok n e -> match edge_to e rec with VInner j => (j < n)%nat | _ => True end.
  Proof.
    intros (_ & _ & _ & Hs & He & _). destruct rec; simpl.
    - destruct Hs as [->|(i & -> & Hi)]; auto.
    - destruct He as [->|(i & -> & Hi)]; auto.
  Qed.

  (** Pointer under which an adjacency entry is followed. *)
  Definition dirptr (rec : bool) (p : eptr) : eptr := if rec then reciprocal p else p.

  Lemma same_adj_set_parent vs0 vs j p :
    same_adj vs0 vs -> same_adj vs0 (alter (set_parent p) j vs).
  Proof.
    intros H. revert j. induction H as [|x y l k (H1 & H2 & H3) H IH]; intros [|j]; simpl.
    - constructor.
    - constructor.
    - constructor; auto.
    - constructor; auto. apply IH.
  Qed.

  (** One of the two scanning loops. *)
  Lemma scan_ok rec v l vs0 :
    v_comp <$> vs0 = comps ->
    forall D d,
    dinv vs0 D d -> reached D v ->
    (forall p, p ∈ l -> ep_rec p = false /\
       exists e, es !! ep_idx p = Some e /\ edge_from e rec = v) ->
    exists D' d', scan es comp rec l d = Ok d' /\ dinv vs0 (D' ++ D) d' /\
      (exists Q, d_queue d' = Q ++ d_queue d /\ length Q = length D' /\
         forall j, j ∈ D' -> VInner j ∈ Q) /\
      (d_found d = true -> d_found d' = true) /\
      (d_found d' = false ->
         forall p e, p ∈ l -> es !! ep_idx p = Some e -> 0 < edge_flow e rec ->
           done_arc (D' ++ D) (edge_to e rec)).
  Proof.
    intros Hvs0. induction l as [|p l IH]; intros D d I Hr Hl; simpl.
    - exists [], d. split; [done|]. split; [done|]. split.
      + exists []. split_and!; auto. intros j Hj; inversion Hj.
      + split; auto. intros _ p e Hp; inversion Hp.
    - destruct (Hl p) as (Hrec & e & He & Hfrom); [left|].
      assert (Hl' : forall p, p ∈ l -> ep_rec p = false /\
        exists e, es !! ep_idx p = Some e /\ edge_from e rec = v)
        by (intros; apply Hl; right; done).
      unfold vat at 1. rewrite He. simpl.
      assert (Heok : edge_ok n e) by (eapply Forall_lookup_1; eauto).
      assert (Hskip : forall D1 d1,
        (0 < edge_flow e rec -> done_arc D1 (edge_to e rec)) ->
        dinv vs0 D1 d1 -> reached D1 v ->
        exists D' d', scan es comp rec l d1 = Ok d' /\ dinv vs0 (D' ++ D1) d' /\
          (exists Q, d_queue d' = Q ++ d_queue d1 /\ length Q = length D' /\
             forall j, j ∈ D' -> VInner j ∈ Q) /\
          (d_found d1 = true -> d_found d' = true) /\
          (d_found d' = false ->
           forall p' e', p' ∈ p :: l -> es !! ep_idx p' = Some e' ->
             0 < edge_flow e' rec -> done_arc (D' ++ D1) (edge_to e' rec))).
      { intros D1 d1 Hd I1 Hr1. destruct (IH D1 d1 I1 Hr1 Hl') as (D' & d' & E & I' & HQ & Hf & Ha).
        exists D', d'. split_and!; auto. intros Hnf p' e' Hp' He' Hpos.
        apply elem_of_cons in Hp' as [->|Hp']; [|eauto].
        rewrite He in He'. simplify_eq. apply done_arc_mono. auto. }
      case_bool_decide as Hpos.
      2:{ apply Hskip; auto. intros; lia. }
      pose proof (edge_to_bound e rec Heok) as Hb.
      assert (Hparc : parc es (dirptr rec p) v (edge_to e rec)).
      { unfold parc. destruct p as [r i]; simpl in *. subst r.
        destruct rec; simpl; exists e; auto. }
      destruct (edge_to e rec) as [| |j] eqn:Hto.
      + apply Hskip; simpl; auto.
      + exists [], (Dfs (d_vs d) (d_visited d) (d_queue d) (Some (dirptr rec p)) true).
        split; [done|]. split.
        { destruct I. split; auto; simpl; [|done]. intros _. eauto. }
        split; [|split; [done|simpl; done]].
        exists []. split_and!; auto. intros j Hj; inversion Hj.
      + assert (Hvl : exists b, d_visited d !! j = Some b).
        { apply lookup_lt_is_Some. rewrite (di_vis _ _ _ I). done. }
        destruct Hvl as [b Hb']. unfold vat at 1. rewrite Hb'. simpl.
        assert (Hxl : exists x, d_vs d !! j = Some x).
        { apply lookup_lt_is_Some. rewrite (same_adj_len _ _ (di_adj _ _ _ I)).
          rewrite <- (fmap_length v_comp), Hvs0, Hcomps. done. }
        destruct Hxl as [x Hx]. unfold vat at 1. rewrite Hx. simpl.
        assert (Hcx : comps !! j = Some (v_comp x)).
        { rewrite <- Hvs0, (same_adj_comp _ _ (di_adj _ _ _ I)), list_lookup_fmap, Hx. done. }
        destruct b.
        { apply Hskip; auto. intros _. left. by apply (di_visD _ _ _ I). }
        case_bool_decide as Hcomp.
        2:{ apply Hskip; auto. intros _. right. rewrite Hcx. congruence. }
        assert (HjD : j ∉ D).
        { intros HjD. apply (di_visD _ _ _ I) in HjD. congruence. }
        assert (I1 : dinv vs0 (j :: D) (dfs_push d j (dirptr rec p))).
        { destruct I as [A V VD T Q F NF]. split; simpl; auto.
          - by apply same_adj_set_parent.
          - by rewrite insert_length.
          - intros k. destruct (decide (k = j)) as [->|Hkj].
            + rewrite list_lookup_insert by lia. split; [left|done].
            + rewrite list_lookup_insert_ne by done. rewrite VD, elem_of_cons. naive_solver.
          - econstructor; eauto.
            + by apply tree_alter.
            + rewrite list_lookup_alter, Hx. done.
            + done.
            + congruence.
          - intros w Hw. apply elem_of_cons in Hw as [->|Hw].
            + left.
            + apply (reached_app _ [j]). auto.
          - intros Hf. destruct (F Hf) as (p' & u & ? & ? & ?).
            exists p', u. split_and!; auto. apply (reached_app _ [j]); done. }
        destruct (Hskip (j :: D) (dfs_push d j (dirptr rec p))) as (D' & d' & E & I' & HQ & Hf & Ha).
        * intros _. left. left.
        * done.
        * by apply (reached_app _ [j]).
        * exists (D' ++ [j]), d'. rewrite <- app_assoc. simpl. split_and!; auto.
          destruct HQ as (Q & HQ1 & HQ2 & HQ3). exists (Q ++ [VInner j]).
          rewrite <- app_assoc. split; [done|]. split; [rewrite !app_length; simpl; lia|].
          intros k Hk. apply elem_of_app in Hk as [Hk|Hk].
          { apply elem_of_app; left; auto. }
          apply elem_of_list_singleton in Hk as ->. apply elem_of_app; right. left.
  Qed.

  Context (src snk : vertex) (vs0 : list vertex).
  Context (Hsrc : adj_ok es VSource src).
  Context (Hverts : forall i x, vs0 !! i = Some x -> adj_ok es (VInner i) x).
  Context (Hvs0 : v_comp <$> vs0 = comps).

  (** Everything reached is either still in the queue or explored. *)
  Definition frontier (D : list nat) (q : list vptr) : Prop :=
    forall v, reached D v -> v ∈ q \/ explored D v.

  Lemma get_reached vs D v :
    same_adj vs0 vs -> reached D v -> (forall j, j ∈ D -> (j < n)%nat) ->
    exists x, get_vertex src snk vs v = Ok x /\ adj_ok es v x.
  Proof.
    intros A Hr Hb. destruct v as [| |j]; simpl in *; [|done|].
    - eauto.
    - assert (Hx : exists x, vs !! j = Some x).
      { apply lookup_lt_is_Some. rewrite (same_adj_len _ _ A).
        rewrite <- (fmap_length v_comp), Hvs0, Hcomps. auto. }
      destruct Hx as [x Hx]. exists x. unfold vat. rewrite Hx. split; [done|].
      destruct (Forall2_lookup_r _ _ _ _ _ A Hx) as (y & Hy & H1 & H2 & H3).
      destruct (Hverts _ _ Hy) as [Hi Ho]. split; congruence.
  Qed.

  Lemma dfs_loop_ok fuel D d :
    dinv vs0 D d -> (d_found d = false -> frontier D (d_queue d)) ->
    (length (d_queue d) + (n - length D) < fuel)%nat ->
    exists D' d', dfs_loop fuel src snk es comp d = Ok d' /\ dinv vs0 D' d' /\
      (d_found d' = false -> forall v, reached D' v -> explored D' v).
  Proof.
    revert D d. induction fuel as [|fuel IH]; intros D d I HF Hm; simpl; [lia|].
    destruct (d_found d) eqn:Hf.
    { exists D, d. split_and!; auto. congruence. }
    destruct (d_queue d) as [|v q] eqn:Hq.
    { exists D, d. split_and!; auto. intros _ v Hv. destruct (HF eq_refl v Hv) as [H|H]; auto.
      inversion H. }
    assert (Hrv : reached D v) by (apply (di_queue _ _ _ I); rewrite Hq; left).
    destruct (get_reached (d_vs d) D v) as (x & Hx & Hin & Hout).
    { apply I. } { done. } { intros j. eapply tree_bound. apply I. }
    rewrite Hx. simpl.
    set (d0 := Dfs (d_vs d) (d_visited d) q (d_sinkp d) false).
    assert (I0 : dinv vs0 D d0).
    { destruct I as [A V VD T Q F NF]. split; simpl; auto; [|done]. intros w Hw. apply Q. rewrite Hq. by right. }
    destruct (scan_ok false v (v_out x) vs0 Hvs0 D d0 I0 Hrv) as
      (D1 & d1 & E1 & I1 & (Q1 & HQ1 & HQ1l & HQ1i) & Hf1 & Ha1).
    { intros p Hp. rewrite Hout in Hp. apply elem_of_idxs in Hp as (i & e & He & HP & ->).
      split; [done|]. exists e. split; [done|]. by apply bool_decide_eq_true in HP. }
    subst d0. rewrite E1. simpl.
    destruct (scan_ok true v (v_in x) vs0 Hvs0 (D1 ++ D) d1 I1) as
      (D2 & d2 & E2 & I2 & (Q2 & HQ2 & HQ2l & HQ2i) & Hf2 & Ha2).
    { by apply reached_app. }
    { intros p Hp. rewrite Hin in Hp. apply elem_of_idxs in Hp as (i & e & He & HP & ->).
      split; [done|]. exists e. split; [done|]. by apply bool_decide_eq_true in HP. }
    rewrite E2. simpl. simpl in HQ1.
    apply (IH (D2 ++ D1 ++ D) d2 I2).
    - intros Hnf w Hw.
      assert (Hnf1 : d_found d1 = false).
      { destruct (d_found d1) eqn:E; auto. rewrite Hf2 in Hnf; auto. }
      assert (Hcase : w ∈ d_queue d2 \/ w = v \/ (reached D w /\ w ∉ v :: q)).
      { destruct w as [| |j]; simpl in Hw; [|done|].
        - destruct (decide (VSource ∈ v :: q)) as [H|H]; [|right; right; done].
          apply elem_of_cons in H as [->|H]; [auto|].
          left. rewrite HQ2, HQ1. apply elem_of_app; right. apply elem_of_app; right. done.
        - rewrite !elem_of_app in Hw. destruct Hw as [Hw|[Hw|Hw]].
          + left. rewrite HQ2. apply elem_of_app; left. auto.
          + left. rewrite HQ2, HQ1. apply elem_of_app; right. apply elem_of_app; left. auto.
          + destruct (decide (VInner j ∈ v :: q)) as [H|H]; [|right; right; done].
            apply elem_of_cons in H as [->|H]; [auto|].
            left. rewrite HQ2, HQ1. apply elem_of_app; right. apply elem_of_app; right. done. }
      destruct Hcase as [H|[->|[H1 H2]]]; [auto| |].
      + right. intros p w (e & He & Hfrom & Hto & Hpos).
        destruct p as [r i]. simpl in *. destruct r; simpl in *.
        * rewrite <- Hto. apply (Ha2 Hnf (EP false i) e); auto.
          rewrite Hin. apply elem_of_idxs. exists i, e. split_and!; auto.
          unfold ends. by apply bool_decide_eq_true.
        * rewrite <- Hto. apply done_arc_mono.
          apply (Ha1 Hnf1 (EP false i) e); auto.
          rewrite Hout. apply elem_of_idxs. exists i, e. split_and!; auto.
          unfold starts. by apply bool_decide_eq_true.
      + right. apply explored_mono, explored_mono.
        destruct (HF eq_refl w H1); done.
    - rewrite HQ2, HQ1, !app_length. simpl in Hm.
      pose proof (tree_length _ _ (di_tree _ _ _ I2)) as Hl. rewrite !app_length in Hl. lia.
  Qed.
End search.

(** * Paths *)
Fixpoint is_path (es : list edge) (u : vptr) (path : list eptr) (v : vptr) : Prop :=
  match path with
  | [] => u = v
  | p :: ps => exists w, parc es p u w /\ is_path es w ps v
  end.

Lemma is_path_app es u l k v :
  is_path es u (l ++ k) v <-> exists w, is_path es u l w /\ is_path es w k v.
Proof.
  revert u. induction l as [|p l IH]; intros u; simpl.
  - split; [eauto|]. intros (w & -> & H). done.
  - split.
    + intros (w & Hp & H). apply IH in H as (x & H1 & H2). eauto.
    + intros (x & (w & Hp & H1) & H2). exists w. split; auto. apply IH. eauto.
Qed.

Definition edge_at_flow (es : list edge) (p : eptr) : Z :=
  match es !! ep_idx p with Some e => edge_flow e (ep_rec p) | None => 0 end.

(** End points of the edge behind a pointer. *)
Definition touches (es : list edge) (p : eptr) (S : vptr -> Prop) : Prop :=
  forall e, es !! ep_idx p = Some e -> S (e_start e) /\ S (e_end e).

Lemma parc_touches es p u v (S : vptr -> Prop) :
  parc es p u v -> S u -> S v -> touches es p S.
Proof.
  intros (e & He & Hf & Ht & _) Hu Hv e' He'. rewrite He in He'. simplify_eq.
  destruct (ep_rec p); simpl in *; auto.
Qed.

Lemma parc_not_touches es p u v (S : vptr -> Prop) :
  parc es p u v -> ~ S v -> ~ touches es p S.
Proof.
  intros (e & He & Hf & Ht & _) Hv H. specialize (H e He). subst.
  destruct (ep_rec p); simpl in *; tauto.
Qed.

Lemma touches_idx es p q S : ep_idx p = ep_idx q -> touches es p S -> touches es q S.
Proof. intros E H e He. apply H. by rewrite E. Qed.

Lemma walk_ok es comp comps src snk vs D :
  tree es comp comps vs D ->
  v_parent src = None ->
  forall fuel u acc c,
  reached D u -> (length D < fuel)%nat ->
  exists path, walk fuel src snk vs es u acc c = Ok (path ++ acc, foldr Z.min c (edge_at_flow es <$> path)) /\
    is_path es VSource path u /\ NoDup (ep_idx <$> path) /\
    (forall p, p ∈ path -> touches es p (reached D)).
Proof.
  intros T Hsrc.
  assert (Hnilp : forall fuel acc c, (0 < fuel)%nat ->
    walk fuel src snk vs es VSource acc c = Ok (acc, c)).
  { intros [|fuel] acc c Hf; [lia|]. simpl. rewrite Hsrc. done. }
  induction T as [|j D p x u T IH Hj Hx Hp Ha Hr Hc]; intros fuel w acc c Hw Hf.
  - destruct w as [| |k]; simpl in Hw; [|done|inversion Hw].
    exists []. rewrite Hnilp by lia. split; [done|]. split; [done|]. split; [constructor|].
    intros p Hp; inversion Hp.
  - assert (Hmono : forall p, touches es p (reached D) -> touches es p (reached (j :: D))).
    { intros q Hq e He. destruct (Hq e He). split; by apply (reached_app _ [j]). }
    destruct (decide (w = VInner j)) as [->|Hne].
    + destruct fuel as [|fuel]; [simpl in Hf; lia|]. simpl.
      unfold vat at 1. rewrite Hx. simpl. rewrite Hp.
      destruct Ha as (e & He & Hfrom & Hto & Hpos).
      unfold vat at 1. rewrite He. simpl. rewrite Hfrom.
      destruct (IH fuel u (p :: acc) (Z.min (edge_flow e (ep_rec p)) c) Hr) as
        (path & E & HP & HN & HT).
      { simpl in Hf. lia. }
      exists (path ++ [p]). rewrite E. rewrite <- app_assoc. simpl. split_and!.
      * f_equal. f_equal. rewrite fmap_app, foldr_app. simpl.
        f_equal. f_equal. unfold edge_at_flow. rewrite He. done.
      * apply is_path_app. exists u. split; auto. exists (VInner j). split; [|done].
        exists e; auto.
      * rewrite fmap_app. apply NoDup_app. split_and!; auto.
        -- intros i Hi Hi2. apply elem_of_list_singleton in Hi2 as ->.
           apply elem_of_list_fmap in Hi as (q & Hq & Hqin).
           apply (parc_not_touches es p u (VInner j) (reached D)); [exists e; auto|done|].
           eapply touches_idx; [symmetry; exact Hq|auto].
        -- apply NoDup_singleton.
      * intros q Hq. apply elem_of_app in Hq as [Hq|Hq]; auto.
        apply elem_of_list_singleton in Hq as ->.
        eapply parc_touches; [exists e; split_and!; [done|exact Hfrom|exact Hto|done]| |].
        -- by apply (reached_app _ [j]).
        -- left.
    + destruct (IH fuel w acc c) as (path & E & HP & HN & HT).
      { destruct w as [| |k]; simpl in *; auto. apply elem_of_cons in Hw as [->|Hw]; auto. done. }
      { simpl in Hf; lia. }
      exists path. split_and!; auto.
Qed.

(** ** The whole search *)
Lemma find_path_ok g comp :
  wf g ->
  exists path c vs,
    find_path g comp = Ok (path, c, vs) /\
    same_adj (g_verts g) vs /\
    ((path = [] /\ c = 0 /\
      exists D, (forall j, j ∈ D -> (v_comp <$> g_verts g) !! j = Some comp) /\
        forall v, reached D v -> explored (g_edges g) comp (v_comp <$> g_verts g) D v) \/
     (path <> [] /\ is_path (g_edges g) VSource path VSink /\
      NoDup (ep_idx <$> path) /\ 0 < c /\
      (forall p, p ∈ path -> c <= edge_at_flow (g_edges g) p) /\
      (exists p, p ∈ path /\ c = edge_at_flow (g_edges g) p) /\
      exists D, (forall j, j ∈ D -> (v_comp <$> g_verts g) !! j = Some comp) /\
        forall p, p ∈ path -> touches (g_edges g) p (fun v => reached D v \/ v = VSink))).
Proof.
  intros W. unfold find_path.
  set (n := length (g_verts g)).
  set (comps := v_comp <$> g_verts g).
  assert (Hn : g_size g = n) by (symmetry; apply W).
  assert (Hes : Forall (edge_ok n) (g_edges g)) by (rewrite <- Hn; apply W).
  assert (Hcl : length comps = n) by apply fmap_length.
  set (d0 := Dfs (g_verts g) (replicate n false) [VSource] None false).
  assert (I0 : dinv (g_edges g) comp n comps (g_verts g) [] d0).
  { split; simpl; try done.
    - apply Forall2_same_length_lookup_2; [done|]. intros i x y Hx Hy. simplify_eq. done.
    - apply replicate_length.
    - intros j. split; [|intros H; inversion H]. intros H.
      apply lookup_replicate in H as [? _]. done.
    - constructor.
    - intros v Hv. apply elem_of_list_singleton in Hv as ->. done. }
  destruct (dfs_loop_ok (g_edges g) comp n comps Hes Hcl (g_source g) (g_sink g) (g_verts g)
              (wf_source _ W) (wf_verts _ W) eq_refl (n + 2) [] d0 I0) as (D & d & E & I & Hdone).
  { intros _ v Hv. destruct v as [| |j]; simpl in *; [|done|inversion Hv]. left. left. }
  { simpl. lia. }
  rewrite E. simpl.
  assert (HDc : forall j, j ∈ D -> comps !! j = Some comp).
  { pose proof (di_tree _ _ _ _ _ _ _ I) as T. clear -T.
    induction T as [|j D p x u T IH Hj Hx Hp Ha Hr Hc]; intros k Hk; [inversion Hk|].
    apply elem_of_cons in Hk as [->|Hk]; auto. }
  destruct (d_found d) eqn:Hf.
  - destruct (di_found _ _ _ _ _ _ _ I Hf) as (p & u & Hp & Harc & Hru).
    rewrite Hp. destruct Harc as (e & He & Hfrom & Hto & Hpos).
    unfold vat at 1. rewrite He. simpl. rewrite Hfrom.
    destruct (walk_ok (g_edges g) comp comps (g_source g) (g_sink g) (d_vs d) D
                (di_tree _ _ _ _ _ _ _ I) (wf_srcpar _ W) (n + 2) u [p]
                (edge_flow e (ep_rec p)) Hru) as (path & Ew & HP & HN & HT).
    { pose proof (tree_length (g_edges g) comp n comps Hcl _ _ (di_tree _ _ _ _ _ _ _ I)). lia. }
    rewrite Ew. simpl. do 3 eexists. split; [reflexivity|]. split; [apply I|]. right.
    set (c := foldr Z.min (edge_flow e (ep_rec p)) (edge_at_flow (g_edges g) <$> path)).
    assert (Hfl : edge_at_flow (g_edges g) p = edge_flow e (ep_rec p))
      by (unfold edge_at_flow; by rewrite He).
    assert (Harc : parc (g_edges g) p u VSink) by (exists e; auto).
    assert (Hallpos : forall q, q ∈ path -> 0 < edge_at_flow (g_edges g) q).
    { clear -HP. revert HP. generalize VSource. induction path as [|q path IH]; intros w HP q' Hq';
        [inversion Hq'|]. destruct HP as (w' & (e' & He' & _ & _ & Hpos') & HP).
      apply elem_of_cons in Hq' as [->|Hq']; [|by eapply IH].
      unfold edge_at_flow. by rewrite He'. }
    assert (Hmin : 0 < c /\ (forall q, q ∈ path ++ [p] -> c <= edge_at_flow (g_edges g) q) /\
      (exists q, q ∈ path ++ [p] /\ c = edge_at_flow (g_edges g) q)).
    { subst c. clear -Hfl Hpos Hallpos. rewrite <- Hfl in *. clear Hfl.
      induction path as [|q path IH]; csimpl.
      - split_and!; auto.
        + intros q Hq. apply elem_of_list_singleton in Hq as ->. lia.
        + exists p. split; [left|done].
      - destruct IH as (H1 & H2 & q' & H3 & H4).
        { intros; apply Hallpos; by right. }
        assert (0 < edge_at_flow (g_edges g) q) by (apply Hallpos; left).
        split_and!.
        + lia.
        + intros q2 Hq2. apply elem_of_cons in Hq2 as [->|Hq2]; [lia|].
          specialize (H2 _ Hq2). lia.
        + destruct (Z.min_spec (edge_at_flow (g_edges g) q)
            (foldr Z.min (edge_at_flow (g_edges g) p) (edge_at_flow (g_edges g) <$> path)))
            as [[_ ->]|[_ ->]].
          * exists q. split; [left|done].
          * exists q'. split; [by right|done]. }
    destruct Hmin as (Hc & Hmin & Hmin').
    split_and!; auto.
    + by destruct path.
    + apply is_path_app. exists u. split; auto. exists VSink. done.
    + rewrite fmap_app. apply NoDup_app. split_and!; auto.
      * intros i Hi Hi2. apply elem_of_list_singleton in Hi2 as ->.
        apply elem_of_list_fmap in Hi as (q & Hq & Hqin).
        apply (parc_not_touches (g_edges g) p u VSink (reached D)); [done|by intros []|].
        eapply touches_idx; [symmetry; exact Hq|auto].
      * apply NoDup_singleton.
    + exists D. split; auto. intros q Hq. apply elem_of_app in Hq as [Hq|Hq].
      * intros e' He'. destruct (HT q Hq e' He'). auto.
      * apply elem_of_list_singleton in Hq as ->.
        eapply parc_touches; eauto.
  - rewrite (di_nfound _ _ _ _ _ _ _ I Hf). do 3 eexists. split; [reflexivity|].
    split; [apply I|]. left. split_and!; auto. exists D. split; auto.
Qed.
