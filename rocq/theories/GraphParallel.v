(** Proofs about the parallel max-flow computation. *)
From stdpp Require Import prelude.
From Coq Require Import ZArith Lia.
From Verif Require Import Base GraphModel GraphSpec GraphProofs GraphSearch GraphFlow GraphComponents.
Local Open Scope Z_scope.

Lemma lab_fmap vs i c : lab vs i c <-> (v_comp <$> vs) !! i = Some c.
Proof. unfold lab. by rewrite list_lookup_fmap. Qed.

Lemma nbr_same es es' a b : Forall2 same_ends es es' -> nbr es a b -> nbr es' a b.
Proof.
  intros H (i & e & He & Hab). destruct (Forall2_lookup_l _ _ _ _ _ H He) as (e' & He' & A1 & A2 & _).
  exists i, e'. split; [done|]. rewrite <- A1, <- A2. done.
Qed.

Lemma same_ends_sym es es' : Forall2 same_ends es es' -> Forall2 same_ends es' es.
Proof.
  intros H. apply Forall2_flip. eapply Forall2_impl; [exact H|]. intros a b (A & B & C & D). done.
Qed.

Lemma comp_ok_frame g g' : frame g g' -> comp_ok g -> comp_ok g'.
Proof.
  intros (F1 & F2 & F3 & F4 & F5) [H1 H2]. split.
  - intros a b c Hab Ha. apply lab_fmap. rewrite F5. apply lab_fmap. eapply H1.
    + eapply nbr_same; [apply same_ends_sym; exact F4|exact Hab].
    + apply lab_fmap. rewrite <- F5. by apply lab_fmap.
  - intros i c Hc. rewrite F3. eapply H2. apply lab_fmap. rewrite <- F5. by apply lab_fmap.
Qed.

(** Augmenting inside one component does not unblock another one. *)
Lemma blocked_other g g' path k D c c' :
  frame g g' -> g_edges g' = augment (g_edges g) path k ->
  Forall (edge_ok (g_size g)) (g_edges g) ->
  (forall j, j ∈ D -> (v_comp <$> g_verts g) !! j = Some c') ->
  (forall p, p ∈ path -> touches (g_edges g) p (fun v => reached D v \/ v = VSink)) ->
  c <> c' -> blocked g c -> blocked g' c.
Proof.
  intros F E Hok HD HT Hne (Dc & H1 & H2).
  destruct F as (F1 & F2 & F3 & F4 & F5).
  exists Dc. rewrite F5. split; [done|]. intros v Hv p w Hp.
  destruct (decide (ep_idx p ∈ ep_idx <$> path)) as [Hin|Hin].
  - apply elem_of_list_fmap in Hin as (q & Hq & Hqin).
    assert (HTp : touches (g_edges g) p (fun v => reached D v \/ v = VSink)).
    { eapply touches_idx; [symmetry; exact Hq|auto]. }
    destruct Hp as (e & He & Hf & Ht & _).
    destruct (Forall2_lookup_r _ _ _ _ _ F4 He) as (e0 & He0 & A1 & A2 & _).
    pose proof (Forall_lookup_1 _ _ _ _ Hok He0) as (_ & _ & _ & Hs0 & Ht0 & Hns).
    destruct (HTp e0 He0) as [T1 T2]. rewrite A1 in T1, Hs0, Hns. rewrite A2 in T2, Ht0, Hns.
    assert (Tv : reached D v \/ v = VSink) by (destruct (ep_rec p); simpl in *; subst; done).
    assert (Tw : reached D w \/ w = VSink) by (destruct (ep_rec p); simpl in *; subst; done).
    assert (Hnot : forall j, j ∈ Dc -> ~ (reached D (VInner j) \/ VInner j = VSink)).
    { intros j Hj [Hr|?]; [|done]. simpl in Hr. apply H1 in Hj. apply HD in Hr. congruence. }
    destruct v as [| |j]; simpl in Hv; [|done|exfalso; by eapply Hnot].
    destruct w as [| |j]; simpl; [done| |].
    + exfalso. destruct (ep_rec p); simpl in *.
      * rewrite Hf in Ht0. destruct Ht0 as [?|(? & ? & _)]; done.
      * apply Hns. split; congruence.
    + right. destruct Tw as [Hr|?]; [|done]. simpl in Hr. rewrite (HD _ Hr). congruence.
  - apply (H2 v Hv p w). destruct Hp as (e & He & Hrest). exists e. split; auto.
    rewrite E, augment_notin in He by done. done.
Qed.

(** The parallel run never leaves a good state. *)
Record par_inv (g0 : graph) (s : par) : Prop := ParInv {
  pi_wf : wf (par_g s);
  pi_cons : conserved (par_g s);
  pi_comp : comp_ok (par_g s);
  pi_frame : frame g0 (par_g s);
  pi_len : length (par_done s) = S (g_ncomp (par_g s));
  pi_done : forall c, par_done s !! c = Some true -> blocked (par_g s) c
}.

Definition pending (dn : list bool) : nat := length (filter (fun b => b = false) dn).

Lemma pending_insert dn c :
  dn !! c = Some false -> pending dn = S (pending (<[c := true]> dn)).
Proof.
  unfold pending. revert c. induction dn as [|b dn IH]; intros [|c] H; simpl in *; try done.
  - simplify_eq. rewrite filter_cons_True by done. rewrite filter_cons_False by done. done.
  - destruct b.
    + rewrite !filter_cons_False by done. auto.
    + rewrite !filter_cons_True by done. simpl. by rewrite <- IH.
Qed.

Lemma par_step_inv g0 s s' :
  par_inv g0 s -> par_step s s' ->
  par_inv g0 s' /\
  (Z.to_nat (remaining (par_g s')) + pending (par_done s') <
   Z.to_nat (remaining (par_g s)) + pending (par_done s))%nat.
Proof.
  intros I H. destruct H as [g dn c g' Hc E|g dn c Hc E]; destruct I as [W C K F L B]; simpl in *.
  - destruct (aug_step_ok g c W C) as [[E' _]|(g2 & path & k & D & E' & W' & C' & F' & Hk & Hnet & He & HD & HT)];
      [congruence|]. rewrite E in E'. simplify_eq. split.
    + split; simpl; auto.
      * by eapply comp_ok_frame.
      * by eapply frame_trans.
      * destruct F' as (_ & _ & F3 & _). by rewrite F3.
      * intros c' Hc'. assert (c' <> c) by congruence.
        eapply blocked_other; eauto. apply W.
    + pose proof (remaining_nonneg g W) as R1. pose proof (remaining_nonneg g2 W') as R2.
      unfold remaining in *. destruct F' as (_ & _ & _ & F4 & _).
      rewrite <- (src_cap_same _ _ F4), Hnet in *. lia.
  - destruct (aug_step_ok g c W C) as [[E' Bc]|(g2 & path & k & D & E' & _)]; [|congruence].
    split.
    + split; simpl; auto.
      * by rewrite insert_length.
      * intros c' Hc'. destruct (decide (c' = c)) as [->|Hne]; [done|].
        rewrite list_lookup_insert_ne in Hc' by done. auto.
    + rewrite (pending_insert dn c Hc). lia.
Qed.

Lemma par_steps_inv g0 s s' k :
  par_inv g0 s -> nsteps par_step k s s' ->
  par_inv g0 s' /\
  (k + Z.to_nat (remaining (par_g s')) + pending (par_done s') <=
   Z.to_nat (remaining (par_g s)) + pending (par_done s))%nat.
Proof.
  intros I H. induction H as [s|k s s1 s2 H1 H2 IH]; [split; [done|lia]|].
  destruct (par_step_inv _ _ _ I H1) as [I1 M1]. destruct (IH I1) as [I2 M2]. split; [done|lia].
Qed.

Lemma par_progress g0 s :
  par_inv g0 s -> ~ par_finished s -> exists s', par_step s s'.
Proof.
  intros I Hn. unfold par_finished in Hn.
  assert (Hc : exists c, par_done s !! c = Some false).
  { destruct I as [_ _ _ _ _ _]. induction (par_done s) as [|b dn IH].
    - exfalso. apply Hn. constructor.
    - destruct b; [|by exists 0%nat].
      destruct IH as [c Hc]; [|by exists (S c)].
      intros H. apply Hn. by constructor. }
  destruct Hc as [c Hc]. destruct s as [g dn]. simpl in *.
  destruct (aug_step_ok g c (pi_wf _ _ I) (pi_cons _ _ I)) as [[E _]|(g2 & path & k & D & E & _)].
  - eexists. by eapply par_step_end.
  - eexists. by eapply par_step_aug.
Qed.

Lemma par_finished_max g0 s :
  par_inv g0 s -> par_finished s ->
  max_flow (arcs_of (g_edges (par_g s))) (rec_flows (g_edges (par_g s))).
Proof.
  intros I Hfin. destruct s as [g dn]. destruct I as [W C [K1 K2] F L B]. simpl in *.
  assert (HB : forall c, (c <= g_ncomp g)%nat -> blocked g c).
  { intros c Hc. apply B. assert (Hl : (c < length dn)%nat) by lia.
    apply lookup_lt_is_Some in Hl as [b Hb]. rewrite Hb. f_equal.
    by eapply (Forall_lookup_1 _ _ _ _ Hfin). }
  assert (HDs : forall m, (m <= S (g_ncomp g))%nat -> exists Ds, length Ds = m /\
    forall c D, Ds !! c = Some D ->
      (forall j, j ∈ D -> (v_comp <$> g_verts g) !! j = Some c) /\
      (forall v, reached D v -> explored (g_edges g) c (v_comp <$> g_verts g) D v)).
  { induction m as [|m IH]; intros Hm.
    - exists []. split; [done|]. intros c D H. done.
    - destruct IH as (Ds & Hl & HDs); [lia|]. destruct (HB m) as (D & HD); [lia|].
      exists (Ds ++ [D]). split; [rewrite app_length; simpl; lia|].
      intros c D' H. destruct (decide (c < length Ds)%nat) as [Hlt|Hge].
      + rewrite lookup_app_l in H by done. by apply HDs.
      + rewrite lookup_app_r in H by lia. destruct (c - length Ds)%nat eqn:Ec; simpl in H; [|done].
        simplify_eq. replace c with (length Ds) by lia. done. }
  destruct (HDs (S (g_ncomp g))) as (Ds & Hl & HD); [lia|].
  apply (closed_max g (reachedb (mjoin Ds))); auto.
  intros p u v Hp Hu. apply reachedb_spec in Hu. apply reachedb_spec.
  assert (Hgo : forall c D, Ds !! c = Some D -> reached D u ->
    (forall j, v = VInner j -> (v_comp <$> g_verts g) !! j = Some c) -> reached (mjoin Ds) v).
  { intros c D Hc HuD Hv. destruct (HD c D Hc) as [HD1 HD2]. specialize (HD2 u HuD p v Hp).
    destruct v as [| |j]; simpl in *; auto.
    destruct HD2 as [Hj|Hj]; [|exfalso; apply Hj, Hv; done].
    apply elem_of_list_join. exists D. split; [done|]. by eapply elem_of_list_lookup_2. }
  assert (HvB : forall j, v = VInner j -> exists c, (v_comp <$> g_verts g) !! j = Some c /\
     (c <= g_ncomp g)%nat).
  { intros j ->. pose proof (parc_to_bound _ _ _ _ _ (wf_edges _ W) Hp) as Hj.
    rewrite <- (wf_len _ W) in Hj. apply lookup_lt_is_Some in Hj as [x Hx].
    assert (lab (g_verts g) j (v_comp x)) by (unfold lab; by rewrite Hx).
    exists (v_comp x). split; [by apply lab_fmap|]. eauto. }
  destruct u as [| |i]; simpl in Hu; [|done|].
  - destruct v as [| |j]; simpl; [done| |].
    + exfalso. destruct Ds as [|D Ds]; [simpl in Hl; lia|].
      destruct (HD 0%nat D eq_refl) as [_ HD2]. apply (HD2 VSource I p VSink Hp).
    + destruct (HvB j eq_refl) as (c & Hc & Hle).
      assert (Hcl : (c < length Ds)%nat) by lia. apply lookup_lt_is_Some in Hcl as [D HDc].
      apply (Hgo c D HDc); [done|]. intros k [= <-]. done.
  - apply elem_of_list_join in Hu as (D & HiD & HDin).
    apply elem_of_list_lookup_1 in HDin as (c & HDc).
    apply (Hgo c D HDc); [done|]. intros j ->.
    destruct (HD c D HDc) as [HD1 _]. apply lab_fmap. apply (K1 i j).
    + destruct Hp as (e & He & Hf & Ht & _). exists (ep_idx p), e. split; [done|].
      destruct (ep_rec p); simpl in *; auto.
    + apply lab_fmap. auto.
Qed.
