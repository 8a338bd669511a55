(** Interleavings of the memory accesses of the parallel jobs. *)
From stdpp Require Import prelude.
From Coq Require Import ZArith Lia.
From Verif Require Import Base GraphModel GraphSpec GraphProofs GraphSearch GraphFlow
  GraphComponents GraphParallel RaceModel RaceSpec RaceProofs.
Local Open Scope Z_scope.

(** A program run alone: its result and the memory it leaves, and its number of accesses. *)
Fixpoint run {A} (P : prog A) (g : graph) : option (A * graph) :=
  match P with
  | PRet a => Some (a, g)
  | PUB | PFuel => None
  | PRdFlow i r k => match g_edges g !! i with Some e => run (k (edge_flow e r)) g | None => None end
  | PWrFlow i r z k => run k (wr_flow g i r z)
  | PRdPar j k => match g_verts g !! j with Some x => run (k (v_parent x)) g | None => None end
  | PWrPar j p k => run k (wr_par g j p)
  end.

Fixpoint len {A} (P : prog A) (g : graph) : nat :=
  match P with
  | PRet _ | PUB | PFuel => 0
  | PRdFlow i r k => match g_edges g !! i with Some e => S (len (k (edge_flow e r)) g) | None => 0 end
  | PWrFlow i r z k => S (len k (wr_flow g i r z))
  | PRdPar j k => match g_verts g !! j with Some x => S (len (k (v_parent x)) g) | None => 0 end
  | PWrPar j p k => S (len k (wr_par g j p))
  end.

Lemma wp_run {A} st c (P : prog A) g Q :
  wp st c P g Q -> exists a g', run P g = Some (a, g') /\ Q a g'.
Proof.
  revert g. induction P as [a| | |i r k IH|i r z k IH|j k IH|j p k IH]; intros g; simpl; try done.
  - intros H. eauto.
  - intros (e & He & _ & Hw). rewrite He. eauto.
  - intros (_ & _ & Hw). eauto.
  - intros (x & Hx & _ & Hw). rewrite Hx. eauto.
  - intros (_ & _ & Hw). eauto.
Qed.

Lemma wp_self {A} st c (P : prog A) g Q :
  wp st c P g Q -> wp st c P g (fun a g' => run P g = Some (a, g')).
Proof.
  revert g. induction P as [a| | |i r k IH|i r z k IH|j k IH|j p k IH]; intros g; simpl; try done.
  - intros (e & He & Ho & Hw). exists e. rewrite He. split_and!; eauto.
  - intros (He & Ho & Hw). split_and!; eauto.
  - intros (x & Hx & Ho & Hw). exists x. rewrite Hx. split_and!; eauto.
  - intros (He & Ho & Hw). split_and!; eauto.
Qed.

(** Two memories agree on the cells of a component. *)
Definition agree (st : graph) (c : nat) (g g' : graph) : Prop :=
  (forall i, own_e st c i -> g_edges g !! i = g_edges g' !! i) /\
  (forall j, own_v st c j -> g_verts g !! j = g_verts g' !! j).

Lemma own_e_unique st c c' i :
  comp_ok st -> own_e st c i -> own_e st c' i -> c = c'.
Proof.
  intros [K _] (e & j & He & Hj & Hl) (e' & j' & He' & Hj' & Hl'). assert (e' = e) as -> by congruence.
  assert (Hn : j = j' \/ nbr (g_edges st) j j').
  { unfold nbr. destruct Hj as [Hj|Hj], Hj' as [Hj'|Hj'].
    - left. congruence.
    - right. exists i, e. auto.
    - right. exists i, e. auto.
    - left. congruence. }
  destruct Hn as [->|Hn]; [by eapply lab_fun|].
  eapply lab_fun; [|exact Hl']. eapply K; eauto.
Qed.

Lemma own_v_unique st c c' j : own_v st c j -> own_v st c' j -> c = c'.
Proof. apply lab_fun. Qed.

Definition upd (G : nat -> graph) (c : nat) (g : graph) : nat -> graph :=
  fun x => if decide (x = c) then g else G x.

Definition total (js : list (prog Z)) (G : nat -> graph) : nat :=
  sum_list (imap (fun c P => len P (G c)) js).

Lemma sum_list_insert (l : list nat) i x y :
  l !! i = Some x -> (sum_list (<[i := y]> l) + x = sum_list l + y)%nat.
Proof.
  revert i. induction l as [|a l IH]; intros [|i] H; simpl in *; simplify_eq; [lia|].
  specialize (IH _ H). lia.
Qed.

Lemma total_step js G c P P' g' :
  js !! c = Some P -> len P (G c) = S (len P' g') ->
  S (total (<[c := P']> js) (upd G c g')) = total js G.
Proof.
  intros Hc Hl. unfold total.
  assert (E : imap (fun x Q => len Q (upd G c g' x)) (<[c := P']> js) =
              <[c := len P' g']> (imap (fun x Q => len Q (G x)) js)).
  { apply list_eq. intros x. rewrite list_lookup_imap.
    destruct (decide (x = c)) as [->|Hne].
    - rewrite list_lookup_insert by (by eapply lookup_lt_Some).
      rewrite list_lookup_insert by (rewrite imap_length; by eapply lookup_lt_Some).
      simpl. unfold upd. by rewrite decide_True by done.
    - rewrite !list_lookup_insert_ne by done. rewrite list_lookup_imap.
      destruct (js !! x); simpl; [|done]. unfold upd. by rewrite decide_False by done. }
  rewrite E.
  assert (Hx : imap (fun x Q => len Q (G x)) js !! c = Some (S (len P' g'))).
  { rewrite list_lookup_imap, Hc. simpl. by rewrite Hl. }
  pose proof (sum_list_insert _ _ _ (len P' g') Hx). lia.
Qed.

Section inter.
  Context (st : graph) (Hst : comp_ok st).
  (** The outcome of each job when it runs alone. *)
  Context (fin : nat -> Z * graph).

  Record good (js : list (prog Z)) (g : graph) (G : nat -> graph) : Prop := Good {
    gd_frame : sframe st g;
    gd_wp : forall c P, js !! c = Some P -> wp st c P (G c) (fun a g' => fin c = (a, g'));
    gd_agree : forall c P, js !! c = Some P -> agree st c (G c) g
  }.

  Lemma good_insert js g G c P P' gc' g' :
    good js g G -> js !! c = Some P ->
    sframe st g' ->
    wp st c P' gc' (fun a g'' => fin c = (a, g'')) ->
    agree st c gc' g' ->
    (forall x Q, x <> c -> js !! x = Some Q -> agree st x (G x) g -> agree st x (G x) g') ->
    good (<[c := P']> js) g' (upd G c gc').
  Proof.
    intros [F WP A] Hc F' HW HA Hoth. split; [done| |].
    - intros x Q Hx. unfold upd. destruct (decide (x = c)) as [->|Hne].
      + rewrite list_lookup_insert in Hx by (by eapply lookup_lt_Some). by simplify_eq.
      + rewrite list_lookup_insert_ne in Hx by done. auto.
    - intros x Q Hx. unfold upd. destruct (decide (x = c)) as [->|Hne].
      + done.
      + rewrite list_lookup_insert_ne in Hx by done. eauto.
  Qed.

  Lemma jstep_good s s' G :
    good (jobs s) (mem s) G -> jstep s s' ->
    exists G', good (jobs s') (mem s') G' /\ S (total (jobs s') G') = total (jobs s) G.
  Proof.
    intros Gd Hs.
    destruct Hs as [js g c i r k e Hc He|js g c i r k c' z' k' z Hc Hc'|js g c i r z k e Hc He
                   |js g c j k x Hc Hx|js g c j k c' p' k' o Hc Hc'|js g c j p k x Hc Hx];
      cbn [jobs mem] in *; pose proof Gd as [F WP A].
    - pose proof (WP _ _ Hc) as Hw. cbn [wp] in Hw. destruct Hw as (e' & He' & Ho & Hw).
      assert (Hk : k (edge_flow e r) = k (edge_flow e' r)).
      { destruct Ho as [Ho|(_ & _ & Ho)]; [|apply Ho].
        destruct (A _ _ Hc) as [A1 _]. rewrite (A1 _ Ho) in He'. congruence. }
      rewrite Hk. exists (upd G c (G c)). split.
      + eapply good_insert; eauto.
      + eapply total_step; [done|]. simpl. by rewrite He'.
    - pose proof (WP _ _ Hc) as Hw. cbn [wp] in Hw. destruct Hw as (e' & He' & Ho & Hw).
      pose proof (WP _ _ Hc') as Hw'. cbn [wp] in Hw'. destruct Hw' as (_ & Ho' & _).
      assert (Hne : c <> c') by congruence.
      destruct Ho as [Ho|(_ & _ & Ho)]; [exfalso; apply Hne; by eapply own_e_unique|].
      rewrite (Ho z (edge_flow e' r)). exists (upd G c (G c)). split.
      + eapply good_insert; eauto.
      + eapply total_step; [done|]. simpl. by rewrite He'.
    - pose proof (WP _ _ Hc) as Hw. cbn [wp] in Hw. destruct Hw as (He' & Ho & Hw).
      exists (upd G c (wr_flow (G c) i r z)). split.
      + eapply good_insert; eauto.
        * by apply sframe_wr_flow.
        * destruct (A _ _ Hc) as [A1 A2]. split; [|done].
          intros i' Hi'. simpl. destruct (decide (i' = i)) as [->|Hne].
          -- rewrite !list_lookup_alter. by rewrite A1.
          -- rewrite !list_lookup_alter_ne by done. auto.
        * intros x Q Hx HQ [A1 A2]. split; [|done]. intros i' Hi'. simpl.
          destruct (decide (i' = i)) as [->|Hne].
          -- exfalso. apply Hx. by eapply own_e_unique.
          -- rewrite list_lookup_alter_ne by done. auto.
      + eapply total_step; [done|]. done.
    - pose proof (WP _ _ Hc) as Hw. cbn [wp] in Hw. destruct Hw as (x' & Hx' & Ho & Hw).
      assert (Hk : v_parent x = v_parent x').
      { destruct (A _ _ Hc) as [_ A2]. rewrite (A2 _ Ho) in Hx'. congruence. }
      rewrite Hk. exists (upd G c (G c)). split.
      + eapply good_insert; eauto.
      + eapply total_step; [done|]. simpl. by rewrite Hx'.
    - exfalso. pose proof (WP _ _ Hc) as Hw. cbn [wp] in Hw. destruct Hw as (x' & Hx' & Ho & Hw).
      pose proof (WP _ _ Hc') as Hw'. cbn [wp] in Hw'. destruct Hw' as (_ & Ho' & _).
      assert (c = c') by (by eapply own_v_unique). congruence.
    - pose proof (WP _ _ Hc) as Hw. cbn [wp] in Hw. destruct Hw as (He' & Ho & Hw).
      exists (upd G c (wr_par (G c) j p)). split.
      + eapply good_insert; eauto.
        * by apply sframe_wr_par.
        * destruct (A _ _ Hc) as [A1 A2]. split; [done|].
          intros i' Hi'. simpl. destruct (decide (i' = j)) as [->|Hne].
          -- rewrite !list_lookup_alter. by rewrite A2.
          -- rewrite !list_lookup_alter_ne by done. auto.
        * intros x' Q Hx' HQ [A1 A2]. split; [done|]. intros i' Hi'. simpl.
          destruct (decide (i' = j)) as [->|Hne].
          -- exfalso. apply Hx'. by eapply own_v_unique.
          -- rewrite list_lookup_alter_ne by done. auto.
      + eapply total_step; [done|]. done.
  Qed.

  Lemma jsteps_good k s s' G :
    good (jobs s) (mem s) G -> nsteps jstep k s s' ->
    length (jobs s') = length (jobs s) /\
    exists G', good (jobs s') (mem s') G' /\ (k + total (jobs s') G' = total (jobs s) G)%nat.
  Proof.
    intros Gd H. revert G Gd. induction H as [s|k s s1 s2 H1 H2 IH]; intros G Gd; [eauto|].
    destruct (jstep_good _ _ _ Gd H1) as (G1 & Gd1 & T1).
    destruct (IH G1 Gd1) as (L & G2 & Gd2 & T2). split.
    - rewrite L. destruct H1; cbn [jobs]; by rewrite insert_length.
    - exists G2. split; [done|]. lia.
  Qed.

  Lemma good_progress js g G :
    good js g G -> (exists caps : list Z, js = PRet <$> caps) \/ exists s', jstep (Pool js g) s'.
  Proof.
    intros [F WP A].
    assert (H : forall js0 : list (prog Z), (forall P, P ∈ js0 -> exists c, js !! c = Some P) ->
      (exists caps : list Z, js0 = PRet <$> caps) \/ exists s', jstep (Pool js g) s').
    { induction js0 as [|P js0 IH]; intros Hin; [left; by exists []|].
      destruct IH as [(caps & ->)|?]; [intros; apply Hin; by right| |by right].
      destruct (Hin P) as [c Hc]; [left|]. pose proof (WP _ _ Hc) as Hw.
      destruct P as [a| | |i r k|i r z k|j k|j p k]; cbn [wp] in Hw; try done.
      - left. by exists (a :: caps).
      - right. destruct Hw as (e & He & Ho & _).
        assert (He' : is_Some (g_edges g !! i)).
        { destruct Ho as [Ho|(_ & (e0 & He0 & _) & _)].
          - destruct (A _ _ Hc) as [A1 _]. rewrite <- (A1 _ Ho). by eexists.
          - destruct (sframe_edge _ _ _ _ F He0) as (e' & He' & _). by eexists. }
        destruct He' as [e' He']. eexists. by eapply j_rdflow.
      - right. destruct Hw as ((e & He) & Ho & _). destruct (A _ _ Hc) as [A1 _].
        rewrite (A1 _ Ho) in He. eexists. by eapply j_wrflow.
      - right. destruct Hw as (x & Hx & Ho & _). destruct (A _ _ Hc) as [_ A2].
        rewrite (A2 _ Ho) in Hx. eexists. by eapply j_rdpar.
      - right. destruct Hw as ((x & Hx) & Ho & _). destruct (A _ _ Hc) as [_ A2].
        rewrite (A2 _ Ho) in Hx. eexists. by eapply j_wrpar. }
    apply H. intros P HP. by apply elem_of_list_lookup_1 in HP.
  Qed.

  Lemma good_race js g G c c' x :
    good js g G -> race (Pool js g) c c' x ->
    exists i P, x = CFlow i false /\ src_edge st i /\ js !! c = Some P /\
      next_read P = Some x /\ ignores_read P.
  Proof.
    intros [F WP A] (P & P' & HP & HP' & Hne & Hw & Hr). cbn [jobs] in *.
    pose proof (WP _ _ HP) as H1. pose proof (WP _ _ HP') as H2.
    destruct P' as [a| | |i r k|i r z k|j k|j p k]; simpl in Hw; simplify_eq; cbn [wp] in H2.
    - destruct H2 as (_ & Ho & _).
      destruct P as [a| | |i' r' k'|i' r' z' k'|j' k'|j' p' k']; simpl in Hr; destruct Hr as [Hr|Hr]; simplify_eq.
      + cbn [wp] in H1. destruct H1 as (e & He & Ho' & _).
        destruct Ho' as [Ho'|(-> & Hs & Hk)]; [exfalso; apply Hne; by eapply own_e_unique|].
        exists i, (PRdFlow i false k'). split_and!; auto.
      + cbn [wp] in H1. destruct H1 as (_ & Ho' & _). exfalso. apply Hne. by eapply own_e_unique.
    - destruct H2 as (_ & Ho & _). exfalso.
      destruct P as [a| | |i' r' k'|i' r' z' k'|j' k'|j' p' k']; simpl in Hr; destruct Hr as [Hr|Hr]; simplify_eq;
        cbn [wp] in H1.
      + destruct H1 as (? & _ & Ho' & _). apply Hne. by eapply own_v_unique.
      + destruct H1 as (_ & Ho' & _). apply Hne. by eapply own_v_unique.
  Qed.

  (** At the end the memory is made of the outcomes of the jobs. *)
  Lemma good_final js g G caps :
    good js g G -> js = PRet <$> caps ->
    (forall c z, caps !! c = Some z -> z = (fin c).1) /\
    (forall c i, (c < length caps)%nat -> own_e st c i -> g_edges g !! i = g_edges (fin c).2 !! i).
  Proof.
    intros [F WP A] ->. split.
    - intros c z Hz. assert (Hc : (PRet <$> caps) !! c = Some (PRet z)) by (rewrite list_lookup_fmap, Hz; done).
      pose proof (WP _ _ Hc) as H. cbn [wp] in H. by rewrite H.
    - intros c i Hl Ho. apply lookup_lt_is_Some in Hl as [z Hz].
      assert (Hc : (PRet <$> caps) !! c = Some (PRet z)) by (rewrite list_lookup_fmap, Hz; done).
      pose proof (WP _ _ Hc) as H. cbn [wp] in H. rewrite H. simpl.
      destruct (A _ _ Hc) as [A1 _]. symmetry. auto.
  Qed.

  Lemma good_final_edges js g G caps js' g' G' caps' :
    wf st -> length caps = S (g_ncomp st) -> length caps' = S (g_ncomp st) ->
    good js g G -> js = PRet <$> caps -> good js' g' G' -> js' = PRet <$> caps' ->
    caps' = caps /\ g_edges g' = g_edges g.
  Proof.
    intros W L L' Gd E Gd' E'.
    destruct (good_final _ _ _ _ Gd E) as [H1 H2]. destruct (good_final _ _ _ _ Gd' E') as [H1' H2'].
    split.
    - apply list_eq. intros c. destruct (decide (c < length caps)%nat) as [Hc|Hc].
      + destruct (lookup_lt_is_Some_2 caps c Hc) as [z Hz].
        destruct (lookup_lt_is_Some_2 caps' c) as [z' Hz']; [lia|].
        rewrite Hz, Hz'. f_equal. rewrite (H1 _ _ Hz), (H1' _ _ Hz'). done.
      + rewrite !lookup_ge_None_2 by lia. done.
    - apply list_eq. intros i. destruct (g_edges st !! i) as [e|] eqn:He.
      + pose proof (Forall_lookup_1 _ _ _ _ (wf_edges _ W) He) as (_ & _ & _ & Hs & Ht & Hns).
        assert (Hj : exists j, (e_start e = VInner j \/ e_end e = VInner j) /\ (j < g_size st)%nat).
        { destruct Hs as [Hs|(j & Hs & Hj)]; [|eauto].
          destruct Ht as [Ht|(j & Ht & Hj)]; [exfalso; by apply Hns|eauto]. }
        destruct Hj as (j & Hj & Hlt). rewrite <- (wf_len _ W) in Hlt.
        apply lookup_lt_is_Some in Hlt as [w Hw].
        assert (Hl : lab (g_verts st) j (v_comp w)) by (unfold lab; by rewrite Hw).
        assert (Ho : own_e st (v_comp w) i) by (exists e, j; done).
        pose proof (proj2 Hst _ _ Hl) as Hle.
        rewrite (H2 (v_comp w) i), (H2' (v_comp w) i); auto; lia.
      + assert (Hn : forall g0, sframe st g0 -> g_edges g0 !! i = None).
        { intros g0 F0. destruct (g_edges g0 !! i) eqn:E0; [|done].
          destruct (sframe_edge_r _ _ _ _ F0 E0) as (? & ? & _). congruence. }
        rewrite !Hn; auto; [apply Gd|apply Gd'].
  Qed.
End inter.

(** Running one job to its end is an interleaving. *)
Lemma run_jsteps c (P : prog Z) : forall st js g Q,
  js !! c = Some P -> wp st c P g Q ->
  exists k z g', nsteps jstep k (Pool js g) (Pool (<[c := PRet z]> js) g') /\ Q z g'.
Proof.
  induction P as [a| | |i r k IH|i r z k IH|j k IH|j p k IH]; intros st js g Q Hc Hw; cbn [wp] in Hw; try done.
  - exists 0%nat, a, g. rewrite list_insert_id by done. split; [constructor|done].
  - destruct Hw as (e & He & _ & Hw).
    destruct (IH (edge_flow e r) st (<[c := k (edge_flow e r)]> js) g Q) as (n & z & g' & H1 & H2); [|done|].
    { apply list_lookup_insert. by eapply lookup_lt_Some. }
    exists (S n), z, g'. split; [|done]. rewrite list_insert_insert in H1.
    econstructor; [|exact H1]. by eapply j_rdflow.
  - destruct Hw as ((e & He) & _ & Hw).
    destruct (IH st (<[c := k]> js) (wr_flow g i r z) Q) as (n & z' & g' & H1 & H2); [|done|].
    { apply list_lookup_insert. by eapply lookup_lt_Some. }
    exists (S n), z', g'. split; [|done]. rewrite list_insert_insert in H1.
    econstructor; [|exact H1]. by eapply j_wrflow.
  - destruct Hw as (x & Hx & _ & Hw).
    destruct (IH (v_parent x) st (<[c := k (v_parent x)]> js) g Q) as (n & z & g' & H1 & H2); [|done|].
    { apply list_lookup_insert. by eapply lookup_lt_Some. }
    exists (S n), z, g'. split; [|done]. rewrite list_insert_insert in H1.
    econstructor; [|exact H1]. by eapply j_rdpar.
  - destruct Hw as ((x & Hx) & _ & Hw).
    destruct (IH st (<[c := k]> js) (wr_par g j p) Q) as (n & z' & g' & H1 & H2); [|done|].
    { apply list_lookup_insert. by eapply lookup_lt_Some. }
    exists (S n), z', g'. split; [|done]. rewrite list_insert_insert in H1.
    econstructor; [|exact H1]. by eapply j_wrpar.
Qed.

(** The jobs one after the other. *)
Lemma sequential st fuel m :
  wf st -> conserved st -> comp_ok st -> Forall (fun e => e_cap e <= size_max) (g_edges st) ->
  (Z.to_nat (remaining st) < fuel)%nat ->
  (forall g, sframe st g -> wf g -> remaining g <= remaining st) ->
  (m <= S (g_ncomp st))%nat ->
  exists k caps g,
    nsteps jstep k (Pool ((fun c => job_p fuel st c 0) <$> seq 0 (S (g_ncomp st))) st)
      (Pool ((PRet <$> caps) ++ ((fun c => job_p fuel st c 0) <$> seq m (S (g_ncomp st) - m))) g) /\
    length caps = m /\ wf g /\ conserved g /\ sframe st g /\
    (forall c, (c < m)%nat -> blocked g c) /\
    zsum caps = net (g_edges st) VSource - net (g_edges g) VSource.
Proof.
  intros W C K HC Hf Hrem. induction m as [|m IH]; intros Hm.
  - exists 0%nat, [], st. split_and!; auto using sframe_refl; [constructor|lia|simpl; lia].
  - destruct IH as (k & caps & g & H1 & Hl & Wg & Cg & Fg & Bg & Sg); [lia|].
    set (N := S (g_ncomp st)) in *.
    set (js := (PRet <$> caps) ++ ((fun c => job_p fuel st c 0) <$> seq m (N - m))) in *.
    assert (Hjs : js !! m = Some (job_p fuel st m 0)).
    { subst js. rewrite lookup_app_r by (rewrite fmap_length; lia).
      rewrite fmap_length, Hl, Nat.sub_diag.
      replace (N - m)%nat with (S (N - S m)) by lia. done. }
    assert (Hw : wp st m (job_p fuel st m 0) g (job_post st m g 0)).
    { apply job_wp; auto.
      - eapply caps_same; [apply Fg|done].
      - specialize (Hrem g Fg Wg). pose proof (remaining_nonneg g Wg). lia. }
    destruct (run_jsteps m _ st js g _ Hjs Hw) as (k' & z & g' & H2 & [P1 P2 P3 P4 P5 P6]).
    exists (k + k')%nat, (caps ++ [z]), g'. split_and!; auto.
    + eapply nsteps_trans; [exact H1|].
      assert (<[m:=PRet z]> js = (PRet <$> (caps ++ [z])) ++ ((fun c => job_p fuel st c 0) <$> seq (S m) (N - S m))) as <-; [|exact H2].
      subst js. rewrite fmap_app, <- app_assoc. replace m with (length (PRet <$> caps) + 0)%nat at 1 by (rewrite fmap_length; lia).
      rewrite insert_app_r. f_equal. replace (N - m)%nat with (S (N - S m)) by lia. done.
    + rewrite app_length. simpl. lia.
    + intros c Hc. destruct (decide (c = m)) as [->|Hne]; [done|]. apply P5; [done|]. apply Bg. lia.
    + rewrite zsum_app. simpl. lia.
Qed.
