(** C48, C58 and C59: the IO scheduler that uses a thread pool. *)
From stdpp Require Import prelude.
From Coq Require Import ZArith NArith Lia.
From Verif Require Import Base AioPoolModel AioPoolSpec AioPoolProofs.
Local Open Scope nat_scope.

Section props.
  Context {req world : Type} (op : req -> world -> world * Z) (follow : req -> list req).
  Notation pst := (pst req world).

  (** The states reached with [n] threads in the pool when some threads submit the
      requests [subs], callbacks submit what [follow] says, and one thread calls
      wait_completions(); spurious wake-ups included. *)
  Definition pool_reach (n : nat) (subs : list (list req)) (w0 : world) (s : pst) : Prop :=
    rtc (pany op follow) (pinit n subs w0) s.

  Lemma pool_reach_inv n subs w0 s : pool_reach n subs w0 s -> inv op n w0 s.
  Proof. intros H. eapply reach_inv; [exact H|apply init_inv]. Qed.

  (** C48: at every moment of every interleaving, each accepted request is performed
      at most once, and called back at most once, with the result of its system
      call. *)
  Theorem C48_exactly_once n subs w0 s : pool_reach n subs w0 s ->
    good_history op w0 (a_world s) (a_submitted s) (a_performed s) (a_called s).
  Proof.
    intros H. apply pool_reach_inv in H as [I1 I2 I3 I4 I5 I6 I7 I8].
    exists (a_queue s ++ (a_threads s ≫= pend)), (a_threads s ≫= incall).
    split_and!; auto. apply submseteq_inserts_l.
    clear. induction (a_threads s) as [|t ts IH]; csimpl; [done|]. rewrite fmap_app.
    apply submseteq_app; [|done]. destruct t; simpl; try done; apply submseteq_nil_l.
  Qed.

  (** C48: when wait_completions() decides to return, nothing that was accepted is
      pending, wherever it was submitted from. *)
  Theorem C48_none_pending n subs w0 s s' b b' : pool_reach n subs w0 s ->
    pstep op follow s s' -> (forall c c', a_main s <> QDone c c') -> a_main s' = QDone b b' ->
    a_submitted s ≡ₚ (a_called s).*1 /\ a_performed s ≡ₚ a_called s /\ a_queue s = [].
  Proof.
    intros H Hs Hm Hm'. apply pool_reach_inv in H.
    assert (H0 : a_running s = 0).
    { destruct Hs as [s t1 t t2 s' t' Ht Hs|s lk m Hs]; simpl in *.
      - exfalso. destruct Hs; simpl in *; try (by eapply Hm). destruct m; simpl in *; try done. by eapply Hm.
      - subst m. inversion Hs; subst; done. }
    destruct (all_called _ _ _ _ H H0) as (E1 & E2 & HF). split_and!; auto.
    rewrite (i_perf _ _ _ _ H).
    assert (E : a_threads s ≫= incall = []); [|by rewrite E, app_nil_r].
    clear -HF. induction HF as [|t ts H HF IH]; csimpl; [done|]. rewrite IH, app_nil_r. by destruct t.
  Qed.

  (** C48: when wait_completions() has returned, the callback of every request
      submitted before it was called has been called. *)
  Theorem C48_wait n subs w0 s b b' : pool_reach n subs w0 s ->
    a_main s = QDone b b' -> b ⊆+ (a_called s).*1 /\ b' ⊆+ (a_called s).*1.
  Proof.
    intros H Hm. apply pool_reach_inv in H. pose proof (i_main _ _ _ _ H) as E. rewrite Hm in E.
    destruct E as [E1 E2]. split; [|done]. by etrans.
  Qed.

  (** C48: the ghost [b] of the theorem above is what it is said to be. *)
  Theorem C48_wait_snapshot n subs w0 s s' b b' : pool_reach n subs w0 s -> a_main s = QStart ->
    rtc (pany op follow) s s' -> a_main s' = QDone b b' -> a_submitted s ⊆+ b.
  Proof.
    intros _ Hm Hr.
    assert (Hi : forall (u v : pst) x, rtc (pany op follow) u v ->
      match a_main u with
      | QStart => x ⊆+ a_submitted u
      | QCheck c | QLock c | QPred c | QSleep c | QDone c _ => x ⊆+ c end ->
      match a_main v with
      | QStart => x ⊆+ a_submitted v
      | QCheck c | QLock c | QPred c | QSleep c | QDone c _ => x ⊆+ c end).
    { intros u v x H. induction H as [|u u1 v H _ IH]; [done|]. intros Hu. apply IH. clear IH v.
      destruct H as [u u1 H|u c Hc]; [|by rewrite Hc in Hu].
      destruct H as [u t1 t t2 u1 t' Ht H|u lk m H].
      - destruct H; simpl in *; auto.
        + destruct m; auto. by apply submseteq_inserts_r.
        + by destruct m.
      - destruct u as [rn lk0 q ts m0 w sb pf cl]; simpl in *. by destruct H. }
    intros Hm'. specialize (Hi s s' (a_submitted s) Hr). rewrite Hm, Hm' in Hi. by apply Hi.
  Qed.

  (** C48: with at least one thread in the pool nothing blocks: a state without a
      step is one where wait_completions() returned and everything was done. *)
  Theorem C48_no_deadlock n subs w0 s : 0 < n -> pool_reach n subs w0 s ->
    (exists s', pstep op follow s s') \/
    ((exists b b', a_main s = QDone b b') /\
     complete_history op follow w0 (a_world s) (mjoin subs) (a_submitted s) (a_performed s) (a_called s)).
  Proof.
    intros Hn H. pose proof (pool_reach_inv _ _ _ _ H) as I.
    destruct (progress op follow n w0 s Hn I) as [Hs|(Hm & Hq & HF)]; [by left|right].
    split; [done|].
    assert (HW : winv follow subs s) by (eapply reach_winv; [exact H|apply init_winv]).
    unfold winv in HW.
    assert (E : forall {B} (f : thr req -> list B), f PIdle = [] -> f PEnd = [] -> a_threads s ≫= f = []).
    { intros B f F1 F2. clear -HF F1 F2. induction HF as [|t ts Ht HF IH]; csimpl; [done|].
      rewrite IH, app_nil_r. by destruct Ht as [->| ->]. }
    pose proof (i_sub _ _ _ _ I) as I2. pose proof (i_perf _ _ _ _ I) as I3.
    rewrite E in HW, I2, I3 by done. rewrite Hq in I2. simpl in I2. rewrite app_nil_r in HW, I2, I3.
    split_and!; auto.
    - by rewrite HW, I2.
    - apply (i_world _ _ _ _ I).
  Qed.

  (** C48: when callbacks submit only finitely many requests (each request has a cost
      that exceeds the sum of those it leads to), every execution without spurious
      wake-ups is finite, so it ends as C48_no_deadlock says. *)
  Theorem C48_terminates (cost : req -> nat) :
    (forall r, 16 + sum_list_with cost (follow r) <= cost r) ->
    forall s : pst, exists bound, forall k s', nsteps (pstep op follow) k s s' -> k <= bound.
  Proof.
    intros Hc s. exists (pmeasure follow cost s). intros k s' H.
    apply (psteps_bounded op follow cost Hc) in H. lia.
  Qed.

  (** C48: together: every execution can be continued, without spurious wake-ups, to
      the return of wait_completions() with everything done. *)
  Theorem C48_completes (cost : req -> nat) n subs w0 s :
    (forall r, 16 + sum_list_with cost (follow r) <= cost r) ->
    0 < n -> pool_reach n subs w0 s ->
    exists s', rtc (pstep op follow) s s' /\ (exists b b', a_main s' = QDone b b') /\
      complete_history op follow w0 (a_world s') (mjoin subs) (a_submitted s') (a_performed s') (a_called s').
  Proof.
    intros Hc Hn. remember (pmeasure follow cost s) as k eqn:Ek.
    revert s Ek. induction (lt_wf k) as [k _ IH]. intros s -> H.
    destruct (C48_no_deadlock n subs w0 s Hn H) as [[s1 H1]|[Hm HC]].
    - destruct (IH (pmeasure follow cost s1) ltac:(by apply pstep_measure with (op := op)) s1 eq_refl) as (s' & Hr & Hx).
      { eapply rtc_r; [exact H|by apply pa_step]. }
      exists s'. split; [by eapply rtc_l|done].
    - exists s. split; [constructor|]. done.
  Qed.

  (** C58 (what holds): once wait_completions() has returned, and if no other thread
      was submitting when it was called, no thread runs a callback, makes a system
      call, or is before the decrement of the counter; threads can only be about to
      notify or to release the lock, one of them at most. *)
  Theorem C58_quiescent n subs w0 s s' : pool_reach n subs w0 s ->
    Forall no_ext (a_threads s) -> a_main s = QStart ->
    rtc (pany op follow) s s' -> (exists b b', a_main s' = QDone b b') ->
    a_queue s' = [] /\
    Forall (fun t => t = PIdle \/ t = PEnd \/ t = PNotify \/ t = PUnlock) (a_threads s') /\
    (forall i j t t', a_threads s' !! i = Some t -> a_threads s' !! j = Some t' ->
       t = PNotify \/ t = PUnlock -> t' = PNotify \/ t' = PUnlock -> i = j).
  Proof.
    intros H HF Hm Hr (b & b' & Hm'). pose proof (pool_reach_inv _ _ _ _ H) as I.
    assert (Q : qinv s') by (eapply reach_qinv; [exact Hr|exact I|split; [done|]; intros ? ? E; congruence]).
    assert (I' : inv op n w0 s') by (eapply reach_inv; [exact Hr|done]).
    destruct Q as [Q1 Q2]. specialize (Q2 _ _ Hm').
    destruct (all_called _ _ _ _ I' Q2) as (_ & Hq & HA).
    assert (HT : Forall (fun t => t = PIdle \/ t = PEnd \/ t = PNotify \/ t = PUnlock) (a_threads s')).
    { apply Forall_forall. intros t Ht. rewrite Forall_forall in HA, Q1. specialize (HA t Ht). specialize (Q1 t Ht).
      destruct t as [| | |[]|[]| | | | |]; simpl in *; auto; done. }
    split_and!; auto.
    intros i j t t' Hi Hj Ht Ht'. destruct (decide (i = j)) as [|Hne]; [done|exfalso].
    pose proof (i_lock _ _ _ _ I') as E.
    assert (Hle : sum_list_with holder (a_threads s') <= 1) by (destruct (a_lock s'); lia).
    assert (H2 : 2 <= sum_list_with holder (a_threads s')); [|lia].
    assert (h1 : forall t : thr req, t = PNotify \/ t = PUnlock -> holder t = 1) by (intros ? [->| ->]; done).
    assert (Hone : forall (l : list (thr req)) k u, l !! k = Some u -> holder u = 1 -> 1 <= sum_list_with holder l).
    { clear. intros l. induction l as [|x l IH]; intros [|k] u Hk Hu; simplify_eq/=; [lia|]. specialize (IH _ _ Hk Hu). lia. }
    assert (Htwo : forall (l : list (thr req)) k k' u u', k < k' -> l !! k = Some u -> l !! k' = Some u' -> holder u = 1 -> holder u' = 1 -> 2 <= sum_list_with holder l).
    { clear -Hone. intros l. induction l as [|x l IH]; intros [|k] [|k'] u u' Hlt Hk Hk' Hu Hu'; simplify_eq/=; try lia.
      - specialize (Hone _ _ _ Hk' Hu'). lia.
      - specialize (IH k k' u u' ltac:(lia) Hk Hk' Hu Hu'). lia. }
    destruct (decide (i < j)); [eapply (Htwo _ i j)|eapply (Htwo _ j i)]; eauto; lia.
  Qed.
End props.

(** Requests on a file seen as a list of numbers: read a cell, or write to it. *)
Definition ex_req : Type := nat * option Z.
Definition ex_op (r : ex_req) (w : list Z) : list Z * Z :=
  match r.2 with None => (w, default (-1)%Z (w !! r.1)) | Some z => (<[r.1 := z]> w, 512%Z) end.
(** The callback of the read of cell 0 submits a write to cell 1. *)
Definition ex_follow (r : ex_req) : list ex_req :=
  match r with (0, None) => [(1, Some 7%Z)] | _ => [] end.
Definition ex_cost (r : ex_req) : nat := match r with (0, None) => 32 | _ => 16 end.

(** Two threads in the pool, two submitters (threads 2 and 3); the read of cell 0
    submits a write from its callback. *)
Definition ex_init := pinit (req := ex_req) (world := list Z) 2 [[(0, None); (2, None)]; [(2, Some 9%Z)]] [5; 6; 8]%Z.
(** A schedule: submissions, then wait_completions() is called and sleeps, then the
    pool works, with the tasks interleaved; the waiter is woken up and returns. *)
Definition ex_schedule : list (option nat) :=
  replicate 3 (Some 3) ++ replicate 5 (Some 2) ++ replicate 4 None ++
  [Some 0; Some 1; Some 0; Some 1; Some 1; Some 0; Some 0; Some 1; Some 0; Some 0; Some 0; Some 0] ++
  [None; None] ++ replicate 6 (Some 1) ++ replicate 8 (Some 0) ++ replicate 8 (Some 1) ++ [None; None; None].

Example ex_pool_cost : forall r, 16 + sum_list_with ex_cost (ex_follow r) <= ex_cost r.
Proof. intros [[|k] [z|]]; vm_compute; lia. Qed.

(** C48 applies to it: there is an execution that ends with everything done. *)
Example ex_pool_completes : exists s, rtc (pstep ex_op ex_follow) ex_init s /\
  (exists b b', a_main s = QDone b b') /\
  complete_history ex_op ex_follow [5; 6; 8]%Z (a_world s) [(0, None); (2, None); (2, Some 9%Z)]
    (a_submitted s) (a_performed s) (a_called s).
Proof.
  apply (C48_completes ex_op ex_follow ex_cost 2 [[(0, None); (2, None)]; [(2, Some 9%Z)]] [5; 6; 8]%Z ex_init).
  - apply ex_pool_cost.
  - lia.
  - constructor.
Qed.

(** The hypotheses of C48_exactly_once, C48_wait and C58_quiescent are met by it, with
    tasks in progress and at the end. *)
Example ex_pool_middle : exists s,
  pool_reach ex_op ex_follow 2 [[(0, None); (2, None)]; [(2, Some 9%Z)]] [5; 6; 8]%Z s /\
  a_main s = QLock [(2, Some 9%Z); (0, None); (2, None)] /\
  a_called s = [((0, None), 5%Z); ((2, Some 9%Z), 512%Z)] /\
  a_submitted s = [(2, Some 9%Z); (0, None); (2, None); (1, Some 7%Z)] /\
  a_queue s = [(2, None)] /\ a_running s = 3.
Proof.
  destruct (exec ex_op ex_follow (take 24 ex_schedule) ex_init) as [s|] eqn:E; [|by vm_compute in E].
  exists s. split; [by eapply exec_reach|]. vm_compute in E. by simplify_eq.
Qed.
Example ex_pool_end : exists s s',
  pool_reach ex_op ex_follow 2 [[(0, None); (2, None)]; [(2, Some 9%Z)]] [5; 6; 8]%Z s /\
  Forall no_ext (a_threads s) /\ a_main s = QStart /\
  rtc (pany ex_op ex_follow) s s' /\
  (exists b', a_main s' = QDone [(2, Some 9%Z); (0, None); (2, None)] b') /\
  a_called s' = [((0, None), 5%Z); ((2, Some 9%Z), 512%Z); ((2, None), 9%Z); ((1, Some 7%Z), 512%Z)] /\
  a_world s' = [5; 7; 9]%Z.
Proof.
  destruct (exec ex_op ex_follow (take 8 ex_schedule) ex_init) as [s|] eqn:E; [|by vm_compute in E].
  exists s. destruct (exec ex_op ex_follow (drop 8 ex_schedule) s) as [s'|] eqn:E'.
  2: { vm_compute in E. injection E as <-. by vm_compute in E'. }
  exists s'. split; [by eapply exec_reach|].
  assert (rtc (pany ex_op ex_follow) s s') by (by eapply exec_reach).
  vm_compute in E. injection E as <-. vm_compute in E'. injection E' as <-. simpl.
  split_and!; try done; [|by eexists]. repeat constructor.
Qed.

(** C48_none_pending: a state from which wait_completions() returns. *)
Example ex_pool_return : exists s s' b b',
  pool_reach ex_op ex_follow 2 [[(0, None); (2, None)]; [(2, Some 9%Z)]] [5; 6; 8]%Z s /\
  pstep ex_op ex_follow s s' /\ (forall c c', a_main s <> QDone c c') /\ a_main s' = QDone b b' /\
  length (a_called s) = 4.
Proof.
  destruct (exec ex_op ex_follow (take (length ex_schedule - 1) ex_schedule) ex_init) as [s|] eqn:E; [|by vm_compute in E].
  exists s. pose proof (exec_reach _ _ _ _ _ E) as R. vm_compute in E. injection E as <-.
  do 3 eexists. split; [exact R|]. split; [apply ps_main; apply ms_return; done|]. done.
Qed.

(** C58 (refuted as stated): wait_completions(), hence the destructor that calls it,
    may return while a thread is about to use the condition variable and the lock of
    the scheduler. *)
Theorem C58_destructor_refuted : exists (subs : list (list ex_req)) (s : pst ex_req (list Z)),
  pool_reach ex_op ex_follow 1 subs [5; 6; 8]%Z s /\
  (exists b b', a_main s = QDone b b') /\ PNotify ∈ a_threads s /\ a_lock s = true.
Proof.
  exists [[(2, None)]].
  destruct (exec ex_op ex_follow (replicate 3 (Some 1) ++ replicate 6 (Some 0) ++ [None; None]) (pinit 1 [[(2, None)]] [5; 6; 8]%Z)) as [s|] eqn:E;
    [|by vm_compute in E].
  exists s. split; [by eapply exec_reach|]. vm_compute in E. simplify_eq. simpl.
  split_and!; [by do 2 eexists|left|done].
Qed.

(** C59 (refuted as stated): two threads that submit at the same time for the first
    time create two pools; one is leaked and the two threads use different pools. *)
Theorem C59_shared_pool_refuted : exists g,
  rtc gstep (GP None 0 [GRead; GRead]) g /\
  gp_made g = 2 /\ gp_threads g = [GGot 0; GGot 1].
Proof.
  exists (GP (Some 1) 2 [GGot 0; GGot 1]). split; [|done].
  eapply rtc_l; [apply (g_null 0 [] [GRead])|].
  eapply rtc_l; [apply (g_null 0 [GMake] [])|].
  eapply rtc_l; [apply (g_make None 0 [] [GMake])|].
  eapply rtc_l; [apply (g_return 0 1 [] [GMake])|].
  eapply rtc_l; [apply (g_make (Some 0) 1 [GGot 0] [])|].
  eapply rtc_l; [apply (g_return 1 2 [GGot 0] [])|].
  constructor.
Qed.

(** C59 (what holds): once the pool exists, however many threads use it, they all
    get that pool and no other is created; this is so when the first submission
    returned before other threads submit. *)
Theorem C59_shared_pool p made k g :
  rtc gstep (GP (Some p) made (replicate k GRead)) g ->
  gp_made g = made /\ gp_ptr g = Some p /\ Forall (fun t => t = GRead \/ t = GReturn \/ t = GGot p) (gp_threads g).
Proof.
  assert (Hi : forall g g', rtc gstep g g' ->
    gp_made g = made /\ gp_ptr g = Some p /\ Forall (fun t => t = GRead \/ t = GReturn \/ t = GGot p) (gp_threads g) ->
    gp_made g' = made /\ gp_ptr g' = Some p /\ Forall (fun t => t = GRead \/ t = GReturn \/ t = GGot p) (gp_threads g')).
  { intros g1 g2 H. induction H as [|g1 g2 g3 H _ IH]; [done|]. intros (E1 & E2 & E3). apply IH. clear IH.
    destruct H; simpl in *; simplify_eq; rewrite Forall_app, Forall_cons in E3; destruct E3 as (F1 & F2 & F3).
    - split_and!; [done..|]. rewrite Forall_app, Forall_cons. auto.
    - destruct F2 as [F2|[F2|F2]]; done.
    - split_and!; [done..|]. rewrite Forall_app, Forall_cons. auto. }
  intros H. apply (Hi _ _ H). simpl. split_and!; auto. apply Forall_replicate. auto.
Qed.
Theorem C59_first_alone g : rtc gstep (GP None 0 [GRead]) g -> gp_made g <= 1.
Proof.
  assert (Hi : forall g g' : gp, rtc gstep g g' ->
    (exists t, gp_threads g = [t] /\ gp_made g = (if decide (t ∈ [GRead; GMake]) then 0 else 1) /\
      (t = GRead -> gp_ptr g = None)) ->
    (exists t, gp_threads g' = [t] /\ gp_made g' = (if decide (t ∈ [GRead; GMake]) then 0 else 1) /\
      (t = GRead -> gp_ptr g' = None))).
  { intros g1 g2 H. induction H as [|g1 g2 g3 H _ IH]; [done|]. intros (t & E1 & E2 & E3). apply IH. clear IH.
    destruct H as [made t1 t2|p made t1 t2|o made t1 t2|p made t1 t2]; simpl in *;
      (destruct t1 as [|? [|? ?]]; simplify_eq/=); eexists; (split_and!; [done| |done]); try done.
    by specialize (E3 eq_refl). }
  intros H. destruct (Hi _ _ H) as (t & _ & E & _); [by exists GRead|]. rewrite E. case_decide; lia.
Qed.

Print Assumptions C48_exactly_once.
Print Assumptions C48_none_pending.
Print Assumptions C48_wait.
Print Assumptions C48_wait_snapshot.
Print Assumptions C48_no_deadlock.
Print Assumptions C48_terminates.
Print Assumptions C48_completes.
Print Assumptions C58_quiescent.
Print Assumptions C58_destructor_refuted.
Print Assumptions C59_shared_pool_refuted.
Print Assumptions C59_shared_pool.
Print Assumptions C59_first_alone.
