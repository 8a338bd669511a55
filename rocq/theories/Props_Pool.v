(** Final theorems about the thread pool (property C47). *)
From stdpp Require Import prelude.
From Coq Require Import Lia.
From Verif Require Import Base PoolModel PoolSpec PoolProofs.

(** The programs considered: plain threads that enqueue tasks on a first pool, whose
    tasks may enqueue tasks on a second one, and so on; a main thread that joins them
    in some order.  The tasks, their bodies, the number of pools, of threads and of
    workers, and the schedule are arbitrary. *)

(** When everything is joined, the results delivered are exactly those of the tasks
    that were accepted, each of them once; nothing is queued or running. *)
Theorem C47_exactly_once :
  forall (T R : Type) (code : T -> list (act T R)) bodies sizes order s,
    bodies <> [] -> Forall (fun n => 0 < n) sizes -> Forall (fits code (length sizes)) bodies ->
    (forall k, k <= length sizes -> k ∈ order) ->
    reaches code (start bodies sizes order) s -> s_main s = MJoin [] ->
    s_out s ++ (s_refused s ≫= fun x => delivers code x.1 (code x.2)) ≡ₚ
      bodies ≫= delivers code (length sizes) /\
    Forall (fun p => p_queue p = [] /\ Forall (fun w => w = WExit) (p_workers p)) (s_pools s).
Proof.
  intros T R code bodies sizes order s Hb Hs Hf Ho H Hm.
  pose proof (reach_inv_start code bodies sizes order Hb Hs Hf) as I0.
  pose proof (reach_inv_reaches code order _ _ H I0) as I.
  destruct (reaches_total code _ _ H (ri_fit _ _ _ I0)) as [E _].
  rewrite start_total in E.
  assert (HL : length (s_pools s) = S (length sizes)).
  { rewrite (reaches_length code _ _ H). simpl. by rewrite fmap_length. }
  destruct (inv_finished code order s I Hm) as [D P]; [intros; apply Ho; lia|].
  split.
  - rewrite <- E. unfold total. by rewrite P.
  - rewrite Forall_forall in D. apply Forall_forall. intros p Hp. pose proof (D p Hp) as Dp.
    split; [|exact Dp]. pose proof (ri_exits _ _ _ I) as Ex. unfold exits in Ex.
    pose proof (ri_nonempty _ _ _ I) as Ne. unfold nonempty_pools in Ne. rewrite Forall_forall in Ex, Ne.
    specialize (Ne p Hp). specialize (Ex p Hp). unfold exit_ok in Ex. unfold done_pool in Dp.
    destruct (p_workers p) as [|w ws]; [done|]. apply Forall_cons in Dp as [-> _].
    apply Ex. left.
Qed.
Print Assumptions C47_exactly_once.

(** As soon as the join of a pool has returned, every task it had accepted is
    finished, whatever the other pools and threads are doing. *)
Theorem C47_joined :
  forall (T R : Type) (code : T -> list (act T R)) bodies sizes dn ks s k p,
    bodies <> [] -> Forall (fun n => 0 < n) sizes -> Forall (fits code (length sizes)) bodies ->
    reaches code (start bodies sizes (dn ++ ks)) s -> s_main s = MJoin ks ->
    k ∈ dn -> s_pools s !! k = Some p ->
    p_queue p = [] /\ Forall (fun w => w = WExit) (p_workers p).
Proof.
  intros T R code bodies sizes dn ks s k p Hb Hs Hf H Hm Hk Hp.
  pose proof (reach_inv_start code bodies sizes (dn ++ ks) Hb Hs Hf) as I0.
  pose proof (reach_inv_reaches code _ _ _ H I0) as I.
  destruct (ri_joined _ _ _ I) as (dn' & E & Hd). rewrite Hm in E. apply app_inv_tail in E. subst dn'.
  pose proof (Hd k p Hk Hp) as D. split; [|exact D].
  pose proof (ri_exits _ _ _ I) as Ex. pose proof (ri_nonempty _ _ _ I) as Ne.
  pose proof (Forall_lookup_1 _ _ _ _ Ex Hp) as Ex'. pose proof (Forall_lookup_1 _ _ _ _ Ne Hp) as Ne'.
  unfold exit_ok in Ex'. simpl in Ne'. unfold done_pool in D.
  destruct (p_workers p) as [|w ws]; [done|]. apply Forall_cons in D as [-> _]. apply Ex'. left.
Qed.
Print Assumptions C47_joined.

(** If the pools are joined in the order of the chain, after the threads, then no
    enqueue is refused, at any time. *)
Theorem C47_no_refusal :
  forall (T R : Type) (code : T -> list (act T R)) bodies sizes s,
    reaches code (start bodies sizes (seq 0 (S (length sizes)))) s -> s_refused s = [].
Proof.
  intros T R code bodies sizes s H.
  by destruct (reaches_in_order code _ _ H (start_in_order bodies sizes _)) as (k & n & _ & _ & ?).
Qed.
Print Assumptions C47_no_refusal.

(** Once a pool is stopped it accepts nothing: its queue only gets shorter. *)
Theorem C47_stopped_accepts_nothing :
  forall (T R : Type) (code : T -> list (act T R)) (s s' : sys T R) k p,
    reaches code s s' -> s_pools s !! k = Some p -> p_stop p = true ->
    exists p', s_pools s' !! k = Some p' /\ p_stop p' = true /\ p_queue p' `suffix_of` p_queue p.
Proof.
  intros T R code s s' k p H. revert p. induction H as [s|s1 s2 s3 H1 _ IH]; intros p Hp Hst; [by eauto|].
  destruct (step_stopped code _ _ _ _ H1 Hp Hst) as (p2 & Hp2 & Hst2 & Hq).
  destruct (IH p2 Hp2 Hst2) as (p3 & Hp3 & Hst3 & Hq3). exists p3. split_and!; auto. by etransitivity.
Qed.
Print Assumptions C47_stopped_accepts_nothing.

(** No deadlock: in every state that can be reached, something can move until all the
    pools are joined. *)
Theorem C47_no_deadlock :
  forall (T R : Type) (code : T -> list (act T R)) bodies sizes order s,
    bodies <> [] -> Forall (fun n => 0 < n) sizes -> Forall (fits code (length sizes)) bodies ->
    Forall (fun k => k <= length sizes) order ->
    reaches code (start bodies sizes order) s ->
    s_main s = MJoin [] \/ exists s', step code s s'.
Proof.
  intros T R code bodies sizes order s Hb Hs Hf Ho H.
  pose proof (reach_inv_reaches code _ _ _ H (reach_inv_start code bodies sizes order Hb Hs Hf)) as I.
  apply (inv_progress code order s I). rewrite (reaches_length code _ _ H). simpl. rewrite fmap_length.
  eapply Forall_impl; [exact Ho|]. simpl. lia.
Qed.
Print Assumptions C47_no_deadlock.

(** No lost wake-up: while a task is queued, some step is possible even if the main
    thread never joins. *)
Theorem C47_no_lost_wakeup :
  forall (T R : Type) (code : T -> list (act T R)) bodies sizes order s k p,
    bodies <> [] -> Forall (fun n => 0 < n) sizes -> Forall (fits code (length sizes)) bodies ->
    reaches code (start bodies sizes order) s ->
    s_pools s !! k = Some p -> p_queue p <> [] -> exists s', step code s s'.
Proof.
  intros T R code bodies sizes order s k p Hb Hs Hf H Hp Hq.
  pose proof (reach_inv_reaches code _ _ _ H (reach_inv_start code bodies sizes order Hb Hs Hf)) as I.
  eapply (queued_progress code s k p); try done; apply I.
Qed.
Print Assumptions C47_no_lost_wakeup.

(** Every execution without spurious wake-ups is finite, from any state that can be
    reached; and some execution completes. *)
Theorem C47_terminates :
  forall (T R : Type) (code : T -> list (act T R)) bodies sizes order s,
    bodies <> [] -> Forall (fun n => 0 < n) sizes -> Forall (fits code (length sizes)) bodies ->
    Forall (fun k => k <= length sizes) order ->
    reaches code (start bodies sizes order) s ->
    (exists bound, forall n s', nsteps (step code) n s s' -> n <= bound) /\
    exists s', reaches code s s' /\ s_main s' = MJoin [].
Proof.
  intros T R code bodies sizes order s Hb Hs Hf Ho H.
  pose proof (reach_inv_reaches code _ _ _ H (reach_inv_start code bodies sizes order Hb Hs Hf)) as I.
  split.
  - exists (measure code s). intros n s' Hn. apply (steps_bounded code n s s' Hn), I.
  - apply (inv_completes code order s I). rewrite (reaches_length code _ _ H). simpl. rewrite fmap_length.
    eapply Forall_impl; [exact Ho|]. simpl. lia.
Qed.
Print Assumptions C47_terminates.

(** The hypotheses hold of a program with two threads, and two pools of 2 and 1
    workers: tasks of the first pool are numbers below 10, those of the second the
    others. *)
Definition ex_code (t : nat) : list (act nat nat) :=
  if bool_decide (t < 10) then [AEnq (10 + t); AEmit t] else [AEmit t].
Definition ex_bodies : list (list (act nat nat)) := [[AEnq 1; AEnq 2; AEnq 3]; [AEnq 4; AEmit 100]].
Example ex_pool_ok :
  ex_bodies <> [] /\ Forall (fun n => 0 < n) [2; 1] /\ Forall (fits ex_code 2) ex_bodies /\
  ex_bodies ≫= delivers ex_code 2 = [11; 1; 12; 2; 13; 3; 14; 4; 100].
Proof.
  split_and!; [done|repeat constructor|repeat constructor|by vm_compute].
Qed.
(** With no worker in the pool the tasks are never run, but join returns. *)
Example ex_no_worker :
  exists s, reaches ex_code (start [[AEnq 12]] [0] [0; 1]) s /\ s_main s = MJoin [] /\ s_out s = [].
Proof.
  unfold start. simpl. unfold new_pool, threads. simpl.
  eexists. split.
  - eapply rtc_l; [left; eapply (st_enq _ [] _ _ [] _ _ [] _ _ [])|]. simpl.
    eapply rtc_l; [left; eapply (st_notify_none _ [] _ _ [] _ [] _ _ [] []); apply not_elem_of_nil|]. simpl.
    eapply rtc_l; [left; eapply (st_worker _ [] _ _ [] _ []); constructor|]. simpl.
    eapply rtc_l; [left; eapply (st_worker _ [] _ _ [] _ []); constructor|]. simpl.
    eapply rtc_l; [left; eapply (st_stop _ [])|]. simpl.
    eapply rtc_l; [left; eapply (st_notify_all _ [])|]. simpl.
    eapply rtc_l; [left; eapply (st_joined _ []); by constructor|]. simpl.
    eapply rtc_l; [left; eapply (st_stop _ [_])|]. simpl.
    eapply rtc_l; [left; eapply (st_notify_all _ [_])|]. simpl.
    eapply rtc_l; [left; eapply (st_joined _ [_]); constructor|]. simpl. apply rtc_refl.
  - done.
Qed.
