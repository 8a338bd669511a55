(** The counters of the kernel-based IO scheduler, when io_getevents does not fail. *)
From stdpp Require Import prelude.
From Coq Require Import ZArith NArith Lia.
From Verif Require Import Base AioPoolProofs AioLinuxModel AioLinuxProofs.
Local Open Scope N_scope.
Local Arguments N.of_nat : simpl never.
Local Arguments N.modulo : simpl never.
Local Arguments N.pow : simpl never.
Local Arguments N.add : simpl never.
Local Arguments Z.of_nat : simpl never.
Local Arguments Z.to_nat : simpl never.

(** Events taken from the kernel and not counted. *)
Definition uncounted (n : npc) : nat :=
  match n with NLock e | NSet e | NUnlock e => length e | NCall _ num => Z.to_nat num | _ => 0 end.
Definition num_ok (n : npc) : Prop := match n with NCall _ num => (0 <= num)%Z | _ => True end.
Definition nprep (t : sthr) : nat := length (sprep t).
Definition ncreqs (cs : list lcall) : nat := sum_list_with (fun c => length (call_reqs c)) cs.
(** Requests a thread may still count. *)
Definition future (t : sthr) : nat :=
  match t.1 with SPrep _ todo _ => length todo | _ => 0 end + ncreqs (t.2).
Definition total (progs : list (list lcall)) : N := N.of_nat (sum_list_with ncreqs progs).

Section count.
  Context (page : N) (cap : nat) (agn : nat -> bool) (gerr : Z -> Prop).
  Notation lstep := (lstep page cap agn gerr).
  Notation sstep := (sstep page cap agn).
  Notation nstep := (nstep gerr).

  Record cinv (T : N) (s : lst) : Prop := CInv {
    n_num : num_ok (l_notify s);
    n_sum : l_subm s = l_comp s + l_fail s +
      N.of_nat (sum_list_with nprep (l_threads s) + length (l_inflight s) + length (l_done s) +
                uncounted (l_notify s));
    n_total : l_subm s + N.of_nat (sum_list_with future (l_threads s)) <= T
  }.

  Lemma linit_cinv progs : cinv (total progs) (linit progs).
  Proof.
    assert (E1 : sum_list_with nprep (pair SIdle <$> progs) = 0%nat).
    { induction progs as [|l progs IH]; [done|]. csimpl. rewrite IH. done. }
    assert (E2 : sum_list_with future (pair SIdle <$> progs) = sum_list_with ncreqs progs).
    { clear E1. induction progs as [|l progs IH]; [done|]. csimpl. by rewrite IH. }
    split; simpl; auto.
    - by rewrite E1.
    - rewrite E2. unfold total. lia.
  Qed.

  Lemma mid_future t1 t t2 : sum_list_with future (t1 ++ t :: t2) = (future t + sum_list_with future (t1 ++ t2))%nat.
  Proof. apply sum_mid. Qed.

  Context (T : N) (HT : T < 2 ^ 64) (Hg : forall e, ~ gerr e).

  Lemma sstep_cinv s t1 t t2 s' t' : linv page s -> cinv T s -> l_threads s = t1 ++ t :: t2 -> sstep s t s' t' ->
    cinv T (lset_threads s' (t1 ++ t' :: t2)).
  Proof.
    intros I [I1 I2 I3] Ht Hs. pose proof (v_calls _ _ I) as G. rewrite Ht, Forall_app, Forall_cons in G.
    destruct G as (_ & G & _). rewrite Ht in I2, I3. rewrite sum_mid in I2, I3.
    assert (Hgo : forall sb cp fl ifl dn, l_notify s' = l_notify s -> l_subm s' = sb -> l_comp s' = cp -> l_fail s' = fl ->
      l_inflight s' = ifl -> l_done s' = dn ->
      sb = cp + fl + N.of_nat (nprep t' + sum_list_with nprep (t1 ++ t2) + length ifl + length dn + uncounted (l_notify s)) ->
      sb + N.of_nat (future t' + sum_list_with future (t1 ++ t2)) <= T ->
      cinv T (lset_threads s' (t1 ++ t' :: t2))).
    { intros sb cp fl ifl dn E <- <- <- <- <- H1 H2. split; simpl.
      - by rewrite E.
      - by rewrite sum_mid, E.
      - by rewrite sum_mid. }
    set (X := sum_list_with nprep (t1 ++ t2)) in *. set (Y := sum_list_with future (t1 ++ t2)) in *.
    clearbody X Y. clear Ht.
    destruct Hs; simpl in *; eapply Hgo; try done; clear Hgo; unfold nprep, future, sprep in *; simpl in *;
      rewrite ?app_length in *; simpl in *; try lia.
    - destruct G as [(_ & ->)|(? & _)]; [|done]. simpl in *. lia.
    - rewrite N.mod_small by lia. lia.
    - rewrite N.mod_small by lia. lia.
    - rewrite N.mod_small by lia. lia.
  Qed.

  Lemma wake_future t : future (wake t) = future t.
  Proof. by destruct t as [[] ?]. Qed.
  Lemma wake_nprep t : nprep (wake t) = nprep t.
  Proof. unfold nprep. by rewrite wake_sprep. Qed.

  Lemma add_events_ok cp num : (0 <= num)%Z -> cp + N.of_nat (Z.to_nat num) < 2 ^ 64 ->
    add_events cp num = cp + N.of_nat (Z.to_nat num).
  Proof. intros H1 H2. unfold add_events. rewrite Z.mod_small; lia. Qed.

  Lemma nstep_cinv s s' : cinv T s -> nstep s s' -> cinv T s'.
  Proof.
    intros [I1 I2 I3] Hs.
    destruct Hs; simpl in *; split; simpl; auto; rewrite ?app_length in *; try lia.
    - by destruct (more_to_come cp f sm).
    - by destruct (more_to_come cp f sm).
    - by destruct (more_to_come cp fl sb).
    - by destruct (more_to_come cp fl sb).
    - by exfalso; eapply Hg.
    - rewrite sum_wake by apply wake_nprep. lia.
    - rewrite sum_wake by apply wake_future. lia.
    - rewrite add_events_ok by lia. lia.
  Qed.

  Lemma lstep_cinv s s' : linv page s -> cinv T s -> lstep s s' -> cinv T s'.
  Proof.
    intros L I H. destruct H.
    - by eapply sstep_cinv.
    - by eapply nstep_cinv.
    - destruct I as [I1 I2 I3]. by split.
    - destruct I as [I1 I2 I3]. by split.
    - destruct I as [I1 I2 I3]. split; simpl in *; auto. rewrite !app_length in *. simpl in *. lia.
  Qed.

  Lemma lreach_cinv s s' : rtc lstep s s' -> linv page s -> cinv T s -> cinv T s'.
  Proof.
    induction 1 as [|s s1 s2 H _ IH]; [done|]. intros L I. apply IH; [by eapply lstep_inv|by eapply lstep_cinv].
  Qed.

  (** * After the call of wait_completions *)
  Record qinv (s : lst) : Prop := QInv {
    q_stop : l_stop s = true;
    q_main : l_main s <> WStart;
    q_idle : Forall (fun t => t.1 = SIdle) (l_threads s);
    q_read : match l_notify s with
             | NHaveF f => f = l_fail s
             | NHaveS sb => sb = l_subm s
             | NExit => l_comp s + l_fail s = l_subm s
             | _ => True
             end
  }.

  Lemma more_false s f sm : cinv T s -> f = l_fail s -> sm = l_subm s ->
    more_to_come (l_comp s) f sm = false -> l_comp s + l_fail s = l_subm s.
  Proof.
    intros [I1 I2 I3] -> -> H. unfold more_to_come in H. apply N.ltb_ge in H.
    rewrite N.mod_small in H by lia. lia.
  Qed.

  Lemma lstep_qinv s s' : cinv T s -> qinv s -> lstep s s' -> qinv s'.
  Proof.
    intros I [Q1 Q2 Q3 Q4] H. destruct H as [s t1 t t2 s' t' Ht Hs|s s' Hs| | |].
    - rewrite Ht in Q3. rewrite Forall_app, Forall_cons in Q3. destruct Q3 as (F1 & F & F2).
      destruct Hs; simpl in *; try done. split; simpl; auto. rewrite Forall_app, Forall_cons. auto.
    - destruct Hs; simpl in *; try done; split; simpl; auto.
      + destruct (more_to_come cp f sm) eqn:E; [done|].
        apply (more_false (LSt st sm cp fl lk wt ifl dn (NHaveF f) ts m ac re no rt) f sm); done.
      + destruct (more_to_come cp fl sb) eqn:E; [done|].
        apply (more_false (LSt st sm cp fl lk wt ifl dn (NHaveS sb) ts m ac re no rt) fl sb); done.
      + apply Forall_wake; [|done]. intros [[] ?]; simpl; done.
    - by split.
    - by split.
    - by split.
  Qed.

  Lemma lreach_qinv s s' : rtc lstep s s' -> linv page s -> cinv T s -> qinv s -> qinv s'.
  Proof.
    induction 1 as [|s s1 s2 H _ IH]; [done|]. intros L I Q. apply IH; [by eapply lstep_inv|by eapply lstep_cinv|by eapply lstep_qinv].
  Qed.

  Lemma start_qinv s s1 : linv page s -> Forall (fun t => t.1 = SIdle) (l_threads s) ->
    l_main s = WStart -> lstep s s1 -> l_main s1 = WJoin -> l_stop s = false -> qinv s1.
  Proof.
    intros I HF Hm H Hm1 Hst. pose proof (v_stop _ _ I Hst) as [_ Hn].
    destruct H as [s t1 t t2 s' t' Ht Hs|s s' Hs| | |].
    - exfalso. destruct Hs; simpl in *; congruence.
    - exfalso. destruct Hs; simpl in *; congruence.
    - split; simpl in *; auto. destruct nt; done.
    - simpl in *. congruence.
    - simpl in *. congruence.
  Qed.

  Lemma exit_empty s : cinv T s -> l_comp s + l_fail s = l_subm s -> l_notify s = NExit ->
    l_inflight s = [] /\ l_done s = [].
  Proof.
    intros [I1 I2 I3] H Hn. rewrite Hn in I2. simpl in I2.
    split; apply nil_length_inv; lia.
  Qed.

  (** * The loop can end *)
  Definition something (s : lst) : bool := bool_decide (l_inflight s <> [] \/ l_done s <> []).
  Local Arguments something : simpl never.
  Definition nrank (b : bool) (n : npc) : nat :=
    let q := if b then 5%nat else 0%nat in
    match n with
    | NExit => 0 | NGet => 10
    | NHaveF _ | NHaveS _ => q + 6
    | NCond => q + 7 | NTop => q + 8
    | NCall evs _ => q + 9 + length evs
    | NUnlock evs => q + 10 + length evs
    | NSet evs => q + 11 + length evs
    | NLock evs => q + 12 + length evs
    end%nat.
  Definition mrk (m : wpc) : nat := match m with WStart => 2 | WJoin => 1 | WDone => 0 end.
  Definition lmeasure (s : lst) : nat :=
    (20 * length (l_inflight s) + 16 * length (l_done s) + nrank (something s) (l_notify s) + mrk (l_main s))%nat.

  Lemma can_step s : linv page s -> cinv T s -> qinv s -> l_main s <> WDone ->
    exists s', lstep s s' /\ (lmeasure s' < lmeasure s)%nat.
  Proof.
    intros I C [Q1 Q2 Q3 Q4] Hm. destruct s as [st sm cp fl lk wt ifl dn nt ts m ac re no rt]. simpl in *. subst st.
    destruct ifl as [|r ifl].
    2: { eexists. split; [apply (ls_kernel _ _ _ _ true sm cp fl lk wt [] r ifl dn nt ts m ac re no rt 0)|].
      unfold lmeasure. simpl.
      assert (E1 : something (LSt true sm cp fl lk wt ifl (dn ++ [(r, 0%Z)]) nt ts m ac (re ++ [(r, 0%Z)]) no rt) = true).
      { apply bool_decide_eq_true. right. simpl. by destruct dn. }
      assert (E2 : something (LSt true sm cp fl lk wt (r :: ifl) dn nt ts m ac re no rt) = true).
      { apply bool_decide_eq_true. left. done. }
      rewrite E1, E2, app_length. simpl. lia. }
    assert (Hlk : match nt with NSet _ | NUnlock _ => True | _ => lk = false end).
    { pose proof (v_lock _ _ I) as E. simpl in E.
      assert (Hz : sum_list_with sholder ts = 0%nat).
      { clear -Q3. induction Q3 as [|t ts H Q3 IH]; [done|]. simpl. rewrite IH. destruct t as [[] ?]; done. }
      rewrite Hz in E. destruct nt, lk; simpl in E; try done; lia. }
    assert (Hs : forall ts' nt' lk' wt' cp' no', something (LSt true sm cp' fl lk' wt' [] dn nt' ts' m ac re no' rt) = something (LSt true sm cp fl lk wt [] dn nt ts m ac re no rt)) by done.
    destruct nt as [| |f|sb| |evs|evs|evs|[|e evs] num|].
    - eexists. split; [apply ls_notify, ns_stop|]. unfold lmeasure. simpl. rewrite Hs. destruct (something _); simpl; lia.
    - eexists. split; [apply ls_notify, ns_failed|]. unfold lmeasure. simpl. rewrite Hs. destruct (something _); simpl; lia.
    - eexists. split; [apply ls_notify, ns_decide_f|]. unfold lmeasure. simpl. rewrite Hs.
      destruct (more_to_come cp f sm) eqn:E; [|simpl; destruct (something _); lia].
      unfold more_to_come in E. apply N.ltb_lt in E. destruct C as [C1 C2 C3]. simpl in *. subst f.
      assert (something (LSt true sm cp fl lk wt [] dn (NHaveF fl) ts m ac re no rt) = true) as ->; [|simpl; lia].
      apply bool_decide_eq_true. right. simpl. intros ->. simpl in C2.
      assert (sum_list_with nprep ts = 0%nat).
      { clear -Q3. induction Q3 as [|t ts H Q3 IH]; [done|]. simpl. rewrite IH. destruct t as [[] ?]; done. }
      rewrite N.mod_small in E by lia. lia.
    - eexists. split; [apply ls_notify, ns_decide_s|]. unfold lmeasure. simpl. rewrite Hs.
      destruct (more_to_come cp fl sb) eqn:E; [|simpl; destruct (something _); lia].
      unfold more_to_come in E. apply N.ltb_lt in E. destruct C as [C1 C2 C3]. simpl in *. subst sb.
      assert (something (LSt true sm cp fl lk wt [] dn (NHaveS sm) ts m ac re no rt) = true) as ->; [|simpl; lia].
      apply bool_decide_eq_true. right. simpl. intros ->. simpl in C2.
      assert (sum_list_with nprep ts = 0%nat).
      { clear -Q3. induction Q3 as [|t ts H Q3 IH]; [done|]. simpl. rewrite IH. destruct t as [[] ?]; done. }
      rewrite N.mod_small in E by lia. lia.
    - destruct dn as [|e dn].
      + eexists. split; [apply ls_notify, ns_none|]. unfold lmeasure. simpl. lia.
      + eexists. split; [apply ls_notify, (ns_events _ true sm cp fl lk wt [] [e] dn); [done|simpl; lia]|].
        unfold lmeasure. simpl length. simpl l_notify. simpl l_main. simpl l_inflight. simpl l_done.
        assert (Hr : forall b, (nrank b (NLock [e]) <= 18)%nat) by (intros []; simpl; lia).
        assert (Hr' : forall b, (nrank b NGet = 10)%nat) by (intros []; done).
        rewrite Hr'. match goal with |- context [nrank ?b (NLock [e])] => specialize (Hr b) end. simpl length. lia.
    - subst lk. eexists. split; [apply ls_notify, ns_lock|]. unfold lmeasure. simpl. rewrite Hs. destruct (something _); simpl; lia.
    - eexists. split; [apply ls_notify, ns_set|]. unfold lmeasure. simpl. rewrite Hs. destruct (something _); simpl; lia.
    - eexists. split; [apply ls_notify, ns_unlock|]. unfold lmeasure. simpl. rewrite Hs. destruct (something _); simpl; lia.
    - eexists. split; [apply ls_notify, ns_add|]. unfold lmeasure. simpl. rewrite Hs. destruct (something _); simpl; lia.
    - eexists. split; [apply ls_notify, ns_call|]. unfold lmeasure. simpl. rewrite Hs. destruct (something _); simpl; lia.
    - destruct m; [done| |done]. eexists. split; [apply ls_join|]. unfold lmeasure. simpl. lia.
  Qed.

  Lemma can_finish s : linv page s -> cinv T s -> qinv s ->
    exists s', rtc lstep s s' /\ l_main s' = WDone.
  Proof.
    remember (lmeasure s) as k eqn:Ek. revert s Ek.
    induction (lt_wf k) as [k _ IH]. intros s -> I C Q.
    destruct (decide (l_main s = WDone)) as [Hm|Hm]; [exists s; split; [constructor|done]|].
    destruct (can_step s I C Q Hm) as (s1 & H1 & Hlt).
    destruct (IH _ Hlt s1 eq_refl) as (s' & Hr & Hm').
    - by eapply lstep_inv.
    - by eapply lstep_cinv.
    - by eapply lstep_qinv.
    - exists s'. split; [by eapply rtc_l|done].
  Qed.
End count.
