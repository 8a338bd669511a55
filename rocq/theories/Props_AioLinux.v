(** C49, C60 and C61: the IO scheduler that uses the kernel's asynchronous IO. *)
From stdpp Require Import prelude.
From Coq Require Import ZArith NArith Lia.
From Verif Require Import Base AioPoolProofs AioLinuxModel AioLinuxProofs AioLinuxCount AioLinuxExec.
Local Open Scope N_scope.

(** What the kernel requires of a request, in terms of divisibility. *)
Definition aligned (page : N) (r : lreq) : Prop :=
  (page | r_buf r) /\ (512 | r_len r) /\ (512 | r_off r)%Z.

Lemma is_aligned_ok k x : is_aligned x (2 ^ k) = true <-> (2 ^ k | x).
Proof.
  unfold is_aligned. rewrite N.eqb_eq.
  replace (2 ^ k - 1) with (N.ones k) by (rewrite N.ones_equiv; lia).
  rewrite N.land_ones. rewrite N.mod_divide by (apply N.pow_nonzero; done). done.
Qed.

Lemma check_args_ok k r : check_args (2 ^ k) r = 0%Z <-> aligned (2 ^ k) r.
Proof.
  unfold check_args, aligned. rewrite <- is_aligned_ok.
  destruct (is_aligned (r_buf r) (2 ^ k)); simpl; [|split; [done|by intros []]].
  rewrite <- (N.mod_divide (r_len r) 512) by done.
  destruct (N.eqb_spec (r_len r mod 512) 0) as [E|E]; simpl; [|split; [done|by intros (_ & ? & _)]].
  rewrite <- (Z.rem_divide (r_off r) 512) by done.
  destruct (Z.eqb_spec (Z.rem (r_off r) 512) 0) as [E'|E']; simpl; [done|].
  split; [done|by intros (_ & _ & ?)].
Qed.

Section props.
  Context (k : N) (cap : nat) (agn : nat -> bool) (gerr : Z -> Prop).
  Notation page := (2 ^ k).
  Notation lstep := (lstep page cap agn gerr).

  Lemma reach_linv progs s : rtc lstep (linit progs) s -> linv page s.
  Proof. intros H. eapply lreach_inv; [exact H|apply linit_inv]. Qed.

  (** C49: whatever the kernel does, only aligned requests reach it. *)
  Theorem C49_aligned progs s : rtc lstep (linit progs) s -> Forall (aligned page) (l_accepted s).
  Proof.
    intros H. apply reach_linv in H. eapply Forall_impl; [exact (v_ok _ _ H)|].
    intros r. simpl. by rewrite check_args_ok.
  Qed.

  (** C49: a request that is not aligned is refused, with the error code of scheduler.hpp
      that tells what is wrong with it, or because the scheduler was stopped. *)
  Theorem C49_refused progs s r z : rtc lstep (linit progs) s ->
    (Single r, z) ∈ l_returned s -> ~ aligned page r ->
    z = (-1024)%Z /\ ~ (page | r_buf r) \/
    z = (-1025)%Z /\ ~ (512 | r_off r)%Z \/
    z = (-1026)%Z /\ ~ (512 | r_len r) \/
    z = (-1027)%Z.
  Proof.
    intros H Hin Hr. apply reach_linv in H. pose proof (v_ret _ _ H) as F. rewrite Forall_forall in F.
    destruct (F _ Hin) as [E|[(r' & E1 & E2 & E3)|(E & _)]]; simpl in *.
    - do 3 right. exact E.
    - injection E1 as <-. rewrite E3. unfold check_args in *. rewrite <- is_aligned_ok.
      destruct (is_aligned _ _); [|by left]. simpl in *.
      rewrite <- (N.mod_divide (r_len r) 512) by done. rewrite <- (Z.rem_divide (r_off r) 512) by done.
      destruct (N.eqb_spec (r_len r mod 512) 0) as [El|El]; simpl in *; [|by right; right; left].
      destruct (Z.eqb_spec (Z.rem (r_off r) 512) 0) as [Eo|Eo]; simpl in *; [done|by right; left].
    - destruct Hr. apply check_args_ok. by apply E.
  Qed.
  (** C49: an aligned request is refused only because the scheduler was stopped or the kernel
      failed. *)
  Theorem C49_accepted progs s r z : rtc lstep (linit progs) s ->
    (Single r, z) ∈ l_returned s -> aligned page r -> z = 1%Z \/ z = (-1)%Z \/ z = (-1027)%Z.
  Proof.
    intros H Hin Hr. apply reach_linv in H. pose proof (v_ret _ _ H) as F. rewrite Forall_forall in F.
    apply check_args_ok in Hr.
    destruct (F _ Hin) as [E|[(r' & E1 & E2 & E3)|(_ & [E|E])]]; simpl in *.
    - by right; right.
    - injection E1 as <-. done.
    - by right; left.
    - left. rewrite E. unfold filter, list_filter. rewrite decide_True by done. done.
  Qed.

  (** C49: whatever the kernel does, even if io_getevents fails, a callback is called
      at most once per accepted request, with the result given by the kernel. *)
  Theorem C49_at_most_once progs s : rtc lstep (linit progs) s ->
    exists unfinished unreported,
      l_accepted s ≡ₚ unfinished ++ (l_results s).*1 /\ l_results s ≡ₚ unreported ++ l_notified s.
  Proof.
    intros H. apply reach_linv in H. exists (l_inflight s), (l_done s ++ held (l_notify s)).
    split; [apply H|]. rewrite (v_res _ _ H). by rewrite (assoc_L (++)).
  Qed.

  (** C49: if io_getevents does not fail, and if no submission is in progress when
      wait_completions() is called (as scheduler.hpp:32 requires), then when the loop
      has stopped every accepted request has been notified exactly once, with the
      result given by the kernel; this holds from then on, and when
      wait_completions() has returned. *)
  Theorem C49_all_notified progs s s1 s' :
    total progs < 2 ^ 64 -> (forall e, ~ gerr e) ->
    rtc lstep (linit progs) s ->
    Forall (fun t => t.1 = SIdle) (l_threads s) -> l_stop s = false ->
    lstep s s1 -> l_main s1 = WJoin ->
    rtc lstep s1 s' -> l_notify s' = NExit \/ l_main s' = WDone ->
    l_accepted s' ≡ₚ (l_notified s').*1 /\ l_results s' ≡ₚ l_notified s'.
  Proof.
    intros HT Hg H HF Hst H1 Hm1 H2 Hx.
    pose proof (reach_linv _ _ H) as I.
    assert (C : cinv (total progs) s) by exact (lreach_cinv page cap agn gerr _ HT Hg _ s H (linit_inv _ _) (linit_cinv _)).
    assert (I1 : linv page s1) by (by eapply lstep_inv).
    assert (C1 : cinv (total progs) s1) by exact (lstep_cinv page cap agn gerr _ HT Hg s s1 I C H1).
    assert (Q1 : qinv s1).
    { destruct (v_stop _ _ I Hst) as [Hm _]. exact (start_qinv page cap agn gerr s s1 I HF Hm H1 Hm1 Hst). }
    assert (I2 : linv page s') by (by eapply lreach_inv).
    assert (C2 : cinv (total progs) s') by exact (lreach_cinv page cap agn gerr _ HT Hg s1 s' H2 I1 C1).
    assert (Q2 : qinv s') by exact (lreach_qinv page cap agn gerr _ HT Hg s1 s' H2 I1 C1 Q1).
    assert (Hn : l_notify s' = NExit) by (destruct Hx as [?|Hx]; [done|by apply (v_done _ _ I2)]).
    pose proof (q_read _ Q2) as E. rewrite Hn in E.
    destruct (exit_empty _ HT _ C2 E Hn) as [E1 E2].
    pose proof (v_acc _ _ I2) as A. pose proof (v_res _ _ I2) as R.
    rewrite E1 in A. rewrite E2, Hn in R. simpl in A, R. split; [|done]. by rewrite A, R.
  Qed.

  (** C49: under the same conditions, wait_completions() can always return. *)
  Theorem C49_can_finish progs s s1 s' :
    total progs < 2 ^ 64 -> (forall e, ~ gerr e) ->
    rtc lstep (linit progs) s ->
    Forall (fun t => t.1 = SIdle) (l_threads s) -> l_stop s = false ->
    lstep s s1 -> l_main s1 = WJoin ->
    rtc lstep s1 s' -> exists s'', rtc lstep s' s'' /\ l_main s'' = WDone.
  Proof.
    intros HT Hg H HF Hst H1 Hm1 H2.
    pose proof (reach_linv _ _ H) as I.
    assert (C : cinv (total progs) s) by exact (lreach_cinv page cap agn gerr _ HT Hg _ s H (linit_inv _ _) (linit_cinv _)).
    assert (I1 : linv page s1) by (by eapply lstep_inv).
    assert (C1 : cinv (total progs) s1) by exact (lstep_cinv page cap agn gerr _ HT Hg s s1 I C H1).
    assert (Q1 : qinv s1).
    { destruct (v_stop _ _ I Hst) as [Hm _]. exact (start_qinv page cap agn gerr s s1 I HF Hm H1 Hm1 Hst). }
    apply (can_finish page cap agn gerr _ HT Hg).
    - by eapply lreach_inv.
    - exact (lreach_cinv page cap agn gerr _ HT Hg s1 s' H2 I1 C1).
    - exact (lreach_qinv page cap agn gerr _ HT Hg s1 s' H2 I1 C1 Q1).
  Qed.

  (** C49: calls made after wait_completions() are refused: a state where the stop flag
      is set and no submission is in progress accepts nothing more. *)
  Theorem C49_closed progs s s' :
    rtc lstep (linit progs) s -> Forall (fun t => t.1 = SIdle) (l_threads s) -> l_stop s = true ->
    rtc lstep s s' -> l_accepted s' = l_accepted s.
  Proof.
    intros _ HF Hst H.
    assert (Hi : Forall (fun t => t.1 = SIdle) (l_threads s') /\ l_stop s' = true /\ l_accepted s' = l_accepted s).
    2: by apply Hi.
    induction H as [|s s1 s2 H _ IH]; [done|].
    assert (Hi : Forall (fun t => t.1 = SIdle) (l_threads s1) /\ l_stop s1 = true /\ l_accepted s1 = l_accepted s).
    { destruct H as [s t1 t t2 s' t' Ht Hs|s s' Hs| | |]; try done.
      - rewrite Ht, Forall_app, Forall_cons in HF. destruct HF as (F1 & F & F2).
        destruct Hs; simpl in *; try done. split; [|done]. rewrite Forall_app, Forall_cons. auto.
      - destruct Hs; simpl in *; try done. split; [|done]. apply Forall_wake; [|done]. intros [[] ?]; done. }
    destruct Hi as (Ha & Hb & Hc). rewrite <- Hc. by apply IH.
  Qed.

  (** C60 (what holds): when the requests of all the calls fit in the context, and
      EAGAIN means that the context is full, no submitter ever waits. *)
  Theorem C60_no_wait progs s :
    (N.to_nat (total progs) < cap)%nat -> total progs < 2 ^ 64 -> (forall e, ~ gerr e) ->
    (forall used, agn used = true -> (cap <= used)%nat) ->
    rtc lstep (linit progs) s ->
    Forall (fun t => match t.1 with SIdle | SPrep _ _ _ | SSubmit _ _ _ => True | _ => False end) (l_threads s).
  Proof.
    intros Hcap HT Hg Ha H.
    assert (Hall : forall u v, rtc lstep u v -> linv page u -> cinv (total progs) u ->
      Forall (fun t => match t.1 with SIdle | SPrep _ _ _ | SSubmit _ _ _ => True | _ => False end) (l_threads u) ->
      Forall (fun t => match t.1 with SIdle | SPrep _ _ _ | SSubmit _ _ _ => True | _ => False end) (l_threads v)).
    2: { eapply Hall; eauto using linit_inv, linit_cinv. simpl.
         clear. induction progs; csimpl; constructor; auto. done. }
    clear H s. intros u v H. induction H as [|u u1 v H _ IH]; [done|]. intros I C HF.
    apply IH; [by eapply lstep_inv|exact (lstep_cinv page cap agn gerr _ HT Hg u u1 I C H)|]. clear IH v.
    destruct H as [s t1 t t2 s' t' Ht Hs|s s' Hs| | |]; try done.
    - rewrite Ht, Forall_app, Forall_cons in HF. destruct HF as (F1 & F & F2).
      simpl. rewrite Forall_app, Forall_cons. split_and!; auto. destruct Hs; simpl in *; try done.
      exfalso. destruct C as [C1 C2 C3]. simpl in *. specialize (Ha _ ltac:(eassumption)). lia.
    - destruct Hs; simpl in *; try done. apply Forall_wake; [|done]. intros [[] ?]; simpl; done.
  Qed.

  (** C61 (what holds): submit_pread and submit_pwrite report a failure only for a
      request that the kernel did not accept.  Stated for a scheduler used for one
      call: the request is accepted exactly if the call returns 1. *)
  Theorem C61_single s r z : rtc lstep (linit [[Single r]]) s ->
    (Single r, z) ∈ l_returned s ->
    (z = 1%Z /\ l_accepted s = [r]) \/ ((z < 0)%Z /\ l_accepted s = []).
  Proof.
    set (P := fun s : lst =>
      (l_threads s = [(SIdle, [Single r])] /\ l_accepted s = [] /\ l_returned s = []) \/
      (exists todo prep, l_threads s = [(SPrep (Single r) todo prep, [])] /\ l_accepted s = [] /\ l_returned s = [] /\
         ((todo = [r] /\ prep = []) \/ (todo = [] /\ prep = [r]))) \/
      (exists t rem, l_threads s = [(t, [])] /\ l_returned s = [] /\
         (t = SSubmit (Single r) 1 rem \/ t = SWait (Single r) 1 rem \/ t = SSet (Single r) 1 rem \/
          t = SPred (Single r) 1 rem \/ t = SSleep (Single r) 1 rem \/ t = SWoken (Single r) 1 rem) /\
         ((rem = [r] /\ l_accepted s = []) \/ (rem = [] /\ l_accepted s = [r]))) \/
      (exists z, l_threads s = [(SIdle, [])] /\ l_returned s = [(Single r, z)] /\
         ((z = 1%Z /\ l_accepted s = [r]) \/ ((z < 0)%Z /\ l_accepted s = [])))).
    assert (Hstep : forall u v, P u -> lstep u v -> P v).
    { intros u v HP H. destruct H as [s0 t1 t t2 s' t' Ht Hs|s0 s' Hs| | |]; try done.
      - assert (Hone : forall x, l_threads s0 = [x] -> t1 = [] /\ t = x /\ t2 = []).
        { intros x E. rewrite E in Ht. destruct t1 as [|? [|]]; simplify_eq/=. done. }
        destruct HP as [(E & EA & ER)|[(todo & prep & E & EA & ER & HX)|[(t0 & rem & E & ER & HT & HX)|(z0 & E & ER & HX)]]];
          destruct (Hone _ E) as (-> & -> & ->); clear Hone Ht E; simpl.
        + inversion Hs; subst; simpl in *; simplify_eq/=.
          * do 3 right. eexists. split_and!; [done..|]. right. done.
          * right. left. do 2 eexists. split_and!; [done..|]. left. done.
        + inversion Hs; subst; simpl in *; simplify_eq/=.
          * do 3 right. eexists. split_and!; [done..|]. right. split; [|done].
            match goal with H : check_args _ _ <> 0%Z |- _ => revert H end. unfold check_args.
            destruct (is_aligned _ _); [|done]. simpl. destruct (_ =? 0); [|done]. simpl. destruct (_ =? 0)%Z; done.
          * destruct HX as [[? ->]|[? ?]]; simplify_eq. right. left. do 2 eexists. split_and!; [done..|]. by right.
          * destruct HX as [[? ?]|[_ ->]]; simplify_eq. right. right. left. do 2 eexists. split_and!; [done..| |].
            -- by left.
            -- by left.
        + destruct HT as [->|[->|[->|[->|[->| ->]]]]]; inversion Hs; subst; simpl in *; simplify_eq/=.
          * do 3 right. eexists. split_and!; [done..|]. left. destruct HX as [[? ?]|[_ ->]]; done.
          * right. right. left. do 2 eexists. split_and!; [done..|by left|].
            destruct HX as [[Er ->]|[Er ->]].
            -- destruct rem1 as [|x rem1]; [done|]. injection Er as -> Er. apply app_nil in Er as [-> ->]. by right.
            -- apply app_nil in Er as [-> ->]. done.
          * right. right. left. do 2 eexists. split_and!; [done..|by right; left|done].
          * do 3 right. eexists. split_and!; [done..|]. right. destruct HX as [[_ ->]|[-> _]]; done.
          * right. right. left. do 2 eexists. split_and!; [done..| |done]. auto 10.
          * right. right. left. do 2 eexists. split_and!; [done..| |done]. auto 10.
          * right. right. left. do 2 eexists. split_and!; [done..| |done]. auto 10.
          * right. right. left. do 2 eexists. split_and!; [done..| |done]. auto 10.
          * right. right. left. do 2 eexists. split_and!; [done..| |done]. auto 10.
          * right. right. left. do 2 eexists. split_and!; [done..| |done]. auto 10.
        + inversion Hs.
      - destruct Hs; simpl in *; try done.
        destruct HP as [(E & EA & ER)|[(todo & prep & E & EA & ER & HX)|[(t0 & rem & E & ER & HT & HX)|(z0 & E & ER & HX)]]];
          simpl in *; subst ts.
        + by left.
        + right. left. do 2 eexists. split_and!; done.
        + right. right. left. exists (match t0 with SSleep c n rem => SWoken c n rem | _ => t0 end), rem.
          destruct HT as [->|[->|[->|[->|[->| ->]]]]]; split_and!; auto 10.
        + do 3 right. eexists. split_and!; done. }
    intros H. assert (HP : P s).
    { assert (H0 : P (linit [[Single r]])) by (by left). revert H H0.
      generalize (linit [[Single r]]). intros u H. induction H; eauto. }
    intros Hin.
    destruct HP as [(E & EA & ER)|[(todo & prep & E & EA & ER & HX)|[(t0 & rem & E & ER & HT & HX)|(z0 & E & ER & HX)]]];
      rewrite ER in Hin; try (by apply elem_of_nil in Hin).
    apply elem_of_list_singleton in Hin. simplify_eq. done.
  Qed.
End props.

Lemma lstep_mono page cap agn (g1 g2 : Z -> Prop) s s' :
  (forall e, g1 e -> g2 e) -> lstep page cap agn g1 s s' -> lstep page cap agn g2 s s'.
Proof.
  intros Hg H. destruct H; try (by econstructor). apply ls_notify.
  match goal with H : nstep _ _ _ |- _ => destruct H end; try constructor; auto.
Qed.
Lemma lexec_reach page cap agn gerr acts s s' :
  lexec page cap agn (fun _ => false) acts s = Some s' -> rtc (lstep page cap agn gerr) s s'.
Proof.
  intros H. apply lexec_sound in H. induction H as [|u v w H _ IH]; [constructor|].
  eapply rtc_l; [|done]. eapply lstep_mono; [|done]. done.
Qed.

(** Examples: pages of 4096 bytes. *)
Definition rq (i : N) : lreq := LReq i (4096 * i) 512 (512 * Z.of_N i).
Definition bad_buf : lreq := LReq 100 4100 512 0.
Definition bad_len : lreq := LReq 101 4096 100 0.
Definition bad_off : lreq := LReq 102 4096 512 (-3).

(** A run with partial submissions, batches with requests that are not aligned, a
    submitter that waits, and completions out of order; a context of 2 events. *)
Definition ex_progs : list (list lcall) :=
  [[Batch [rq 1; bad_buf; rq 2; rq 3]; Single bad_len]; [Single (rq 4); Single bad_off]].
Definition full2 (used : nat) : bool := (2 <=? used)%nat.
Definition ex_before : list act :=
  replicate 6 (AThr 0) ++ [AAcc 0 1; AThr 1; AThr 1; AThr 1; AAcc 1 1; AThr 1; AThr 1; AThr 1; AAgain 0; AThr 0; AThr 0; AThr 0;
    AKern 1 512; AKern 0 0; ANote; AEvents 1; ANote; ANote; ANote; AThr 0; AThr 0; ANote; AAcc 0 1; ANote; ANote; AKern 0 512; AEvents 2;
    ANote; ANote; ANote; ANote; ANote; ANote; AAcc 0 1; AThr 0; AThr 0; AThr 0].
Definition ex_after : list act :=
  [AKern 0 512; ANote; ANote; ANote; AEvents 1] ++ replicate 8 ANote ++ [AJoin].

Example ex_linux : exists s s1 s',
  rtc (lstep 4096 2 full2 (fun _ => False)) (linit ex_progs) s /\
  total ex_progs < 2 ^ 64 /\ Forall (fun t => t.1 = SIdle) (l_threads s) /\ l_stop s = false /\
  lstep 4096 2 full2 (fun _ => False) s s1 /\ l_main s1 = WJoin /\
  rtc (lstep 4096 2 full2 (fun _ => False)) s1 s' /\ l_main s' = WDone /\
  l_notified s' = [(rq 4, 512%Z); (rq 1, 0%Z); (rq 2, 512%Z); (rq 3, 512%Z)] /\
  l_returned s' = [(Single (rq 4), 1%Z); (Single bad_off, (-1025)%Z);
                   (Batch [rq 1; bad_buf; rq 2; rq 3], 3%Z); (Single bad_len, (-1026)%Z)].
Proof.
  destruct (lexec 4096 2 full2 (fun _ => false) ex_before (linit ex_progs)) as [s|] eqn:E; [|by vm_compute in E].
  pose proof (lexec_reach _ _ _ (fun _ => False) _ _ _ E) as R. vm_compute in E. injection E as <-.
  match type of R with rtc _ _ (LSt ?st ?sm ?cp ?fl ?lk ?wt ?ifl ?dn ?nt ?ts ?m ?ac ?re ?no ?rt) =>
    set (s := LSt st sm cp fl lk wt ifl dn nt ts m ac re no rt) in *;
    set (s1 := LSt true sm cp fl lk wt ifl dn nt ts WJoin ac re no rt) end.
  destruct (lexec 4096 2 full2 (fun _ => false) ex_after s1) as [s'|] eqn:E'; [|by vm_compute in E'].
  pose proof (lexec_reach _ _ _ (fun _ => False) _ _ _ E') as R'. vm_compute in E'. injection E' as <-.
  exists s, s1. eexists. split; [exact R|]. split; [done|]. split; [by repeat constructor|]. split; [done|].
  split; [apply ls_stop|]. split; [done|]. split; [exact R'|]. done.
Qed.

(** C49 (refuted without the hypothesis on io_getevents): a negative result of
    io_getevents, for instance -EINTR, is added to the counter of completed queries,
    which wraps around; the loop stops although an accepted request was not
    notified. *)
Definition eintr (e : Z) : bool := (e =? -4)%Z.
Theorem C49_error_early_refuted : exists s s1 s',
  rtc (lstep 4096 2 full2 (fun e => eintr e = true)) (linit [[Single (rq 1)]]) s /\
  Forall (fun t => t.1 = SIdle) (l_threads s) /\ l_stop s = false /\
  lstep 4096 2 full2 (fun e => eintr e = true) s s1 /\ l_main s1 = WJoin /\
  rtc (lstep 4096 2 full2 (fun e => eintr e = true)) s1 s' /\ l_main s' = WDone /\
  l_accepted s' = [rq 1] /\ l_notified s' = [] /\ l_inflight s' = [rq 1].
Proof.
  destruct (lexec 4096 2 full2 eintr [AThr 0; AThr 0; AThr 0; AAcc 0 1; AThr 0; ANote; AError (-4); ANote] (linit [[Single (rq 1)]]))
    as [s|] eqn:E; [|by vm_compute in E].
  pose proof (lexec_sound _ _ _ _ _ _ _ E) as R. vm_compute in E. injection E as <-.
  match type of R with rtc _ _ (LSt ?st ?sm ?cp ?fl ?lk ?wt ?ifl ?dn ?nt ?ts ?m ?ac ?re ?no ?rt) =>
    set (s := LSt st sm cp fl lk wt ifl dn nt ts m ac re no rt) in *;
    set (s1 := LSt true sm cp fl lk wt ifl dn nt ts WJoin ac re no rt) end.
  destruct (lexec 4096 2 full2 eintr [ANote; ANote; ANote; AJoin] s1) as [s'|] eqn:E'; [|by vm_compute in E'].
  pose proof (lexec_sound _ _ _ _ _ _ _ E') as R'. vm_compute in E'. injection E' as <-.
  exists s, s1. eexists. split; [exact R|]. split; [by repeat constructor|]. split; [done|].
  split; [apply ls_stop|]. split; [done|]. split; [exact R'|]. done.
Qed.

(** C49 (refuted likewise): the counter may also fall behind for good; then the loop
    does not stop although everything was notified, and wait_completions() hangs,
    even if io_getevents does not fail any more. *)
Definition hang_acts : list act :=
  replicate 6 (AThr 0) ++ [AAcc 0 4; AThr 0] ++ replicate 4 (AKern 0 512) ++ [ANote; AEvents 4] ++ replicate 9 ANote ++
  [AError (-4); ANote; AStop].
Theorem C49_error_hang_refuted : exists s,
  rtc (lstep 4096 4 full2 (fun e => eintr e = true)) (linit [[Batch [rq 1; rq 2; rq 3; rq 4]]]) s /\
  Forall (fun t => t.1 = SIdle) (l_threads s) /\ l_main s = WJoin /\
  l_accepted s ≡ₚ (l_notified s).*1 /\ l_inflight s = [] /\ l_done s = [] /\
  forall s', rtc (lstep 4096 4 full2 (fun _ => False)) s s' -> l_main s' <> WDone.
Proof.
  destruct (lexec 4096 4 full2 eintr hang_acts (linit [[Batch [rq 1; rq 2; rq 3; rq 4]]])) as [s|] eqn:E; [|by vm_compute in E].
  exists s. split; [by eapply lexec_sound|]. vm_compute in E. injection E as <-.
  split; [by repeat constructor|]. split; [done|]. split; [done|]. split; [done|]. split; [done|].
  set (J := fun s : lst => l_main s = WJoin /\ l_stop s = true /\ l_inflight s = [] /\ l_done s = [] /\ l_subm s = 4 /\
    l_comp s = 0 /\ l_fail s = 0 /\ l_threads s = [(SIdle, [])] /\
    match l_notify s with NTop | NCond | NGet => True | NHaveF f => f = 0 | NHaveS b => b = 4 | NCall [] 0 => True | _ => False end).
  intros s' H. assert (HJ : J s'); [|destruct HJ as (-> & _); done].
  match type of H with rtc _ ?s0 _ => assert (H0 : J s0) by done; revert H H0; generalize s0 end.
  intros u H. induction H as [|u v w H _ IH]; [done|]. intros HJ. apply IH. clear IH.
  destruct H as [s0 t1 t t2 s1 t' Ht Hs|s0 s1 Hs| | |].
  - exfalso. destruct HJ as (_ & _ & _ & _ & _ & _ & _ & HT & _). rewrite Ht in HT.
    destruct t1 as [|? [|]]; simplify_eq/=. inversion Hs.
  - destruct HJ as (J1 & J2 & J3 & J4 & J5 & J6 & J7 & J8 & J9).
    destruct Hs; simpl in *; subst; try done.
    + by destruct evs.
    + by destruct num.
  - by destruct HJ.
  - by destruct HJ as (_ & _ & _ & _ & _ & _ & _ & _ & ?).
  - destruct HJ as (_ & _ & HJ & _). by destruct ifl1.
Qed.

(** C60 (refuted as stated): a submitter that got EAGAIN may wait for ever: the request
    in flight completes, and is notified, between the return of io_submit and the
    moment the submitter sets the flag.  No later event wakes it up: whatever happens
    the call does not return. *)
Definition full1 (used : nat) : bool := (1 <=? used)%nat.
Definition lost_acts : list act :=
  [AThr 0; AThr 0; AThr 0; AAcc 0 1; AThr 0; AThr 1; AThr 1; AThr 1; AAgain 1; AKern 0 512; ANote; AEvents 1;
   ANote; ANote; ANote; ANote; ANote; AThr 1; AThr 1; AThr 1].
Theorem C60_lost_wakeup_refuted : forall gerr, exists s,
  rtc (lstep 4096 1 full1 gerr) (linit [[Single (rq 1)]; [Single (rq 2)]]) s /\
  l_inflight s = [] /\ l_done s = [] /\
  forall s' z, rtc (lstep 4096 1 full1 gerr) s s' -> (Single (rq 2), z) ∉ l_returned s'.
Proof.
  intros gerr.
  destruct (lexec 4096 1 full1 (fun _ => false) lost_acts (linit [[Single (rq 1)]; [Single (rq 2)]])) as [s|] eqn:E; [|by vm_compute in E].
  exists s. split; [by eapply lexec_reach|]. vm_compute in E. injection E as <-.
  split; [done|]. split; [done|].
  set (J := fun s : lst => l_waiting s = true /\ l_inflight s = [] /\ l_done s = [] /\
    l_returned s = [(Single (rq 1), 1%Z)] /\
    (exists t, l_threads s = [(SIdle, []); (t, [])] /\
       (t = SSleep (Single (rq 2)) 1 [rq 2] \/ t = SWoken (Single (rq 2)) 1 [rq 2] \/ t = SPred (Single (rq 2)) 1 [rq 2])) /\
    match l_notify s with NLock _ | NSet _ | NUnlock _ => False | NCall (_ :: _) _ => False | _ => True end).
  intros s' z H. assert (HJ : J s').
  2: { destruct HJ as (_ & _ & _ & -> & _). intros X%elem_of_list_singleton. done. }
  match type of H with rtc _ ?s0 _ => assert (H0 : J s0); [|revert H H0; generalize s0] end.
  { split_and!; try done. eexists. split; [done|by left]. }
  intros u H. induction H as [|u v w H _ IH]; [done|]. intros HJ. apply IH. clear IH.
  destruct HJ as (J1 & J2 & J3 & J4 & (t0 & J5 & J6) & J7).
  destruct H as [s0 t1 t t2 s1 t' Ht Hs|s0 s1 Hs| | |].
  - rewrite Ht in J5. destruct t1 as [|x [|y [|? ?]]]; simplify_eq/=.
    + inversion Hs.
    + destruct J6 as [->|[->| ->]]; inversion Hs; subst; simpl in *; try done;
        (split_and!; simpl; try done); eexists; (split; [done|]); auto.
  - destruct Hs; simpl in *; subst; try done; (split_and!; simpl; try done); eauto.
    + by destruct (more_to_come cp f sm).
    + by destruct (more_to_come cp fl sb).
    + by destruct evs.
    + by destruct evs.
  - split_and!; simpl in *; try done. eauto.
  - split_and!; simpl in *; try done. eauto.
  - simpl in *. by destruct ifl1.
Qed.

(** C60: a case for C60_no_wait: four requests, a context of 8. *)
Example ex_no_wait : (N.to_nat (total ex_progs) < 8)%nat /\ total ex_progs < 2 ^ 64 /\
  exists s, rtc (lstep 4096 8 (fun n => 8 <=? n)%nat (fun _ => False)) (linit ex_progs) s /\ l_inflight s = [rq 1; rq 2; rq 3; rq 4].
Proof.
  split; [vm_compute; lia|]. split; [done|].
  destruct (lexec 4096 8 (fun n => 8 <=? n)%nat (fun _ => false) (replicate 6 (AThr 0) ++ [AAcc 0 3] ++ replicate 3 (AThr 1) ++ [AAcc 1 1]) (linit ex_progs))
    as [s|] eqn:E; [|by vm_compute in E].
  exists s. split; [by eapply lexec_reach|]. vm_compute in E. injection E as <-. done.
Qed.

(** C61 (refuted for submit_preads): when io_submit accepts some requests and then
    fails, -1 is returned although requests are in flight. *)
Theorem C61_batch_refuted : exists s,
  rtc (lstep 4096 2 full2 (fun _ => False)) (linit [[Batch [rq 1; rq 2]]]) s /\
  l_returned s = [(Batch [rq 1; rq 2], (-1)%Z)] /\ l_inflight s = [rq 1].
Proof.
  destruct (lexec 4096 2 full2 (fun _ => false) [AThr 0; AThr 0; AThr 0; AThr 0; AAcc 0 1; AFail 0] (linit [[Batch [rq 1; rq 2]]]))
    as [s|] eqn:E; [|by vm_compute in E].
  exists s. split; [by eapply lexec_reach|]. vm_compute in E. by injection E as <-.
Qed.
(** C61: both cases of C61_single occur. *)
Example ex_single : exists s s',
  rtc (lstep 4096 2 full2 (fun _ => False)) (linit [[Single (rq 1)]]) s /\ l_returned s = [(Single (rq 1), 1%Z)] /\
  rtc (lstep 4096 2 full2 (fun _ => False)) (linit [[Single (rq 1)]]) s' /\ l_returned s' = [(Single (rq 1), (-1)%Z)].
Proof.
  destruct (lexec 4096 2 full2 (fun _ => false) [AThr 0; AThr 0; AThr 0; AAcc 0 1; AThr 0] (linit [[Single (rq 1)]]))
    as [s|] eqn:E; [|by vm_compute in E].
  destruct (lexec 4096 2 full2 (fun _ => false) [AThr 0; AThr 0; AThr 0; AFail 0] (linit [[Single (rq 1)]]))
    as [s'|] eqn:E'; [|by vm_compute in E'].
  exists s, s'. split; [by eapply lexec_reach|]. vm_compute in E. injection E as <-. split; [done|].
  split; [by eapply lexec_reach|]. vm_compute in E'. by injection E' as <-.
Qed.

Print Assumptions C49_aligned.
Print Assumptions C49_refused.
Print Assumptions C49_accepted.
Print Assumptions C49_at_most_once.
Print Assumptions C49_all_notified.
Print Assumptions C49_can_finish.
Print Assumptions C49_closed.
Print Assumptions C49_error_early_refuted.
Print Assumptions C49_error_hang_refuted.
Print Assumptions C60_no_wait.
Print Assumptions C60_lost_wakeup_refuted.
Print Assumptions C61_single.
Print Assumptions C61_batch_refuted.
