(** Invariants of the kernel-based IO scheduler. *)
From stdpp Require Import prelude.
From Coq Require Import ZArith NArith Lia.
From Verif Require Import Base AioPoolProofs AioLinuxModel.
Local Open Scope N_scope.
Local Arguments N.of_nat : simpl never.
Local Arguments N.modulo : simpl never.
Local Arguments N.pow : simpl never.
Local Arguments N.add : simpl never.
Local Arguments Z.of_nat : simpl never.

Section proofs.
  Context (page : N) (cap : nat) (agn : nat -> bool) (gerr : Z -> Prop).
  Notation lstep := (lstep page cap agn gerr).
  Notation sstep := (sstep page cap agn).
  Notation nstep := (nstep gerr).

  Definition held (n : npc) : list (lreq * Z) :=
    match n with NLock e | NSet e | NUnlock e | NCall e _ => e | _ => [] end.
  Definition nholder (n : npc) : nat := match n with NSet _ | NUnlock _ => 1 | _ => 0 end.
  Definition sholder (t : sthr) : nat := match t.1 with SSet _ _ _ | SPred _ _ _ => 1 | _ => 0 end.
  (** Requests counted as submitted, not yet given to the kernel. *)
  Definition sprep (t : sthr) : list lreq :=
    match t.1 with
    | SIdle => [] | SPrep _ _ p => p
    | SSubmit _ _ r | SWait _ _ r | SSet _ _ r | SPred _ _ r | SSleep _ _ r | SWoken _ _ r => r
    end.
  Definition scall_ok (t : sthr) : Prop :=
    match t.1 with
    | SPrep (Single r) todo prep =>
        (todo = [r] /\ prep = []) \/ (todo = [] /\ prep = [r] /\ check_args page r = 0%Z)
    | SPrep (Batch rs) todo prep => exists pre, rs = pre ++ todo /\ prep = filter (fun r => check_args page r = 0%Z) pre
    | SIdle => True
    | SSubmit c n _ | SWait c n _ | SSet c n _ | SPred c n _ | SSleep c n _ | SWoken c n _ =>
        n = length (filter (fun r => check_args page r = 0%Z) (call_reqs c)) /\
        (forall r, c = Single r -> check_args page r = 0%Z)
    end.
  (** What a call may return. *)
  Definition ret_ok (x : lcall * Z) : Prop :=
    x.2 = (- EINVAL_INVALID_STATE)%Z \/
    (exists r, x.1 = Single r /\ check_args page r <> 0%Z /\ x.2 = check_args page r) \/
    ((forall r, x.1 = Single r -> check_args page r = 0%Z) /\
     (x.2 = (-1)%Z \/ x.2 = Z.of_nat (length (filter (fun r => check_args page r = 0%Z) (call_reqs x.1))))).

  Record linv (s : lst) : Prop := LInv {
    v_acc : l_accepted s ≡ₚ l_inflight s ++ (l_results s).*1;
    v_res : l_results s ≡ₚ l_done s ++ held (l_notify s) ++ l_notified s;
    v_ok : Forall (fun r => check_args page r = 0%Z) (l_accepted s);
    v_prep : Forall (fun t => Forall (fun r => check_args page r = 0%Z) (sprep t)) (l_threads s);
    v_lock : (sum_list_with sholder (l_threads s) + nholder (l_notify s) = if l_lock s then 1 else 0)%nat;
    v_stop : l_stop s = false -> l_main s = WStart /\
       match l_notify s with NCond | NHaveF _ | NHaveS _ | NExit => False | _ => True end;
    v_done : l_main s = WDone -> l_notify s = NExit;
    v_calls : Forall scall_ok (l_threads s);
    v_ret : Forall ret_ok (l_returned s)
  }.

  Lemma sum_wake (f : sthr -> nat) ts : (forall t, f (wake t) = f t) -> sum_list_with f (wake <$> ts) = sum_list_with f ts.
  Proof. intros H. induction ts as [|t ts IH]; csimpl; [done|]. by rewrite H, IH. Qed.
  Lemma Forall_wake (P : sthr -> Prop) ts : (forall t, P t -> P (wake t)) -> Forall P ts -> Forall P (wake <$> ts).
  Proof. intros H. induction 1; csimpl; constructor; auto. Qed.
  Lemma wake_sholder t : sholder (wake t) = sholder t.
  Proof. by destruct t as [[] ?]. Qed.
  Lemma wake_sprep t : sprep (wake t) = sprep t.
  Proof. by destruct t as [[] ?]. Qed.
  Lemma wake_scall t : scall_ok t -> scall_ok (wake t).
  Proof. by destruct t as [[] ?]. Qed.

  Lemma linit_inv progs : linv (linit progs).
  Proof.
    assert (HF : forall P : sthr -> Prop, (forall cs, P (SIdle, cs)) -> Forall P (pair SIdle <$> progs)).
    { intros P HP. induction progs; csimpl; constructor; auto. }
    split; simpl; auto; try done.
    - apply HF. intros cs. constructor.
    - assert (E : sum_list_with sholder (pair SIdle <$> progs) = 0%nat); [|lia].
      clear HF. induction progs as [|l progs IH]; [done|]. csimpl. unfold sholder at 1. simpl. apply IH.
    - by apply HF.
  Qed.

  Lemma sstep_inv s t1 t t2 s' t' : linv s -> l_threads s = t1 ++ t :: t2 -> sstep s t s' t' ->
    linv (lset_threads s' (t1 ++ t' :: t2)).
  Proof.
    intros [I1 I2 I3 I4 I5 I6 I7 I8 I9] Ht Hs.
    rewrite Ht in I4, I5, I8. rewrite sum_mid in I5.
    rewrite Forall_app, Forall_cons in I4. destruct I4 as (F1 & F & F2).
    rewrite Forall_app, Forall_cons in I8. destruct I8 as (G1 & G & G2).
    assert (HM : forall (P : sthr -> Prop) u, Forall P t1 -> P u -> Forall P t2 -> Forall P (t1 ++ u :: t2))
      by (intros; rewrite Forall_app, Forall_cons; auto).
    destruct Hs; cbn in F, G, I5; simpl in *;
      split; simpl; auto; rewrite ?sum_mid; try (apply HM; auto); cbn; auto; try lia.
    - apply Forall_app. split; [done|]. apply Forall_singleton. by left.
    - destruct c as [r|rs]; simpl; [by left|]. by exists [].
    - apply Forall_app. split; [done|]. apply Forall_singleton. right. left. eauto.
    - destruct G as (pre & -> & ->). exists (pre ++ [r]). rewrite <- (assoc_L (++)). split; [done|].
      rewrite filter_app, filter_cons_False, filter_nil by done. by rewrite app_nil_r.
    - apply Forall_app. split; [done|]. by apply Forall_singleton.
    - destruct c as [r'|rs].
      + destruct G as [(G & ->)|(G & _)]; [|done]. simplify_eq. by right.
      + destruct G as (pre & -> & ->). exists (pre ++ [r]). rewrite <- (assoc_L (++)). split; [done|].
        by rewrite filter_app, filter_cons_True, filter_nil.
    - destruct c as [r'|rs]; simpl.
      + destruct G as [(G & _)|(_ & -> & G)]; [done|]. rewrite filter_cons_True, filter_nil by done.
        split; [done|]. intros r [= ->]. done.
      + destruct G as (pre & -> & ->). rewrite app_nil_r. split; done.
    - apply Forall_app. split; [done|]. apply Forall_singleton. right. right. simpl. destruct G as [-> G]. auto.
    - rewrite I1. solve_Permutation.
    - apply Forall_app in F as [Fa Fb]. apply Forall_app. auto.
    - by apply Forall_app in F as [Fa Fb].
    - apply Forall_app. split; [done|]. apply Forall_singleton. right. right. simpl. destruct G as [_ G]. auto.
    - destruct lk; lia.
    - destruct lk; lia.
  Qed.

  Lemma nstep_inv s s' : linv s -> nstep s s' -> linv s'.
  Proof.
    intros [I1 I2 I3 I4 I5 I6 I7 I8 I9] Hs.
    destruct Hs; simpl in *;
      split; simpl; auto; try lia; try (intros E; destruct (I6 E); done); try (intros E; by specialize (I7 E)).
    - by destruct (more_to_come cp f sm).
    - by destruct (more_to_come cp f sm).
    - by destruct (more_to_come cp fl sb).
    - by destruct (more_to_come cp fl sb).
    - rewrite I2. solve_Permutation.
    - by apply Forall_wake; [intros t; rewrite wake_sprep|].
    - rewrite sum_wake by apply wake_sholder. lia.
    - by apply Forall_wake; [apply wake_scall|].
    - destruct lk; lia.
    - rewrite I2. solve_Permutation.
  Qed.

  Lemma lstep_inv s s' : linv s -> lstep s s' -> linv s'.
  Proof.
    intros I H. destruct H.
    - by eapply sstep_inv.
    - by eapply nstep_inv.
    - destruct I as [I1 I2 I3 I4 I5 I6 I7 I8 I9]. split; simpl in *; auto; done.
    - destruct I as [I1 I2 I3 I4 I5 I6 I7 I8 I9]. split; simpl in *; auto. intros E. destruct (I6 E); done.
    - destruct I as [I1 I2 I3 I4 I5 I6 I7 I8 I9]. split; simpl in *; auto.
      + rewrite I1, fmap_app. csimpl. solve_Permutation.
      + rewrite I2. solve_Permutation.
  Qed.

  Lemma lreach_inv s s' : rtc lstep s s' -> linv s -> linv s'.
  Proof. induction 1 as [|s s1 s2 H _ IH]; [done|]. intros I. apply IH. by eapply lstep_inv. Qed.
End proofs.
