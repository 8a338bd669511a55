(** Running a given schedule of the kernel-based IO scheduler, for examples. *)
From stdpp Require Import prelude.
From Coq Require Import ZArith NArith Lia.
From Verif Require Import Base AioLinuxModel.
Local Open Scope N_scope.

(** AThr: a thread makes its only possible step; AAcc i k: the kernel accepts its first
    [k] requests; AAgain, AFail: io_submit fails; ANote: the only possible step of
    notify_loop; AEvents k, AError: io_getevents; AStop, AJoin: wait_completions;
    AKern j z: the kernel completes the [j]-th request in flight. *)
Inductive act :=
| AThr (i : nat) | AAcc (i k : nat) | AAgain (i : nat) | AFail (i : nat)
| ANote | AEvents (k : nat) | AError (e : Z) | AStop | AJoin | AKern (j : nat) (z : Z).

Section exec.
  Context (page : N) (cap : nat) (agn : nat -> bool) (gerr : Z -> bool).

  Definition run_thr (s : lst) (t : sthr) (a : act) : option (lst * sthr) :=
    let 'LSt st sm cp fl lk wt ifl dn nt ts m ac re no rt := s in
    let '(pc, cs) := t in
    match a, pc with
    | AThr _, SIdle =>
        match cs with
        | [] => None
        | c :: cs' =>
            if st then Some (LSt st sm cp fl lk wt ifl dn nt ts m ac re no (rt ++ [(c, (- EINVAL_INVALID_STATE)%Z)]), (SIdle, cs'))
            else Some (s, (SPrep c (call_reqs c) [], cs'))
        end
    | AThr _, SPrep c (r :: todo) prep =>
        if decide (check_args page r = 0%Z)
        then Some (LSt st ((sm + 1) mod 2 ^ 64) cp fl lk wt ifl dn nt ts m ac re no rt, (SPrep c todo (prep ++ [r]), cs))
        else match c with
             | Single r' => if decide (r = r' /\ todo = []) then Some (LSt st sm cp fl lk wt ifl dn nt ts m ac re no (rt ++ [(c, check_args page r)]), (SIdle, cs)) else None
             | Batch rs => Some (s, (SPrep c todo prep, cs))
             end
    | AThr _, SPrep c [] prep => Some (s, (SSubmit c (length prep) prep, cs))
    | AThr _, SSubmit c n [] => Some (LSt st sm cp fl lk wt ifl dn nt ts m ac re no (rt ++ [(c, Z.of_nat n)]), (SIdle, cs))
    | AAcc _ k, SSubmit c n rem =>
        if decide (take k rem <> [] /\ (length ifl + length dn + length (take k rem) <= cap)%nat)
        then Some (LSt st sm cp fl lk wt (ifl ++ take k rem) dn nt ts m (ac ++ take k rem) re no rt, (SSubmit c n (drop k rem), cs))
        else None
    | AAgain _, SSubmit c n rem =>
        if decide (rem <> [] /\ agn (length ifl + length dn) = true) then Some (s, (SWait c n rem, cs)) else None
    | AFail _, SSubmit c n rem =>
        if decide (rem <> []) then Some (LSt st sm cp ((fl + N.of_nat (length rem)) mod 2 ^ 64) lk wt ifl dn nt ts m ac re no (rt ++ [(c, (-1)%Z)]), (SIdle, cs)) else None
    | AThr _, SWait c n rem => if lk then None else Some (LSt st sm cp fl true wt ifl dn nt ts m ac re no rt, (SSet c n rem, cs))
    | AThr _, SSet c n rem => Some (LSt st sm cp fl lk true ifl dn nt ts m ac re no rt, (SPred c n rem, cs))
    | AThr _, SPred c n rem =>
        if wt then Some (LSt st sm cp fl false wt ifl dn nt ts m ac re no rt, (SSleep c n rem, cs))
        else Some (LSt st sm cp fl false wt ifl dn nt ts m ac re no rt, (SSubmit c n rem, cs))
    | AThr _, SWoken c n rem => if lk then None else Some (LSt st sm cp fl true wt ifl dn nt ts m ac re no rt, (SPred c n rem, cs))
    | _, _ => None
    end.

  Definition run_note (s : lst) (a : act) : option lst :=
    let 'LSt st sm cp fl lk wt ifl dn nt ts m ac re no rt := s in
    match a, nt with
    | ANote, NTop => Some (LSt st sm cp fl lk wt ifl dn (if st then NCond else NGet) ts m ac re no rt)
    | ANote, NCond => Some (LSt st sm cp fl lk wt ifl dn (NHaveF fl) ts m ac re no rt)
    | ANote, NHaveF f => Some (LSt st sm cp fl lk wt ifl dn (if more_to_come cp f sm then NGet else NExit) ts m ac re no rt)
    | AEvents k, NGet =>
        if decide (k = 0%nat) then Some (LSt st sm cp fl lk wt ifl dn (NCall [] 0) ts m ac re no rt)
        else if decide (take k dn <> [] /\ (length (take k dn) <= 128)%nat)
        then Some (LSt st sm cp fl lk wt ifl (drop k dn) (NLock (take k dn)) ts m ac re no rt) else None
    | AError e, NGet => if decide ((e < 0)%Z /\ gerr e = true) then Some (LSt st sm cp fl lk wt ifl dn (NCall [] e) ts m ac re no rt) else None
    | ANote, NLock evs => if lk then None else Some (LSt st sm cp fl true wt ifl dn (NSet evs) ts m ac re no rt)
    | ANote, NSet evs => Some (LSt st sm cp fl lk false ifl dn (NUnlock evs) (wake <$> ts) m ac re no rt)
    | ANote, NUnlock evs => Some (LSt st sm cp fl false wt ifl dn (NCall evs (Z.of_nat (length evs))) ts m ac re no rt)
    | ANote, NCall (e :: evs) num => Some (LSt st sm cp fl lk wt ifl dn (NCall evs num) ts m ac re (no ++ [e]) rt)
    | ANote, NCall [] num => Some (LSt st sm (add_events cp num) fl lk wt ifl dn NTop ts m ac re no rt)
    | _, _ => None
    end.

  Definition run_act (s : lst) (a : act) : option lst :=
    match a with
    | AThr i | AAcc i _ | AAgain i | AFail i =>
        t ← l_threads s !! i; x ← run_thr s t a; Some (lset_threads x.1 (<[i := x.2]> (l_threads s)))
    | ANote | AEvents _ | AError _ => run_note s a
    | AStop => let 'LSt st sm cp fl lk wt ifl dn nt ts m ac re no rt := s in
        match m with WStart => Some (LSt true sm cp fl lk wt ifl dn nt ts WJoin ac re no rt) | _ => None end
    | AJoin => let 'LSt st sm cp fl lk wt ifl dn nt ts m ac re no rt := s in
        match m, nt with WJoin, NExit => Some (LSt st sm cp fl lk wt ifl dn nt ts WDone ac re no rt) | _, _ => None end
    | AKern j z => let 'LSt st sm cp fl lk wt ifl dn nt ts m ac re no rt := s in
        match ifl !! j with
        | Some r => Some (LSt st sm cp fl lk wt (take j ifl ++ drop (S j) ifl) (dn ++ [(r, z)]) nt ts m ac (re ++ [(r, z)]) no rt)
        | None => None
        end
    end.

  Fixpoint lexec (acts : list act) (s : lst) : option lst :=
    match acts with [] => Some s | a :: acts' => s' ← run_act s a; lexec acts' s' end.

  Lemma run_thr_sound s t a s' t' : run_thr s t a = Some (s', t') -> sstep page cap agn s t s' t'.
  Proof.
    destruct s as [st sm cp fl lk wt ifl dn nt ts m ac re no rt], t as [pc cs]. simpl.
    destruct a; try done; destruct pc as [|c todo prep|c n rem|c n rem|c n rem|c n rem|c n rem|c n rem]; try done; intros H.
    - destruct cs; simplify_eq. destruct st; simplify_eq; constructor.
    - destruct todo as [|r todo]; [simplify_eq; constructor|].
      case_decide as E; simplify_eq; [by constructor|].
      destruct c as [r'|rs]; simplify_eq; [|by constructor].
      case_decide as E'; simplify_eq. destruct E' as [<- ->]. by constructor.
    - destruct rem; simplify_eq. constructor.
    - destruct lk; simplify_eq. constructor.
    - simplify_eq. constructor.
    - destruct wt; simplify_eq; constructor.
    - destruct lk; simplify_eq. constructor.
    - case_decide as E; simplify_eq. destruct E as [E1 E2].
      pose proof (ss_accept page cap agn st sm cp fl lk wt ifl dn nt ts m ac re no rt c n (take k rem) (drop k rem) cs E1 E2) as H.
      by rewrite take_drop in H.
    - case_decide as E; simplify_eq. destruct E as [E1 E2]. by apply ss_eagain.
    - case_decide as E; simplify_eq. by apply ss_error.
  Qed.

  Lemma run_note_sound s a s' : run_note s a = Some s' -> nstep (fun e => gerr e = true) s s'.
  Proof.
    destruct s as [st sm cp fl lk wt ifl dn nt ts m ac re no rt]. simpl.
    destruct a; try done; destruct nt as [| |f|sb| |evs|evs|evs|[|e' evs] num|]; try done; intros H; simplify_eq; try constructor.
    - destruct st; constructor.
    - destruct lk; simplify_eq. constructor.
    - case_decide as E0; simplify_eq; [constructor|]. case_decide as E; simplify_eq.
      destruct E as [E1 E2].
      pose proof (ns_events (fun e => gerr e = true) st sm cp fl lk wt ifl (take k dn) (drop k dn) ts m ac re no rt E1 E2) as H.
      by rewrite take_drop in H.
    - case_decide as E; simplify_eq. destruct E as [E1 E2]. by apply ns_error.
  Qed.

  Lemma lexec_sound acts s s' : lexec acts s = Some s' -> rtc (lstep page cap agn (fun e => gerr e = true)) s s'.
  Proof.
    revert s. induction acts as [|a acts IH]; simpl; intros s H; simplify_eq; [constructor|].
    apply bind_Some in H as (s1 & Hs & H). eapply rtc_l; [|by eapply IH]. clear IH H.
    assert (HT : forall i, (t ← l_threads s !! i; x ← run_thr s t a; Some (lset_threads x.1 (<[i := x.2]> (l_threads s)))) = Some s1 ->
      lstep page cap agn (fun e => gerr e = true) s s1).
    { intros i H. apply bind_Some in H as (t & Ht & H). apply bind_Some in H as ([s2 t'] & Hr & H). simplify_eq/=.
      apply run_thr_sound in Hr.
      rewrite (insert_take_drop _ _ _ (lookup_lt_Some _ _ _ Ht)).
      eapply ls_thread; [|done]. by rewrite (take_drop_middle _ _ _ Ht). }
    destruct a; simpl in Hs; try (by eapply HT); try (by apply ls_notify; eapply run_note_sound).
    - destruct s as [st sm cp fl lk wt ifl dn nt ts [] ac re no rt]; simplify_eq. apply ls_stop.
    - destruct s as [st sm cp fl lk wt ifl dn [] ts [] ac re no rt]; simplify_eq. apply ls_join.
    - destruct s as [st sm cp fl lk wt ifl dn nt ts m ac re no rt].
      destruct (ifl !! j) as [r|] eqn:E; simplify_eq.
      pose proof (ls_kernel page cap agn (fun e => gerr e = true) st sm cp fl lk wt (take j ifl) r (drop (S j) ifl) dn nt ts m ac re no rt z) as H.
      by rewrite (take_drop_middle _ _ _ E) in H.
  Qed.
End exec.
