(** Invariants of the thread-pool IO scheduler. *)
From stdpp Require Import prelude.
From Coq Require Import ZArith NArith Lia.
From Verif Require Import Base AioPoolModel AioPoolSpec.
Local Open Scope nat_scope.

Section proofs.
  Context {req world : Type} (op : req -> world -> world * Z) (follow : req -> list req).
  Notation pst := (pst req world).
  Notation thr := (thr req).

  (** Requests accepted by a thread whose callback was not called. *)
  Definition pend (t : thr) : list req :=
    match t with PPerform r => [r] | PCall r _ => [r] | PEnq _ r _ => [r] | _ => [] end.
  Definition incall (t : thr) : list (req * Z) :=
    match t with PCall r z => [(r, z)] | _ => [] end.
  (** Share of a thread in the counter. *)
  Definition active (t : thr) : nat :=
    match t with
    | PPerform _ | PCall _ _ | PSub true _ | PEnq false _ _ | PLock | PDec => 1
    | PEnq true _ _ => 2
    | _ => 0
    end.
  Definition holder (t : thr) : nat :=
    match t with PDec | PNotify | PUnlock => 1 | _ => 0 end.
  Definition main_holder (m : mst req) : nat := match m with QPred _ => 1 | _ => 0 end.
  Definition pool_thr (t : thr) : nat :=
    match t with PSub false _ | PEnq false _ _ | PEnd => 0 | _ => 1 end.

  Lemma serial_app w l1 l2 :
    serial op w (l1 ++ l2) =
    ((serial op (serial op w l1).1 l2).1, (serial op w l1).2 ++ (serial op (serial op w l1).1 l2).2).
  Proof.
    revert w. induction l1 as [|r l1 IH]; intros w; simpl; [by destruct (serial op w l2)|].
    rewrite IH. done.
  Qed.

  Record inv (n : nat) (w0 : world) (s : pst) : Prop := Inv {
    i_running : a_running s = length (a_queue s) + sum_list_with active (a_threads s);
    i_sub : a_submitted s ≡ₚ (a_called s).*1 ++ a_queue s ++ (a_threads s ≫= pend);
    i_perf : a_performed s ≡ₚ a_called s ++ (a_threads s ≫= incall);
    i_world : serial op w0 (a_performed s).*1 = (a_world s, (a_performed s).*2);
    i_lock : sum_list_with holder (a_threads s) + main_holder (a_main s) = if a_lock s then 1 else 0;
    i_main : match a_main s with
             | QStart => True
             | QCheck b | QLock b | QPred b | QSleep b => b ⊆+ a_submitted s
             | QDone b b' => b ⊆+ b' /\ b' ⊆+ (a_called s).*1
             end;
    i_sleep : match a_main s with QSleep _ => a_running s <> 0 \/ PNotify ∈ a_threads s | _ => True end;
    i_pool : sum_list_with pool_thr (a_threads s) = n
  }.

  Lemma sum_mid {A} (f : A -> nat) l1 x l2 :
    sum_list_with f (l1 ++ x :: l2) = f x + sum_list_with f (l1 ++ l2).
  Proof. rewrite !sum_list_with_app. simpl. lia. Qed.
  Lemma bind_mid {A B} (f : A -> list B) l1 x l2 : ((l1 ++ x :: l2) ≫= f) ≡ₚ f x ++ ((l1 ++ l2) ≫= f).
  Proof. rewrite !bind_app, bind_cons. by rewrite !app_assoc, (Permutation_app_comm (f x)). Qed.

  Lemma init_inv n subs w0 : inv n w0 (pinit n subs w0).
  Proof.
    assert (Ha : forall {B} (f : thr -> list B), f PIdle = [] -> (forall l, f (PSub false l) = []) ->
      ((replicate n PIdle ++ (PSub false <$> subs)) ≫= f) = []).
    { intros B f H1 H2. rewrite bind_app. assert (E : (PSub false <$> subs) ≫= f = []).
      { induction subs as [|l subs IH]; [done|]. rewrite fmap_cons, bind_cons, H2. done. }
      rewrite E, app_nil_r. clear -H1. induction n as [|k IH]; [done|].
      simpl replicate. rewrite bind_cons, H1. done. }
    assert (Hn : forall f : thr -> nat, (forall l, f (PSub false l) = 0) ->
      sum_list_with f (replicate n PIdle ++ (PSub false <$> subs)) = n * f PIdle).
    { intros f H2. rewrite sum_list_with_app. assert (E : sum_list_with f (PSub false <$> subs) = 0).
      { clear -H2. induction subs as [|l subs IH]; csimpl; [done|]. by rewrite H2. }
      rewrite E, Nat.add_0_r. clear. induction n as [|k IH]; simpl; [done|]. by rewrite IH. }
    split; simpl; auto.
    - rewrite Hn by done. simpl. lia.
    - by rewrite Ha.
    - by rewrite Ha.
    - rewrite Hn by done. simpl. lia.
    - rewrite Hn by done. simpl. lia.
  Qed.

  Lemma serial_snoc w0 pf w r : serial op w0 (pf.*1) = (w, pf.*2) ->
    serial op w0 ((pf ++ [(r, (op r w).2)]).*1) = ((op r w).1, (pf ++ [(r, (op r w).2)]).*2).
  Proof. intros E. rewrite !fmap_app. csimpl. rewrite serial_app, E. done. Qed.

  Lemma thread_inv n w0 s t1 t t2 s' t' : inv n w0 s -> a_threads s = t1 ++ t :: t2 ->
    tstep op follow s t s' t' -> inv n w0 (set_threads s' (t1 ++ t' :: t2)).
  Proof.
    intros [I1 I2 I3 I4 I5 I6 I7 I8] Ht Hs.
    rewrite Ht in I1, I2, I3, I5, I7, I8. rewrite sum_mid in I1, I5, I8. rewrite (bind_mid pend) in I2. rewrite (bind_mid incall) in I3.
    assert (Hsub : forall (x : list (req * Z)) l, match a_main s with
             | QStart => True
             | QCheck b | QLock b | QPred b | QSleep b => b ⊆+ a_submitted s
             | QDone b b' => b ⊆+ b' /\ b' ⊆+ (a_called s).*1
             end -> match a_main s with
             | QStart => True
             | QCheck b | QLock b | QPred b | QSleep b => b ⊆+ a_submitted s ++ l
             | QDone b b' => b ⊆+ b' /\ b' ⊆+ (a_called s ++ x).*1
             end).
    { intros x l. destruct (a_main s); try done; try (intros H; by apply submseteq_inserts_r).
      intros [H1 H2]. split; [done|]. rewrite fmap_app. by apply submseteq_inserts_r. }
    destruct Hs; simpl in *; subst ts.
    - split; simpl; auto; rewrite ?sum_mid, ?(bind_mid pend), ?(bind_mid incall); simpl in *; auto; try lia.
      + rewrite I2. simpl. solve_Permutation.
      + destruct m; auto. destruct I7 as [H|H]; [by left|right].
        apply elem_of_app in H as [H|H]; apply elem_of_app; [by left|].
        apply elem_of_cons in H as [H|H]; [done|]. by right; right.
    - split; simpl; auto; rewrite ?sum_mid, ?(bind_mid pend), ?(bind_mid incall); simpl in *; auto; try lia.
      + rewrite I3. solve_Permutation.
      + by apply serial_snoc.
      + destruct m; auto. destruct I7 as [H|H]; [by left|right].
        apply elem_of_app in H as [H|H]; apply elem_of_app; [by left|].
        apply elem_of_cons in H as [H|H]; [done|]. by right; right.
    - specialize (Hsub [(r, ret)] [] I6). rewrite app_nil_r in Hsub.
      split; simpl; auto; rewrite ?sum_mid, ?(bind_mid pend), ?(bind_mid incall); simpl in *; auto; try lia.
      + rewrite I2, fmap_app. csimpl. solve_Permutation.
      + rewrite I3. solve_Permutation.
      + destruct m; auto. destruct I7 as [H|H]; [by left|right].
        apply elem_of_app in H as [H|H]; apply elem_of_app; [by left|].
        apply elem_of_cons in H as [H|H]; [done|]. by right; right.
    - specialize (Hsub [] [r] I6). rewrite app_nil_r in Hsub.
      split; simpl; auto; rewrite ?sum_mid, ?(bind_mid pend), ?(bind_mid incall); simpl in *; auto; try lia.
      + destruct p; simpl in *; lia.
      + rewrite I2. destruct p; solve_Permutation.
      + destruct m; auto.
    - split; simpl; auto; rewrite ?sum_mid, ?(bind_mid pend), ?(bind_mid incall); simpl in *; auto; try lia.
      + rewrite app_length. simpl. destruct p; simpl in *; lia.
      + rewrite I2. destruct p; solve_Permutation.
      + destruct m; auto. destruct I7 as [H|H]; [by left|right].
        apply elem_of_app in H as [H|H]; apply elem_of_app; [by left|].
        apply elem_of_cons in H as [H|H]; [done|]. by right; right.
    - split; simpl; auto; rewrite ?sum_mid, ?(bind_mid pend), ?(bind_mid incall); simpl in *; auto; try lia.
      + destruct p; simpl in *; lia.
      + rewrite I2. destruct p; solve_Permutation.
      + rewrite I3. destruct p; solve_Permutation.
      + destruct p; simpl in *; lia.
      + destruct m; auto. destruct I7 as [H|H]; [by left|right].
        apply elem_of_app in H as [H|H]; apply elem_of_app; [by left|].
        apply elem_of_cons in H as [H|H]; [done|]. by right; right.
      + destruct p; simpl in *; lia.
    - split; simpl; auto; rewrite ?sum_mid, ?(bind_mid pend), ?(bind_mid incall); simpl in *; auto; try lia.
      destruct m; auto. destruct I7 as [H|H]; [by left|right].
      apply elem_of_app in H as [H|H]; apply elem_of_app; [by left|].
      apply elem_of_cons in H as [H|H]; [done|]. by right; right.
    - split; simpl; auto; rewrite ?sum_mid, ?(bind_mid pend), ?(bind_mid incall); simpl in *; auto; try lia.
      destruct m; auto. right. apply elem_of_app. right. left.
    - split; simpl; auto; rewrite ?sum_mid, ?(bind_mid pend), ?(bind_mid incall); simpl in *; auto; try lia.
      + destruct m; simpl in *; lia.
      + by destruct m.
      + by destruct m.
    - split; simpl; auto; rewrite ?sum_mid, ?(bind_mid pend), ?(bind_mid incall); simpl in *; auto; try lia.
      + destruct lk; lia.
      + destruct m; auto. destruct I7 as [H|H]; [by left|right].
        apply elem_of_app in H as [H|H]; apply elem_of_app; [by left|].
        apply elem_of_cons in H as [H|H]; [done|]. by right; right.
  Qed.

  Lemma all_called n w0 s : inv n w0 s -> a_running s = 0 ->
    a_submitted s ≡ₚ (a_called s).*1 /\ a_queue s = [] /\ Forall (fun t => active t = 0) (a_threads s).
  Proof.
    intros I H0. pose proof (i_running _ _ _ I) as E. rewrite H0 in E.
    assert (Hq : a_queue s = []) by (apply nil_length_inv; lia).
    assert (Hz : sum_list_with active (a_threads s) = 0) by lia.
    assert (HF : Forall (fun t => active t = 0) (a_threads s)).
    { clear -Hz. induction (a_threads s) as [|t ts IH]; [constructor|]. simpl in Hz. constructor; [lia|]. apply IH. lia. }
    split_and!; auto. rewrite (i_sub _ _ _ I), Hq. simpl.
    assert (Hp : a_threads s ≫= pend = []); [|by rewrite Hp, app_nil_r].
    clear -HF. induction HF as [|t ts H HF IH]; csimpl; [done|]. rewrite IH, app_nil_r.
    destruct t as [| | |[]|[]| | | | |]; simpl in *; done.
  Qed.

  Lemma step_inv n w0 s s' : inv n w0 s -> pany op follow s s' -> inv n w0 s'.
  Proof.
    intros I H. destruct H as [s s' H|s b Hm].
    - destruct H as [s t1 t t2 s' t' Ht Hs|s lk m Hm]; [by eapply thread_inv|].
      pose proof I as [I1 I2 I3 I4 I5 I6 I7 I8]. destruct s as [rn lk0 q ts m0 w sb pf cl]; simpl in *.
      destruct Hm; split; simpl in *; auto; try lia; try (destruct lk; lia).
      split; [done|]. destruct (all_called _ _ _ I) as [E _]; [done|]. simpl in E. by rewrite E.
    - destruct I as [I1 I2 I3 I4 I5 I6 I7 I8]. rewrite Hm in *. by split; simpl in *.
  Qed.

  Lemma reach_inv n w0 s s' : rtc (pany op follow) s s' -> inv n w0 s -> inv n w0 s'.
  Proof. induction 1 as [|s s1 s2 H _ IH]; [done|]. intros I. apply IH. by eapply step_inv. Qed.

  (** * Progress *)
  Lemma mid_elem {A} (x : A) l : x ∈ l -> exists l1 l2, l = l1 ++ x :: l2.
  Proof. apply elem_of_list_split. Qed.

  Lemma thread_step s t : t ∈ a_threads s ->
    (exists s' t', tstep op follow s t s' t') -> exists s', pstep op follow s s'.
  Proof.
    intros Ht (s' & t' & H). apply mid_elem in Ht as (t1 & t2 & E).
    eexists. eapply ps_thread; done.
  Qed.

  Lemma progress n w0 s : 0 < n -> inv n w0 s ->
    (exists s', pstep op follow s s') \/
    ((exists b b', a_main s = QDone b b') /\ a_queue s = [] /\
     Forall (fun t => t = PIdle \/ t = PEnd) (a_threads s)).
  Proof.
    intros Hn I. destruct s as [rn lk q ts m w sb pf cl].
    destruct (decide (Exists (fun t => match t with PIdle | PEnd | PLock => false | _ => true end = true) ts)) as [HE|HE].
    { left. apply Exists_exists in HE as (t & Ht & HT). apply (thread_step (PSt rn lk q ts m w sb pf cl) t Ht).
      destruct t as [| | |p [|r l]| | | | | |]; try done; do 2 eexists; constructor. }
    apply not_Exists_Forall in HE; [|apply _].
    assert (HL : lk = true -> exists s', pstep op follow (PSt rn lk q ts m w sb pf cl) s').
    { intros ->. pose proof (i_lock _ _ _ I) as E. simpl in E.
      assert (Hz : sum_list_with holder ts = 0).
      { clear -HE. induction HE as [|t ts H HE IH]; [done|]. simpl. rewrite IH.
        destruct t; simpl in *; try lia; by destruct H. }
      destruct m as [|b|b|b|b|b b']; simpl in E; try lia.
      destruct (decide (rn = 0)); eexists; apply ps_main; simpl; [by apply ms_pred_true|by apply ms_pred_false]. }
    destruct lk; [left; by apply HL|]. clear HL.
    destruct (decide (Exists (fun t => match t with PLock => true | _ => false end = true) ts)) as [Hl|Hl].
    { left. apply Exists_exists in Hl as (t & Hl & HT). destruct t; try done. apply (thread_step (PSt rn false q ts m w sb pf cl) PLock Hl). do 2 eexists. constructor. }
    assert (HF : Forall (fun t => t = PIdle \/ t = PEnd) ts).
    { apply Forall_forall. intros t Ht. rewrite Forall_forall in HE. specialize (HE t Ht).
      destruct t; auto; try (by destruct HE). destruct Hl. apply Exists_exists. by exists PLock. }
    destruct q as [|r q].
    2: { left. assert (Hi : PIdle ∈ ts).
      { pose proof (i_pool _ _ _ I) as E. simpl in E. clear -E HF Hn.
        induction HF as [|t ts H HF IH] in n, E, Hn |- *; simpl in E; [lia|].
        destruct H as [->| ->]; [left|]. right. simpl in E. by eapply (IH n). }
      apply (thread_step (PSt rn false (r :: q) ts m w sb pf cl) PIdle Hi). do 2 eexists. constructor. }
    assert (Hr : rn = 0).
    { pose proof (i_running _ _ _ I) as E. simpl in E. rewrite E. clear -HF.
      induction HF as [|t ts [->| ->] HF IH]; [done|simpl; lia..]. }
    subst rn. destruct m as [|b|b|b|b|b b'].
    - left. eexists. apply ps_main. constructor.
    - left. eexists. apply ps_main. by constructor.
    - left. eexists. apply ps_main. constructor.
    - exfalso. pose proof (i_lock _ _ _ I) as E. simpl in E. lia.
    - exfalso. pose proof (i_sleep _ _ _ I) as E. simpl in E. destruct E as [E|E]; [done|].
      rewrite Forall_forall in HF. destruct (HF _ E); done.
    - right. simpl. eauto.
  Qed.

  (** * Nothing is forgotten *)
  Definition todo (t : thr) : list req :=
    match t with PSub _ l => l | PEnq _ _ l => l | _ => [] end.
  Definition winv (subs : list (list req)) (s : pst) : Prop :=
    mjoin subs ++ ((a_called s).*1 ≫= follow) ≡ₚ a_submitted s ++ (a_threads s ≫= todo).

  Lemma init_winv n subs w0 : winv subs (pinit n subs w0).
  Proof.
    unfold winv. simpl. rewrite app_nil_r, bind_app.
    assert (E1 : replicate n PIdle ≫= todo = []).
    { induction n as [|k IH]; [done|]. simpl replicate. by rewrite bind_cons. }
    rewrite E1. simpl. induction subs as [|l subs IH]; [done|]. rewrite fmap_cons, bind_cons. csimpl. by rewrite IH.
  Qed.

  Lemma step_winv subs s s' : winv subs s -> pany op follow s s' -> winv subs s'.
  Proof.
    intros I H. destruct H as [s s' H|s b Hm]; [|by destruct s].
    destruct H as [s t1 t t2 s' t' Ht Hs|s lk m Hm]; [|by destruct s].
    unfold winv in *. rewrite Ht in I. rewrite (bind_mid todo) in I. simpl. rewrite (bind_mid todo).
    destruct Hs; simpl in *; auto.
    - rewrite fmap_app, bind_app. csimpl. rewrite app_nil_r, app_assoc, I. solve_Permutation.
    - rewrite I. solve_Permutation.
    - rewrite I. by destruct p.
  Qed.

  Lemma reach_winv subs s s' : rtc (pany op follow) s s' -> winv subs s -> winv subs s'.
  Proof. induction 1 as [|s s1 s2 H _ IH]; [done|]. intros I. apply IH. by eapply step_winv. Qed.

  (** * After the return, when nobody else submits *)
  Definition no_ext (t : thr) : Prop :=
    match t with PSub false _ | PEnq false _ _ => False | _ => True end.
  Definition qinv (s : pst) : Prop :=
    Forall no_ext (a_threads s) /\
    (forall b b', a_main s = QDone b b' -> a_running s = 0).

  Lemma step_qinv n w0 s s' : inv n w0 s -> qinv s -> pany op follow s s' -> qinv s'.
  Proof.
    intros I [HF HQ] H. destruct H as [s s' H|s b Hm]; [|by destruct s; split].
    destruct H as [s t1 t t2 s' t' Ht Hs|s lk m Hm].
    - rewrite Ht in HF. rewrite Forall_app, Forall_cons in HF. destruct HF as (F1 & F & F2).
      pose proof (i_running _ _ _ I) as E. rewrite Ht, sum_mid in E.
      split; simpl.
      + rewrite Forall_app, Forall_cons. split_and!; auto. destruct Hs; simpl in *; auto. by destruct p.
      + intros b b' Hm. destruct Hs; simpl in *; try (by eapply HQ).
        * specialize (HQ _ _ Hm). destruct p; [|done]. simpl in E. lia.
        * specialize (HQ _ _ Hm). lia.
        * eapply (HQ b b'). by destruct m.
    - destruct s as [rn lk0 q ts m0 w sb pf cl]. simpl in *. split; [done|]. simpl.
      intros b b' ->. inversion Hm; by subst.
  Qed.

  Lemma reach_qinv n w0 s s' : rtc (pany op follow) s s' -> inv n w0 s -> qinv s -> qinv s'.
  Proof.
    induction 1 as [|s s1 s2 H _ IH]; [done|]. intros I Q.
    apply IH; [by eapply step_inv|by eapply step_qinv].
  Qed.

  (** * Running a schedule *)
  Definition step_thr (s : pst) (t : thr) : option (pst * thr) :=
    let 'PSt n lk q ts m w sb pf cl := s in
    match t with
    | PIdle => match q with r :: q' => Some (PSt n lk q' ts m w sb pf cl, PPerform r) | [] => None end
    | PPerform r => Some (PSt n lk q ts m (op r w).1 sb (pf ++ [(r, (op r w).2)]) cl, PCall r (op r w).2)
    | PCall r ret => Some (PSt n lk q ts m w sb pf (cl ++ [(r, ret)]), PSub true (follow r))
    | PSub p (r :: l) => Some (PSt (S n) lk q ts m w (sb ++ [r]) pf cl, PEnq p r l)
    | PSub p [] => Some (s, if p then PLock else PEnd)
    | PEnq p r l => Some (PSt n lk (q ++ [r]) ts m w sb pf cl, PSub p l)
    | PLock => if lk then None else Some (PSt n true q ts m w sb pf cl, PDec)
    | PDec => Some (PSt (n - 1) lk q ts m w sb pf cl, PNotify)
    | PNotify => Some (PSt n lk q ts (wake_main m) w sb pf cl, PUnlock)
    | PUnlock => Some (PSt n false q ts m w sb pf cl, PIdle)
    | PEnd => None
    end.
  Definition step_main (s : pst) : option pst :=
    let n := a_running s in
    match a_main s, a_lock s with
    | QStart, lk => Some (set_main s lk (QCheck (a_submitted s)))
    | QCheck b, lk => Some (set_main s lk (if decide (n = 0) then QDone b (a_submitted s) else QLock b))
    | QLock b, false => Some (set_main s true (QPred b))
    | QPred b, true => Some (set_main s false (if decide (n = 0) then QCheck b else QSleep b))
    | _, _ => None
    end.
  Fixpoint exec (sched : list (option nat)) (s : pst) : option pst :=
    match sched with
    | [] => Some s
    | None :: sched' => s' ← step_main s; exec sched' s'
    | Some i :: sched' =>
        t ← a_threads s !! i; x ← step_thr s t;
        exec sched' (set_threads x.1 (<[i := x.2]> (a_threads s)))
    end.

  Lemma step_thr_sound s t s' t' : step_thr s t = Some (s', t') -> tstep op follow s t s' t'.
  Proof.
    destruct s as [n lk q ts m w sb pf cl].
    destruct t as [| | |p [|r l]| | | | | |]; simpl; intros H; simplify_eq; try constructor.
    - destruct q; simplify_eq. constructor.
    - destruct lk; simplify_eq. constructor.
  Qed.

  Lemma step_main_sound s s' : step_main s = Some s' -> pstep op follow s s'.
  Proof.
    destruct s as [n lk q ts m w sb pf cl]. unfold step_main. simpl.
    destruct m as [|b|b|b|b|b b'], lk; simpl; intros H; simplify_eq;
      try (destruct (decide (n = 0))); apply ps_main; simpl; by constructor.
  Qed.

  Lemma exec_sound sched s s' : exec sched s = Some s' -> rtc (pstep op follow) s s'.
  Proof.
    revert s. induction sched as [|[i|] sched IH]; simpl; intros s H; simplify_eq; [constructor| |].
    - apply bind_Some in H as (t & Ht & H). apply bind_Some in H as ([s1 t1] & Hs & H).
      eapply rtc_l; [|by eapply IH]. apply step_thr_sound in Hs.
      rewrite (insert_take_drop _ _ _ (lookup_lt_Some _ _ _ Ht)).
      eapply ps_thread; [|done]. by rewrite (take_drop_middle _ _ _ Ht).
    - apply bind_Some in H as (s1 & Hs & H). eapply rtc_l; [|by eapply IH]. by apply step_main_sound.
  Qed.

  Lemma exec_reach sched s s' : exec sched s = Some s' -> rtc (pany op follow) s s'.
  Proof.
    intros H. apply exec_sound in H. induction H; [constructor|].
    eapply rtc_l; [by apply pa_step|done].
  Qed.

  (** * Termination *)
  Context (cost : req -> nat).
  Definition sumc (l : list req) : nat := sum_list_with cost l.
  Context (Hcost : forall r, 16 + sumc (follow r) <= cost r).

  Definition tcost (t : thr) : nat :=
    match t with
    | PIdle => 0 | PEnd => 0
    | PUnlock => 1 | PNotify => 5 | PDec => 6 | PLock => 7
    | PSub p l => 8 + sumc l
    | PCall r _ => 9 + sumc (follow r)
    | PPerform r => 10 + sumc (follow r)
    | PEnq p r l => 12 + sumc (follow r) + (8 + sumc l)
    end.
  Definition mrank (n : nat) (m : mst req) : nat :=
    match m with
    | QStart => 5
    | QCheck _ => if decide (n = 0) then 1 else 4
    | QLock _ => 3 | QPred _ => 2 | QSleep _ => 0 | QDone _ _ => 0
    end.
  Definition qcost (r : req) : nat := 11 + sumc (follow r).
  Local Arguments qcost : simpl never.
  Definition pmeasure (s : pst) : nat :=
    sum_list_with tcost (a_threads s) + sum_list_with qcost (a_queue s) +
    mrank (a_running s) (a_main s).

  Lemma pstep_measure s s' : pstep op follow s s' -> pmeasure s' < pmeasure s.
  Proof.
    intros H. destruct H as [s t1 t t2 s' t' Ht Hs|s lk m Hm].
    - unfold pmeasure. simpl. rewrite Ht, !sum_mid. clear Ht.
      destruct Hs; simpl; try lia.
      + pose proof (Hcost r).
        assert (mrank (S n) m <= mrank n m + 3); [|simpl; lia].
        destruct m; simpl; try lia. destruct (decide (n = 0)); lia.
      + rewrite (sum_list_with_app qcost). simpl. change (qcost r) with (11 + sumc (follow r)). lia.
      + destruct p; simpl; lia.
      + assert (mrank (n - 1) m <= mrank n m); [|lia].
        destruct m; simpl; try lia. destruct (decide (n - 1 = 0)), (decide (n = 0)); lia.
      + assert (mrank n (wake_main m) <= mrank n m + 3); [|lia].
        destruct m; simpl; lia.
    - unfold pmeasure. simpl. destruct s as [rn lk0 q ts m0 w sb pf cl]; simpl in *.
      destruct Hm; simpl; try lia.
      + destruct (decide (rn = 0)); lia.
      + rewrite decide_True by done. lia.
      + rewrite decide_False by done. lia.
      + rewrite decide_True by done. lia.
  Qed.

  Lemma psteps_bounded k s s' : nsteps (pstep op follow) k s s' -> k + pmeasure s' <= pmeasure s.
  Proof.
    revert s. induction k as [|k IH]; intros s H; inversion H as [|? ? s1 ? H1 H2]; subst; [lia|].
    apply IH in H2. apply pstep_measure in H1. lia.
  Qed.
End proofs.
