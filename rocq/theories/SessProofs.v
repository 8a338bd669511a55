(** Proofs about update sessions used by several threads. *)
From stdpp Require Import prelude.
From Coq Require Import Lia.
From Verif Require Import Base SessModel SessSpec.
Local Open Scope nat_scope.

Section proofs.
  Context {M : Type}.
  Implicit Types (s : sstate M) (z : zsess M) (c : scall M).

  (** * Bookkeeping of the calls *)
  Lemma zcalls_app (z : zsess M) o o' :
    zcalls z (o ++ o') = ((zcalls (zcalls z o).1 o').1, (zcalls z o).2 ++ (zcalls (zcalls z o).1 o').2).
  Proof. revert z. induction o as [|x o IH]; intros z; [cbn; apply surjective_pairing|]. cbn [app zcalls fst snd]. by rewrite IH. Qed.
  Lemma of_thread_app {A} t (l l' : list (nat * A)) : of_thread t (l ++ l') = of_thread t l ++ of_thread t l'.
  Proof. apply omap_app. Qed.
  Lemma of_thread_self {A} t (x : A) : of_thread t [(t, x)] = [x].
  Proof. unfold of_thread. simpl. by rewrite decide_True by done. Qed.
  Lemma of_thread_other {A} t t' (x : A) : t' <> t -> of_thread t [(t', x)] = [].
  Proof. intros H. unfold of_thread. simpl. by rewrite decide_False by done. Qed.

  (** The threads of a group: what they have done and what they have left. *)
  Record book (ps : list (list (scall M))) (z0 : zsess M) (o : list (nat * scall M)) (ths : list (sthread M)) : Prop := {
    bk_length : length ths = length ps;
    bk_thread t th : ths !! t = Some th -> ps !! t = Some (of_thread t o ++ t_todo th) /\ t_out th = of_thread t (zcalls z0 o).2;
    bk_others t : length ps <= t -> of_thread t o = [] /\ of_thread t (zcalls z0 o).2 = [] }.
  Lemma book_goto ps z0 o ths t c todo pc pc' out :
    ths !! t = Some (SThread (c :: todo) pc out) -> book ps z0 o ths -> book ps z0 o (<[t := SThread (c :: todo) pc' out]> ths).
  Proof.
    intros Ht [H1 H2 H3]. split; [by rewrite insert_length| |done]. intros t' th Hth.
    destruct (decide (t' = t)) as [->|Hne].
    - rewrite list_lookup_insert in Hth by (by eapply lookup_lt_Some). simplify_eq. exact (H2 t _ Ht).
    - rewrite list_lookup_insert_ne in Hth by done. by apply H2.
  Qed.
  Lemma book_return ps z0 o ths t c todo pc out :
    ths !! t = Some (SThread (c :: todo) pc out) -> book ps z0 o ths ->
    book ps z0 (o ++ [(t, c)]) (<[t := SThread todo PIdle (out ++ [(zcall (zcalls z0 o).1 c).2])]> ths).
  Proof.
    intros Ht [H1 H2 H3]. assert (Hlt : t < length ths) by (by eapply lookup_lt_Some). split; [by rewrite insert_length| |].
    - intros t' th Hth. rewrite zcalls_app. cbn [fst snd zcalls]. rewrite !of_thread_app. destruct (decide (t' = t)) as [->|Hne].
      + rewrite list_lookup_insert in Hth by done. simplify_eq. destruct (H2 t _ Ht) as [E1 E2]. cbn [t_todo t_out] in *.
        rewrite !of_thread_self, <- app_assoc. split; [done|]. by rewrite E2.
      + rewrite list_lookup_insert_ne in Hth by done. rewrite !of_thread_other, !app_nil_r by done. by apply H2.
    - intros t' Ht'. rewrite zcalls_app. cbn [fst snd zcalls]. rewrite !of_thread_app, !of_thread_other, !app_nil_r by lia. by apply H3.
  Qed.

  (** * The members *)
  (** No session is open. *)
  Definition closed z s : Prop :=
    s_writer s = None /\ s_up s = false /\ o_msgs <$> s_objs s = z_ended z /\ s_unary s = z_unary z.
  (** A session is open, with these messages. *)
  Definition opened z s (msgs : list M) (up d f : bool) : Prop :=
    exists pre x, s_objs s = pre ++ [CWriter msgs x d f false] /\ o_msgs <$> pre = z_ended z /\
      s_writer s = Some (length pre) /\ s_ctx s = Some x /\ s_up s = up /\ s_unary s = z_unary z.
  Definition rest z s : Prop :=
    match z_cur z with None => closed z s | Some l => opened z s l true false false end.
  (** The messages of an insertion. *)
  Definition call_msgs c : option (list M) :=
    match c with SInsert m | SSession m => Some [m] | SList ms => Some ms | SStart | SEnd => None end.
  (** A thread that is doing nothing to the members. *)
  Definition calm z (th : sthread M) : Prop :=
    match t_pc th with
    | PIdle => True
    | PUnary m => exists todo, t_todo th = SInsert m :: todo /\ z_cur z = None
    | PSession m => exists todo, t_todo th = SInsert m :: todo /\ is_Some (z_cur z)
    | PLock ms => exists c todo, t_todo th = c :: todo /\ call_msgs c = Some ms /\ is_Some (z_cur z)
    | _ => False
    end.
  (** The thread that is changing them. *)
  Definition writing z s t c (ms : list M) : Prop :=
    s_mtx s = Some t /\ exists l w, z_cur z = Some l /\ call_msgs c = Some (w ++ ms) /\ opened z s (l ++ w) true false false.
  Definition busy z s t c (pc : spc M) : Prop :=
    match pc with
    | PWriter ms => writing z s t c ms /\ ms <> []
    | PWrite p ms => writing z s t c ms /\ ms <> [] /\ s_writer s = Some p
    | PUnlock e => writing z s t c [] /\ e = false
    | PStart1 => c = SStart /\ z_cur z = None /\ closed z s /\ s_mtx s = None
    | PStart2 => c = SStart /\ z_cur z = None /\ closed z s /\ s_mtx s = None /\ is_Some (s_ctx s)
    | PStart3 p => c = SStart /\ z_cur z = None /\ s_mtx s = None /\
        exists pre x, s_objs s = pre ++ [CWriter [] x false false false] /\ o_msgs <$> pre = z_ended z /\
          p = length pre /\ s_writer s = None /\ s_ctx s = Some x /\ s_up s = false /\ s_unary s = z_unary z
    | PStart4 => c = SStart /\ z_cur z = None /\ s_mtx s = None /\ opened z s [] false false false
    | PEnd1 => c = SEnd /\ s_mtx s = None /\ exists l, z_cur z = Some l /\ opened z s l true false false
    | PEnd2 p => c = SEnd /\ s_mtx s = None /\ s_writer s = Some p /\ exists l, z_cur z = Some l /\ opened z s l true false false
    | PEnd3 => c = SEnd /\ s_mtx s = None /\ exists l, z_cur z = Some l /\ opened z s l true true false
    | PEnd4 p => c = SEnd /\ s_mtx s = None /\ s_writer s = Some p /\ exists l, z_cur z = Some l /\ opened z s l true true false
    | PEnd5 => c = SEnd /\ s_mtx s = None /\ exists l, z_cur z = Some l /\ opened z s l true true true
    | PEnd6 => c = SEnd /\ s_mtx s = None /\ exists l, z_cur z = Some l /\ opened z s l false true true
    | PEnd7 => c = SEnd /\ s_mtx s = None /\ s_up s = false /\ s_unary s = z_unary z /\
        exists l, z_cur z = Some l /\ o_msgs <$> s_objs s = z_ended z ++ [l]
    | _ => False
    end.
  Definition members z s : Prop :=
    exists sp : option nat,
      (forall t th, s_threads s !! t = Some th -> sp <> Some t -> calm z th) /\
      match sp with
      | None => rest z s /\ s_mtx s = None
      | Some t => exists c todo pc out, s_threads s !! t = Some (SThread (c :: todo) pc out) /\ busy z s t c pc
      end.
  (** The members do not depend on the threads. *)
  Lemma busy_threads z s ths t c pc : busy z (with_threads s ths) t c pc <-> busy z s t c pc.
  Proof. done. Qed.

  Definition alone (ps : list (list (scall M))) : Prop := length ps <= 1 \/ inserts_only ps.
  Record inv groups s : Prop := {
    in_ex : exists dn ps z0 o,
      [] :: groups = dn ++ ps :: s_later s /\ zgroups zinit dn z0 (s_past s) /\
      book ps z0 o (s_threads s) /\ members (zcalls z0 o).1 s }.

  Lemma calm_same z z' th : (z_cur z = None <-> z_cur z' = None) -> calm z th -> calm z' th.
  Proof.
    intros H. assert (Hs : is_Some (z_cur z) -> is_Some (z_cur z')).
    { rewrite <- !not_eq_None_Some. tauto. }
    unfold calm. destruct (t_pc th); try done.
    - intros (? & ? & ?). eexists. split; [done|]. by apply H.
    - intros (? & ? & ?). eexists. split; [done|]. by apply Hs.
    - intros (? & ? & ? & ? & ?). do 2 eexists. split_and!; try done. by apply Hs.
  Qed.
  Lemma insert_cur z c : call_msgs c <> None -> z_cur z = None <-> z_cur (zcall z c).1 = None.
  Proof. destruct c; cbn; try done; destruct (z_cur z) eqn:E; cbn; rewrite ?E; split; congruence. Qed.

  (** What the threads can tell from the members, whoever is changing them under the mutex. *)
  Lemma view_rest z s : rest z s -> if z_cur z then is_Some (s_writer s) /\ s_up s = true else s_writer s = None /\ s_up s = false.
  Proof.
    unfold rest. destruct (z_cur z); [intros (? & ? & ? & ? & -> & ? & ? & ?); split; [by eexists|done]|intros (? & ? & ? & ?); done].
  Qed.
  Lemma view_writing z s t c ms : writing z s t c ms -> is_Some (z_cur z) /\ is_Some (s_writer s) /\ s_up s = true.
  Proof. intros (_ & l & w & -> & _ & pre & x & _ & _ & -> & _ & -> & _). split_and!; by eexists. Qed.
  Lemma busy_insert z s t c pc : call_msgs c <> None -> busy z s t c pc -> exists ms, writing z s t c ms.
  Proof.
    intros Hc. destruct pc; cbn; try done; try (intros (-> & _); done); try (intros [H _]; by eexists).
  Qed.
  Lemma insert_msgs c : (match c with SStart | SEnd => False | _ => True end) -> call_msgs c <> None.
  Proof. by destruct c. Qed.

  (** * One step *)
  Definition others_calm z s t : Prop := forall t' th, s_threads s !! t' = Some th -> t' <> t -> calm z th.
  Lemma lookup_upd (ths : list (sthread M)) t th t' th' : <[t := th]> ths !! t' = Some th' -> t' <> t -> ths !! t' = Some th'.
  Proof. intros H Hne. by rewrite list_lookup_insert_ne in H. Qed.
  Lemma goto_busy z s s1 t c todo pc pc' out :
    s_threads s !! t = Some (SThread (c :: todo) pc out) -> s_threads s1 = s_threads s -> others_calm z s t -> busy z s1 t c pc' ->
    members z (with_threads s1 (<[t := SThread (c :: todo) pc' out]> (s_threads s1))).
  Proof.
    intros Ht E Ho Hb. rewrite E. exists (Some t). split.
    - intros t' th Hth Hne. apply (Ho t' th); [|congruence]. cbn in Hth. eapply lookup_upd; [exact Hth|congruence].
    - exists c, todo, pc', out. split; [|by apply busy_threads]. cbn. apply list_lookup_insert. by eapply lookup_lt_Some.
  Qed.
  Lemma goto_calm z s t sp c todo pc pc' out :
    s_threads s !! t = Some (SThread (c :: todo) pc out) -> sp <> Some t ->
    (forall t th, s_threads s !! t = Some th -> sp <> Some t -> calm z th) ->
    match sp with
    | None => rest z s /\ s_mtx s = None
    | Some t => exists c todo pc out, s_threads s !! t = Some (SThread (c :: todo) pc out) /\ busy z s t c pc
    end ->
    calm z (SThread (c :: todo) pc' out) -> members z (with_threads s (<[t := SThread (c :: todo) pc' out]> (s_threads s))).
  Proof.
    intros Ht Hsp Hc Hr Hn. exists sp. split.
    - intros t' th Hth Hne. cbn in Hth. destruct (decide (t' = t)) as [->|Hd].
      + rewrite list_lookup_insert in Hth by (by eapply lookup_lt_Some). by simplify_eq.
      + eapply Hc; [by eapply lookup_upd|done].
    - destruct sp as [t'|]; [|exact Hr]. destruct Hr as (c' & todo' & pc1 & out' & H1 & H2).
      exists c', todo', pc1, out'. split; [|exact H2]. cbn. rewrite list_lookup_insert_ne; [done|congruence].
  Qed.
  Lemma ret z s s1 t c todo pc out :
    s_threads s !! t = Some (SThread (c :: todo) pc out) -> s_threads s1 = s_threads s -> others_calm z s t ->
    (call_msgs c <> None \/ length (s_threads s) <= 1) -> rest (zcall z c).1 s1 -> s_mtx s1 = None ->
    members (zcall z c).1 (with_threads s1 (<[t := SThread todo PIdle (out ++ [(zcall z c).2])]> (s_threads s1))).
  Proof.
    intros Ht E Ho Hi Hr Hm. rewrite E. exists None. split; [|done]. intros t' th Hth _. cbn in Hth.
    destruct (decide (t' = t)) as [->|Hd].
    - rewrite list_lookup_insert in Hth by (by eapply lookup_lt_Some). by simplify_eq.
    - apply lookup_upd in Hth; [|done]. destruct Hi as [Hi|Hi].
      + apply (calm_same z); [by apply insert_cur|by eapply Ho].
      + apply lookup_lt_Some in Hth, Ht. lia.
  Qed.
  Lemma opened_usable z s msgs up d f p : opened z s msgs up d f -> s_writer s = Some p ->
    exists x, usable s p = Some (CWriter msgs x d f false).
  Proof.
    intros (pre & x & E1 & _ & E3 & E4 & _) Hw. rewrite E3 in Hw. injection Hw as <-. exists x. unfold usable.
    rewrite E1, lookup_app_r, Nat.sub_diag by lia. cbn. by rewrite E4, decide_True by done.
  Qed.
  Lemma opened_write z s msgs up d f p msgs' d' f' x : opened z s msgs up d f -> s_writer s = Some p ->
    usable s p = Some (CWriter msgs x d f false) ->
    opened z (with_objs s (<[p := CWriter msgs' x d' f' false]> (s_objs s))) msgs' up d' f'.
  Proof.
    intros (pre & x' & E1 & E2 & E3 & E4 & E5 & E6) Hw Hu. rewrite E3 in Hw. injection Hw as <-. exists pre, x. unfold usable in Hu.
    rewrite E1, lookup_app_r, Nat.sub_diag in Hu by lia. cbn in Hu. case_decide; [|done]. simplify_eq. cbn. rewrite E1.
    rewrite insert_app_r_alt, Nat.sub_diag by lia. done.
  Qed.
  Lemma access_ok z s t c todo pc out sp r :
    s_threads s !! t = Some (SThread (c :: todo) pc out) ->
    (forall t th, s_threads s !! t = Some th -> sp <> Some t -> calm z th) ->
    match sp with
    | None => rest z s /\ s_mtx s = None
    | Some t => exists c todo pc out, s_threads s !! t = Some (SThread (c :: todo) pc out) /\ busy z s t c pc
    end ->
    (forall t' th', t' <> t -> s_threads s !! t' = Some th' -> call_msgs c <> None /\ forall c' todo', t_todo th' = c' :: todo' -> call_msgs c' <> None) ->
    (call_msgs c <> None \/ length (s_threads s) <= 1) ->
    access s t c pc = Some r ->
    exists s1 n, r = Ok (s1, n) /\ s_threads s1 = s_threads s /\ s_later s1 = s_later s /\ s_past s1 = s_past s /\
      match n with
      | Goto pc' => members z (with_threads s1 (<[t := SThread (c :: todo) pc' out]> (s_threads s1)))
      | Return x => x = (zcall z c).2 /\ members (zcall z c).1 (with_threads s1 (<[t := SThread todo PIdle (out ++ [x])]> (s_threads s1)))
      end.
  Proof.
    intros Ht Hc Hr Hins Hal. destruct (decide (sp = Some t)) as [->|Hsp].
    { (* the busy thread *)
      destruct Hr as (c0 & todo0 & pc0 & out0 & Ht0 & Hb). rewrite Ht in Ht0. injection Ht0 as <- <- <- <-.
      assert (Ho : others_calm z s t) by (intros t' th' H Hne; eapply Hc; [done|congruence]).
      destruct pc; cbn in Hb; try done.
      - destruct Hb as [(Hm & l & w & El & Ec & Hop) Hne]. destruct Hop as (pre & x & E1 & E2 & E3 & E4 & E5 & E6). cbn [access]. rewrite E3.
        intros [= <-]. do 2 eexists. split; [done|]. split; [done|]. split; [done|]. split; [done|].
        eapply goto_busy; try done. cbn. split; [|done]. split; [done|]. exists l, w. split_and!; try done. by exists pre, x.
      - destruct Hb as [(Hm & l & w & El & Ec & Hop) [Hne Hw]]. destruct (opened_usable _ _ _ _ _ _ _ Hop Hw) as [x Hu]. cbn [access]. rewrite Hu.
        destruct ms as [|m ms]; [done|]. cbn [o_done o_msgs o_ctx o_finished]. intros [= <-]. do 2 eexists. split; [done|]. split; [done|]. split; [done|]. split; [done|].
        pose proof (opened_write _ _ _ _ _ _ _ ((l ++ w) ++ [m]) false false x Hop Hw Hu) as Hop'. rewrite <- app_assoc in Hop'.
        eapply goto_busy; try done.
        assert (Hwr : writing z (with_objs s (<[p:=CWriter ((l ++ w) ++ [m]) x false false false]> (s_objs s))) t c ms).
        { split; [done|]. exists l, (w ++ [m]). split; [done|]. split; [by rewrite <- app_assoc|]. by rewrite <- app_assoc. }
        destruct ms; cbn; split; done.
      - destruct Hb as [(Hm & l & w & El & Ec & Hop) ->]. cbn [access]. rewrite app_nil_r in Ec.
        intros [= <-]. do 2 eexists. split; [done|]. split; [done|]. split; [done|]. split; [done|].
        assert (Hz : zcall z c = (ZSess (Some (l ++ w)) (z_ended z) (z_unary z), SReturn false)).
        { destruct c; cbn in Ec; simplify_eq; cbn; by rewrite El. }
        split; [by rewrite Hz|].
        assert (E : SReturn false = (zcall z c).2) by (by rewrite Hz). rewrite E. eapply ret; try done. rewrite Hz. exact Hop.
      - destruct Hb as (-> & Hz & Hcl & Hm). intros [= <-]. do 2 eexists. split; [done|]. split; [done|]. split; [done|]. split; [done|].
        by eapply goto_busy.
      - destruct Hb as (-> & Hz & Hcl & Hm & [x Hx]). cbn [access]. rewrite Hx. intros [= <-]. do 2 eexists. split; [done|]. split; [done|]. split; [done|]. split; [done|].
        destruct Hcl as (E1 & E2 & E3 & E4). eapply goto_busy; try done. cbn. split_and!; try done. by exists (s_objs s), x.
      - destruct Hb as (-> & Hz & Hm & pre & x & E1 & E2 & -> & E3 & E4 & E5 & E6). cbn [access]. rewrite E3. cbn [destroy].
        intros [= <-]. do 2 eexists. split; [done|]. split; [done|]. split; [done|]. split; [done|].
        eapply goto_busy; try done. cbn. split_and!; try done. by exists pre, x.
      - destruct Hb as (-> & Hz & Hm & pre & x & E1 & E2 & E3 & E4 & E5 & E6).
        intros [= <-]. do 2 eexists. split; [done|]. split; [done|]. split; [done|]. split; [done|].
        assert (Hzc : zcall z SStart = (ZSess (Some []) (z_ended z) (z_unary z), SReturn false)) by (cbn; by rewrite Hz).
        assert (E : SReturn false = (zcall z SStart).2) by (by rewrite Hzc). rewrite E. split; [done|]. eapply ret; try done. rewrite Hzc. by exists pre, x.
      - destruct Hb as (-> & Hm & l & Hz & Hop). pose proof Hop as (pre & x & E1 & E2 & E3 & E4 & E5 & E6). cbn [access]. rewrite E3.
        intros [= <-]. do 2 eexists. split; [done|]. split; [done|]. split; [done|]. split; [done|].
        eapply goto_busy; try done. cbn. split_and!; try done. by exists l.
      - destruct Hb as (-> & Hm & Hw & l & Hz & Hop). destruct (opened_usable _ _ _ _ _ _ _ Hop Hw) as [x Hu]. cbn [access]. rewrite Hu.
        intros [= <-]. do 2 eexists. split; [done|]. split; [done|]. split; [done|]. split; [done|].
        eapply goto_busy; try done. cbn. split_and!; try done. exists l. split; [done|]. by apply (opened_write _ _ _ _ _ _ _ l true false x Hop Hw Hu).
      - destruct Hb as (-> & Hm & l & Hz & Hop). pose proof Hop as (pre & x & E1 & E2 & E3 & E4 & E5 & E6). cbn [access]. rewrite E3.
        intros [= <-]. do 2 eexists. split; [done|]. split; [done|]. split; [done|]. split; [done|].
        eapply goto_busy; try done. cbn. split_and!; try done. by exists l.
      - destruct Hb as (-> & Hm & Hw & l & Hz & Hop). destruct (opened_usable _ _ _ _ _ _ _ Hop Hw) as [x Hu]. cbn [access]. rewrite Hu. cbn [o_finished].
        intros [= <-]. do 2 eexists. split; [done|]. split; [done|]. split; [done|]. split; [done|].
        eapply goto_busy; try done. cbn. split_and!; try done. exists l. split; [done|]. by apply (opened_write _ _ _ _ _ _ _ l true true x Hop Hw Hu).
      - destruct Hb as (-> & Hm & l & Hz & (pre & x & E1 & E2 & E3 & E4 & E5 & E6)).
        intros [= <-]. do 2 eexists. split; [done|]. split; [done|]. split; [done|]. split; [done|].
        eapply goto_busy; try done. cbn. split_and!; try done. exists l. split; [done|]. by exists pre, x.
      - destruct Hb as (-> & Hm & l & Hz & (pre & x & E1 & E2 & E3 & E4 & E5 & E6)).
        intros [= <-]. do 2 eexists. split; [done|]. split; [done|]. split; [done|]. split; [done|].
        eapply goto_busy; try done. cbn. split_and!; try done. exists l. split; [done|]. by rewrite E1, fmap_app, E2.
      - destruct Hb as (-> & Hm & Hu & Hun & l & Hz & Ho'). cbn [access].
        intros [= <-]. do 2 eexists. split; [done|]. split; [done|]. split; [done|]. split; [done|].
        assert (Hzc : zcall z SEnd = (ZSess None (z_ended z ++ [l]) (z_unary z), SReturn false)) by (cbn; by rewrite Hz).
        assert (E : SReturn false = (zcall z SEnd).2) by (by rewrite Hzc). rewrite E. split; [done|]. eapply ret; try done. rewrite Hzc.
        cbn. split_and!; try done. rewrite <- Ho'. destruct (s_writer s) as [p|]; [|done]. cbn.
        apply list_eq. intros i. rewrite !list_lookup_fmap. destruct (decide (i = p)) as [->|Hne].
        + rewrite list_lookup_alter. by destruct (s_objs s !! p).
        + by rewrite list_lookup_alter_ne. }
    (* a calm thread *)
    pose proof (Hc _ _ Ht Hsp) as Hcalm.
    assert (Hv : if z_cur z then is_Some (s_writer s) /\ s_up s = true else s_writer s = None /\ s_up s = false).
    { destruct sp as [t'|]; [|destruct Hr as [Hr _]; exact (view_rest z s Hr)]. destruct Hr as (c' & todo' & pc' & out' & Ht' & Hb).
      destruct (Hins t' _ ltac:(congruence) Ht') as [_ Hc']. destruct (busy_insert _ _ _ _ _ (Hc' c' todo' eq_refl) Hb) as [ms Hw].
      destruct (view_writing _ _ _ _ _ Hw) as ([l ->] & H). done. }
    assert (Hmx : sp <> None -> is_Some (s_mtx s) /\ call_msgs c <> None).
    { destruct sp as [t'|]; [intros _|done]. destruct Hr as (c' & todo' & pc' & out' & Ht' & Hb).
      destruct (Hins t' _ ltac:(congruence) Ht') as [Hcc Hc']. destruct (busy_insert _ _ _ _ _ (Hc' c' todo' eq_refl) Hb) as [ms Hw].
      split; [|done]. destruct Hw as [-> _]. by eexists. }
    assert (Hgoto : forall pc', calm z (SThread (c :: todo) pc' out) -> members z (with_threads s (<[t := SThread (c :: todo) pc' out]> (s_threads s)))).
    { intros pc' Hn. by eapply goto_calm. }
    assert (Hgone : z_cur z = None -> sp = None).
    { intros Hz. destruct sp as [t'|]; [|done]. destruct Hr as (c' & todo' & pc' & out' & Ht' & Hb).
      destruct (Hins t' _ ltac:(congruence) Ht') as [_ Hc']. destruct (busy_insert _ _ _ _ _ (Hc' c' todo' eq_refl) Hb) as [ms Hw].
      destruct (view_writing _ _ _ _ _ Hw) as ([l Hl] & _). congruence. }
    assert (Ho : sp = None -> others_calm z s t) by (intros -> t' th' H Hne; by eapply Hc).
    destruct pc; cbn in Hcalm; try done.
    - destruct c as [m|m|ms| |]; cbn [access].
      + intros [= <-]. do 2 eexists. split; [done|]. split; [done|]. split; [done|]. split; [done|]. apply Hgoto. cbn.
        destruct (z_cur z) as [l|] eqn:Ez; [destruct Hv as [[p ->] _]|destruct Hv as [-> _]]; cbn; eexists; (split; [done|]); rewrite ?Ez; [by eexists|done].
      + destruct (z_cur z) as [l|] eqn:Ez; destruct Hv as [Hv1 ->]; intros [= <-]; do 2 eexists; (split; [done|]); (split; [done|]); (split; [done|]); (split; [done|]).
        * apply Hgoto. cbn. do 2 eexists. split_and!; [done|done|rewrite Ez; by eexists].
        * specialize (Hgone eq_refl). subst sp. destruct Hr as [Hr Hm].
          assert (E : zcall z (SSession m) = (z, SThrow)) by (cbn; by rewrite Ez).
          assert (E' : SThrow = (zcall z (SSession m)).2) by (by rewrite E). rewrite E'. split; [done|]. eapply ret; try done; [by apply Ho|]. by rewrite E.
      + destruct (z_cur z) as [l|] eqn:Ez; destruct Hv as [Hv1 ->]; intros [= <-]; do 2 eexists; (split; [done|]); (split; [done|]); (split; [done|]); (split; [done|]).
        * apply Hgoto. cbn. do 2 eexists. split_and!; [done|done|rewrite Ez; by eexists].
        * specialize (Hgone eq_refl). subst sp. destruct Hr as [Hr Hm].
          assert (E : zcall z (SList ms) = (z, SThrow)) by (cbn; by rewrite Ez).
          assert (E' : SThrow = (zcall z (SList ms)).2) by (by rewrite E). rewrite E'. split; [done|]. eapply ret; try done; [by apply Ho|]. by rewrite E.
      + assert (sp = None) as ->. { destruct sp; [|done]. by destruct (Hmx ltac:(done)) as [_ []]. }
        destruct Hr as [Hr Hm]. intros [= <-]; do 2 eexists; (split; [done|]); (split; [done|]); (split; [done|]); (split; [done|]).
        destruct (z_cur z) as [l|] eqn:Ez; [destruct Hv as [[p ->] _]|destruct Hv as [-> _]].
        * assert (E : zcall z SStart = (z, SReturn false)) by (cbn; by rewrite Ez).
          assert (E' : SReturn false = (zcall z SStart).2) by (by rewrite E). rewrite E'. split; [done|]. eapply ret; try done; [by apply Ho|]. by rewrite E.
        * eapply goto_busy; try done; [by apply Ho|]. cbn. split_and!; try done. unfold rest in Hr. by rewrite Ez in Hr.
      + assert (sp = None) as ->. { destruct sp; [|done]. by destruct (Hmx ltac:(done)) as [_ []]. }
        destruct Hr as [Hr Hm]. intros [= <-]; do 2 eexists; (split; [done|]); (split; [done|]); (split; [done|]); (split; [done|]).
        destruct (z_cur z) as [l|] eqn:Ez; [destruct Hv as [[p ->] _]|destruct Hv as [-> _]].
        * eapply goto_busy; try done; [by apply Ho|]. cbn. split_and!; try done. exists l. split; [done|]. unfold rest in Hr. by rewrite Ez in Hr.
        * assert (E : zcall z SEnd = (z, SReturn false)) by (cbn; by rewrite Ez).
          assert (E' : SReturn false = (zcall z SEnd).2) by (by rewrite E). rewrite E'. split; [done|]. eapply ret; try done; [by apply Ho|]. by rewrite E.
    - destruct Hcalm as (todo' & E & Hz). simplify_eq. specialize (Hgone Hz). subst sp. destruct Hr as [Hr Hm]. intros [= <-].
      do 2 eexists; (split; [done|]); (split; [done|]); (split; [done|]); (split; [done|]).
      assert (E : zcall z (SInsert m) = (ZSess None (z_ended z) (z_unary z ++ [m]), SReturn false)) by (cbn; by rewrite Hz).
      assert (E' : SReturn false = (zcall z (SInsert m)).2) by (by rewrite E). rewrite E'. split; [done|]. eapply ret; try done; [by apply Ho|]. rewrite E.
      unfold rest in Hr. rewrite Hz in Hr. destruct Hr as (E1 & E2 & E3 & E4). cbn. split_and!; try done. by rewrite E4.
    - destruct Hcalm as (todo' & E & [l Hz]). simplify_eq. rewrite Hz in Hv. destruct Hv as [_ Hv]. cbn [access]. rewrite Hv. intros [= <-].
      do 2 eexists; (split; [done|]); (split; [done|]); (split; [done|]); (split; [done|]). apply Hgoto. cbn. do 2 eexists. split_and!; [done|done|rewrite Hz; by eexists].
    - destruct Hcalm as (c' & todo' & E & Ec & [l Hz]). injection E as <- <-. cbn [access]. destruct (s_mtx s) eqn:Em; [done|]. intros [= <-].
      assert (sp = None) as ->. { destruct sp; [|done]. destruct (Hmx ltac:(done)) as [[? ?] _]. congruence. }
      destruct Hr as [Hr _]. unfold rest in Hr. rewrite Hz in Hr. do 2 eexists; (split; [done|]); (split; [done|]); (split; [done|]); (split; [done|]).
      eapply goto_busy; try done; [by apply Ho|].
      assert (Hw : writing z (with_mtx s (Some t)) t c ms). { split; [done|]. exists l, []. rewrite app_nil_r. done. }
      destruct ms; cbn; done.
  Qed.
End proofs.
