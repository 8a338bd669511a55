(** C101 and C102: update sessions used by several threads. *)
From stdpp Require Import prelude.
From Coq Require Import Lia.
From Verif Require Import Base SessModel SessSpec SessProofs.
Local Open Scope nat_scope.

Section inv.
  Context {M : Type}.
  Implicit Types (s : sstate M) (groups : list (list (list (scall M)))).

  Lemma inv_init groups : inv groups (sinit groups).
  Proof.
    split. exists [], [], zinit, []. split; [done|]. split; [constructor|]. split.
    - split; [done|..].
      + intros t th Hth. by destruct t.
      + done.
    - exists None. split; [|done]. intros t th Hth. by destruct t.
  Qed.
  (** The calls of a thread of a group. *)
  Lemma group_alone groups dn ps later : bracketed groups -> [] :: groups = dn ++ ps :: later -> length ps <= 1 \/ inserts_only ps.
  Proof.
    intros Hb E. assert (Hin : ps ∈ [] :: groups) by (rewrite E; apply elem_of_app; right; by left).
    apply elem_of_cons in Hin as [->|Hin]; [left; simpl; lia|]. unfold bracketed in Hb. rewrite Forall_forall in Hb. by apply Hb.
  Qed.
  Lemma book_insert ps z0 o (ths : list (sthread M)) t th c todo :
    inserts_only ps -> book ps z0 o ths -> ths !! t = Some th -> t_todo th = c :: todo -> call_msgs c <> None.
  Proof.
    intros Hi Hb Ht E. destruct (bk_thread _ _ _ _ Hb t th Ht) as [Hp _]. rewrite E in Hp. unfold inserts_only in Hi.
    pose proof (Forall_lookup_1 _ _ _ _ Hi Hp) as Hf. rewrite Forall_app in Hf. destruct Hf as [_ Hf]. apply Forall_inv in Hf. by apply insert_msgs.
  Qed.
  Lemma inv_step groups s t r : bracketed groups -> inv groups s -> sstep s t = Some r -> exists s', r = Ok s' /\ inv groups s'.
  Proof.
    intros Hbr [(dn & ps & z0 & o & E & Hz & Hb & Hm)] Hst. pose proof (group_alone _ _ _ _ Hbr E) as Hal.
    unfold sstep in Hst. destruct (s_threads s !! t) as [[todo0 pc out]|] eqn:Ht; [|done]. destruct todo0 as [|c todo]; [done|].
    destruct (access s t c pc) as [r0|] eqn:Ea; [|done]. destruct Hm as (sp & Hc & Hr).
    destruct (access_ok (zcalls z0 o).1 s t c todo pc out sp r0 Ht Hc Hr) as (s1 & n & -> & Hth & Hla & Hpa & Hn); [| |done|].
    - intros t' th' Hne Ht'. destruct Hal as [Hal|Hal].
      { pose proof (bk_length _ _ _ _ Hb). apply lookup_lt_Some in Ht, Ht'. lia. }
      split; [eapply book_insert; [exact Hal|exact Hb|exact Ht|reflexivity]|]. intros c' todo' E'. eapply book_insert; [exact Hal|exact Hb|exact Ht'|exact E'].
    - destruct Hal as [Hal|Hal]; [right; by rewrite (bk_length _ _ _ _ Hb)|left; eapply book_insert; [exact Hal|exact Hb|exact Ht|reflexivity]].
    - destruct n as [pc'|x].
      + injection Hst as <-. eexists. split; [done|]. split. exists dn, ps, z0, o. cbn [with_threads s_later s_past s_threads]. rewrite Hla, Hpa.
        split; [done|]. split; [done|]. split; [|exact Hn]. rewrite Hth. by eapply book_goto.
      + injection Hst as <-. destruct Hn as [-> Hn]. eexists. split; [done|]. split. exists dn, ps, z0, (o ++ [(t, c)]). cbn [with_threads s_later s_past s_threads]. rewrite Hla, Hpa.
        split; [done|]. split; [done|]. split; [rewrite Hth; by eapply book_return|]. rewrite zcalls_app. cbn [fst snd zcalls]. exact Hn.
  Qed.
  (** Groups one after the other. *)
  Lemma zgroups_app (z : zsess M) gs z' l ps o outs :
    zgroups z gs z' l -> merges ps o -> length outs = length ps -> merges outs (zcalls z' o).2 -> zgroups z (gs ++ [ps]) (zcalls z' o).1 (l ++ [outs]).
  Proof.
    induction 1 as [|z ps' gs o' outs' z' l H1 H2 H3 H4 IH]; intros Ha Hb Hc; cbn [app].
    - econstructor; [done..|]. constructor.
    - econstructor; [done..|]. by apply IH.
  Qed.
  Lemma book_over ps z0 o (ths : list (sthread M)) :
    book ps z0 o ths -> Forall (fun th => t_todo th = []) ths -> merges ps o /\ length (t_out <$> ths) = length ps /\ merges (t_out <$> ths) (zcalls z0 o).2.
  Proof.
    intros Hb Hf. split_and!.
    - intros t. destruct (ths !! t) as [th|] eqn:Ht.
      + destruct (bk_thread _ _ _ _ Hb t th Ht) as [-> _]. cbn. rewrite (Forall_lookup_1 _ _ _ _ Hf Ht). by rewrite app_nil_r.
      + apply lookup_ge_None in Ht. rewrite (bk_length _ _ _ _ Hb) in Ht. rewrite lookup_ge_None_2 by done. by apply (bk_others _ _ _ _ Hb).
    - rewrite fmap_length. apply (bk_length _ _ _ _ Hb).
    - intros t. rewrite list_lookup_fmap. destruct (ths !! t) as [th|] eqn:Ht; cbn.
      + by destruct (bk_thread _ _ _ _ Hb t th Ht) as [_ ->].
      + apply lookup_ge_None in Ht. rewrite (bk_length _ _ _ _ Hb) in Ht. by apply (bk_others _ _ _ _ Hb).
  Qed.
  (** When the threads have finished nobody is busy. *)
  Lemma members_over z s : members z s -> Forall (fun th => t_todo th = []) (s_threads s) -> rest z s /\ s_mtx s = None.
  Proof.
    intros ([t|] & _ & H) Hf; [|done]. destruct H as (c & todo & pc & out & Ht & _). by pose proof (Forall_lookup_1 _ _ _ _ Hf Ht).
  Qed.
  Lemma inv_join groups s s' : inv groups s -> sjoin s = Some s' -> inv groups s'.
  Proof.
    intros [(dn & ps & z0 & o & E & Hz & Hb & Hm)] Hj. unfold sjoin in Hj. destruct (s_later s) as [|ps' later] eqn:El; [done|].
    case_bool_decide as Hf; [|done]. injection Hj as <-. destruct (book_over _ _ _ _ Hb Hf) as (H1 & H2 & H3). destruct (members_over _ _ Hm Hf) as [Hr Hmt].
    split. exists (dn ++ [ps]), ps', (zcalls z0 o).1, []. cbn [s_later s_past s_threads].
    split; [by rewrite <- app_assoc|]. split; [by apply zgroups_app|]. split.
    - split; [by rewrite fmap_length|..].
      + intros t th Hth. rewrite list_lookup_fmap in Hth. destruct (ps' !! t) as [p|] eqn:Hp; [|done]. cbn in Hth. by simplify_eq.
      + done.
    - exists None. cbn [s_threads s_mtx]. split; [|done]. intros t th Hth _. rewrite list_lookup_fmap in Hth. destruct (ps' !! t) as [p|] eqn:Hp; [|done].
      cbn in Hth. by simplify_eq.
  Qed.
  Lemma inv_reach groups s : bracketed groups -> sreach groups s -> inv groups s.
  Proof.
    intros Hb. induction 1 as [|s t s' _ IH Hs|s s' _ IH Hj]; [apply inv_init| |by eapply inv_join].
    destruct (inv_step _ _ _ _ Hb IH Hs) as (s1 & [= <-] & H). done.
  Qed.
End inv.

(** ** C101: sessions started and ended by a thread that is alone *)
(** No null pointer, no destroyed object. *)
Theorem C101_defined :
  forall (M : Type) (groups : list (list (list (scall M)))) s t,
    bracketed groups -> sreach groups s -> sstep s t <> Some UB.
Proof. intros M groups s t Hb Hs E. by destruct (inv_step _ _ _ _ Hb (inv_reach _ _ Hb Hs) E) as (s' & ? & _). Qed.
Print Assumptions C101_defined.

(** No data race. *)
Theorem C101_no_race :
  forall (M : Type) (groups : list (list (list (scall M)))) s,
    bracketed groups -> sreach groups s -> ~ srace s.
Proof.
  intros M groups s Hb Hs (t & t' & th & th' & x & w & w' & Hne & Ht & Ht' & Ha & Ha' & Hw).
  destruct (inv_reach _ _ Hb Hs) as [(dn & ps & z0 & o & E & _ & Hbk & sp & Hc & Hr)].
  destruct (group_alone _ _ _ _ Hb E) as [Hal|Hal].
  { pose proof (bk_length _ _ _ _ Hbk). apply lookup_lt_Some in Ht, Ht'. lia. }
  assert (Hread : forall th, calm (zcalls z0 o).1 th -> next_access th = None \/ next_access th = Some (LWriter, false) \/ next_access th = Some (LUp, false)).
  { clear. intros [[|c todo] pc out] Hc; [by left|]. destruct pc; cbn in Hc; try done; destruct c; cbn; tauto. }
  assert (Hbusy : forall t th c todo, s_threads s !! t = Some th -> t_todo th = c :: todo -> busy (zcalls z0 o).1 s t c (t_pc th) ->
      next_access th = None \/ next_access th = Some (LWriter, false) \/ exists p, next_access th = Some (LObj p, true)).
  { clear -Hal Hbk. intros t [todo0 pc out] c todo Ht Hq Hb. cbn in Hq, Hb. subst todo0.
    pose proof (book_insert _ _ _ _ _ _ _ _ Hal Hbk Ht eq_refl) as Hi.
    destruct pc; cbn in Hb; try done; try (by destruct Hb as (-> & _)); destruct c; cbn; eauto. }
  destruct (decide (sp = Some t)) as [->|H1]; [|destruct (decide (sp = Some t')) as [->|H2]].
  - assert (H2 : Some t <> Some t') by congruence. destruct Hr as (c & todo & pc & out & Hth & Hbz). rewrite Ht in Hth. injection Hth as ->.
    destruct (Hbusy _ _ c todo Ht eq_refl Hbz) as [E1|[E1|[p E1]]], (Hread _ (Hc _ _ Ht' H2)) as [E2|[E2|E2]]; rewrite E1 in Ha; rewrite E2 in Ha'; by simplify_eq.
  - destruct Hr as (c & todo & pc & out & Hth & Hbz). rewrite Ht' in Hth. injection Hth as ->.
    destruct (Hbusy _ _ c todo Ht' eq_refl Hbz) as [E1|[E1|[p E1]]], (Hread _ (Hc _ _ Ht H1)) as [E2|[E2|E2]]; rewrite E1 in Ha'; rewrite E2 in Ha; by simplify_eq.
  - destruct (Hread _ (Hc _ _ Ht H1)) as [E1|[E1|E1]], (Hread _ (Hc _ _ Ht' H2)) as [E2|[E2|E2]]; rewrite E1 in Ha; rewrite E2 in Ha'; by simplify_eq.
Qed.
Print Assumptions C101_no_race.

(** At the end everything is as if the calls had been made one after the other, the calls of each
    thread in their order: the messages of each session, with the lists in one piece, and what the
    calls returned. *)
Theorem C101_serial :
  forall (M : Type) (groups : list (list (list (scall M)))) s,
    bracketed groups -> sreach groups s -> sfinished s ->
    exists z outs, zgroups zinit groups z outs /\
      [] :: outs = s_past s ++ [t_out <$> s_threads s] /\
      o_msgs <$> s_objs s = z_ended z ++ (match z_cur z with Some l => [l] | None => [] end) /\
      s_unary s = z_unary z.
Proof.
  intros M groups s Hb Hs [Hl Hf]. destruct (inv_reach _ _ Hb Hs) as [(dn & ps & z0 & o & E & Hz & Hbk & Hm)].
  rewrite Hl in E. destruct (book_over _ _ _ _ Hbk Hf) as (H1 & H2 & H3). destruct (members_over _ _ Hm Hf) as [Hr _].
  pose proof (zgroups_app _ _ _ _ _ _ _ Hz H1 H2 H3) as HZ. rewrite <- E in HZ.
  inversion HZ as [|zz pp gs oo outs0 z' l G1 G2 G3 G4]; subst.
  destruct oo as [|[t c] oo]. 2:{ specialize (G1 t). cbn in G1. unfold of_thread in G1. cbn in G1. by rewrite decide_True in G1. }
  cbn [zcalls fst snd] in *. destruct outs0; [|done].
  exists (zcalls z0 o).1, l. split; [done|]. split; [done|]. unfold rest in Hr. destruct (z_cur (zcalls z0 o).1) as [ms|] eqn:Ez.
  - destruct Hr as (pre & x & E1 & E2 & _ & _ & _ & E3). rewrite E1, fmap_app, E2. done.
  - destruct Hr as (_ & _ & E1 & E2). by rewrite E1, app_nil_r.
Qed.
Print Assumptions C101_serial.

(** load_inverted_index: the stream of its session receives the messages of all the jobs, each job in order. *)
Definition job_call {M} (c : scall M) : option (list M) :=
  match c with SSession m => Some [m] | SList ms => Some ms | _ => None end.
Lemma zcalls_session {M} (o : list (nat * scall M)) : Forall (fun x => is_Some (job_call x.2)) o ->
  forall z l, z_cur z = Some l -> (zcalls z o).1 = ZSess (Some (l ++ (o.*2 ≫= fun c => default [] (job_call c)))) (z_ended z) (z_unary z) /\
    Forall (fun x => x.2 = SReturn false) (zcalls z o).2.
Proof.
  induction 1 as [|[t c] o Hc _ IH]; intros z l Hz.
  - cbn. rewrite app_nil_r. split; [|done]. destruct z; cbn in *; by subst.
  - cbn [zcalls fst snd]. assert (E : zcall z c = (ZSess (Some (l ++ default [] (job_call c))) (z_ended z) (z_unary z), SReturn false)).
    { destruct c; cbn in Hc |- *; try (by destruct Hc); by rewrite Hz. }
    rewrite E. cbn [fst snd]. destruct (IH (ZSess (Some (l ++ default [] (job_call c))) (z_ended z) (z_unary z)) _ eq_refl) as [E1 E2]. rewrite E1. cbn. split; [by rewrite app_assoc|]. by constructor.
Qed.
Lemma merges_all {A} (P : A -> Prop) (ps : list (list A)) o : merges ps o -> Forall (Forall P) ps -> Forall (fun x => P x.2) o.
Proof.
  intros Hm Hf. apply Forall_forall. intros [t x] Hin. assert (Hx : x ∈ of_thread t o).
  { unfold of_thread. apply elem_of_list_omap. exists (t, x). split; [done|]. cbn. by rewrite decide_True. }
  rewrite (Hm t) in Hx. destruct (ps !! t) as [p|] eqn:Hp; [|by apply elem_of_nil in Hx]. cbn in Hx.
  pose proof (Forall_lookup_1 _ _ _ _ Hf Hp) as HP. rewrite Forall_forall in HP. by apply HP.
Qed.
Lemma merges_back {A} (P : A -> Prop) (ps : list (list A)) o : merges ps o -> Forall (fun x => P x.2) o -> Forall (Forall P) ps.
Proof.
  intros Hm Hf. apply Forall_lookup_2. intros t p Hp. apply Forall_forall. intros x Hx.
  assert (Hin : x ∈ of_thread t o) by (rewrite (Hm t), Hp; done). unfold of_thread in Hin. apply elem_of_list_omap in Hin as ([t' y] & Hin & E).
  cbn in E. case_decide; simplify_eq. rewrite Forall_forall in Hf. by apply (Hf _ Hin).
Qed.
Lemma merges_one {A} (x : A) o : merges [[x]] o -> o = [(0, x)].
Proof.
  intros Hm. destruct o as [|[t y] o]; [by specialize (Hm 0)|].
  assert (t = 0) as ->. { specialize (Hm t). unfold of_thread in Hm. cbn in Hm. rewrite decide_True in Hm by done. by destruct t as [|[|]]. }
  pose proof (Hm 0) as H0. unfold of_thread in H0. cbn in H0. injection H0 as -> H0. destruct o as [|[t z] o]; [done|]. exfalso. specialize (Hm t).
  unfold of_thread in Hm. cbn in Hm. rewrite (decide_True (P := t = t)) in Hm by done. destruct t as [|[|]]; cbn in Hm; [|done..]. done.
Qed.
Theorem C101_load :
  forall (M : Type) (jobs : list (list (scall M))) s,
    Forall (Forall (fun c => is_Some (job_call c))) jobs -> sreach [[[SStart]]; jobs; [[SEnd]]] s -> sfinished s ->
    exists o, merges jobs o /\ o_msgs <$> s_objs s = [o.*2 ≫= fun c => default [] (job_call c)] /\ s_unary s = [] /\
      Forall (Forall (Forall (fun x => x = SReturn false))) (s_past s ++ [t_out <$> s_threads s]).
Proof.
  intros M jobs s Hj Hs Hf. destruct (C101_serial M [[[SStart]]; jobs; [[SEnd]]] s) with (2 := Hs) (3 := Hf) as (z & outs & Hz & Ho & Hm & Hu).
  { constructor; [left; cbn; lia|]. constructor; [right|constructor; [left; cbn; lia|constructor]].
    eapply Forall_impl; [exact Hj|]. intros p Hp. eapply Forall_impl; [exact Hp|]. intros c [? Hc]. by destruct c. }
  inversion Hz as [|z1 p1 g1 o1 outs1 z1' l1 A1 A2 A3 A4]; subst. inversion A4 as [|z2 p2 g2 o2 outs2 z2' l2 B1 B2 B3 B4]; subst.
  inversion B4 as [|z3 p3 g3 o3 outs3 z3' l3 D1 D2 D3 D4]; subst. inversion D4; subst.
  apply merges_one in A1, D1. subst o1 o3. pose proof (merges_all _ _ _ B1 Hj) as Hall. unfold zinit in *; cbn [zcalls zcall fst snd z_cur z_ended z_unary] in *.
  destruct (zcalls_session _ Hall (ZSess (Some []) [] []) [] eq_refl) as [E1 E2]. cbn [app z_ended z_unary] in *. rewrite E1 in Hm. rewrite E1 in Hu. rewrite E1 in D3. cbn [zcall fst snd z_cur z_ended z_unary app] in *.
  exists o2. split; [done|]. split; [done|]. split; [done|]. rewrite <- Ho. constructor; [constructor|].
  constructor; [eapply merges_back; [exact A3|by repeat constructor]|]. constructor; [eapply merges_back; [exact B3|exact E2]|].
  constructor; [eapply merges_back; [exact D3|by repeat constructor]|constructor].
Qed.
Print Assumptions C101_load.

(** Nobody waits for ever: as long as something is left to be done, something can be done. *)
Lemma access_waits {M} (s : sstate M) t c pc : access s t c pc = None -> exists ms h, pc = PLock ms /\ s_mtx s = Some h.
Proof.
  destruct pc; cbn; try done.
  - by destruct c.
  - destruct (s_mtx s); [|done]. intros _. by do 2 eexists.
  - by destruct (s_writer s).
  - destruct (usable s p); [|by destruct ms]. destruct ms; [done|]. by destruct (o_done c0).
  - by destruct (s_ctx s).
  - by destruct (s_writer s).
  - by destruct (usable s p).
  - by destruct (s_writer s).
  - destruct (usable s p); [|done]. by destruct (o_finished c0).
Qed.
Lemma access_kind {M} (s : sstate M) t c pc r : access s t c pc = Some r -> r = UB \/ exists s' n, r = Ok (s', n).
Proof.
  destruct pc; cbn; try (intros [= <-]; right; by do 2 eexists).
  - destruct c; intros [= <-]; right; by do 2 eexists.
  - destruct (s_mtx s); [done|]. intros [= <-]; right; by do 2 eexists.
  - destruct (s_writer s); intros [= <-]; [right; by do 2 eexists|by left].
  - destruct (usable s p) as [o|]; [|intros [= <-]; by left]. destruct ms; [intros [= <-]; by left|].
    destruct (o_done o); intros [= <-]; right; by do 2 eexists.
  - destruct (s_ctx s); intros [= <-]; [right; by do 2 eexists|by left].
  - destruct (s_writer s); intros [= <-]; [right; by do 2 eexists|by left].
  - destruct (usable s p) as [o|]; intros [= <-]; [right; by do 2 eexists|by left].
  - destruct (s_writer s); intros [= <-]; [right; by do 2 eexists|by left].
  - destruct (usable s p) as [o|]; [|intros [= <-]; by left].
    destruct (o_finished o); intros [= <-]; [by left|right; by do 2 eexists].
Qed.
Theorem C101_progress :
  forall (M : Type) (groups : list (list (list (scall M)))) s,
    bracketed groups -> sreach groups s -> sfinished s \/ (exists s', sjoin s = Some s') \/ exists t s', sstep s t = Some (Ok s').
Proof.
  intros M groups s Hb Hs. destruct (decide (Forall (fun th => t_todo th = []) (s_threads s))) as [Hf|Hf].
  { destruct (s_later s) as [|ps later] eqn:El; [left; by split|right; left]. unfold sjoin. rewrite El, bool_decide_true by done. by eexists. }
  right. right. assert (Hstep : forall t c todo pc out, s_threads s !! t = Some (SThread (c :: todo) pc out) -> access s t c pc <> None -> exists t s', sstep s t = Some (Ok s')).
  { intros t c todo pc out Ht Ha. exists t. destruct (sstep s t) as [r|] eqn:Es.
    - destruct (inv_step _ _ _ _ Hb (inv_reach _ _ Hb Hs) Es) as (s' & -> & _). by eexists.
    - unfold sstep in Es. rewrite Ht in Es. destruct (access s t c pc) as [r|] eqn:Ea; [|done].
      destruct (access_kind _ _ _ _ _ Ea) as [->|(s1 & [] & ->)]; done. }
  assert (Hex : exists t th c todo, s_threads s !! t = Some th /\ t_todo th = c :: todo).
  { apply not_Forall_Exists in Hf; [|intros th; apply _]. apply Exists_exists in Hf as (th & Hin & Hn). apply elem_of_list_lookup in Hin as [t Ht].
    destruct th as [[|c todo] pc out]; [by destruct Hn|]. by exists t, (SThread (c :: todo) pc out), c, todo. }
  destruct Hex as (t & [todo0 pc out] & c & todo & Ht & E). cbn in E. subst todo0.
  destruct (access s t c pc) as [r|] eqn:Ea; [eapply Hstep; [exact Ht|by rewrite Ea]|].
  destruct (access_waits _ _ _ _ Ea) as (ms & h & -> & Hm).
  destruct (inv_reach _ _ Hb Hs) as [(dn & ps & z0 & o & _ & _ & _ & sp & _ & Hr)]. destruct sp as [t'|]; [|destruct Hr; congruence].
  destruct Hr as (c' & todo' & pc' & out' & Ht' & Hbz). eapply Hstep; [exact Ht'|]. intros Ha. by destruct (access_waits _ _ _ _ Ha) as (ms' & h' & -> & _).
Qed.
Print Assumptions C101_progress.

(** ** C102: any use *)
(** Whatever the calls, two threads are never writing at the same time. *)
Definition critical {M} (pc : spc M) : bool :=
  match pc with PWriter _ | PWrite _ _ | PUnlock _ => true | _ => false end.
Definition locked {M} (s : sstate M) : Prop :=
  forall t th, s_threads s !! t = Some th -> critical (t_pc th) = true -> s_mtx s = Some t.
Lemma access_lock {M} (s : sstate M) t c pc s' n : access s t c pc = Some (Ok (s', n)) -> s_threads s' = s_threads s /\
  (critical pc = false -> match n with Goto pc' => (critical pc' = false /\ s_mtx s' = s_mtx s) \/ (s_mtx s = None /\ s_mtx s' = Some t) | Return _ => s_mtx s' = s_mtx s end) /\
  (critical pc = true -> match n with Goto pc' => s_mtx s' = s_mtx s | Return _ => s_mtx s' = None end).
Proof.
  intros Ha. destruct pc; cbn in Ha; repeat case_match; simplify_eq; cbn; split_and!; try done; intros _; repeat case_match; cbn; auto.
Qed.
Lemma locked_reach {M} (groups : list (list (list (scall M)))) s : sreach groups s -> locked s.
Proof.
  induction 1 as [|s t s' _ IH Hs|s s' _ _ Hj].
  - intros t th Hth. by destruct t.
  - unfold sstep in Hs. destruct (s_threads s !! t) as [[[|c todo] pc out]|] eqn:Ht; [done| |done].
    destruct (access s t c pc) as [[[s1 n]|?| |]|] eqn:Ea; try done. destruct (access_lock _ _ _ _ _ _ Ea) as (Hth & H1 & H2).
    pose proof (IH t _ Ht) as Hme. cbn [t_pc] in Hme.
    assert (Ho : forall t' th, s_threads s !! t' = Some th -> t' <> t -> critical (t_pc th) = true -> s_mtx s = Some t') by (intros; by eapply IH).
    destruct n as [pc'|x]; injection Hs as <-; intros t' th Hth' Hcr; cbn [with_threads s_threads s_mtx] in *; rewrite Hth in Hth';
      (destruct (decide (t' = t)) as [->|Hne]; [rewrite list_lookup_insert in Hth' by (by eapply lookup_lt_Some); simplify_eq; cbn [t_pc] in Hcr|
        rewrite list_lookup_insert_ne in Hth' by done; pose proof (Ho t' th Hth' Hne Hcr) as Hmt; destruct (critical pc); [rewrite Hme in Hmt by done; congruence|]]).
    + destruct (critical pc).
      * rewrite H2 by done. by apply Hme.
      * destruct (H1 eq_refl) as [[? _]|[_ ?]]; [congruence|done].
    + destruct (H1 eq_refl) as [[_ ->]|[? _]]; [done|congruence].
    + by rewrite H1.
  - unfold sjoin in Hj. destruct (s_later s) as [|ps later]; [done|]. case_bool_decide; [|done]. injection Hj as <-.
    intros t th Hth Hcr. cbn in Hth. rewrite list_lookup_fmap in Hth. destruct (ps !! t); [|done]. cbn in Hth. by simplify_eq.
Qed.
Theorem C102_writes :
  forall (M : Type) (groups : list (list (list (scall M)))) s t t' th th' p ms p' ms',
    sreach groups s -> s_threads s !! t = Some th -> s_threads s !! t' = Some th' ->
    t_pc th = PWrite p ms -> t_pc th' = PWrite p' ms' -> t = t'.
Proof.
  intros M groups s t t' th th' p ms p' ms' Hs Ht Ht' E E'. pose proof (locked_reach _ _ Hs) as Hl.
  pose proof (Hl t th Ht ltac:(by rewrite E)) as H1. pose proof (Hl t' th' Ht' ltac:(by rewrite E')) as H2. congruence.
Qed.
Print Assumptions C102_writes.

(** Whatever the calls, a document was sent if its insertion returned without an exception and
    without writing an error in the log. *)
Section reported.
  Context {M : Type}.
  Implicit Types (s : sstate M) (groups : list (list (list (scall M)))) (c : scall M) (pc : spc M).
  Definition all_sent s (l : list M) : Prop := forall m, m ∈ l -> sent s m.
  Definition pc_sent s c pc : Prop :=
    match pc with
    | PIdle | PUnlock true => True
    | PUnary m | PSession m => call_docs c = [m]
    | PLock ms => call_docs c = ms
    | PWriter ms | PWrite _ ms => exists pre, call_docs c = pre ++ ms /\ all_sent s pre
    | PUnlock false => all_sent s (call_docs c)
    | _ => call_docs c = []
    end.
  Definition grows s s' : Prop := forall m, sent s m -> sent s' m.
  Lemma grows_refl s s' : s_unary s' = s_unary s -> s_objs s' = s_objs s -> grows s s'.
  Proof. intros E1 E2 m. unfold sent. by rewrite E1, E2. Qed.
  Lemma grows_all s s' l : grows s s' -> all_sent s l -> all_sent s' l.
  Proof. intros Hg Ha m Hm. by apply Hg, Ha. Qed.
  Lemma grows_pc s s' c pc : grows s s' -> pc_sent s c pc -> pc_sent s' c pc.
  Proof.
    intros Hg. destruct pc as [| | | | | |[]| | | | | | | | | | |]; cbn; try done.
    - intros (pre & ? & ?). exists pre. split; [done|by eapply grows_all].
    - intros (pre & ? & ?). exists pre. split; [done|by eapply grows_all].
    - by apply grows_all.
  Qed.
  Lemma grows_objs s s' : s_unary s' = s_unary s ->
    (forall p o m, s_objs s !! p = Some o -> m ∈ o_msgs o -> exists p' o', s_objs s' !! p' = Some o' /\ m ∈ o_msgs o') -> grows s s'.
  Proof. intros E H m [Hm|(p & o & Hp & Hm)]; [left; by rewrite E|]. right. by eapply H. Qed.
  Lemma insert_msgs_ok (l : list (cwriter M)) q x p o m o0 : l !! q = Some o0 -> (forall m, m ∈ o_msgs o0 -> m ∈ o_msgs x) ->
    l !! p = Some o -> m ∈ o_msgs o -> exists p' o', <[q := x]> l !! p' = Some o' /\ m ∈ o_msgs o'.
  Proof.
    intros Hq Hx Hp Hm. exists p. destruct (decide (p = q)) as [->|Hne].
    - exists x. rewrite list_lookup_insert by (by eapply lookup_lt_Some). split; [done|]. apply Hx. congruence.
    - exists o. by rewrite list_lookup_insert_ne.
  Qed.
  Lemma destroy_msgs_ok w (l : list (cwriter M)) p o m : l !! p = Some o -> m ∈ o_msgs o ->
    exists p' o', destroy w l !! p' = Some o' /\ m ∈ o_msgs o'.
  Proof.
    intros Hp Hm. destruct w as [q|]; [|by exists p, o]. exists p. unfold destroy. destruct (decide (q = p)) as [->|Hne].
    - rewrite list_lookup_alter, Hp. by eexists.
    - exists o. by rewrite list_lookup_alter_ne.
  Qed.
  Lemma usable_obj s p o : usable s p = Some o -> s_objs s !! p = Some o.
  Proof. unfold usable. intros H. repeat case_match; simplify_eq; done. Qed.
  Lemma access_sent s t c pc s' n : access s t c pc = Some (Ok (s', n)) -> pc_sent s c pc ->
    grows s s' /\ match n with Goto pc' => pc_sent s' c pc' | Return (SReturn false) => all_sent s' (call_docs c) | Return _ => True end.
  Proof.
    intros Ha Hp. destruct pc as [|m|m|ms|ms|p ms|e| | |p| | |p| |p| | |]; cbn in Ha.
    - assert (s' = s) as -> by (destruct c; by simplify_eq). split; [by apply grows_refl|].
      destruct c; simplify_eq; repeat case_match; simplify_eq; cbn; try done; by (intros mm Hm; by apply elem_of_nil in Hm).
    - simplify_eq. cbn in Hp. split.
      + intros x [Hx|Hx]; [left; cbn; apply elem_of_app; by left|by right].
      + rewrite Hp. intros x ->%elem_of_list_singleton. left. cbn. apply elem_of_app. right. by left.
    - simplify_eq. split; [by apply grows_refl|]. destruct (s_up _); [exact Hp|done].
    - destruct (s_mtx s); [done|]. injection Ha as <- <-. split; [by apply grows_refl|]. cbn in Hp. destruct ms; cbn.
      + rewrite Hp. by (intros mm Hm; by apply elem_of_nil in Hm).
      + exists []. split; [done|]. by (intros mm Hm; by apply elem_of_nil in Hm).
    - repeat case_match; simplify_eq. split; [by apply grows_refl|]. exact Hp.
    - destruct (usable s p) as [o|] eqn:Hu; [|done]. apply usable_obj in Hu. destruct ms as [|m ms]; [done|].
      destruct (o_done o); simplify_eq; [split; [by apply grows_refl|done]|].
      set (s1 := with_objs s _). assert (Hg : grows s s1).
      { apply grows_objs; [done|]. intros q o1 x Hq Hx. eapply (insert_msgs_ok (s_objs s) p); [exact Hu| |exact Hq|exact Hx].
        intros y Hy. cbn. apply elem_of_app. by left. }
      split; [done|]. destruct Hp as (pre & Hd & Hpre).
      assert (Hm : all_sent s1 (pre ++ [m])).
      { intros x [Hx|Hx]%elem_of_app; [by apply Hg, Hpre|]. apply elem_of_list_singleton in Hx as ->. right.
        eexists p, _. split; [apply list_lookup_insert; by eapply lookup_lt_Some|]. cbn. apply elem_of_app. right. by left. }
      destruct ms as [|m' ms]; cbn.
      + rewrite Hd. exact Hm.
      + exists (pre ++ [m]). split; [|done]. by rewrite <- app_assoc.
    - simplify_eq. split; [by apply grows_refl|]. destruct e; [done|]. exact Hp.
    - simplify_eq. split; [by apply grows_refl|done].
    - repeat case_match; simplify_eq. split; [|done]. apply grows_objs; [done|]. intros q o x Hq Hx. exists q, o. split; [|done].
      cbn. by apply lookup_app_l_Some.
    - simplify_eq. split; [|done]. apply grows_objs; [done|]. intros q o x Hq Hx. cbn. by eapply destroy_msgs_ok.
    - simplify_eq. split; [by apply grows_refl|]. cbn in Hp. rewrite Hp. by (intros mm Hm; by apply elem_of_nil in Hm).
    - repeat case_match; simplify_eq. split; [by apply grows_refl|done].
    - destruct (usable s p) as [o|] eqn:Hu; simplify_eq. apply usable_obj in Hu. split; [|done].
      apply grows_objs; [done|]. intros q o1 x Hq Hx. by eapply (insert_msgs_ok (s_objs s) p).
    - repeat case_match; simplify_eq. split; [by apply grows_refl|done].
    - destruct (usable s p) as [o|] eqn:Hu; [|done]. apply usable_obj in Hu. destruct (o_finished o); simplify_eq. split; [|done].
      apply grows_objs; [done|]. intros q o1 x Hq Hx. by eapply (insert_msgs_ok (s_objs s) p).
    - simplify_eq. split; [by apply grows_refl|done].
    - simplify_eq. split; [by apply grows_refl|done].
    - simplify_eq. split; [|cbn in Hp; rewrite Hp; by (intros mm Hm; by apply elem_of_nil in Hm)]. apply grows_objs; [done|]. intros q o x Hq Hx. cbn. by eapply destroy_msgs_ok.
  Qed.

  Definition reports s (p : list (scall M)) (out : list sout) : Prop :=
    forall i c, out !! i = Some (SReturn false) -> p !! i = Some c -> all_sent s (call_docs c).
  Lemma grows_reports s s' p out : grows s s' -> reports s p out -> reports s' p out.
  Proof. intros Hg H i c Ho Hc. eapply grows_all; [exact Hg|]. by eapply H. Qed.
  Record rinv groups s : Prop := RInv {
    ri : exists dn ps, [] :: groups = dn ++ ps :: s_later s /\ length (s_past s) = length dn /\ length (s_threads s) = length ps /\
      (forall g outs pg t o p, s_past s !! g = Some outs -> dn !! g = Some pg -> outs !! t = Some o -> pg !! t = Some p -> reports s p o) /\
      (forall t th p, s_threads s !! t = Some th -> ps !! t = Some p ->
         drop (length (t_out th)) p = t_todo th /\ reports s p (t_out th) /\
         match t_todo th with c :: _ => pc_sent s c (t_pc th) | [] => True end) }.
  Lemma rinv_reach groups s : sreach groups s -> rinv groups s.
  Proof.
    induction 1 as [|s t s' _ IH Hs|s s' _ IH Hj].
    - split. exists [], []. split; [done|]. split; [done|]. split; [done|]. split; [|by intros t th p Ht; destruct t]. intros g outs pg t o p Hg. by destruct g.
    - destruct IH as [(dn & ps & E & Lp & Lt & Hpast & Hth)]. unfold sstep in Hs.
      destruct (s_threads s !! t) as [[[|c todo] pc out]|] eqn:Ht; [done| |done].
      destruct (access s t c pc) as [[[s1 n]|?| |]|] eqn:Ea; try done.
      destruct (access_lock _ _ _ _ _ _ Ea) as (Eth & _ & _).
      assert (El : s_later s1 = s_later s /\ s_past s1 = s_past s).
      { clear -Ea. destruct pc, c; cbn in Ea; repeat case_match; simplify_eq; done. }
      destruct El as [El Epa].
      destruct (lookup_lt_is_Some_2 ps t) as [p Hp]; [rewrite <- Lt; by eapply lookup_lt_Some|].
      destruct (Hth t _ p Ht Hp) as (Hd & Hr & Hpc). cbn [t_out t_todo t_pc] in *.
      destruct (access_sent _ _ _ _ _ _ Ea Hpc) as [Hg Hn].
      assert (Hnew : exists th', s' = with_threads s1 (<[t := th']> (s_threads s)) /\ drop (length (t_out th')) p = t_todo th' /\
        reports s1 p (t_out th') /\ match t_todo th' with c :: _ => pc_sent s1 c (t_pc th') | [] => True end).
      { destruct n as [pc'|o]; injection Hs as <-; rewrite Eth; eexists; (split; [reflexivity|]); cbn [t_out t_todo t_pc].
        - split; [done|]. split; [by eapply grows_reports|done].
        - rewrite app_length. cbn [length]. split_and!; [|..].
          + rewrite <- drop_drop, Hd. done.
          + intros i c0 Ho Hc. apply lookup_app_Some in Ho as [Ho|[Hi Ho]]; [eapply grows_all; [exact Hg|]; by eapply Hr|].
            apply list_lookup_singleton_Some in Ho as [Hi0 ->]. assert (i = length out) as -> by lia.
            assert (p !! length out = Some c) as Hc'. { rewrite <- (Nat.add_0_r (length out)), <- lookup_drop, Hd. done. }
            rewrite Hc' in Hc. injection Hc as <-. exact Hn.
          + by destruct todo. }
      destruct Hnew as (th' & -> & Hd' & Hr' & Hpc'). split. exists dn, ps. cbn. rewrite El, Epa, insert_length. split_and!; try done.
      + intros g outs pg t0 o0 p0 H1 H2 H3 H4. eapply grows_reports; [|by eapply Hpast]. intros m Hm. by apply Hg.
      + intros t0 th0 p0 Ht0 Hp0. destruct (decide (t0 = t)) as [->|Hne].
        * rewrite list_lookup_insert in Ht0 by (by eapply lookup_lt_Some). injection Ht0 as <-. rewrite Hp in Hp0. injection Hp0 as <-.
          split_and!; [done|exact Hr'|exact Hpc'].
        * rewrite list_lookup_insert_ne in Ht0 by done. destruct (Hth t0 th0 p0 Ht0 Hp0) as (A & B & C). split_and!; [done|..].
          -- eapply grows_reports; [|exact B]. intros m Hm. by apply Hg.
          -- destruct (t_todo th0); [done|]. eapply grows_pc; [|exact C]. intros m Hm. by apply Hg.
    - destruct IH as [(dn & ps & E & Lp & Lt & Hpast & Hth)]. unfold sjoin in Hj. destruct (s_later s) as [|ps' later] eqn:El; [done|].
      case_bool_decide as Hf; [|done]. injection Hj as <-. split. exists (dn ++ [ps]), ps'. cbn [s_later s_past s_threads].
      rewrite !app_length, fmap_length. cbn [length]. split_and!.
      + rewrite <- app_assoc. exact E.
      + lia.
      + done.
      + intros g outs pg t o p H1 H2 H3 H4. apply lookup_app_Some in H1 as [H1|[Hl H1]].
        * rewrite lookup_app_l in H2 by (apply lookup_lt_Some in H1; lia). change (reports s p o). by eapply Hpast.
        * apply list_lookup_singleton_Some in H1 as [Hg <-]. rewrite lookup_app_r in H2 by lia.
          apply list_lookup_singleton_Some in H2 as [_ <-]. rewrite list_lookup_fmap in H3. destruct (s_threads s !! t) as [th|] eqn:Ht; [|done].
          injection H3 as <-. change (reports s p (t_out th)). by eapply Hth.
      + intros t th p Ht Hp. rewrite list_lookup_fmap, Hp in Ht. injection Ht as <-. cbn. split_and!; [done|by intros i c Ho|].
        by destruct p.
  Qed.
End reported.
Theorem C102_reported :
  forall (M : Type) (groups : list (list (list (scall M)))) s g t i c m,
    sreach groups s -> call_of groups g t i = Some c -> returned s g t i = Some (SReturn false) -> m ∈ call_docs c -> sent s m.
Proof.
  intros M groups s g t i c m Hs Hc Hr Hm. destruct (rinv_reach _ _ Hs) as [(dn & ps & E & Lp & Lt & Hpast & Hth)].
  unfold call_of, returned, at_call in *. rewrite E in Hc.
  destruct ((dn ++ ps :: s_later s) !! g) as [pg|] eqn:Hg; [|done]. destruct (pg !! t) as [p|] eqn:Hp; [|done].
  destruct ((s_past s ++ [t_out <$> s_threads s]) !! g) as [outs|] eqn:Ho; [|done]. destruct (outs !! t) as [o|] eqn:Hot; [|done].
  apply lookup_app_Some in Ho as [Ho|[Hl Ho]].
  - rewrite lookup_app_l in Hg by (apply lookup_lt_Some in Ho; lia). by eapply (Hpast g outs pg t o p).
  - apply list_lookup_singleton_Some in Ho as [Hz <-]. rewrite lookup_app_r in Hg by lia. replace (g - length dn) with 0 in Hg by lia. injection Hg as <-.
    rewrite list_lookup_fmap in Hot. destruct (s_threads s !! t) as [th|] eqn:Ht; [|done]. injection Hot as <-. by eapply (Hth t th p).
Qed.
Print Assumptions C102_reported.

(** Schedules, to run examples. *)
Fixpoint srun {M} (s : sstate M) (l : list (option nat)) : option (sstate M) :=
  match l with
  | [] => Some s
  | Some t :: l' => match sstep s t with Some (Ok s') => srun s' l' | _ => None end
  | None :: l' => match sjoin s with Some s' => srun s' l' | None => None end
  end.
Lemma srun_reach {M} (groups : list (list (list (scall M)))) l : forall s s', sreach groups s -> srun s l = Some s' -> sreach groups s'.
Proof.
  induction l as [|[t|] l IH]; intros s s' Hs Hr; cbn in Hr; [by simplify_eq| |].
  - destruct (sstep s t) as [[s1|?| |]|] eqn:E; try done. eapply IH; [by eapply sreach_step|done].
  - destruct (sjoin s) as [s1|] eqn:E; [|done]. eapply IH; [by eapply sreach_join|done].
Qed.
Definition runs_to {M} (groups : list (list (list (scall M)))) (l : list (option nat)) : option (sstate M) := srun (sinit groups) l.
Lemma runs_reach {M} (groups : list (list (list (scall M)))) l s : runs_to groups l = Some s -> sreach groups s.
Proof. apply srun_reach. constructor. Qed.

(** Three threads that insert in a session, with lists, then outside of it. *)
Definition ex_good : list (list (list (scall nat))) :=
  [[[SStart]]; [[SSession 1; SInsert 2]; [SList [3; 4]; SList []]; [SInsert 5]]; [[SEnd]]; [[SInsert 6]; [SSession 7]]].
Definition ex_sched : list (option nat) :=
  None :: replicate 5 (Some 0) ++ None :: (Some <$> [0; 1; 2; 1; 2; 1; 1; 1; 1; 1; 0; 0; 0; 0; 0; 0; 0; 0; 0; 0; 2; 2; 2; 2; 1; 1; 1]) ++
  None :: replicate 8 (Some 0) ++ None :: (Some <$> [1; 0; 0]).
Example C101_example :
  bracketed ex_good /\
  exists s, sreach ex_good s /\ sfinished s /\ o_msgs <$> s_objs s = [[3; 4; 1; 2; 5]] /\ s_unary s = [6] /\
    s_past s ++ [t_out <$> s_threads s] =
      [[]; [[SReturn false]]; [[SReturn false; SReturn false]; [SReturn false; SReturn false]; [SReturn false]]; [[SReturn false]]; [[SReturn false]; [SThrow]]].
Proof.
  split. { repeat constructor; simpl; (left; simpl; lia) || (right; repeat constructor). }
  destruct (runs_to ex_good ex_sched) as [s|] eqn:E; [|by vm_compute in E]. exists s. split; [by eapply runs_reach|].
  vm_compute in E. injection E as <-. split; [split; [done|by repeat constructor]|]. done.
Qed.

(** C102 is false for any use: a thread ends the session while another is inserting, or two threads start a session.
    A null pointer is dereferenced: *)
Definition ex_end : list (list (list (scall nat))) := [[[SStart]]; [[SSession 1]; [SEnd]]].
Definition ex_open : list (option nat) := None :: replicate 5 (Some 0) ++ [None].
Theorem C102_null_refuted :
  exists (groups : list (list (list (scall nat)))) s t, sreach groups s /\ s_writer s = None /\ sstep s t = Some UB.
Proof.
  destruct (runs_to ex_end (ex_open ++ Some 0 :: Some 0 :: replicate 8 (Some 1))) as [s|] eqn:E; [|by vm_compute in E].
  exists ex_end, s, 0. split; [by eapply runs_reach|]. vm_compute in E. injection E as <-. split; by vm_compute.
Qed.
Print Assumptions C102_null_refuted.
(** A ClientWriter is used after its context was destroyed, by a thread that started its session itself: *)
Definition ex_starts : list (list (list (scall nat))) := [[[SStart; SSession 1]; [SStart]]; [[SEnd]]].
Theorem C102_destroyed_refuted :
  exists (groups : list (list (list (scall nat)))) s t p o,
    sreach groups s /\ s_writer s = Some p /\ s_objs s !! p = Some o /\ s_ctx s <> Some (o_ctx o) /\ sstep s t = Some UB.
Proof.
  destruct (runs_to ex_starts (None :: Some 0 :: Some 1 :: replicate 4 (Some 0) ++ replicate 3 (Some 0) ++ [Some 1])) as [s|] eqn:E; [|by vm_compute in E].
  eexists ex_starts, s, 0, _, _. split; [by eapply runs_reach|]. vm_compute in E. injection E as <-. split; [done|]. split; [done|]. split; [done|by vm_compute].
Qed.
Print Assumptions C102_destroyed_refuted.
(** With the same calls, an insertion that returns while the session is being ended. *)
Example C102_reported_ex :
  exists s, sreach ex_end s /\ call_of ex_end 2 0 0 = Some (SSession 1) /\ returned s 2 0 0 = Some (SReturn false) /\
    s_up s = true /\ o_msgs <$> s_objs s = [[1]] /\ exists th, s_threads s !! 1 = Some th /\ t_pc th = PEnd3.
Proof.
  destruct (runs_to ex_end (ex_open ++ replicate 4 (Some 0) ++ replicate 3 (Some 1) ++ [Some 0])) as [s|] eqn:E; [|by vm_compute in E].
  exists s. split; [by eapply runs_reach|]. vm_compute in E. injection E as <-. split_and!; try reflexivity. eexists. split; reflexivity.
Qed.
(** A ClientWriter is used after it was destroyed by another start_update_session: *)
Theorem C102_writer_refuted :
  exists (groups : list (list (list (scall nat)))) s t p o,
    sreach groups s /\ (exists th ms, s_threads s !! t = Some th /\ t_pc th = PWrite p ms) /\ s_objs s !! p = Some o /\
    s_ctx s = Some (o_ctx o) /\ o_destroyed o = true /\ sstep s t = Some UB.
Proof.
  destruct (runs_to ex_starts (None :: Some 0 :: Some 1 :: Some 0 :: Some 1 :: replicate 3 (Some 0) ++ replicate 3 (Some 0) ++ [Some 1; Some 1])) as [s|] eqn:E; [|by vm_compute in E].
  eexists ex_starts, s, 0, _, _. split; [by eapply runs_reach|]. vm_compute in E. injection E as <-. split; [eexists _, _; split; reflexivity|]. split; [reflexivity|]. split; [reflexivity|]. split; [reflexivity|by vm_compute].
Qed.
Print Assumptions C102_writer_refuted.
(** There are data races on is_up, on writer, and on the ClientWriter (a Write and WritesDone): *)
Theorem C102_race_refuted :
  Forall (fun x : sloc => exists (groups : list (list (list (scall nat)))) s t t' th th' w w',
    sreach groups s /\ t <> t' /\ s_threads s !! t = Some th /\ s_threads s !! t' = Some th' /\
    next_access th = Some (x, w) /\ next_access th' = Some (x, w') /\ (w || w')%bool = true) [LUp; LWriter; LCtx; LObj 0].
Proof.
  constructor; [|constructor; [|constructor; [|constructor; [|constructor]]]].
  - destruct (runs_to ex_end (ex_open ++ replicate 5 (Some 1))) as [s|] eqn:E; [|by vm_compute in E].
    eexists ex_end, s, 0, 1, _, _, _, _. split; [by eapply runs_reach|]. vm_compute in E. injection E as <-. split; [done|]. by split_and!.
  - destruct (runs_to ex_end (ex_open ++ Some 0 :: Some 0 :: replicate 7 (Some 1))) as [s|] eqn:E; [|by vm_compute in E].
    eexists ex_end, s, 0, 1, _, _, _, _. split; [by eapply runs_reach|]. vm_compute in E. injection E as <-. split; [done|]. by split_and!.
  - destruct (runs_to ex_starts (None :: [Some 0; Some 1])) as [s|] eqn:E; [|by vm_compute in E].
    eexists ex_starts, s, 0, 1, _, _, _, _. split; [by eapply runs_reach|]. vm_compute in E. injection E as <-. split; [done|]. by split_and!.
  - destruct (runs_to ex_end (ex_open ++ replicate 3 (Some 0) ++ replicate 2 (Some 1))) as [s|] eqn:E; [|by vm_compute in E].
    eexists ex_end, s, 0, 1, _, _, _, _. split; [by eapply runs_reach|]. vm_compute in E. injection E as <-. split; [done|]. by split_and!.
Qed.
Print Assumptions C102_race_refuted.
(** All the calls return without an exception, and a document was not sent (an error is written in the log); or it was sent on a stream that is never
    finished. *)
Theorem C102_lost_refuted :
  (exists (groups : list (list (list (scall nat)))) s m, sreach groups s /\ sfinished s /\ groups = [[[SStart]]; [[SSession m]; [SEnd]]] /\
    Forall (Forall (Forall (fun o => o <> SThrow))) (s_past s ++ [t_out <$> s_threads s]) /\
    call_of groups 2 0 0 = Some (SSession m) /\ returned s 2 0 0 = Some (SReturn true) /\ ~ sent s m) /\ 
  (exists (groups : list (list (list (scall nat)))) s m o, sreach groups s /\ sfinished s /\ groups = [[[SStart; SSession m]; [SStart]]; [[SEnd]]] /\
    Forall (Forall (Forall (fun o => o = SReturn false))) (s_past s ++ [t_out <$> s_threads s]) /\
    o ∈ s_objs s /\ m ∈ o_msgs o /\ o_finished o = false /\ o_destroyed o = true).
Proof.
  split.
  - destruct (runs_to ex_end (ex_open ++ replicate 3 (Some 0) ++ replicate 3 (Some 1) ++ replicate 2 (Some 0) ++ replicate 5 (Some 1))) as [s|] eqn:E; [|by vm_compute in E].
    exists ex_end, s, 1. split; [by eapply runs_reach|]. vm_compute in E. injection E as <-.
    split; [split; [done|by repeat constructor]|]. split; [done|]. split; [by repeat constructor|]. split; [done|]. split; [done|].
    intros [H|(q & o & Hq & H)]; [by apply elem_of_nil in H|]. destruct q as [|q]; [injection Hq as <-; by apply elem_of_nil in H|done].
  - destruct (runs_to ex_starts (None :: Some 1 :: replicate 10 (Some 0) ++ replicate 4 (Some 1) ++ None :: replicate 8 (Some 0))) as [s|] eqn:E; [|by vm_compute in E].
    eexists ex_starts, s, 1, _. split; [by eapply runs_reach|]. vm_compute in E. injection E as <-.
    split; [split; [done|by repeat constructor]|]. split; [done|]. split; [by repeat constructor|]. split; [by left|]. split; [by left|done].
Qed.
Print Assumptions C102_lost_refuted.
