(** C70: who owns the buffers of the asynchronous operations of a vector. *)
From stdpp Require Import prelude.
From Coq Require Import Lia.
From Verif Require Import Base AioBufModel AioBufProofs.
Local Open Scope nat_scope.

(** A call is accepted as a whole or refused as a whole: the scheduler goes on after a
    refusal only if there was a single request, and gives up only before it accepted
    something. *)
Definition whole_calls (may_refuse may_abort : nat -> nat -> bool) : Prop :=
  (forall k n, may_refuse k n = true -> n <= 1) /\ (forall k n, may_abort k n = true -> k = 0).

(** Nothing is left to do. *)
Definition at_rest (s : vst) : Prop :=
  b_flight s = [] /\ b_arrived s = [] /\ b_user s = [] /\
  Forall (fun t => vt_pc t = VIdle /\ vt_calls t = []) (b_threads s).

(** The call number [n] of thread [i]. *)
Definition the_call (progs : list (list vcall)) (i n : nat) : option vcall := p ← progs !! i; p !! n.

(** Number of callbacks for a request. *)
Definition callbacks (s : vst) (b : buf) : nat := length (filter (fun x => x.1 = b) (b_called s)).

Section props.
  Variable size : nat.
  Variable may_refuse may_abort : nat -> nat -> bool.
  Variable progs : list (list vcall).
  Hypothesis Hwhole : whole_calls may_refuse may_abort.

  Lemma reach_inv' s : rtc (vstep size may_refuse may_abort) (vinit progs) s -> inv progs s.
  Proof. destruct Hwhole. by eapply reach_inv. Qed.

  (** C70: no buffer is used, or freed, when it is not allocated. *)
  Theorem C70_safe s : rtc (vstep size may_refuse may_abort) (vinit progs) s -> b_bad s = false.
  Proof. intros H%reach_inv'. by destruct H as (? & ? & ? & _). Qed.

  (** C70: a buffer in flight, or whose callback is to be called, is allocated, and no
      thread is going to free it. *)
  Theorem C70_in_flight s b c : rtc (vstep size may_refuse may_abort) (vinit progs) s ->
    (b, c) ∈ b_flight s \/ (exists ok, (b, c, ok) ∈ b_arrived s) ->
    b ∈ b_live s /\ b ∉ b_user s /\
    (forall t c' l, t ∈ b_threads s -> vt_pc t = VFree c' l -> b ∉ l).
  Proof.
    intros (lost & okl & Hbd & Hlen & Hlive & Hal & _)%reach_inv' Hin. specialize (Hlive b). specialize (Hal b).
    assert (1 <= occ b (b_flight s).*1 + occ b (b_arrived s).*1.*1).
    { destruct Hin as [H|[ok H]].
      - assert (1 <= occ b (b_flight s).*1); [|lia]. apply occ_elem, elem_of_list_fmap. by exists (b, c).
      - assert (1 <= occ b (b_arrived s).*1.*1); [|lia]. apply occ_elem, elem_of_list_fmap. exists (b, c).
        split; [done|]. apply elem_of_list_fmap. by exists (b, c, ok). }
    split; [apply occ_elem; lia|]. split; [rewrite occ_elem; lia|].
    intros t c' l Ht Hpc Hbl. apply elem_of_list_split in Ht as (t1 & t2 & Hts). rewrite Hts in Hlive.
    rewrite concat_mid, !occ_app in Hlive. unfold held in Hlive at 2. rewrite Hpc in Hlive.
    apply occ_elem in Hbl. lia.
  Qed.

  (** C70: when nothing is left to do, the buffers that are still allocated are those of
      the failed reads of async_gets, those of calls that threw because of an index or
      of an allocation, and those of the writes that were refused. *)
  Theorem C70_leak s b : rtc (vstep size may_refuse may_abort) (vinit progs) s -> at_rest s ->
    b ∈ b_live s <->
    b ∈ b_alloced s /\
    (((exists l, the_call progs b.1.1 b.1.2 = Some (AsyncGets l)) /\ (b, false) ∈ b_called s) \/
     (b.1, RIndex) ∈ b_ret s \/ (b.1, RAlloc) ∈ b_ret s \/
     (the_call progs b.1.1 b.1.2 = Some AsyncPush /\ (b.1, RSubmit) ∈ b_ret s)).
  Proof.
    intros (lost & okl & Hbd & Hlen & Hlive & Hal & Hsum & Hok1 & Hok & Hlost & _)%reach_inv' (Hf & Ha & Hu & Ht).
    assert (Hheld : concat (held <$> b_threads s) = []).
    { clear -Ht. induction Ht as [|t ts [Hpc _] _ IH]; [done|]. rewrite fmap_cons. simpl. rewrite IH.
      unfold held. by rewrite Hpc. }
    specialize (Hlive b). rewrite Hheld, Hf, Ha, Hu in Hlive. simpl in Hlive.
    rewrite occ_elem, Hlive, <- occ_elem. apply Hlost.
  Qed.

  (** C70: if every call returned and every read gave all its bytes, all the buffers
      were freed. *)
  Theorem C70_no_leak s : rtc (vstep size may_refuse may_abort) (vinit progs) s -> at_rest s ->
    (forall p e, (p, e) ∈ b_ret s -> e = ROk) -> (forall b ok, (b, ok) ∈ b_called s -> ok = true) ->
    b_live s = [].
  Proof.
    intros Hr Hrest Hret Hca. destruct (b_live s) as [|b l] eqn:E; [done|].
    assert (Hb : b ∈ b_live s) by (rewrite E; by left).
    apply C70_leak in Hb as (_ & [[_ H]|[H|[H|[_ H]]]]); [| | | |done|done].
    - by apply Hca in H.
    - by apply Hret in H.
    - by apply Hret in H.
    - by apply Hret in H.
  Qed.

  (** C70: when nothing is left to do, every call has ended in exactly one way; the
      callback of each of its requests was called once if it returned, and never if it
      threw. *)
  Theorem C70_called s i n c : rtc (vstep size may_refuse may_abort) (vinit progs) s -> at_rest s ->
    the_call progs i n = Some c ->
    exists e, ((i, n), e) ∈ b_ret s /\ (forall e', ((i, n), e') ∈ b_ret s -> e' = e) /\
      forall j, callbacks s ((i, n), j) = match e with ROk => if decide (j < length (call_idx c)) then 1 else 0 | _ => 0 end.
  Proof.
    intros (lost & okl & Hbd & Hlen & Hlive & Hal & Hsum & Hok1 & Hok & Hlost & Hcall & Hthr & (Hr1 & Hr2 & Hr3) & Hlt & Hfull)%reach_inv'
      (Hf & Ha & Hu & Ht) Hc.
    assert (Hex : exists t, b_threads s !! i = Some t).
    { apply lookup_lt_is_Some. rewrite Hlen. unfold the_call in Hc. destruct (progs !! i) eqn:E; [|done].
      by eapply lookup_lt_Some. }
    destruct Hex as [t Hti]. pose proof (Hthr _ _ Hti) as ((p & Hp & Hd) & _).
    assert (Hidle : vt_pc t = VIdle /\ vt_calls t = []) by (by eapply (Forall_lookup_1 _ _ _ _ Ht)).
    destruct Hidle as [Hpc Hcs]. unfold cur in Hd. rewrite Hpc, Hcs in Hd.
    unfold the_call in Hc. rewrite Hp in Hc. simpl in Hc.
    assert (Hn : n < vt_n t).
    { apply lookup_lt_Some in Hc. apply (f_equal length) in Hd. rewrite drop_length in Hd. simpl in Hd. lia. }
    destruct (Hr3 _ _ _ Hti Hn) as [e He]. exists e. split; [done|].
    split; [intros e' He'; by apply (Hr2 (i, n))|].
    intros j.
    assert (Htk : concat (taken <$> b_threads s) = []).
    { clear -Ht. induction Ht as [|x ts [Hpc _] _ IH]; [done|]. rewrite fmap_cons. simpl. rewrite IH.
      unfold taken. by rewrite Hpc. }
    specialize (Hsum ((i, n), j)). rewrite Htk, Hf, Ha in Hsum. simpl in Hsum. rewrite occ_nil in Hsum.
    assert (Hcb : callbacks s ((i, n), j) = occ ((i, n), j) (b_called s).*1).
    { unfold callbacks, occ. clear. induction (b_called s) as [|x l IH]; [done|].
      rewrite fmap_cons, !filter_cons. destruct (decide (x.1 = (i, n, j))) as [Hx|Hx].
      - rewrite decide_True by done. exact (f_equal S IH).
      - rewrite decide_False by (intros Hx'; by destruct Hx). exact IH. }
    rewrite Hcb. transitivity (occ ((i, n), j) okl); [lia|].
    assert (Hno : e <> ROk -> occ ((i, n), j) okl = 0).
    { intros Hne. apply occ_notin. intros [_ H]%Hok. simpl in H. by pose proof (Hr2 _ _ _ H He). }
    destruct (decide (e = ROk)) as [->|Hne]; [|rewrite (Hno Hne); by destruct e].
    destruct (decide (j < length (call_idx c))) as [Hj|Hj].
    - assert (((i, n), j) ∈ okl) as Hin%occ_elem; [|specialize (Hok1 ((i, n), j)); lia].
      apply Hok. simpl. split; [|done]. apply (Hfull _ c); [done| |done]. unfold call_of. simpl. by rewrite Hp.
    - apply occ_notin. intros [Hal' _]%Hok. destruct (Hlt _ Hal') as (c' & Hc' & Hj').
      unfold call_of in Hc'. simpl in Hc', Hj'. rewrite Hp in Hc'. simpl in Hc'. rewrite Hc in Hc'. by injection Hc' as <-.
  Qed.
  (** The indices of a call that were tested and found small enough. *)
  Definition idx_ok (c : vcall) (l : list (option nat)) : Prop := forall x, Some x ∈ l -> x <= size.
  Definition idx_pc (t : vthr) : Prop :=
    match vt_pc t with
    | VIdle => True
    | VFill c todo _ => exists seen, call_idx c = seen ++ todo /\ idx_ok c seen
    | VSub c _ _ _ | VFree c _ => idx_ok c (call_idx c)
    end.
  Definition idx_ret (e : vret) (c : vcall) : Prop :=
    match e with
    | RIndex => exists x, Some x ∈ call_idx c /\ size < x
    | ROk | RSubmit => idx_ok c (call_idx c)
    | RAlloc => True
    end.
  Definition idx_inv (s : vst) : Prop :=
    Forall idx_pc (b_threads s) /\
    forall i n e, ((i, n), e) ∈ b_ret s -> exists c, the_call progs i n = Some c /\ idx_ret e c.

  Lemma idx_step i s t s' t' : vtstep size may_refuse may_abort i s t s' t' -> idx_pc t ->
    (forall c, cur t = Some c -> the_call progs i (vt_n t) = Some c) ->
    idx_pc t' /\ (b_ret s' = b_ret s \/ exists e c, b_ret s' = b_ret s ++ [((i, vt_n t), e)] /\
      the_call progs i (vt_n t) = Some c /\ idx_ret e c).
  Proof.
    intros Hs Hi Hc. destruct Hs; cbn [vt_pc vt_n b_ret] in *; unfold idx_pc in *; cbn [vt_pc v_next] in *.
    - split; [|by left]. exists []. split; [done|]. intros x Hx. by apply elem_of_nil in Hx.
    - split; [done|]. right. exists RIndex, c. split; [done|]. split; [by apply Hc|].
      destruct Hi as (seen & HE & _). exists x. rewrite HE. split; [|done].
      rewrite elem_of_app. right. by left.
    - split; [done|]. right. exists RAlloc, c. split; [done|]. split; [by apply Hc|done].
    - split; [|by left]. destruct Hi as (seen & HE & Hok). exists (seen ++ [o]).
      rewrite <- app_assoc. split; [done|]. intros y [Hy|Hy]%elem_of_app; [by apply Hok|].
      apply elem_of_list_singleton in Hy. by apply H.
    - split; [|by left]. destruct Hi as (seen & HE & Hok). rewrite app_nil_r in HE. by rewrite HE.
    - by split; [|left].
    - by split; [|left].
    - split; [done|]. right. exists ROk, c. split; [done|]. split; [by apply Hc|done].
    - by split; [|left].
    - split; [done|]. right. exists RSubmit, AsyncPush. split; [done|]. split; [by apply Hc|done].
    - by split; [|left].
    - split; [done|]. right. exists RSubmit, c. split; [done|]. split; [by apply Hc|done].
  Qed.

  Lemma reach_idx s : rtc (vstep size may_refuse may_abort) (vinit progs) s -> idx_inv s.
  Proof.
    revert s. apply (rtc_ind_r idx_inv).
    { split; [|intros i n e He; by apply elem_of_nil in He]. cbn. apply Forall_fmap, Forall_forall. done. }
    intros s1 s2 H1 H2 [IHt IHr].
    pose proof (reach_inv' _ H1) as (lost & okl & _ & _ & _ & _ & _ & _ & _ & _ & _ & Hthr & _).
    destruct H2 as [s t1 t t2 s' t' Hts Hst| | |]; [|by split..].
    rewrite Hts in IHt. apply Forall_app in IHt as [F1 F2]. apply Forall_cons in F2 as [F2 F3].
    destruct (idx_step _ _ _ _ _ Hst F2) as [Hp Hr].
    { intros c Hc. assert (b_threads s !! length t1 = Some t) as Ht.
      { rewrite Hts. by apply list_lookup_middle. }
      apply Hthr in Ht as [(p & Hp & Hd) _]. rewrite Hc in Hd. unfold the_call. rewrite Hp. cbn.
      rewrite <- (Nat.add_0_r (vt_n t)), <- lookup_drop, Hd. done. }
    split.
    - cbn. apply Forall_app. split; [done|]. by apply Forall_cons.
    - cbn [b_ret set_vthreads]. destruct Hr as [->|(e & c & -> & Hc & He)]; [done|].
      intros i n e' [Hin|Hin]%elem_of_app; [by apply IHr|]. apply elem_of_list_singleton in Hin.
      injection Hin as -> -> ->. by exists c.
  Qed.

  (** C70: a call throws because of an index only if one of its indices is above the
      size, and one that got as far as the scheduler has none (the size itself is let
      through). *)
  Theorem C70_index s i n e : rtc (vstep size may_refuse may_abort) (vinit progs) s ->
    ((i, n), e) ∈ b_ret s ->
    exists c, the_call progs i n = Some c /\
      (e = RIndex -> exists x, Some x ∈ call_idx c /\ size < x) /\
      (e = ROk \/ e = RSubmit -> forall x, Some x ∈ call_idx c -> x <= size).
  Proof.
    intros [_ H]%reach_idx He. destruct (H _ _ _ He) as (c & Hc & Hr). exists c. split; [done|].
    destruct e; split; (done || naive_solver).
  Qed.
End props.

(** * Executions *)
(** How a thread moves, when there is a choice. *)
Inductive vchoice := CGo | CNoMem | CRefuse | CAbort.
(** A step of a schedule: a step of a thread, a request performed, a callback, the
    destruction of a result (given by their positions). *)
Inductive vact := EThr (i : nat) (ch : vchoice) | EPerform (k : nat) (ok : bool) | ECall (k : nat) | EDelete (k : nat).

Definition vt_exec (size : nat) (mr ma : nat -> nat -> bool) (i : nat) (ch : vchoice) (s : vst) (t : vthr) : option (vst * vthr) :=
  let '(VSt lv fl ar us ca bd al rt ts) := s in
  let '(VThr pc n cs) := t in
  let ended e := Some (VSt lv fl ar us ca bd al (rt ++ [((i, n), e)]) ts, v_next n cs) in
  match pc, ch with
  | VIdle, CGo => match cs with c :: cs' => Some (s, VThr (VFill c (call_idx c) []) n cs') | [] => None end
  | VFill c (o :: todo) subs, CGo =>
      if decide (default 0 o <= size)
      then Some (VSt (((i, n), length subs) :: lv) fl ar us ca bd (((i, n), length subs) :: al) rt ts,
                 VThr (VFill c todo (subs ++ [((i, n), length subs)])) n cs)
      else ended RIndex
  | VFill c (o :: todo) subs, CNoMem => if decide (default 0 o <= size) then ended RAlloc else None
  | VFill c [] subs, CGo => Some (s, VThr (VSub c subs subs 0) n cs)
  | VSub c (b :: todo) subs acc, CGo =>
      Some (VSt lv ((b, c) :: fl) ar us ca bd al rt ts, VThr (VSub c todo subs (S acc)) n cs)
  | VSub c (b :: todo) subs acc, CRefuse =>
      if mr acc (length subs) then Some (s, VThr (VSub c todo subs acc) n cs) else None
  | VSub c [] subs acc, CGo =>
      if decide (acc = length subs) then ended ROk
      else match c with AsyncPush => ended RSubmit | _ => Some (s, VThr (VFree c subs) n cs) end
  | VSub c _ subs acc, CAbort =>
      if ma acc (length subs)
      then match c with AsyncPush => ended RSubmit | _ => Some (s, VThr (VFree c subs) n cs) end
      else None
  | VFree c (b :: l), CGo =>
      Some (VSt (v_free b lv) fl ar us ca (bd || v_dead b lv) al rt ts, VThr (VFree c l) n cs)
  | VFree c [], CGo => ended RSubmit
  | _, _ => None
  end.

Definition v_exec1 (size : nat) (mr ma : nat -> nat -> bool) (a : vact) (s : vst) : option vst :=
  match a with
  | EThr i ch => t ← b_threads s !! i; '(s', t') ← vt_exec size mr ma i ch s t; Some (set_vthreads s' (<[i:=t']> (b_threads s)))
  | EPerform k ok =>
      let '(VSt lv fl ar us ca bd al rt ts) := s in
      '(b, c) ← fl !! k; Some (VSt lv (take k fl ++ drop (S k) fl) ((b, c, ok) :: ar) us ca (bd || v_dead b lv) al rt ts)
  | ECall k =>
      let '(VSt lv fl ar us ca bd al rt ts) := s in
      '(b, c, ok) ← ar !! k;
      let '(lv', us', bd') := v_callback b c ok lv us in
      Some (VSt lv' fl (take k ar ++ drop (S k) ar) us' (ca ++ [(b, ok)]) (bd || bd') al rt ts)
  | EDelete k =>
      let '(VSt lv fl ar us ca bd al rt ts) := s in
      b ← us !! k; Some (VSt (v_free b lv) fl ar (take k us ++ drop (S k) us) ca (bd || v_dead b lv) al rt ts)
  end.

Fixpoint v_exec (size : nat) (mr ma : nat -> nat -> bool) (l : list vact) (s : vst) : option vst :=
  match l with [] => Some s | a :: l => s' ← v_exec1 size mr ma a s; v_exec size mr ma l s' end.

Lemma vt_exec_step size mr ma i ch s t s' t' : vt_exec size mr ma i ch s t = Some (s', t') -> vtstep size mr ma i s t s' t'.
Proof.
  destruct s as [lv fl ar us ca bd al rt ts], t as [pc n cs]. unfold vt_exec.
  assert (Hidx : forall o, default 0 o <= size -> forall x : nat, o = Some x -> x <= size).
  { intros o Ho x ->. done. }
  destruct pc as [|c [|o todo] subs|c [|b todo] subs acc|c [|b l]], ch; try done.
  - destruct cs as [|c cs]; [done|]. intros [= <- <-]. constructor.
  - intros [= <- <-]. constructor.
  - destruct (decide (default 0 o <= size)) as [Ho|Ho].
    + intros [= <- <-]. constructor. by apply Hidx.
    + intros [= <- <-]. destruct o as [x|]; [|simpl in Ho; lia]. constructor. simpl in Ho. lia.
  - destruct (decide (default 0 o <= size)) as [Ho|Ho]; [|done]. intros [= <- <-]. constructor. by apply Hidx.
  - destruct (decide (acc = length subs)) as [Ho|Ho]; [intros [= <- <-]; by constructor|].
    destruct c; intros [= <- <-]; constructor; (done || by left).
  - destruct (ma acc (length subs)) eqn:E; [|done]. destruct c; intros [= <- <-]; constructor; (done || by right).
  - intros [= <- <-]. constructor.
  - destruct (mr acc (length subs)) eqn:E; [|done]. intros [= <- <-]. by constructor.
  - destruct (ma acc (length subs)) eqn:E; [|done]. destruct c; intros [= <- <-]; constructor; (done || by right).
  - intros [= <- <-]. constructor.
  - intros [= <- <-]. constructor.
Qed.

Lemma v_exec1_step size mr ma a s s' : v_exec1 size mr ma a s = Some s' -> vstep size mr ma s s'.
Proof.
  destruct a as [i ch|k ok|k|k]; unfold v_exec1.
  - destruct (b_threads s !! i) as [t|] eqn:Et; [|done]. simpl.
    destruct (vt_exec size mr ma i ch s t) as [[s1 t']|] eqn:E; [|done]. simpl. intros [= <-].
    assert (Hl : i < length (b_threads s)) by (by eapply lookup_lt_Some).
    rewrite insert_take_drop by done.
    apply (vs_thread _ _ _ s (take i (b_threads s)) t (drop (S i) (b_threads s)) s1 t').
    + symmetry. by apply take_drop_middle.
    + rewrite take_length_le by lia. by eapply vt_exec_step.
  - destruct s as [lv fl ar us ca bd al rt ts]. destruct (fl !! k) as [[b c]|] eqn:E; [|done]. simpl. intros [= <-].
    rewrite <- (take_drop_middle _ _ _ E) at 1. constructor.
  - destruct s as [lv fl ar us ca bd al rt ts]. destruct (ar !! k) as [[[b c] ok]|] eqn:E; [|done]. simpl.
    destruct (v_callback b c ok lv us) as [[lv' us'] bd'] eqn:Ec. intros [= <-].
    rewrite <- (take_drop_middle _ _ _ E) at 1. by constructor.
  - destruct s as [lv fl ar us ca bd al rt ts]. destruct (us !! k) as [b|] eqn:E; [|done]. simpl. intros [= <-].
    rewrite <- (take_drop_middle _ _ _ E) at 1. constructor.
Qed.

Lemma v_exec_reach size mr ma l s s' : v_exec size mr ma l s = Some s' -> rtc (vstep size mr ma) s s'.
Proof.
  revert s. induction l as [|a l IH]; intros s; simpl; [by intros [= <-]|].
  destruct (v_exec1 size mr ma a s) as [s1|] eqn:E; [|done]. simpl. intros H.
  eapply rtc_l; [by eapply v_exec1_step|by apply IH].
Qed.

(** The thread-pool scheduler accepts everything (thread_pool_aio_scheduler.cpp:69-72);
    schedulers that refuse. *)
Definition never : nat -> nat -> bool := fun _ _ => false.
Definition always : nat -> nat -> bool := fun _ _ => true.

(** C70: a case for the theorems: two threads, three calls, four requests, a failed
    read of async_get; everything is freed and called back, out of order. *)
Definition ex_two : list (list vcall) := [[AsyncGets [3; 1]; AsyncPush]; [AsyncGet 2]].
Definition ex_sched : list vact :=
  replicate 4 (EThr 0 CGo) ++ replicate 3 (EThr 1 CGo) ++ [EThr 0 CGo; EThr 1 CGo; EThr 0 CGo;
   EPerform 1 false; EPerform 0 true; ECall 1; EThr 1 CGo; EThr 0 CGo; ECall 0; EThr 0 CGo; EThr 0 CGo; EThr 0 CGo;
   EThr 0 CGo; EThr 0 CGo; EDelete 0; EPerform 0 true; EPerform 0 true; ECall 0; ECall 0; EDelete 0].
Example ex_rest : whole_calls never never /\ exists s, rtc (vstep 4 never never) (vinit ex_two) s /\ at_rest s /\ length (b_called s) = 4 /\ (forall p e, (p, e) ∈ b_ret s -> e = ROk) /\ (((1, 0), 0), false) ∈ b_called s /\ b_live s = [].
Proof.
  split; [by split|]. destruct (v_exec 4 never never ex_sched (vinit ex_two)) as [s|] eqn:E; [|by vm_compute in E].
  exists s. split; [by eapply v_exec_reach|]. vm_compute in E. injection E as <-.
  split; [by repeat constructor|]. split; [done|]. split; [|split; [|done]].
  - intros p e. cbn [b_ret]. rewrite !elem_of_cons, elem_of_nil. naive_solver.
  - cbn [b_called]. rewrite !elem_of_cons. tauto.
Qed.

(** C70 (refuted, for a scheduler that goes on after a refusal: the loop of
    scheduler.hpp:101-108): the second read of a call is refused; the buffer of the
    first is freed while it is in flight, and the scheduler writes to it. *)
Theorem C70_partial_refuted : exists s,
  rtc (vstep 4 always never) (vinit [[AsyncGets [3; 1]]]) s /\ b_bad s = true /\
  b_ret s = [((0, 0), RSubmit)] /\ callbacks s ((0, 0), 0) = 1.
Proof.
  destruct (v_exec 4 always never [EThr 0 CGo; EThr 0 CGo; EThr 0 CGo; EThr 0 CGo; EThr 0 CGo; EThr 0 CRefuse; EThr 0 CGo;
     EThr 0 CGo; EThr 0 CGo; EThr 0 CGo; EPerform 0 true; ECall 0] (vinit [[AsyncGets [3; 1]]])) as [s|] eqn:E; [|by vm_compute in E].
  exists s. split; [by eapply v_exec_reach|]. vm_compute in E. by injection E as <-.
Qed.

(** C70 (refuted, for the kernel-based scheduler, which returns -1 if io_submit fails
    after it accepted some requests, C61): same consequence. *)
Theorem C70_abort_refuted : exists s,
  rtc (vstep 4 never (fun k n => (0 <? k) && (k <? n))%nat) (vinit [[AsyncGets [3; 1]]]) s /\ b_bad s = true /\
  b_ret s = [((0, 0), RSubmit)] /\ callbacks s ((0, 0), 0) = 1.
Proof.
  destruct (v_exec 4 never (fun k n => (0 <? k) && (k <? n))%nat
     [EThr 0 CGo; EThr 0 CGo; EThr 0 CGo; EThr 0 CGo; EThr 0 CGo; EThr 0 CAbort; EThr 0 CGo;
     EThr 0 CGo; EThr 0 CGo; EPerform 0 true; ECall 0] (vinit [[AsyncGets [3; 1]]])) as [s|] eqn:E; [|by vm_compute in E].
  exists s. split; [by eapply v_exec_reach|]. vm_compute in E. by injection E as <-.
Qed.

(** C70 (refuted, even when everything is accepted): the buffer of a read of async_gets
    that fails stays allocated. *)
Theorem C70_leak_read_refuted : exists s,
  rtc (vstep 4 never never) (vinit [[AsyncGets [3; 4]]]) s /\ at_rest s /\
  b_ret s = [((0, 0), ROk)] /\ b_live s = [((0, 0), 1)].
Proof.
  destruct (v_exec 4 never never (replicate 7 (EThr 0 CGo) ++ [EPerform 0 false; EPerform 0 true; ECall 0; ECall 0; EDelete 0])
    (vinit [[AsyncGets [3; 4]]])) as [s|] eqn:E; [|by vm_compute in E].
  exists s. split; [by eapply v_exec_reach|]. vm_compute in E. injection E as <-.
  split; [by repeat constructor|done].
Qed.

(** C70 (refuted): the buffers of the requests before one with a wrong index stay
    allocated, and nothing is called back. *)
Theorem C70_leak_index_refuted : exists s,
  rtc (vstep 4 never never) (vinit [[AsyncGets [3; 1; 5]]]) s /\ at_rest s /\
  b_ret s = [((0, 0), RIndex)] /\ length (b_live s) = 2 /\ b_called s = [].
Proof.
  destruct (v_exec 4 never never (replicate 4 (EThr 0 CGo)) (vinit [[AsyncGets [3; 1; 5]]])) as [s|] eqn:E; [|by vm_compute in E].
  exists s. split; [by eapply v_exec_reach|]. vm_compute in E. injection E as <-.
  split; [by repeat constructor|done].
Qed.

(** C70 (refuted): the copy made by async_push_back stays allocated if the write is
    refused. *)
Theorem C70_leak_push_refuted : exists s, whole_calls (fun _ n => n =? 1)%nat never /\
  rtc (vstep 4 (fun _ n => n =? 1)%nat never) (vinit [[AsyncPush]]) s /\ at_rest s /\
  b_ret s = [((0, 0), RSubmit)] /\ b_live s = [((0, 0), 0)].
Proof.
  destruct (v_exec 4 (fun _ n => n =? 1)%nat never [EThr 0 CGo; EThr 0 CGo; EThr 0 CGo; EThr 0 CRefuse; EThr 0 CGo]
    (vinit [[AsyncPush]])) as [s|] eqn:E; [|by vm_compute in E].
  exists s. split. { split; [|done]. intros k n H%Nat.eqb_eq. lia. }
  split; [by eapply v_exec_reach|]. vm_compute in E. injection E as <-.
  split; [by repeat constructor|done].
Qed.

(** C70: a case of a whole call refused: the buffers are freed, nothing is called
    back, and C70_safe applies. *)
Example ex_refused : exists s, whole_calls never (fun k _ => k =? 0)%nat /\
  rtc (vstep 4 never (fun k _ => k =? 0)%nat) (vinit [[AsyncGets [3; 1]]]) s /\ at_rest s /\
  b_ret s = [((0, 0), RSubmit)] /\ b_live s = [] /\ b_called s = [] /\ length (b_alloced s) = 2.
Proof.
  destruct (v_exec 4 never (fun k _ => k =? 0)%nat [EThr 0 CGo; EThr 0 CGo; EThr 0 CGo; EThr 0 CGo; EThr 0 CAbort;
    EThr 0 CGo; EThr 0 CGo; EThr 0 CGo] (vinit [[AsyncGets [3; 1]]])) as [s|] eqn:E; [|by vm_compute in E].
  exists s. split. { split; [done|]. intros k n H%Nat.eqb_eq. done. }
  split; [by eapply v_exec_reach|]. vm_compute in E. injection E as <-.
  split; [by repeat constructor|done].
Qed.

Print Assumptions C70_safe.
Print Assumptions C70_in_flight.
Print Assumptions C70_leak.
Print Assumptions C70_no_leak.
Print Assumptions C70_called.
Print Assumptions C70_index.
Print Assumptions C70_partial_refuted.
Print Assumptions C70_abort_refuted.
Print Assumptions C70_leak_read_refuted.
Print Assumptions C70_leak_index_refuted.
Print Assumptions C70_leak_push_refuted.
