(** Final theorems about the keyword counters (properties C31, C32). *)
From stdpp Require Import prelude gmap.
From Coq Require Import NArith Lia.
From Verif Require Import Base EncModel KvModel CtrSpec.
Local Open Scope N_scope.
Local Arguments N.modulo : simpl never.
Local Arguments N.pow : simpl never.

Lemma incr32_small v : N.succ v < 2 ^ 32 -> incr32 v = N.succ v.
Proof. intros H. unfold incr32. rewrite N.add_1_r. by apply N.mod_small. Qed.

Lemma ctr_value xs : forall c h,
  (forall k, narrow k (rev xs ++ h)) -> (forall k, c !! k = value k h) ->
  forall k, ctr_calls c xs !! k = value k (rev xs ++ h).
Proof.
  induction xs as [|x xs IH]; intros c h Hn Hc k; [by apply Hc|].
  cbn [ctr_calls rev]. rewrite <- app_assoc. simpl in *.
  assert (Hn' : forall k, narrow k (rev xs ++ x :: h)).
  { intros k'. specialize (Hn k'). by rewrite <- app_assoc in Hn. }
  apply IH; [exact Hn'|]. intros k'. specialize (Hn' k').
  assert (Hb : from_option (fun v => v < 2 ^ 32) True (value k' (x :: h))).
  { clear -Hn'. induction (rev xs) as [|y l IHl]; simpl in Hn'; [apply Hn'|]. apply IHl, Hn'. }
  destruct x as [k0|k0|k0 d|k0 v|k0]; cbn [ctr_call fst ctr_get_and_increment ctr_increment ctr_set ctr_remove value] in *.
  - unfold next_value. rewrite (Hc k0). destruct (decide (k0 = k')) as [->|Hne].
    + rewrite lookup_insert. destruct (value k' h) as [v|]; simpl in *; [|done].
      by rewrite incr32_small.
    + rewrite lookup_insert_ne by done. apply Hc.
  - apply Hc.
  - unfold ctr_increment. rewrite (Hc k0). destruct (decide (k0 = k')) as [->|Hne].
    + rewrite lookup_insert. destruct (value k' h) as [v|]; simpl in *; [|done].
      by rewrite incr32_small.
    + rewrite lookup_insert_ne by done. apply Hc.
  - unfold ctr_set. destruct (decide (k0 = k')) as [->|Hne].
    + rewrite lookup_insert. simpl in Hb. by rewrite N.mod_small.
    + rewrite lookup_insert_ne by done. apply Hc.
  - unfold ctr_remove. destruct (decide (k0 = k')) as [->|Hne].
    + apply lookup_delete.
    + rewrite lookup_delete_ne by done. apply Hc.
Qed.

(** ** C31 *)
(** After any history, every call answers with the value read off the history. *)
Theorem C31_counters :
  forall xs x,
    (forall k, narrow k (x :: rev xs)) ->
    (ctr_call (ctr_calls ∅ xs) x).2 =
      match x with
      | CGetInc k => value k (x :: rev xs)
      | CGet k => value k (rev xs)
      | _ => None
      end.
Proof.
  intros xs x Hn.
  assert (H : forall k, ctr_calls ∅ xs !! k = value k (rev xs)).
  { intros k. rewrite (ctr_value xs ∅ []); [by rewrite app_nil_r| |done].
    intros k'. rewrite app_nil_r. specialize (Hn k'). simpl in Hn. apply Hn. }
  destruct x as [k|k|k d|k v|k]; cbn [ctr_call snd ctr_get_and_increment ctr_get]; [|apply H|done..].
  specialize (Hn k) as [Hb _]. unfold next_value. rewrite H. simpl in *.
  rewrite decide_True in * by done. destruct (value k (rev xs)); simpl in *; [|done].
  by rewrite incr32_small.
Qed.
Print Assumptions C31_counters.

Lemma value_increments k h : (forall k' d, CIncr k' d ∉ h) -> (forall k' v, CSet k' v ∉ h) ->
  value k h = match increments k h with O => None | S n => Some (N.of_nat n) end.
Proof.
  induction h as [|x h IH]; intros H1 H2; [done|].
  assert (IH' : value k h = match increments k h with O => None | S n => Some (N.of_nat n) end).
  { apply IH; intros k' v Hx; [apply (H1 k' v)|apply (H2 k' v)]; by right. }
  destruct x as [k0|k0|k0 d|k0 v|k0]; simpl.
  - case_decide; [|done]. rewrite IH'. destruct (increments k h) as [|n]; simpl; [done|]. f_equal. lia.
  - done.
  - destruct (H1 k0 d). left.
  - destruct (H2 k0 v). left.
  - by case_decide.
Qed.
Lemma value_narrow k h : (forall k' d, CIncr k' d ∉ h) -> (forall k' v, CSet k' v ∉ h) ->
  N.of_nat (length h) <= 2 ^ 32 -> narrow k h.
Proof.
  intros H1 H2 HL. assert (HI : forall h', (increments k h' <= length h')%nat).
  { induction h' as [|[] h' IH]; simpl; try case_decide; lia. }
  induction h as [|x h IH]; [done|]. cbn [narrow]. split.
  - rewrite value_increments by done. specialize (HI (x :: h)).
    destruct (increments k (x :: h)) as [|n]; [done|]. unfold from_option.
    simpl in HI, HL. lia.
  - apply IH; [| |simpl in HL; lia]; intros k' v Hx; [apply (H1 k' v)|apply (H2 k' v)]; by right.
Qed.

(** With the calls that the clients make: the n-th get_and_increment of a keyword since
    it was last removed returns n-1, whatever happens to other keywords. *)
Theorem C31_nth_increment :
  forall xs k,
    (forall k' d, CIncr k' d ∉ xs) -> (forall k' v, CSet k' v ∉ xs) ->
    N.of_nat (length xs) < 2 ^ 32 ->
    (ctr_call (ctr_calls ∅ xs) (CGetInc k)).2 = Some (N.of_nat (increments k (rev xs))) /\
    (ctr_call (ctr_calls ∅ xs) (CGet k)).2 =
      match increments k (rev xs) with O => None | S n => Some (N.of_nat n) end.
Proof.
  intros xs k H1 H2 HL.
  assert (Hi : forall k' d, CIncr k' d ∉ rev xs) by (intros k' d; rewrite elem_of_list_In, <- in_rev, <- elem_of_list_In; apply H1).
  assert (Hs : forall k' d, CSet k' d ∉ rev xs) by (intros k' d; rewrite elem_of_list_In, <- in_rev, <- elem_of_list_In; apply H2).
  assert (HL' : length (rev xs) = length xs) by apply rev_length.
  split.
  - rewrite C31_counters.
    + cbn [value]. rewrite decide_True by done. rewrite value_increments by done.
      destruct (increments k (rev xs)) as [|n]; simpl; [done|]. f_equal. lia.
    + intros k'. apply value_narrow.
      * intros k0 d Hx. apply elem_of_cons in Hx as [?|Hx]; [done|]. by apply Hi in Hx.
      * intros k0 d Hx. apply elem_of_cons in Hx as [?|Hx]; [done|]. by apply Hs in Hx.
      * cbn [length]. rewrite HL'. lia.
  - rewrite C31_counters; [by apply value_increments|]. intros k'. apply value_narrow.
    + intros k0 d Hx. apply elem_of_cons in Hx as [?|Hx]; [done|]. by apply Hi in Hx.
    + intros k0 d Hx. apply elem_of_cons in Hx as [?|Hx]; [done|]. by apply Hs in Hx.
    + cbn [length]. rewrite HL'. lia.
Qed.
Print Assumptions C31_nth_increment.
Definition ex_calls : list ccall :=
  [CGetInc [1]; CGetInc [2]; CGetInc [1]; CRemove [2]; CGet [1]; CGetInc [1]; CGetInc [2]].
Example ex_ctr : (forall k' d, CIncr k' d ∉ ex_calls) /\ (forall k' v, CSet k' v ∉ ex_calls) /\
  increments [1] (rev ex_calls) = 3%nat /\ increments [2] (rev ex_calls) = 1%nat /\
  (ctr_call (ctr_calls ∅ ex_calls) (CGetInc [1])).2 = Some 3.
Proof.
  split_and!; try by vm_compute.
  all: intros k' d; unfold ex_calls; rewrite !elem_of_cons, elem_of_nil; naive_solver.
Qed.
(** At the end of the range the property fails: the value wraps. *)
Theorem C31_wrap_refuted :
  exists c k, ctr_get c k = Some (2 ^ 32 - 1) /\ (ctr_get_and_increment c k).2 = 0.
Proof. exists {[ [1] := 2 ^ 32 - 1 ]}, [1]. by vm_compute. Qed.
Print Assumptions C31_wrap_refuted.

(** ** C32 *)
(** Two concurrent calls on the same keyword may return the same value. *)
Theorem C32_refuted :
  exists k sched c v, cthreads_run k sched ∅ [CStart; CStart] = (c, [CReturned v; CReturned v]).
Proof. exists [1], [0; 1; 0; 1]%nat. eexists _, _. by vm_compute. Qed.
Print Assumptions C32_refuted.

(** When the calls are serialised they return consecutive, hence distinct, values. *)
Lemma serial_run k : forall n m ts c, (m + n = length ts)%nat ->
  (forall i, (m <= i < m + n)%nat -> ts !! i = Some CStart) ->
  (from_option N.succ 0 (c !! k) + N.of_nat n <= 2 ^ 32) ->
  exists c', cthreads_run k (seq m n ≫= fun i => [i; i]) c ts =
    (c', take m ts ++ ((fun i => CReturned (from_option N.succ 0 (c !! k) + N.of_nat i)) <$> seq 0 n)).
Proof.
  induction n as [|n IH]; intros m ts c HL Hts Hb.
  - simpl. exists c. rewrite app_nil_r, take_ge by lia. done.
  - assert (E : seq m (S n) ≫= (fun i => [i; i]) = m :: m :: (seq (S m) n ≫= fun i => [i; i])) by done.
    rewrite E. cbn [cthreads_run]. rewrite (Hts m) by lia. cbn [cthread_step fst snd].
    rewrite list_lookup_insert by lia. cbn [cthread_step fst snd].
    rewrite list_insert_insert. unfold ctr_get.
    assert (Ev : next_value (c !! k) = from_option N.succ 0 (c !! k)).
    { unfold next_value. destruct (c !! k) as [v|]; simpl in *; [|done]. apply incr32_small. lia. }
    set (v0 := from_option N.succ 0 (c !! k)) in *. rewrite Ev.
    destruct (IH (S m) (<[m:=CReturned v0]> ts) (<[k:=v0]> c)) as [c' Hc'].
    + rewrite insert_length. lia.
    + intros i Hi. rewrite list_lookup_insert_ne by lia. apply Hts. lia.
    + rewrite lookup_insert. simpl. lia.
    + exists c'. rewrite Hc'. f_equal. rewrite lookup_insert. simpl.
      assert (Et : take (S m) (<[m:=CReturned v0]> ts) = take m ts ++ [CReturned v0]).
      { rewrite (take_S_r _ _ (CReturned v0)) by (apply list_lookup_insert; lia).
        by rewrite take_insert by lia. }
      rewrite Et, <- app_assoc. simpl. rewrite <- (fmap_S_seq 0 n). csimpl. rewrite <- list_fmap_compose.
      f_equal. f_equal; [f_equal; lia|]. apply list_fmap_ext. intros i x _. simpl. f_equal. lia.
Qed.
Theorem C32_serialised :
  forall k n c,
    from_option N.succ 0 (c !! k) + N.of_nat n <= 2 ^ 32 ->
    exists c' vs, cthreads_run k (seq 0 n ≫= fun i => [i; i]) c (replicate n CStart) = (c', CReturned <$> vs) /\
      NoDup vs /\ length vs = n.
Proof.
  intros k n c Hb. destruct (serial_run k n 0 (replicate n CStart) c) as [c' Hc'].
  - by rewrite replicate_length.
  - intros i Hi. apply lookup_replicate. split; [done|lia].
  - done.
  - exists c', ((fun i => from_option N.succ 0 (c !! k) + N.of_nat i) <$> seq 0 n). split_and!.
    + rewrite Hc', take_0. simpl. f_equal. by rewrite <- list_fmap_compose.
    + apply NoDup_fmap_2; [|apply NoDup_seq]. intros x y E. lia.
    + by rewrite fmap_length, seq_length.
Qed.
Print Assumptions C32_serialised.
Example ex_serial : from_option N.succ 0 (({[ [1] := 5 ]} : counters) !! [1]) + N.of_nat 3 <= 2 ^ 32.
Proof. by vm_compute. Qed.
