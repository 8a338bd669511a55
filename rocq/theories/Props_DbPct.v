(** Percentile keywords of the random database generator (property C69). *)
From stdpp Require Import prelude strings.
From Coq Require Import ZArith NArith Lia.
From Verif Require Import Base DbGenModel DbGenSpec DbGenProofs DbGenThreads Props_DbGen.
Local Open Scope N_scope.
Local Arguments N.of_nat : simpl never.
Local Arguments N.to_nat : simpl never.
Local Arguments N.modulo : simpl never.
Local Arguments N.div : simpl never.
Local Arguments N.pow : simpl never.
Local Arguments N.add : simpl never.
Local Arguments N.mul : simpl never.

(** The documents of a database: those of the calls for a group that gets every document
    once (C52_documents). *)
Definition documents (calls : list (string * N)) : list N :=
  snd <$> filter (fun c => String.prefix "Group-10^1_" c.1 = true) calls.
(** Number of documents with a property. *)
Definition docs_such (P : N -> bool) (calls : list (string * N)) : nat :=
  length (filter (fun d => P d = true) (documents calls)).

(** The part of the number of the document that a percentile keyword describes. *)
Definition part (side d : N) : N := if side =? 1 then d else d / 1000.
Definition quantile (b : pbase) : N := match b with P01 => 1000 | P1 => 100 | P10 => 10 end.

(** ** proof *)
Definition in_g1 (b : pbase) (side i : N) (x : kwd * N) : Prop :=
  in_group G10_1 x.1 = true /\ part side x.2 mod quantile b = i.
Global Instance in_g1_dec b side i x : Decision (in_g1 b side i x).
Proof. unfold in_g1. apply _. Defined.
Definition pct_ok (log : list (kwd * N)) : Prop := forall b side i, side = 1 \/ side = 2 ->
  cnt (is_kw (KPct b i side)) log = N.of_nat (length (filter (in_g1 b side i) log)).

Lemma pct_app l1 l2 : pct_ok l1 -> pct_ok l2 -> pct_ok (l1 ++ l2).
Proof.
  intros H1 H2 b side i Hs. rewrite cnt_app, (H1 b side i Hs), (H2 b side i Hs), filter_app, app_length. lia.
Qed.

Lemma digit_10 x : (x mod 100) mod 10 = x mod 10.
Proof.
  change 100 with (10 * 10). rewrite N.mod_mul_r by lia.
  rewrite N.mul_comm, N.mod_add by lia. apply N.mod_mod. lia.
Qed.
Lemma digit_100 x : (x mod 1000) mod 100 = x mod 100.
Proof.
  change 1000 with (100 * 10). rewrite N.mod_mul_r by lia.
  rewrite (N.mul_comm 100), N.mod_add by lia. apply N.mod_mod. lia.
Qed.

Section gen.
  Context (ngroups : nat -> N) (below : nat -> N -> bool).

  Lemma rand_step_only lv size digit tid ind v v' ks :
    rand_step ngroups below lv size digit tid ind v = Ok (v', ks) -> Forall (only_rand tid) ks.
  Proof.
    unfold rand_step. destruct (below lv ind); [|intros [= _ <-]; constructor].
    destruct (ngroups lv =? 0); [done|]. cbn zeta. destruct (vat v _) as [x| | |]; try done. cbn [rbind].
    destruct (x <? size); intros [= _ <-]; repeat constructor. unfold only_rand. eauto.
  Qed.
  Lemma rand_steps_only lv ls ok tid ind vs vs' ks :
    rand_steps ngroups below lv ls ok tid ind vs = Ok (vs', ks) -> Forall (only_rand tid) ks.
  Proof.
    revert lv vs vs' ks. induction ls as [|[[size digit] l] ls IH]; intros lv vs vs' ks.
    { simpl. intros [= _ <-]. constructor. }
    destruct vs as [|v vs]; simpl; [intros [= _ <-]; constructor|].
    destruct (if ok l then _ else _) as [[w k1]| | |] eqn:E1; try done. cbn [rbind].
    destruct (rand_steps _ _ (S lv) _ _ _ _ _) as [[ws k2]| | |] eqn:E2; try done. cbn [rbind fst snd].
    intros [= _ <-]. apply Forall_app. split; [|by eapply IH].
    destruct (ok l); [by eapply rand_step_only|]. injection E1 as _ <-. constructor.
  Qed.

  Lemma filter_rand tid ks (ind : N) b side i : Forall (only_rand tid) ks ->
    filter (in_g1 b side i) ((fun k => (k, ind)) <$> ks) = [].
  Proof.
    induction 1 as [|k ks (d & g & ->) _ IH]; [done|]. rewrite fmap_cons.
    rewrite filter_cons_False; [done|]. by intros [? _].
  Qed.

  Definition started (s : tstate) : Prop :=
    g_counter (t_groups s G10_1) < M \/ g_kw (t_groups s G10_1) <> None.

  Lemma iteration_pct tid ind s s' log e : iteration ngroups below tid ind s = Ok (s', log, e) ->
    started s -> pct_ok log /\ started s'.
  Proof.
    unfold iteration. destruct (rand_steps _ _ _ _ _ _ _ _) as [[vs ks]| | |] eqn:E; try done.
    apply rand_steps_only in E. cbn [rbind fst snd]. set (gs := tab _). intros Hok Hg.
    assert (exists c, g_kw (gs G10_1) = Some c) as [c Ec].
    { unfold gs. rewrite tab_eq. unfold grp_step. destruct (N.ltb_spec (g_counter (t_groups s G10_1)) M).
      - by eexists.
      - destruct Hg as [?|Hg]; [lia|]. destruct (g_kw (t_groups s G10_1)); [by eexists|done]. }
    split.
    2:{ apply (f_equal (fun r => match r with Ok x => x.1.1 | _ => s end)) in Hok. cbn [fst snd] in Hok.
        subst s'. right. cbn [t_groups]. by rewrite Ec. }
    apply (f_equal (fun r => match r with Ok x => x.1.2 | _ => [] end)) in Hok. cbn [fst snd] in Hok.
    subst log. intros b side i Hs.
    rewrite cnt_pair, !fmap_app, !filter_app, (filter_rand tid ks) by done.
    rewrite !cntk_app.
    rewrite (rand_cntk0 tid ks) by (exact E || (intros; apply bool_decide_eq_false; done)).
    clearbody gs. unfold group_kws, gorder.
    unfold percent. rewrite !fmap_cons, !fmap_nil, Ec.
    assert (forall l, l <> G10_1 -> forall rest,
      filter (in_g1 b side i) ((match g_kw (gs l) with Some c => KGroup l tid c | None => KEmpty end, ind) :: rest)
      = filter (in_g1 b side i) rest) as Hrest.
    { intros l Hl rest. apply filter_cons_False. intros [H _]. simpl in H.
      destruct (g_kw (gs l)); simpl in H; [|done]. apply bool_decide_eq_true in H. done. }
    assert (forall b' i' s' rest, filter (in_g1 b side i) ((KPct b' i' s', ind) :: rest) = filter (in_g1 b side i) rest) as Hp.
    { intros. apply filter_cons_False. by intros [? _]. }
    rewrite !Hp, filter_nil.
    assert (filter (in_g1 b side i) [(KGroup G10_1 tid c, ind);
       (match g_kw (gs G10_2) with Some c => KGroup G10_2 tid c | None => KEmpty end, ind);
       (match g_kw (gs G10_3) with Some c => KGroup G10_3 tid c | None => KEmpty end, ind);
       (match g_kw (gs G10_4) with Some c => KGroup G10_4 tid c | None => KEmpty end, ind);
       (match g_kw (gs G10_5) with Some c => KGroup G10_5 tid c | None => KEmpty end, ind);
       (match g_kw (gs G10_6) with Some c => KGroup G10_6 tid c | None => KEmpty end, ind);
       (match g_kw (gs G20) with Some c => KGroup G20 tid c | None => KEmpty end, ind);
       (match g_kw (gs G30) with Some c => KGroup G30 tid c | None => KEmpty end, ind);
       (match g_kw (gs G60) with Some c => KGroup G60 tid c | None => KEmpty end, ind)]
      = if bool_decide (part side ind mod quantile b = i) then [(KGroup G10_1 tid c, ind)] else []) as ->.
    { case_bool_decide as Hd.
      - rewrite filter_cons_True by (split; [done|exact Hd]). by rewrite !Hrest, filter_nil by done.
      - rewrite filter_cons_False by (intros [_ ?]; done). by rewrite !Hrest, filter_nil by done. }
    rewrite !cntk_cons.
    assert (forall l c, is_kw (KPct b i side) (KGroup l tid c) = false) as Hk1.
    { intros. by apply bool_decide_eq_false. }
    assert (is_kw (KPct b i side) KEmpty = false) as Hk2 by (by apply bool_decide_eq_false).
    assert (forall o l, is_kw (KPct b i side) (match o with Some c => KGroup l tid c | None => KEmpty end) = false) as Hk3.
    { intros [] l; [apply Hk1|apply Hk2]. }
    rewrite Hk1, !Hk3. unfold is_kw.
    rewrite digit_100, digit_10. rewrite digit_100, digit_10.
    destruct Hs as [-> | ->].
    - unfold part. change (1 =? 1) with true. cbv iota.
      destruct b; simpl quantile; repeat case_bool_decide; simplify_eq; done.
    - unfold part. change (2 =? 1) with false. cbv iota.
      destruct b; simpl quantile; repeat case_bool_decide; simplify_eq; done.
  Qed.
End gen.

Section lift.
  Context (ngroups : nat -> N) (below : nat -> N -> bool).

  Lemma pct_nil : pct_ok [].
  Proof. intros b side i _. done. Qed.
  Lemma job_loop_pct fuel n step tid stream s log d e :
    job_loop ngroups below fuel n step tid stream s = Ok (log, d, e) -> started s -> pct_ok log.
  Proof.
    revert s log d e. induction fuel as [|fuel IH]; intros s log d e; [done|]. cbn [job_loop].
    destruct (t_counter s <? n); [|intros [= <- _ _] _; apply pct_nil].
    destruct (iteration _ _ _ _ _) as [[[s' l1] e1]| | |] eqn:E1; try done. cbn [rbind fst snd].
    destruct (job_loop _ _ fuel _ _ _ _ _) as [[[l2 d2] e2]| | |] eqn:E2; try done. cbn [rbind fst snd].
    intros [= <- _ _] Hs. destruct (iteration_pct _ _ _ _ _ _ _ _ E1 Hs) as [Hp Hs'].
    apply pct_app; [done|]. eapply IH; [exact E2|exact Hs'].
  Qed.
  Lemma gen_threads_pct k n step tid streams log d e :
    gen_threads ngroups below k n step tid streams = Ok (log, d, e) -> pct_ok log.
  Proof.
    revert tid log d e. induction k as [|k IH]; intros tid log d e; cbn [gen_threads].
    { intros [= <- _ _]. apply pct_nil. }
    destruct (generation_job _ _ _ _ _ _) as [[[l1 d1] e1]| | |] eqn:E1; try done. cbn [rbind fst snd].
    destruct (gen_threads _ _ k _ _ _ _) as [[[l2 d2] e2]| | |] eqn:E2; try done. cbn [rbind fst snd].
    intros [= <- _ _]. apply pct_app; [|by eapply IH].
    eapply job_loop_pct; [exact E1|]. left. simpl. pose proof M_pos. lia.
  Qed.
End lift.

Lemma docs_such_cnt (b : pbase) side i log : cnt (is_kw KEmpty) log = 0 ->
  docs_such (fun d => part side d mod quantile b =? i) (strings log) = length (filter (in_g1 b side i) log).
Proof.
  unfold docs_such, documents, strings, cnt.
  induction log as [|[k x] log IH]; [done|]. intros He.
  destruct (decide (k = KEmpty)) as [->|Hne].
  { rewrite filter_cons_True in He by (by apply bool_decide_eq_true). simpl in He. lia. }
  rewrite filter_cons_False in He by (simpl; unfold is_kw; by rewrite bool_decide_eq_true).
  specialize (IH He). rewrite fmap_cons.
  assert (String.prefix "Group-10^1_" (kw_string k) = in_group G10_1 k) as Hpre by (by apply (prefix_group G10_1)).
  change (prod_map kw_string id (k, x)) with (kw_string k, x).
  destruct (in_group G10_1 k) eqn:Eg.
  - rewrite (filter_cons_True (fun c : string * N => String.prefix "Group-10^1_" c.1 = true)) by exact Hpre.
    rewrite fmap_cons. cbn [snd].
    destruct (N.eqb_spec (part side x mod quantile b) i) as [Hd|Hd].
    + rewrite filter_cons_True by (by apply N.eqb_eq). rewrite filter_cons_True by (split; done).
      simpl. by rewrite IH.
    + rewrite filter_cons_False by (by apply not_true_iff_false, N.eqb_neq).
      rewrite filter_cons_False by (by intros [_ ?]). exact IH.
  - rewrite (filter_cons_False (fun c : string * N => String.prefix "Group-10^1_" c.1 = true))
      by (simpl; rewrite Hpre; done).
    rewrite filter_cons_False; [exact IH|]. intros [? _]. simpl in *. congruence.
Qed.

Fixpoint total (f : N -> nat) (q : nat) : nat :=
  match q with O => O | S q' => (total f q' + f (N.of_nat q'))%nat end.

Lemma total_ext (f g : N -> nat) q : (forall i, f i = g i) -> total f q = total g q.
Proof. intros H. induction q; simpl; congruence. Qed.
Lemma total_add (f g : N -> nat) q : total (fun i => f i + g i)%nat q = (total f q + total g q)%nat.
Proof. induction q; simpl; lia. Qed.
Lemma total_zero q : total (fun _ => O) q = O.
Proof. induction q; simpl; lia. Qed.
Lemma total_point x q : total (fun i => if decide (x = i) then 1 else 0)%nat q = if decide (x < N.of_nat q) then 1%nat else O.
Proof.
  induction q; cbn [total].
  - case_decide; [lia|done].
  - rewrite IHq. repeat case_decide; lia.
Qed.
Lemma total_parts {A} (f : A -> N) (l : list A) (q : nat) : (forall x, f x < N.of_nat q) ->
  total (fun i => length (filter (fun x => (f x =? i) = true) l)) q = length l.
Proof.
  intros Hf. induction l as [|x l IH].
  - etrans; [|exact (total_zero q)]. apply total_ext. done.
  - rewrite (total_ext _ (fun i => (if decide (f x = i) then 1 else 0) + length (filter (fun x => N.eqb (f x) i = true) l))%nat).
    + rewrite total_add, IH, total_point. rewrite decide_True by apply Hf. done.
    + intros i. case_decide as Hd.
      * rewrite filter_cons_True by (by apply N.eqb_eq). done.
      * rewrite filter_cons_False by (by apply not_true_iff_false, N.eqb_neq). done.
Qed.

Lemma percentile_base name q : (name, q) ∈ percentiles -> exists b, name = pbase_string b /\ q = quantile b.
Proof.
  intros H. unfold percentiles in H. repeat (apply elem_of_cons in H as [[= -> ->]|H]); [..|by apply elem_of_nil in H];
    [exists P01|exists P1|exists P10]; split; by vm_compute.
Qed.

Section props.
  Context (ngroups : nat -> N) (below : nat -> N -> bool).
  Context (Hz : forall lv ind, ngroups lv = 0 -> below lv ind = false).

  (** C69: the percentile keywords describe the digits of the document: a document is listed
      under ["0.1_i_1"], ["1_i_1"], ["10_i_1"] when its last three, two, one digits are i,
      under ["..._2"] when those that follow the last three are. *)
  Theorem C69_percentiles n p streams log docs entries name q side i : (name, q) ∈ percentiles -> 0 < p -> n + p < 2 ^ 64 ->
    gen_db ngroups below n p streams = Ok (log, docs, entries) -> side = 1 \/ side = 2 ->
    times (name +:+ "_" +:+ to_string i +:+ "_" +:+ to_string side) (strings log)
      = docs_such (fun d => part side d mod q =? i) (strings log).
  Proof using Hz.
    intros Hin Hp Hn E Hs. destruct (percentile_base _ _ Hin) as (b & -> & ->).
    change (pbase_string b +:+ _) with (kw_string (KPct b i side)). destruct (gen_db_ok ngroups below Hz n p streams Hp Hn) as (log' & E' & HD).
    rewrite E' in E. injection E as -> _ _.
    apply Nat2N.inj. rewrite times_cnt.
    assert (cnt (is_kw KEmpty) log = 0) as He by apply HD.
    rewrite (docs_such_cnt b side i log He).
    by apply (gen_threads_pct _ _ _ _ _ _ _ _ _ _ E').
  Qed.

  (** ... so that the keywords of one kind share out the documents. *)
  Theorem C69_partition n p streams log docs entries name q side : (name, q) ∈ percentiles -> 0 < p -> n + p < 2 ^ 64 ->
    gen_db ngroups below n p streams = Ok (log, docs, entries) -> side = 1 \/ side = 2 ->
    total (fun i => times (name +:+ "_" +:+ to_string i +:+ "_" +:+ to_string side) (strings log)) (N.to_nat q) = N.to_nat n.
  Proof using Hz.
    intros Hin Hp Hn E Hs.
    rewrite (total_ext _ (fun i => length (filter (fun d => (part side d mod q =? i) = true) (documents (strings log))))).
    2:{ intros i. by eapply C69_percentiles. }
    rewrite (total_parts (fun d => part side d mod q)).
    2:{ intros x. rewrite N2Nat.id. apply N.mod_lt. by destruct (percentile_base _ _ Hin) as ([] & _ & ->). }
    destruct (C52_documents ngroups below Hz n p streams Hp Hn) as (log' & E' & HD).
    rewrite E' in E. injection E as -> _ _. specialize (HD "Group-10^1" 10 ltac:(apply (bool_decide_unpack _); by vm_compute)).
    unfold documents. rewrite fmap_length. unfold calls_with in HD.
    change ("Group-10^1" +:+ "_") with "Group-10^1_" in HD. lia.
  Qed.
End props.

(** The theorem on a concrete database; the hypotheses are those of C52_hypotheses. *)
Example C69_example :
  match gen_db (exact_groups 2500 3) (exact_below 2500 3) 2500 3 ex_stream with
  | Ok (log, docs, entries) => times "1_7_1" (strings log) = docs_such (fun d => d mod 100 =? 7) (strings log) /\
      times "10_7_2" (strings log) = docs_such (fun d => d / 1000 mod 10 =? 7) (strings log) /\
      times "10_7_2" (strings log) <> O
  | _ => False
  end.
Proof. vm_compute. split_and!; done. Qed.
Example C69_uses : forall log docs entries,
  gen_db (exact_groups 2500 3) (exact_below 2500 3) 2500 3 ex_stream = Ok (log, docs, entries) ->
  total (fun i => times ("10_" +:+ to_string i +:+ "_2") (strings log)) 10 = 2500%nat.
Proof.
  intros log docs entries E.
  exact (C69_partition _ _ (exact_zero 2500 3) 2500 3 ex_stream log docs entries "10" 10 2
    ltac:(apply (bool_decide_unpack _); by vm_compute) eq_refl eq_refl E (or_intror eq_refl)).
Qed.

Print Assumptions C69_percentiles.
Print Assumptions C69_partition.
