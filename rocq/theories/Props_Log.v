(** Final theorems about the loggers, the benchmarks and the texts (C111 to C114). *)
From stdpp Require Import prelude strings.
From Coq Require Import ZArith NArith Lia.
From Verif Require Import Base EncModel UtilsModel Props_Utils DbGenModel GenClientModel LogModel LogSpec.
Local Open Scope N_scope.

(** ** C111: the calls made on the loggers. *)
Lemma choices_snoc cs c : choices (cs ++ [c]) = choices cs ++ match choice cs c with Some l => [l] | None => [] end.
Proof.
  unfold choices. rewrite app_length. simpl. rewrite Nat.add_comm. cbn [Nat.add]. rewrite seq_S, omap_app. f_equal.
  - apply list_omap_ext. rewrite Forall2_same_length_lookup. split; [done|]. intros i x y Hx Hy.
    assert (x = y) as <- by congruence. apply lookup_seq in Hx as [-> Hi]. rewrite lookup_app_l by lia. rewrite take_app_le by lia. done.
  - simpl. rewrite list_lookup_middle, take_app by done. simpl. by destruct (choice cs c).
Qed.
Lemma bench_paths_snoc cs c : bench_paths (cs ++ [c]) = bench_paths cs ++ match c with LBench p => [p] | _ => [] end.
Proof. unfold bench_paths. rewrite omap_app. by destruct c. Qed.
Lemma last_some {A} (l : list A) d x : default d (last (l ++ [x])) = x.
Proof. by rewrite last_snoc. Qed.

Definition log_inv (cs : list lcall) (s : lstate) : Prop :=
  ("null_logger"%string ∈ l_names s <-> LSet None ∈ cs) /\
  ("benchmark"%string ∈ l_names s <-> bench_paths cs <> []) /\
  (forall name, ordinary (LRegister name) -> name ∈ l_names s <-> LRegister name ∈ cs) /\
  ("console"%string ∈ l_names s -> l_shared s <> None) /\
  match l_shared s with Some l => l = default Console (last (choices cs)) | None => choices cs = [] end /\
  l_bench s = head (bench_paths cs).
Lemma elem_snoc (c c' : lcall) cs : c ∈ cs ++ [c'] <-> c ∈ cs \/ c = c'.
Proof. rewrite elem_of_app, elem_of_list_singleton. done. Qed.

Lemma log_inv_ok cs : Forall ordinary cs -> log_inv cs (log_calls log0 cs).
Proof.
  induction cs as [|c cs IH] using rev_ind; intros Ho.
  { unfold log_inv. simpl. split_and!; [by rewrite !elem_of_nil|rewrite elem_of_nil; naive_solver|intros; by rewrite !elem_of_nil|by rewrite elem_of_nil|done|done]. }
  apply Forall_app in Ho as [Ho Hc]. apply Forall_cons_1 in Hc as [Hc _].
  destruct (IH Ho) as (H1 & H2 & H3 & H4 & H5 & H6). unfold log_calls. rewrite foldl_app. fold (log_calls log0 cs).
  set (s := log_calls log0 cs) in *. cbn [foldl].
  assert (Hlazy : forall c, c = LLogger \/ c = LLevel -> log_inv (cs ++ [c]) (log_logger s).1).
  { intros c' Hc'. unfold log_inv. rewrite choices_snoc, bench_paths_snoc.
    replace (choice cs c') with (@None lgr) by (by destruct Hc' as [-> | ->]).
    replace (match c' with LBench p => [p] | _ => [] end) with (@nil string) by (by destruct Hc' as [-> | ->]). rewrite !app_nil_r.
    unfold log_logger. destruct (l_shared s) as [l|] eqn:Es; [|case_bool_decide as Hn; [by destruct (H4 Hn)|]]; cbn [fst l_names l_shared l_bench].
    - split_and!; [rewrite elem_snoc; destruct Hc' as [-> | ->]; naive_solver|done| |by rewrite Es|by rewrite Es|done].
      intros name Hname. rewrite elem_snoc, H3 by done. destruct Hc' as [-> | ->]; naive_solver.
    - split_and!.
      + rewrite elem_of_cons, elem_snoc, H1. destruct Hc' as [-> | ->]; naive_solver.
      + rewrite elem_of_cons, H2. naive_solver.
      + intros name Hname. rewrite elem_of_cons, elem_snoc, H3 by done. destruct Hname as (? & ? & ?), Hc' as [-> | ->]; naive_solver.
      + done.
      + by rewrite H5.
      + done. }
  destruct c as [|[n|]| |path|name]; cbn [log_call].
  - apply Hlazy. by left.
  - unfold log_inv. rewrite choices_snoc, bench_paths_snoc. cbn. rewrite app_nil_r, last_snoc. split_and!; try done.
    + rewrite elem_snoc, H1. naive_solver.
    + intros name Hname. rewrite elem_snoc, H3 by done. naive_solver.
  - unfold log_inv. rewrite choices_snoc, bench_paths_snoc. cbn [choice log_set]. rewrite app_nil_r. case_bool_decide as Hn; cbn [fst l_names l_shared l_bench].
    + rewrite decide_True by tauto. rewrite app_nil_r. split_and!; try done.
      * rewrite elem_snoc. naive_solver.
      * intros name Hname. rewrite elem_snoc, H3 by done. naive_solver.
    + rewrite decide_False by tauto. rewrite last_snoc. split_and!; try done.
      * rewrite elem_of_cons, elem_snoc. naive_solver.
      * rewrite elem_of_cons, H2. naive_solver.
      * intros name Hname. rewrite elem_of_cons, elem_snoc, H3 by done. destruct Hname as (? & ? & ?). naive_solver.
  - unfold log_level. specialize (Hlazy LLevel (or_intror eq_refl)). by destruct (log_logger s).
  - unfold log_inv. rewrite choices_snoc, bench_paths_snoc. cbn [choice log_bench]. rewrite app_nil_r. unfold log_bench.
    case_bool_decide as Hn; cbn [fst l_names l_shared l_bench].
    + apply H2 in Hn as Hb. split_and!; try done.
      * rewrite elem_snoc, H1. naive_solver.
      * split; [|done]. by destruct (bench_paths cs).
      * intros name Hname. rewrite elem_snoc, H3 by done. naive_solver.
      * rewrite H6. by destruct (bench_paths cs).
    + assert (Hb : bench_paths cs = []) by (destruct (bench_paths cs); [done|]; destruct Hn; by apply H2). rewrite Hb. split_and!; try done.
      * rewrite elem_of_cons, elem_snoc, H1. naive_solver.
      * rewrite elem_of_cons. naive_solver.
      * intros name Hname. rewrite elem_of_cons, elem_snoc, H3 by done. destruct Hname as (? & ? & ?). naive_solver.
      * rewrite elem_of_cons. naive_solver.
  - unfold log_inv. rewrite choices_snoc, bench_paths_snoc. cbn [choice]. rewrite !app_nil_r.
    case_bool_decide as Hn; cbn [fst l_names l_shared l_bench].
    + split_and!; try done.
      * rewrite elem_snoc, H1. naive_solver.
      * intros name' Hname. rewrite elem_snoc, H3 by done. split; [naive_solver|]. intros [?|[= ->]]; [done|]. by apply H3.
    + destruct Hc as (? & ? & ?). split_and!; try done.
      * rewrite elem_of_cons, elem_snoc, H1. naive_solver.
      * rewrite elem_of_cons, H2. naive_solver.
      * intros name' Hname. rewrite elem_of_cons, elem_snoc, H3 by done. naive_solver.
      * rewrite elem_of_cons. naive_solver.
Qed.

(** Whatever calls are made: logger() gives the logger that was chosen last, the console
    before any choice; the file of the benchmarks is the first one; the calls that throw are
    the repeated ones. *)
Theorem C111_calls :
  forall cs, Forall ordinary cs ->
    let s := log_calls log0 cs in
    (log_call s LLogger).2 = AnsLogger (default Console (last (choices cs))) /\
    l_bench s = head (bench_paths cs) /\
    forall c, ordinary c -> (log_call s c).2 = AnsThrow <->
      (c = LSet None /\ c ∈ cs) \/ (exists p p', c = LBench p /\ LBench p' ∈ cs) \/ (exists name, c = LRegister name /\ c ∈ cs).
Proof.
  intros cs Hcs s. destruct (log_inv_ok cs Hcs) as (H1 & H2 & H3 & H4 & H5 & H6). fold s in H1, H2, H3, H4, H5, H6.
  assert (Hl : (log_logger s).2 = AnsLogger (default Console (last (choices cs)))).
  { unfold log_logger. destruct (l_shared s) as [l|] eqn:Es; [by rewrite H5|]. case_bool_decide as Hn; [by destruct (H4 Hn)|]. by rewrite H5. }
  split_and!; [exact Hl|done|]. intros c Hc.
  assert (Hb : bench_paths cs <> [] <-> exists p', LBench p' ∈ cs).
  { unfold bench_paths. split.
    - intros Hne. destruct (omap _ cs) as [|p l] eqn:E; [done|]. assert (Hp : p ∈ p :: l) by left. rewrite <- E in Hp.
      apply elem_of_list_omap in Hp as (c' & Hc' & Hp). destruct c'; try done. by eexists.
    - intros [p Hp] E. eapply (elem_of_nil p). rewrite <- E. apply elem_of_list_omap. by exists (LBench p). }
  destruct c as [|[n|]| |path|name]; cbn [log_call].
  - rewrite Hl. naive_solver.
  - simpl. naive_solver.
  - unfold log_set. case_bool_decide as Hn; simpl; naive_solver.
  - unfold log_level. destruct (log_logger s) as [s' a]. simpl in Hl. subst a. simpl. naive_solver.
  - unfold log_bench. case_bool_decide as Hn; simpl; naive_solver.
  - specialize (H3 name Hc). case_bool_decide as Hn; simpl; naive_solver.
Qed.
Print Assumptions C111_calls.
Example C111_example :
  let cs := [LLevel; LBench "a"; LSet (Some 4%nat); LSet None; LSet (Some 5%nat); LSet None; LRegister "mine"; LLogger] in
  Forall ordinary cs /\ choices cs = [Given 4; Null; Given 5] /\ (log_call (log_calls log0 cs) LLogger).2 = AnsLogger (Given 5) /\
  (log_call (log_calls log0 cs) (LSet None)).2 = AnsThrow.
Proof. cbn zeta. split_and!; [repeat (apply Forall_cons; split; [by (simpl; split_and?)|]); by constructor|by vm_compute..]. Qed.

(** A null pointer given to set_logger does not always silence the library, nor does
    set_benchmark_file change the file; a program that registers "console" makes every call of
    the library that logs throw. *)
Theorem C111_refuted :
  (exists cs, Forall ordinary cs /\ last cs = Some (LSet None) /\ (log_call (log_calls log0 cs) LLogger).2 <> AnsLogger Null) /\
  (exists cs p, Forall ordinary cs /\ last cs = Some (LBench p) /\ l_bench (log_calls log0 cs) <> Some p) /\
  (exists cs, Forall ordinary (tail cs) /\ (log_call (log_calls log0 cs) LLogger).2 = AnsThrow).
Proof.
  split_and!.
  - exists [LSet None; LSet (Some 1%nat); LSet None]. split_and!; [by repeat (apply Forall_cons; split)|done|by vm_compute].
  - exists [LBench "a"; LBench "b"], "b"%string. split_and!; [by repeat (apply Forall_cons; split)|done|by vm_compute].
  - exists [LRegister "console"]. split; [by apply Forall_nil|by vm_compute].
Qed.
Print Assumptions C111_refuted.

(** A program that has taken the name "console" makes logger() and set_logging_level throw until
    it has chosen a logger, whatever it does else. *)
Theorem C111_console :
  forall cs, Forall (fun c => match c with LSet _ => False | _ => True end) cs ->
    let s := log_calls log0 (LRegister "console" :: cs) in
    (log_call s LLogger).2 = AnsThrow /\ (log_call s LLevel).2 = AnsThrow.
Proof.
  intros cs Hcs s.
  assert (H : l_shared s = None /\ "console"%string ∈ l_names s).
  { unfold s. clear s. induction cs as [|c cs IH] using rev_ind; [split; [done|by left]|].
    apply Forall_app in Hcs as [Hcs Hc]. apply Forall_cons_1 in Hc as [Hc _]. specialize (IH Hcs) as [I1 I2].
    unfold log_calls in *. cbn [foldl] in *. rewrite foldl_app. cbn [foldl]. set (s := foldl _ _ _) in *. clearbody s.
    assert (L : log_logger s = (s, AnsThrow)) by (unfold log_logger; rewrite I1; by rewrite bool_decide_eq_true_2).
    destruct c as [|o| |p|n]; cbn [log_call]; [by rewrite L|done|unfold log_level; by rewrite L|unfold log_bench|];
      case_bool_decide; split; try done; by right. }
  destruct H as [I1 I2].
  assert (L : log_logger s = (s, AnsThrow)) by (unfold log_logger; rewrite I1; by rewrite bool_decide_eq_true_2).
  cbn [log_call]. unfold log_level. by rewrite L.
Qed.
Print Assumptions C111_console.
Example C111_console_example :
  (log_call (log_calls log0 [LRegister "console"; LBench "a"; LLogger; LSet (Some 4%nat)]) LLogger).2 = AnsLogger (Given 4) /\
  Forall (fun c => match c with LSet _ => False | _ => True end) [LBench "a"; LLogger; LLevel; LRegister "console"].
Proof. split; [by vm_compute|by repeat constructor]. Qed.

(** ** C112: the logger and the threads. *)
Lemma forall_ins {A} (P : A -> Prop) (l : list A) i x : (forall j y, l !! j = Some y -> P y) -> P x -> forall j y, <[i := x]> l !! j = Some y -> P y.
Proof.
  intros H Hx j y Hy. destruct (decide (i = j)) as [->|Hne].
  - destruct (decide (j < length l)%nat) as [Hl|Hl].
    + rewrite list_lookup_insert in Hy by done. by injection Hy as <-.
    + rewrite list_insert_ge in Hy by lia. by apply (H j).
  - rewrite list_lookup_insert_ne in Hy by done. by apply (H j).
Qed.

(** Once it was called (the programs call it first in main), any number of threads get the
    same logger, no call throws and there is no race. *)
Theorem C112_after :
  forall n l reg s, rtc tstep (ready n l reg) s ->
    t_shared s = Some l /\ (forall i pc, t_pcs s !! i = Some pc -> pc = TIdle \/ pc = TRead \/ pc = TGot l) /\ ~ log_race s.
Proof.
  intros n l reg s H.
  assert (Hinv : t_shared s = Some l /\ forall i pc, t_pcs s !! i = Some pc -> pc = TIdle \/ pc = TRead \/ pc = TGot l).
  { revert s H. apply (rtc_ind_r (fun s => t_shared s = Some l /\ forall i pc, t_pcs s !! i = Some pc -> pc = TIdle \/ pc = TRead \/ pc = TGot l)).
    - split; [done|]. intros i pc Hi. apply lookup_replicate in Hi as [-> _]. by left.
    - intros s s' _ Hs [H1 H2]. destruct Hs as [i s Hi|i s Hi|i s Hi|i s l' Hi Hl|i s l' Hi|i s Hi]; cbn [t_shared t_pcs];
        try (destruct (H2 i _ Hi) as [?|[?|?]]; congruence); split; try done; apply forall_ins; try done; rewrite ?H1; auto.
      right; right. congruence. }
  split_and!; [apply Hinv|apply Hinv|]. intros (i & j & pc & _ & Hi & _). destruct Hinv as [_ H2]. destruct (H2 i _ Hi) as [?|[?|?]]; congruence.
Qed.
Print Assumptions C112_after.

(** The first calls: whoever gets a logger gets the console; it is created once. *)
Definition t_inv (s : tstate) : Prop :=
  (t_shared s = None \/ t_shared s = Some Console) /\
  (forall i pc, t_pcs s !! i = Some pc ->
     match pc with
     | TIdle | TCreate => True
     | TAssign => t_shared s = None /\ t_reg s = true /\ forall j, t_pcs s !! j = Some TAssign -> j = i
     | TRead => t_shared s = Some Console
     | TGot l => l = Console /\ t_shared s = Some Console
     | TThrown => t_reg s = true
     end) /\
  (t_shared s = Some Console -> t_reg s = true) /\
  (length (t_pcs s) = 1%nat -> t_reg s = true -> t_shared s = None -> t_pcs s !! 0%nat = Some TAssign) /\
  (length (t_pcs s) = 1%nat -> t_pcs s !! 0%nat <> Some TThrown /\ (t_pcs s !! 0%nat = Some TCreate -> t_reg s = false)).
Lemma t_inv_step s s' : t_inv s -> tstep s s' -> t_inv s'.
Proof.
  intros (H1 & H2 & H3 & H4 & H5) Hs.
  assert (Hone : forall i, length (t_pcs s) = 1%nat -> (i < length (t_pcs s))%nat -> i = 0%nat) by lia.
  assert (Hins : forall i pc (Q : tpc -> Prop), t_pcs s !! i = Some pc -> forall pc' j q, <[i := pc']> (t_pcs s) !! j = Some q ->
    (j = i /\ q = pc') \/ (j <> i /\ t_pcs s !! j = Some q)).
  { intros i pc _ Hi pc' j q Hj. destruct (decide (j = i)) as [->|Hne].
    - rewrite list_lookup_insert in Hj by (by eapply lookup_lt_Some). injection Hj as <-. by left.
    - rewrite list_lookup_insert_ne in Hj by done. by right. }
  assert (H0 : forall i pc pc', length (t_pcs s) = 1%nat -> t_pcs s !! i = Some pc -> i = 0%nat /\ <[i := pc']> (t_pcs s) !! 0%nat = Some pc').
  { intros i pc pc' Hl Hi. apply lookup_lt_Some in Hi as Hi'. assert (i = 0%nat) as -> by lia. split; [done|]. by rewrite list_lookup_insert. }
  destruct Hs as [i s Hi|i s Hi|i s Hi|i s l Hi Hl|i s l Hi|i s Hi]; unfold t_inv; cbn [t_shared t_pcs t_reg];
    rewrite ?insert_length; pose proof (H2 i _ Hi) as Hpc; simpl in Hpc.
  - split_and!; try done.
    + intros j pc Hj. destruct (Hins i _ (fun _ => True) Hi _ j pc Hj) as [[-> ->]|[Hne Hj']].
      * by destruct H1 as [-> | ->].
      * specialize (H2 j pc Hj'). destruct pc; try done. destruct H2 as (? & ? & H2). split_and!; try done.
        intros k Hk. destruct (Hins i _ (fun _ => True) Hi _ k _ Hk) as [[-> Hk']|[_ Hk']]; [|by apply H2]. by destruct H1 as [E|E]; rewrite E in Hk'.
    + intros Hlen Hr Hn. specialize (H4 Hlen Hr Hn). destruct (H0 i _ TIdle Hlen Hi) as [-> _]. congruence.
    + intros Hlen. destruct (H0 i _ (match t_shared s with Some _ => TRead | None => TCreate end) Hlen Hi) as [-> E]. rewrite E.
      destruct (t_shared s) eqn:Es; split; try done. intros _. destruct (t_reg s) eqn:Er; [|done]. specialize (H4 Hlen eq_refl eq_refl). congruence.
  - split_and!; try done.
    + intros j pc Hj. destruct (Hins i _ (fun _ => True) Hi _ j pc Hj) as [[-> ->]|[Hne Hj']].
      * destruct (t_reg s) eqn:Er; [done|]. split_and!; [destruct H1 as [H1|H1]; [done|]; by specialize (H3 H1)|done|].
        intros k Hk. destruct (Hins i _ (fun _ => True) Hi _ k _ Hk) as [[-> _]|[_ Hk']]; [done|]. destruct (H2 k _ Hk') as (_ & ? & _). congruence.
      * specialize (H2 j pc Hj'). destruct pc; try done. destruct H2 as (? & Hr & H2). split_and!; try done.
        intros k Hk. destruct (Hins i _ (fun _ => True) Hi _ k _ Hk) as [[-> Hk']|[_ Hk']]; [|by apply H2]. by rewrite Hr in Hk'.
    + intros Hlen _ Hn. destruct (H0 i _ (if t_reg s then TThrown else TAssign) Hlen Hi) as [-> E]. rewrite E.
      destruct (H5 Hlen) as [_ H5']. by rewrite (H5' Hi).
    + intros Hlen. destruct (H0 i _ (if t_reg s then TThrown else TAssign) Hlen Hi) as [-> E]. rewrite E.
      destruct (H5 Hlen) as [_ H5']. by rewrite (H5' Hi).
  - destruct Hpc as (Hn & Hr & Hu). split_and!; try done; try (by right).
    + intros j pc Hj. destruct (Hins i _ (fun _ => True) Hi _ j pc Hj) as [[-> ->]|[Hne Hj']]; [done|].
      pose proof (H2 j pc Hj') as H2'. destruct pc; try done; [|naive_solver]. by specialize (Hu j Hj').
    + intros Hlen. destruct (H0 i _ TRead Hlen Hi) as [-> E]. by rewrite E.
  - split_and!; try done.
    + intros j pc Hj. destruct (Hins i _ (fun _ => True) Hi _ j pc Hj) as [[-> ->]|[Hne Hj']].
      * split; [congruence|done].
      * specialize (H2 j pc Hj'). destruct pc; try done. destruct H2 as (? & ? & H2). congruence.
    + intros Hlen _ Hn. congruence.
    + intros Hlen. destruct (H0 i _ (TGot l) Hlen Hi) as [-> E]. by rewrite E.
  - destruct Hpc as [-> Hsh]. split_and!; try done.
    + intros j pc Hj. destruct (Hins i _ (fun _ => True) Hi _ j pc Hj) as [[-> ->]|[Hne Hj']]; [done|].
      specialize (H2 j pc Hj'). destruct pc; try done. destruct H2 as (? & ? & H2). congruence.
    + intros Hlen _ Hn. congruence.
    + intros Hlen. destruct (H0 i _ TIdle Hlen Hi) as [-> E]. by rewrite E.
  - split_and!; try done.
    + intros j pc Hj. destruct (Hins i _ (fun _ => True) Hi _ j pc Hj) as [[-> ->]|[Hne Hj']]; [done|].
      specialize (H2 j pc Hj'). destruct pc; try done. destruct H2 as (? & ? & H2). split_and!; try done.
      intros k Hk. destruct (Hins i _ (fun _ => True) Hi _ k _ Hk) as [[-> Hk']|[_ Hk']]; [done|by apply H2].
    + intros Hlen Hr Hn. specialize (H4 Hlen Hr Hn). destruct (H0 i _ TIdle Hlen Hi) as [-> _]. congruence.
    + intros Hlen. destruct (H0 i _ TIdle Hlen Hi) as [-> E]. by rewrite E.
Qed.
Lemma t_inv_reach n s : rtc tstep (fresh n) s -> t_inv s.
Proof.
  intros H. revert s H. apply (rtc_ind_r t_inv).
  - unfold t_inv. cbn. split_and!; try done; [by left| |].
    + intros i pc Hi. by apply lookup_replicate in Hi as [-> _].
    + intros Hl. rewrite replicate_length in Hl. subst n. done.
  - intros s s' _ Hs Hi. by eapply t_inv_step.
Qed.
Lemma tstep_length s s' : tstep s s' -> length (t_pcs s') = length (t_pcs s).
Proof. destruct 1; cbn [t_pcs]; by rewrite insert_length. Qed.
Theorem C112_first :
  forall n s, rtc tstep (fresh n) s ->
    (forall i l, t_pcs s !! i = Some (TGot l) -> l = Console /\ t_shared s = Some Console) /\
    (forall i, t_pcs s !! i = Some TRead -> t_shared s = Some Console) /\
    (forall i j, t_pcs s !! i = Some TAssign -> t_pcs s !! j = Some TAssign -> i = j) /\
    (n = 1%nat -> t_pcs s !! 0%nat <> Some TThrown /\ ~ log_race s).
Proof.
  intros n s H. destruct (t_inv_reach n s H) as (H1 & H2 & H3 & H4 & H5).
  assert (Hlen : length (t_pcs s) = n).
  { clear H1 H2 H3 H4 H5. revert s H. apply (rtc_ind_r (fun s => length (t_pcs s) = n)).
    - apply replicate_length.
    - intros s s' _ Hs <-. by apply tstep_length. }
  split_and!.
  - intros i l Hi. apply (H2 _ _ Hi).
  - intros i Hi. apply (H2 _ _ Hi).
  - intros i j Hi Hj. destruct (H2 _ _ Hj) as (_ & _ & E). by apply E.
  - intros ->. split; [by apply H5|]. intros (i & j & pc & Hne & Hi & Hj & _). apply lookup_lt_Some in Hi. apply lookup_lt_Some in Hj. lia.
Qed.
Print Assumptions C112_first.
Example C112_example : exists s, rtc tstep (fresh 2) s /\ t_pcs s = [TGot Console; TGot Console].
Proof.
  eexists. split.
  - eapply rtc_l; [by eapply (TTest 0)|]. eapply rtc_l; [by eapply (TMake 0)|]. eapply rtc_l; [by eapply (TStore 0)|].
    eapply rtc_l; [by eapply (TTest 1)|]. eapply rtc_l; [by eapply (TCopy 0)|]. eapply rtc_l; [by eapply (TCopy 1)|]. apply rtc_refl.
  - done.
Qed.

(** Two threads that log for the first time at once: one of the calls throws; the pointer is
    assigned while the other thread reads it. *)
Theorem C112_refuted :
  (exists s, rtc tstep (fresh 2) s /\ t_pcs s = [TGot Console; TThrown]) /\
  (exists s, rtc tstep (fresh 2) s /\ log_race s).
Proof.
  split.
  - eexists. split.
    + eapply rtc_l; [by eapply (TTest 0)|]. eapply rtc_l; [by eapply (TTest 1)|]. eapply rtc_l; [by eapply (TMake 0)|].
      eapply rtc_l; [by eapply (TMake 1)|]. eapply rtc_l; [by eapply (TStore 0)|]. eapply rtc_l; [by eapply (TCopy 0)|]. apply rtc_refl.
    + done.
  - eexists. split.
    + eapply rtc_l; [by eapply (TTest 0)|]. eapply rtc_l; [by eapply (TMake 0)|]. apply rtc_refl.
    + exists 0%nat, 1%nat, TIdle. split_and!; [done|done|done|by left].
Qed.
Print Assumptions C112_refuted.

(** ** C113: benchmarks. *)
(** The time reported is always that of the destruction, whatever the stops; the count is the
    one given last; the time is divided by the count if it is not 0. *)
Theorem C113_report :
  forall t0 cs t1,
    b_life t0 cs t1 = let count := default 0 (last (given_counts cs)) in Report count (t1 - t0) (N.max 1 count).
Proof.
  intros t0 cs t1. unfold b_life.
  assert (H : forall cs, let b := foldl b_call (b_new t0) cs in
    b_stopped b = false /\ b_begin b = t0 /\ b_count b = default 0 (last (given_counts cs))).
  { clear cs. induction cs as [|c cs IH] using rev_ind; [done|]. rewrite foldl_app. cbn [foldl].
    set (b := foldl b_call (b_new t0) cs) in *. cbn zeta in IH. destruct IH as (I1 & I2 & I3).
    unfold given_counts in *. rewrite omap_app. destruct c; simpl; unfold b_stop, b_stop_count; rewrite ?I1; cbn; rewrite ?app_nil_r, ?last_snoc; done. }
  destruct (H cs) as (I1 & I2 & I3). unfold b_destroy, b_stop. rewrite I1. cbn. rewrite I2, I3. f_equal.
  destruct (N.ltb_spec 1 (default 0 (last (given_counts cs)))); lia.
Qed.
Print Assumptions C113_report.
(** The time of the stop is lost. *)
Theorem C113_stop_refuted : exists t0 cs t t1, stops cs = [t] /\ (t0 <= t <= t1)%Z /\ r_time (b_life t0 cs t1) <> (t - t0)%Z.
Proof. exists 10%Z, [BStopCount 4 15], 15%Z, 100%Z. split_and!; [done|lia|lia|done]. Qed.
Print Assumptions C113_stop_refuted.

Lemma fmt_plain args s rest : Forall (fun c => c <> 123 /\ c <> 125) s -> fmt args (s ++ rest) = app s <$> fmt args rest.
Proof.
  induction 1 as [|c s [H1 H2] _ IH]; [change ([] ++ rest) with rest; by destruct (fmt args rest)|]. cbn [app fmt].
  rewrite (proj2 (N.eqb_neq _ _) H1), (proj2 (N.eqb_neq _ _) H2), IH. by destruct (fmt args rest).
Qed.
Lemma plain_quote s : plain_message s -> Forall (fun c => c <> 123 /\ c <> 125) s.
Proof. intros H. eapply Forall_impl; [exact H|]. simpl. naive_solver. Qed.

(** The line of a search: a JSON object with the message and the three numbers. *)
Theorem C113_line :
  forall message items time per_item, plain_message message ->
    search_line message items time per_item =
      Some (str_bytes "{ " ++ [34] ++ str_bytes "message" ++ [34] ++ str_bytes " : " ++ [34] ++ message ++ [34] ++
            str_bytes ", " ++ [34] ++ str_bytes "items" ++ [34] ++ str_bytes " : " ++ items ++
            str_bytes ", " ++ [34] ++ str_bytes "time" ++ [34] ++ str_bytes " : " ++ time ++
            str_bytes ", " ++ [34] ++ str_bytes "time/item" ++ [34] ++ str_bytes " : " ++ per_item ++ str_bytes " }").
Proof.
  intros m a b c Hm. unfold search_line.
  assert (Hb : forall rest, fmt [a; b; c] (json_begin ++ rest) =
    app (str_bytes "{ " ++ [34] ++ str_bytes "message" ++ [34] ++ str_bytes " : " ++ [34]) <$> fmt [a; b; c] rest).
  { intros rest. set (tl := str_bytes " " ++ [34] ++ str_bytes "message" ++ [34] ++ str_bytes " : " ++ [34]).
    change (json_begin ++ rest) with (123 :: 123 :: (tl ++ rest)).
    change (fmt [a; b; c] (123 :: 123 :: (tl ++ rest))) with (cons 123 <$> fmt [a; b; c] (tl ++ rest)).
    rewrite fmt_plain by (apply (bool_decide_unpack _); by vm_compute). by destruct (fmt [a; b; c] rest). }
  rewrite Hb, fmt_plain by (by apply plain_quote).
  assert (He : fmt [a; b; c] json_end = Some ([34] ++ str_bytes ", " ++ [34] ++ str_bytes "items" ++ [34] ++ str_bytes " : " ++ a ++
            str_bytes ", " ++ [34] ++ str_bytes "time" ++ [34] ++ str_bytes " : " ++ b ++
            str_bytes ", " ++ [34] ++ str_bytes "time/item" ++ [34] ++ str_bytes " : " ++ c ++ str_bytes " }")).
  { reflexivity. }
  rewrite He. cbn [fmap option_fmap option_map]. f_equal.
Qed.
Print Assumptions C113_line.
Lemma split_at (d : N) a a' r r' : d ∉ a -> d ∉ a' -> a ++ d :: r = a' ++ d :: r' -> a = a' /\ r = r'.
Proof.
  revert a'. induction a as [|x a IH]; intros [|x' a'] H1 H2 E; simpl in E.
  - by injection E.
  - injection E as E1 E2. subst. destruct H2. left.
  - injection E as E1 E2. subst. destruct H1. left.
  - injection E as <- E. rewrite not_elem_of_cons in H1, H2. destruct (IH a') as [-> ->]; naive_solver.
Qed.
Theorem C113_line_determines :
  forall m a b c m' a' b' c', plain_message m -> plain_message m' -> Forall numeral [a; b; c; a'; b'; c'] ->
    search_line m a b c = search_line m' a' b' c' -> (m, a, b, c) = (m', a', b', c').
Proof.
  intros m a b c m' a' b' c' Hm Hm' Hn E. rewrite !C113_line in E by done. injection E as E.
  repeat (apply Forall_cons_1 in Hn as [? Hn]). 
  assert (Hq : forall s, plain_message s -> 34 ∉ s) by (intros s Hs Hin; unfold plain_message in Hs; rewrite Forall_forall in Hs; naive_solver).
  assert (Hc : forall s d, numeral s -> d = 44 \/ d = 32 -> d ∉ s) by (intros s d Hs Hd Hin; unfold numeral in Hs; rewrite Forall_forall in Hs; naive_solver).
  apply split_at in E as [-> E]; [|by apply Hq..]. injection E as E.
  apply split_at in E as [-> E]; [|apply Hc; auto..]. injection E as E.
  apply split_at in E as [-> E]; [|apply Hc; auto..]. injection E as E.
  apply split_at in E as [-> E]; [|apply Hc; auto..]. done.
Qed.
Print Assumptions C113_line_determines.
(** The messages of the servers. *)
Example C113_messages :
  Forall (fun s => plain_message (str_bytes s))
    ["Diana synchronous search"; "Diana asynchronous search"; "Sophos synchronous search"; "Sophos asynchronous search"; "Tethys E2E latency"]%string /\
  numeral (str_bytes "12") /\ numeral (str_bytes "0.25").
Proof. split_and!; apply (bool_decide_unpack _); by vm_compute. Qed.
(** A message with braces is formatted: nothing is written, or the count is in the message. *)
Theorem C113_message_refuted :
  (exists m, search_line m (str_bytes "1") (str_bytes "2") (str_bytes "2") = None) /\
  (exists m m', m <> m' /\ search_line m (str_bytes "1") (str_bytes "2") (str_bytes "2") = search_line m' (str_bytes "1") (str_bytes "2") (str_bytes "2") /\
     search_line m (str_bytes "1") (str_bytes "2") (str_bytes "2") <> None).
Proof.
  split.
  - exists (str_bytes "{x"). by vm_compute.
  - exists (str_bytes "{0}"), (str_bytes "1"). split_and!; [done|by vm_compute|by vm_compute].
Qed.
Print Assumptions C113_message_refuted.

(** ** C114: texts. *)
Lemma hex_digits_fuel n m a : a < 16 ^ N.of_nat (S n) -> (n <= m)%nat -> hex_digits (S m) a = hex_digits (S n) a.
Proof.
  revert m a. induction n as [|n IH]; intros m a Ha Hm.
  - assert (Hlt : a <? 16 = true) by (apply N.ltb_lt; exact Ha). cbn [hex_digits]. by rewrite Hlt.
  - destruct m as [|m]; [lia|].
    assert (E : forall k, hex_digits (S k) a = if a <? 16 then [hex_digit a] else hex_digits k (a / 16) ++ [hex_digit (a mod 16)]) by done.
    rewrite (E (S m)), (E (S n)). destruct (N.ltb_spec a 16); [done|]. rewrite IH; [done| |lia].
    apply N.div_lt_upper_bound; [done|]. rewrite <- N.pow_succ_r'. by rewrite Nat2N.inj_succ in Ha.
Qed.
Lemma hex_digits_chars n a : Forall (fun c => c <> 10 /\ c <> 32) (hex_digits n a).
Proof.
  assert (Hd : forall d, hex_digit d <> 10 /\ hex_digit d <> 32).
  { intros d. unfold hex_digit. destruct (N.ltb_spec d 10); lia. }
  revert a. induction n as [|n IH]; intros a; [by constructor|]. cbn [hex_digits]. destruct (a <? 16); [by constructor|].
  apply Forall_app. split; [apply IH|by constructor].
Qed.
Local Arguments hex_digits : simpl never.
Lemma two_digits w x : x < 256 -> (2 <= w)%nat ->
  unhex (pad_left w (hex_digits 16 x)) = x /\ length (pad_left w (hex_digits 16 x)) = w.
Proof.
  intros Hx Hw. rewrite (hex_digits_fuel 1 15 x) by (done || lia). destruct (hex_digits_ok 1 x Hx) as [E L].
  rewrite unhex_pad, pad_length by lia. done.
Qed.
Lemma chunks_texts w (f : N -> bytes) l : (forall x, x ∈ l -> length (f x) = w) -> chunks w (length l) (mjoin (f <$> l)) = f <$> l.
Proof.
  induction l as [|x l IH]; intros H; [done|]. change (mjoin (f <$> x :: l)) with (f x ++ mjoin (f <$> l)). cbn [length chunks].
  rewrite take_app_alt, drop_app_alt by (symmetry; apply H; left). rewrite IH; [done|]. intros y Hy. apply H. by right.
Qed.
Lemma mjoin_app {A} (l1 l2 : list (list A)) : mjoin (l1 ++ l2) = mjoin l1 ++ mjoin l2.
Proof. induction l1 as [|a l1 IH]; [done|]. change (mjoin ((a :: l1) ++ l2)) with (a ++ mjoin (l1 ++ l2)). rewrite IH. change (mjoin (a :: l1)) with (a ++ mjoin l1). by rewrite app_assoc. Qed.
Lemma put_hex (l : list N) w (g : N -> N) o :
  let o' := foldl (fun o x => put_num (setfill 48 (setw w (set_hex o))) (g x)) o l in
  o_text o' = o_text o ++ mjoin ((fun x => pad_left w (hex_digits 16 (g x))) <$> l) /\
  (l <> [] -> o_hex o' = true /\ o_fill o' = 48 /\ o_width o' = 0%nat).
Proof.
  induction l as [|x l IH] using rev_ind; cbn zeta.
  - split; [|done]. simpl. by rewrite app_nil_r.
  - rewrite foldl_app. cbn [foldl]. destruct IH as [IH _]. set (o1 := foldl _ o l) in *. split.
    + unfold put_num. cbn [o_hex setfill setw set_hex]. unfold put. cbn [o_text o_fill o_width setfill setw set_hex]. rewrite IH.
      rewrite fmap_app, mjoin_app, <- app_assoc. f_equal. f_equal. simpl. by rewrite app_nil_r.
    + intros _. done.
Qed.

(** hex_string of a string: two digits for each byte, from which they can be read. *)
Theorem C114_hex :
  forall s, Forall (fun c => c < 256) s ->
    length (hex_string s) = (2 * length s)%nat /\ unhex <$> chunks 2 (length s) (hex_string s) = s /\
    forall o, o_text (print_hex o s) = o_text o ++ hex_string s.
Proof.
  intros s Hs. rewrite Forall_forall in Hs.
  assert (Ht : hex_string s = mjoin ((fun x => pad_left 2 (hex_digits 16 x)) <$> s)).
  { unfold hex_string, print_hex. by rewrite (proj1 (put_hex s 2 (fun x => x) stm0)). }
  split_and!.
  - rewrite Ht. clear Ht. induction s as [|x s IH]; [done|]. change (mjoin (_ <$> x :: s)) with (pad_left 2 (hex_digits 16 x) ++ mjoin ((fun x => pad_left 2 (hex_digits 16 x)) <$> s)).
    rewrite app_length, IH by (intros y Hy; apply Hs; by right). destruct (two_digits 2 x) as [_ ->]; [apply Hs; left|done|]. simpl. lia.
  - rewrite Ht, chunks_texts by (intros x Hx; apply two_digits; [by apply Hs|done]). rewrite <- list_fmap_compose.
    rewrite <- (list_fmap_id s) at 2. apply list_fmap_ext. intros i x Hx. apply elem_of_list_lookup_2 in Hx. simpl. apply two_digits; [by apply Hs|done].
  - intros o. rewrite Ht. unfold print_hex. by rewrite (proj1 (put_hex s 2 (fun x => x) o)).
Qed.
Print Assumptions C114_hex.
(** hex_string of an array shows the low bytes of its elements, whatever their type. *)
Theorem C114_array :
  forall sz l, (1 <= sz)%nat ->
    unhex <$> chunks (2 * sz) (length l) (hex_array sz l) = (fun x => x mod 256) <$> l.
Proof.
  intros sz l Hsz. unfold hex_array. rewrite (proj1 (put_hex l (2 * sz) (fun x => x mod 256) stm0)). cbn [o_text stm0 app].
  rewrite chunks_texts by (intros x _; apply two_digits; [by apply N.mod_lt|lia]). rewrite <- list_fmap_compose.
  apply list_fmap_ext. intros i x _. simpl. apply two_digits; [by apply N.mod_lt|lia].
Qed.
Print Assumptions C114_array.
Theorem C114_refuted :
  (exists l l', Forall (fun x => x < 2 ^ 16) (l ++ l') /\ l <> l' /\ hex_array 2 l = hex_array 2 l') /\
  (exists o s n, o_text (put_num (print_hex o s) n) <> o_text o ++ hex_string s ++ o_text (put_num (Stm [] (o_hex o) (o_fill o) (o_width o)) n)).
Proof.
  split.
  - exists [258], [2]. split_and!; [by repeat (apply Forall_cons; split)|done|by vm_compute].
  - exists stm0, [1], 10. by vm_compute.
Qed.
Print Assumptions C114_refuted.
Example C114_example : hex_string [0; 171; 15] = str_bytes "00ab0f" /\ hex_array 4 [300] = str_bytes "0000002c".
Proof. split; by vm_compute. Qed.

(** The map of the keywords: a line for each; keywords without line breaks and indexes can be
    read back. *)
Definition map_line (e : bytes * N) : bytes := e.1 ++ replicate 7 32 ++ hex_digits 16 e.2 ++ [10].
Theorem C114_map :
  forall o l, o_width o = 0%nat ->
    o_text (foldl (fun o e => append_keyword_map o e.1 e.2) o l) = o_text o ++ mjoin (map_line <$> l).
Proof.
  intros o l Hw. enough (H : let o' := foldl (fun o e => append_keyword_map o e.1 e.2) o l in
    o_text o' = o_text o ++ mjoin (map_line <$> l) /\ o_width o' = 0%nat) by apply H.
  induction l as [|[kw i] l IH] using rev_ind; cbn zeta.
  - split; [by rewrite app_nil_r|done].
  - rewrite foldl_app. cbn [foldl fst snd]. destruct IH as [IH1 IH2]. set (o1 := foldl _ o l) in *. split; [|done].
    unfold append_keyword_map, put_num, put. cbn [o_text o_fill o_width o_hex set_hex]. rewrite IH1, IH2. cbn [Nat.sub replicate app].
    rewrite fmap_app, mjoin_app. simpl. rewrite app_nil_r. unfold map_line. rewrite <- !app_assoc. done.
Qed.
Print Assumptions C114_map.
Lemma split_last (d : N) a a' r r' : d ∉ r -> d ∉ r' -> a ++ d :: r = a' ++ d :: r' -> a = a' /\ r = r'.
Proof.
  intros H1 H2 E. apply (f_equal reverse) in E. rewrite !reverse_app, !reverse_cons, <- !app_assoc in E.
  apply split_at in E as [E1 E2]; [|by rewrite elem_of_reverse..]. split; by apply (inj reverse).
Qed.
Theorem C114_map_determines :
  forall l l', Forall (fun e : bytes * N => 10 ∉ e.1 /\ e.2 < 2 ^ 64) (l ++ l') ->
    mjoin (map_line <$> l) = mjoin (map_line <$> l') -> l = l'.
Proof.
  assert (Hh : forall c n a, c = 10 \/ c = 32 -> c ∉ hex_digits n a).
  { intros c n a Hc Hin. pose proof (hex_digits_chars n a) as H. rewrite Forall_forall in H. destruct (H c Hin). naive_solver. }
  assert (Hline : forall e, 10 ∉ e.1 -> 10 ∉ e.1 ++ replicate 7 32 ++ hex_digits 16 e.2).
  { intros e He. rewrite !not_elem_of_app. split_and!; [done| |by apply Hh; left]. intros Hin. apply elem_of_replicate in Hin as [? _]. done. }
  assert (Hcons : forall e l, mjoin (map_line <$> e :: l) = (e.1 ++ replicate 7 32 ++ hex_digits 16 e.2) ++ 10 :: mjoin (map_line <$> l)).
  { intros e l. change (mjoin (map_line <$> e :: l)) with (map_line e ++ mjoin (map_line <$> l)). unfold map_line. by rewrite <- !app_assoc. }
  assert (Hne : forall e l, mjoin (map_line <$> e :: l) <> []).
  { intros e l. rewrite Hcons. by destruct (e.1 ++ _). }
  induction l as [|[kw i] l IH]; intros [|[kw' i'] l'] Hl E; [done|symmetry in E; by apply Hne in E|by apply Hne in E|].
  apply Forall_app in Hl as [Hl Hl']. apply Forall_cons_1 in Hl as [[Hk Hi] Hl]. apply Forall_cons_1 in Hl' as [[Hk' Hi'] Hl']. cbn [fst snd] in *.
  rewrite !Hcons in E. cbn [fst snd] in E. apply split_at in E as [E1 E2]; [|by apply (Hline (_, _))..].
  apply IH in E2 as ->; [|by apply Forall_app]. f_equal.
  change (replicate 7 32 ++ hex_digits 16 i) with (replicate 6 32 ++ 32 :: hex_digits 16 i) in E1.
  change (replicate 7 32 ++ hex_digits 16 i') with (replicate 6 32 ++ 32 :: hex_digits 16 i') in E1. rewrite !app_assoc in E1.
  apply split_last in E1 as [E1 E2]; [|by apply Hh; right..]. apply app_inj_2 in E1 as [-> _]; [|done]. f_equal.
  destruct (hex_digits_ok 15 i Hi) as [<- _], (hex_digits_ok 15 i' Hi') as [<- _]. by rewrite E2.
Qed.
Print Assumptions C114_map_determines.
Theorem C114_map_refuted : exists l l', l <> l' /\ mjoin (map_line <$> l) = mjoin (map_line <$> l').
Proof. exists [(str_bytes "a       1" ++ [10] ++ str_bytes "b", 2)], [(str_bytes "a", 1); (str_bytes "b", 2)]. split; [done|by vm_compute]. Qed.
Print Assumptions C114_map_refuted.
Example C114_map_example :
  let l := [(str_bytes "dog", 30); (str_bytes "a  b", 0)] in
  Forall (fun e : bytes * N => 10 ∉ e.1 /\ e.2 < 2 ^ 64) l /\ mjoin (map_line <$> l) = str_bytes "dog       1e" ++ [10] ++ str_bytes "a  b       0" ++ [10].
Proof. cbn zeta. split; [apply (bool_decide_unpack _); by vm_compute|by vm_compute]. Qed.
