(** Proofs about the asynchronous lookups. *)
From stdpp Require Import prelude gmap.
From Coq Require Import ZArith NArith Lia.
From Verif Require Import Base GraphModel AllocModel EncModel StoreModel VecModel CuckooModel AsyncModel.
Local Open Scope nat_scope.

(** * CuckooHashTable::async_get *)
(** What the user should be given. *)
Definition c_expected (q : creq) : option bytes :=
  drop (length (cr_key q)) <$>
    (if c_matches q false then cr_read q false else if c_matches q true then cr_read q true else None).

Definition c_raw (q : creq) : option bytes :=
  if c_matches q false then cr_read q false else if c_matches q true then cr_read q true else None.

(** The result once the handlers given have compared. *)
Definition c_partial (q : creq) (d0 d1 : bool) : option bytes :=
  if d0 && c_matches q false then cr_read q false
  else if d1 && c_matches q true then cr_read q true else None.

Definition compared (p : cpc) : bool := match p with CCheck => false | _ => true end.
Definition early (p : cpc) : bool := match p with CCheck | CCount | CEnd => true | _ => false end.
Definition ended (p : cpc) : nat := match p with CEnd => 1 | _ => 0 end.

Inductive cinv (q : creq) (s : cstate) : Prop :=
| ci_early :
    early (ca_pc s false) = true -> early (ca_pc s true) = true ->
    ended (ca_pc s false) + ended (ca_pc s true) <= 1 ->
    ca_mem s = Some (CShared (c_partial q (compared (ca_pc s false)) (compared (ca_pc s true)))
                       (ended (ca_pc s false) + ended (ca_pc s true))) ->
    ca_calls s = [] -> cinv q s
| ci_take i : ca_pc s i = CTake -> ca_pc s (negb i) = CEnd ->
    ca_mem s = Some (CShared (c_raw q) 2) -> ca_calls s = [] -> cinv q s
| ci_free i : ca_pc s i = CFree (c_raw q) -> ca_pc s (negb i) = CEnd ->
    ca_mem s = Some (CShared None 2) -> ca_calls s = [] -> cinv q s
| ci_call i : ca_pc s i = CCall (c_raw q) -> ca_pc s (negb i) = CEnd ->
    ca_mem s = None -> ca_calls s = [] -> cinv q s
| ci_end : ca_pc s false = CEnd -> ca_pc s true = CEnd ->
    ca_mem s = None -> ca_calls s = [c_expected q] -> cinv q s.

Lemma cinv_init q : cinv q c_init.
Proof. apply ci_early; simpl; auto; lia. Qed.

Definition c_rank (p : cpc) : nat :=
  match p with CCheck => 5 | CCount => 4 | CTake => 3 | CFree _ => 2 | CCall _ => 1 | CEnd => 0 end.

Lemma cinv_step q s i : ~ (c_matches q false = true /\ c_matches q true = true) -> cinv q s ->
  exists s', c_step q i s = Ok s' /\ cinv q s' /\
    c_rank (ca_pc s' i) <= c_rank (ca_pc s i) - 1 /\ ca_pc s' (negb i) = ca_pc s (negb i).
Proof.
  intros Hm Hi. destruct Hi as [E0 E1 Hle HM HC|j P1 P2 HM HC|j P1 P2 HM HC|j P1 P2 HM HC|P1 P2 HM HC].
  - destruct s as [m pc calls]. cbn [ca_mem ca_pc ca_calls] in *. subst m calls.
    assert (G : forall x y p, set_pc pc x p y = if bool_decide (y = x) then p else pc y) by done.
    destruct i; unfold c_step; cbn [ca_mem ca_pc ca_calls negb].
    + destruct (pc true) eqn:Pt; try done; destruct (pc false) eqn:Pf; try done; cbn [c_access ended compared] in *; try lia;
        destruct (c_matches q true) eqn:Mt; destruct (c_matches q false) eqn:Mf; try tauto; cbn [conflict];
        eexists; (split; [reflexivity|]); cbn [ca_pc]; rewrite ?G; simpl; rewrite ?Pf, ?Pt;
        (split; [|split; simpl; auto; lia]);
        first [ apply ci_early; cbn [ca_pc ca_mem ca_calls]; rewrite ?G; simpl; rewrite ?Pf, ?Pt; simpl; auto; try lia;
                unfold c_partial; rewrite ?Mt, ?Mf; done
              | apply (ci_take _ _ true); cbn [ca_pc ca_mem ca_calls]; rewrite ?G; simpl; rewrite ?Pf, ?Pt; simpl; auto;
                unfold c_partial, c_raw; rewrite ?Mt, ?Mf; done ].
    + destruct (pc true) eqn:Pt; try done; destruct (pc false) eqn:Pf; try done; cbn [c_access ended compared] in *; try lia;
        destruct (c_matches q true) eqn:Mt; destruct (c_matches q false) eqn:Mf; try tauto; cbn [conflict];
        eexists; (split; [reflexivity|]); cbn [ca_pc]; rewrite ?G; simpl; rewrite ?Pf, ?Pt;
        (split; [|split; simpl; auto; lia]);
        first [ apply ci_early; cbn [ca_pc ca_mem ca_calls]; rewrite ?G; simpl; rewrite ?Pf, ?Pt; simpl; auto; try lia;
                unfold c_partial; rewrite ?Mt, ?Mf; done
              | apply (ci_take _ _ false); cbn [ca_pc ca_mem ca_calls]; rewrite ?G; simpl; rewrite ?Pf, ?Pt; simpl; auto;
                unfold c_partial, c_raw; rewrite ?Mt, ?Mf; done ].
  - destruct (decide (i = j)) as [->|Hn].
    + unfold c_step. rewrite P1, P2, HM. cbn [c_access conflict cs_result cs_counter].
      eexists. split; [reflexivity|]. split; [|split].
      * apply (ci_free _ _ j); cbn [ca_pc ca_mem ca_calls]; unfold set_pc; [by rewrite bool_decide_eq_true_2| |done|done].
        by rewrite bool_decide_eq_false_2 by by destruct j.
      * cbn [ca_pc]. unfold set_pc. by rewrite bool_decide_eq_true_2.
      * cbn [ca_pc]. unfold set_pc. rewrite bool_decide_eq_false_2 by by destruct j. by rewrite P2.
    + assert (i = negb j) as -> by (destruct i, j; done). unfold c_step. rewrite P2. cbn [c_access conflict].
      exists s. split_and!; auto; [by apply (ci_take _ _ j)|rewrite P2; simpl; lia].
  - destruct (decide (i = j)) as [->|Hn].
    + unfold c_step. rewrite P1, P2, HM. cbn [c_access conflict cs_result cs_counter].
      eexists. split; [reflexivity|]. split; [|split].
      * apply (ci_call _ _ j); cbn [ca_pc ca_mem ca_calls]; unfold set_pc; [by rewrite bool_decide_eq_true_2| |done|done].
        by rewrite bool_decide_eq_false_2 by by destruct j.
      * cbn [ca_pc]. unfold set_pc. by rewrite bool_decide_eq_true_2.
      * cbn [ca_pc]. unfold set_pc. rewrite bool_decide_eq_false_2 by by destruct j. by rewrite P2.
    + assert (i = negb j) as -> by (destruct i, j; done). unfold c_step. rewrite P2. cbn [c_access conflict].
      exists s. split_and!; auto; [by apply (ci_free _ _ j)|rewrite P2; simpl; lia].
  - destruct (decide (i = j)) as [->|Hn].
    + unfold c_step. rewrite P1, P2, HM. cbn [c_access conflict cs_result cs_counter].
      eexists. split; [reflexivity|]. split; [|split].
      * apply ci_end; cbn [ca_pc ca_mem ca_calls]; unfold set_pc; [..|done|by rewrite HC].
        -- by destruct j.
        -- by destruct j.
      * cbn [ca_pc]. unfold set_pc. by rewrite bool_decide_eq_true_2.
      * cbn [ca_pc]. unfold set_pc. rewrite bool_decide_eq_false_2 by by destruct j. by rewrite P2.
    + assert (i = negb j) as -> by (destruct i, j; done). unfold c_step. rewrite P2. cbn [c_access conflict].
      exists s. split_and!; auto; [by apply (ci_call _ _ j)|rewrite P2; simpl; lia].
  - exists s. assert (E : forall j, ca_pc s j = CEnd) by (by intros []). unfold c_step. rewrite !E. cbn [c_access conflict].
    split_and!; auto; by apply ci_end.
Qed.

Lemma cinv_run q sched : ~ (c_matches q false = true /\ c_matches q true = true) -> forall s, cinv q s ->
  exists s', c_run q sched s = Ok s' /\ cinv q s' /\
    forall i, c_rank (ca_pc s' i) <= c_rank (ca_pc s i) - count_occ bool_dec sched i.
Proof.
  intros Hm. induction sched as [|i sched IH]; intros s Hs.
  - exists s. split_and!; auto. intros i. simpl. lia.
  - destruct (cinv_step q s i Hm Hs) as (s1 & E1 & I1 & R1 & K1).
    destruct (IH s1 I1) as (s2 & E2 & I2 & R2). exists s2. cbn [c_run]. rewrite E1. cbn [rbind].
    split_and!; auto. intros j. specialize (R2 j). cbn [count_occ]. destruct (bool_dec i j) as [->|Hn].
    + lia.
    + assert (j = negb i) as -> by (destruct i, j; done). rewrite K1 in R2. done.
Qed.

(** * TethysStore::async_get_list *)
(** What the first handler has stored, and the second one. *)
Definition t_b0 (q : treq) (f : bool) (p : tpc) : option bytes :=
  match p with TEnd => tr_read q f | _ => None end.
Definition t_i0 (q : treq) (f : bool) (p : tpc) : option nat :=
  match p with TIndex0 => None | _ => Some (tr_index q f) end.
Definition t_b1 (q : treq) (f : bool) (p : tpc) : option bytes :=
  match p with TDecode => tr_read q f | _ => None end.
Definition t_i1 (q : treq) (f : bool) (p : tpc) : option nat :=
  match p with TIndex1 => None | _ => Some (tr_index q f) end.
Definition t_first (p : tpc) : bool := match p with TIndex0 | TBucket0 | TEnd => true | _ => false end.
Definition t_second (p : tpc) : bool := match p with TIndex1 | TBucket1 | TDecode => true | _ => false end.

(** The shared state when both handlers have stored what they read. *)
Definition t_full (q : treq) (f : bool) : tshared :=
  TShared (tr_read q f) (Some (tr_index q f)) (tr_read q (negb f)) (Some (tr_index q (negb f))) 2.

(** The states after handler [f] arrived first. *)
Inductive tafter (sp : sparams) (st : store) (q : treq) (f : bool) (s : tstate) : Prop :=
| ta_wait p : t_first p = true -> ta_pc s f = p -> ta_pc s (negb f) = TCount ->
    ta_mem s = Some (TShared (t_b0 q f p) (t_i0 q f p) None None 1) -> ta_calls s = [] ->
    tafter sp st q f s
| ta_both p p' : t_first p = true -> t_second p' = true -> ta_pc s f = p -> ta_pc s (negb f) = p' ->
    ta_mem s = Some (TShared (t_b0 q f p) (t_i0 q f p) (t_b1 q (negb f) p') (t_i1 q (negb f) p') 2) ->
    ta_calls s = [] -> tafter sp st q f s
| ta_free r : t_decode sp st (tr_key q) (t_full q f) = Ok r -> ta_pc s f = TEnd -> ta_pc s (negb f) = TFree r ->
    ta_mem s = Some (t_full q f) -> ta_calls s = [] -> tafter sp st q f s
| ta_call r : t_decode sp st (tr_key q) (t_full q f) = Ok r -> ta_pc s f = TEnd -> ta_pc s (negb f) = TCall r ->
    ta_mem s = None -> ta_calls s = [] -> tafter sp st q f s
| ta_end r : t_decode sp st (tr_key q) (t_full q f) = Ok r -> ta_pc s f = TEnd -> ta_pc s (negb f) = TEnd ->
    ta_mem s = None -> ta_calls s = [r] -> tafter sp st q f s.

Definition tinv (sp : sparams) (st : store) (q : treq) (s : tstate) : Prop :=
  (ta_pc s false = TCount /\ ta_pc s true = TCount /\ ta_mem s = Some (TShared None None None None 0) /\
   ta_calls s = []) \/ exists f, tafter sp st q f s.

Definition t_rank (p : tpc) : nat :=
  match p with
  | TCount => 6 | TIndex0 => 2 | TBucket0 => 1 | TIndex1 => 5 | TBucket1 => 4
  | TDecode => 3 | TFree _ => 2 | TCall _ => 1 | TEnd => 0
  end.

Lemma set_pc_same {A} (pc : bool -> A) i p : set_pc pc i p i = p.
Proof. unfold set_pc. by rewrite bool_decide_eq_true_2. Qed.
Lemma set_pc_other {A} (pc : bool -> A) i p : set_pc pc i p (negb i) = pc (negb i).
Proof. unfold set_pc. by rewrite bool_decide_eq_false_2 by by destruct i. Qed.
Lemma set_pc_neg {A} (pc : bool -> A) i p : set_pc pc (negb i) p i = pc i.
Proof. unfold set_pc. by rewrite bool_decide_eq_false_2 by by destruct i. Qed.

(** What a step keeps. *)
Definition t_kept (sp : sparams) (st : store) (q : treq) (i : bool) (s s' : tstate) : Prop :=
  t_rank (ta_pc s' i) <= t_rank (ta_pc s i) - 1 /\ ta_pc s' (negb i) = ta_pc s (negb i).

Local Ltac pcs := cbn [ta_pc ta_mem ta_calls]; rewrite ?set_pc_same, ?set_pc_other, ?set_pc_neg; auto.

(** A step after [f] arrived first; [Hsafe] says that the second handler will not
    find a null pointer. *)
Lemma tafter_step sp st q f s i : tafter sp st q f s ->
  match t_step sp st q i s with
  | Ok s' => tafter sp st q f s' /\ t_kept sp st q i s s'
  | _ => True
  end /\
  (ta_pc s f = TEnd -> (exists r, t_decode sp st (tr_key q) (t_full q f) = Ok r) ->
   exists s', t_step sp st q i s = Ok s' /\ ta_pc s' f = TEnd).
Proof.
  intros H. destruct (decide (i = f)) as [->|Hn].
  - destruct H as [p Hp P1 P2 HM HC|p p' Hp Hp' P1 P2 HM HC|r Hr P1 P2 HM HC|r Hr P1 P2 HM HC|r Hr P1 P2 HM HC].
    + unfold t_step. rewrite P1, HM. destruct p; try done; cbn [t_b0 t_i0 th_b0 th_i0 th_b1 th_i1 th_counter].
      * split; [|by intros]. split; [apply (ta_wait _ _ _ _ _ TBucket0)|split]; pcs.
        rewrite P1. simpl. lia.
      * split; [|by intros]. split; [apply (ta_wait _ _ _ _ _ TEnd)|split]; pcs.
        rewrite P1. simpl. lia.
      * split; [|by intros; exists s]. split; [by apply (ta_wait _ _ _ _ _ TEnd)|split]; auto. rewrite P1. simpl. lia.
    + unfold t_step. rewrite P1, HM. destruct p; try done; cbn [t_b0 t_i0 th_b0 th_i0 th_b1 th_i1 th_counter].
      * split; [|by intros]. split; [apply (ta_both _ _ _ _ _ TBucket0 p')|split]; pcs.
        rewrite P1. simpl. lia.
      * split; [|by intros]. split; [apply (ta_both _ _ _ _ _ TEnd p')|split]; pcs.
        rewrite P1. simpl. lia.
      * split; [|by intros; exists s]. split; [by apply (ta_both _ _ _ _ _ TEnd p')|split]; auto. rewrite P1. simpl. lia.
    + unfold t_step. rewrite P1. split; [|by intros; exists s].
      split; [by apply (ta_free _ _ _ _ _ r)|split]; auto. rewrite P1. simpl. lia.
    + unfold t_step. rewrite P1. split; [|by intros; exists s].
      split; [by apply (ta_call _ _ _ _ _ r)|split]; auto. rewrite P1. simpl. lia.
    + unfold t_step. rewrite P1. split; [|by intros; exists s].
      split; [by apply (ta_end _ _ _ _ _ r)|split]; auto. rewrite P1. simpl. lia.
  - assert (i = negb f) as -> by (destruct i, f; done). clear Hn.
    destruct H as [p Hp P1 P2 HM HC|p p' Hp Hp' P1 P2 HM HC|r Hr P1 P2 HM HC|r Hr P1 P2 HM HC|r Hr P1 P2 HM HC].
    + unfold t_step. rewrite P2, HM. cbn [th_b0 th_i0 th_b1 th_i1 th_counter].
      rewrite bool_decide_eq_false_2 by lia. rewrite bool_decide_eq_true_2 by lia.
      split.
      * split; [apply (ta_both _ _ _ _ _ p TIndex1)|split]; pcs. rewrite P2. simpl. lia.
      * intros Pf _. eexists. split; [reflexivity|]. pcs.
    + unfold t_step. rewrite P2, HM. destruct p'; try done; cbn [t_b1 t_i1 th_b0 th_i0 th_b1 th_i1 th_counter].
      * split; [split; [apply (ta_both _ _ _ _ _ p TBucket1)|split]; pcs; rewrite P2; simpl; lia|].
        intros Pf _. eexists. split; [reflexivity|]. pcs.
      * split; [split; [apply (ta_both _ _ _ _ _ p TDecode)|split]; pcs; rewrite P2; simpl; lia|].
        intros Pf _. eexists. split; [reflexivity|]. pcs.
      * destruct p; try done; cbn [t_b0 t_i0].
        -- cbn [t_decode th_b0 rbind]. split; [done|]. by rewrite P1.
        -- cbn [t_decode th_b0 rbind]. split; [done|]. by rewrite P1.
        -- change (TShared (tr_read q f) (Some (tr_index q f)) (tr_read q (negb f)) (Some (tr_index q (negb f))) 2)
             with (t_full q f). split.
           ++ destruct (t_decode sp st (tr_key q) (t_full q f)) as [r| | |] eqn:Er; cbn [rbind]; try done.
              split; [apply (ta_free _ _ _ _ _ r)|split]; pcs. rewrite P2. simpl. lia.
           ++ intros _ [r Hr]. rewrite Hr. cbn [rbind]. eexists. split; [reflexivity|]. pcs.
    + unfold t_step. rewrite P2, HM. split.
      * split; [apply (ta_call _ _ _ _ _ r)|split]; pcs. rewrite P2. simpl. lia.
      * intros. eexists. split; [reflexivity|]. pcs.
    + unfold t_step. rewrite P2, HM. split.
      * split; [apply (ta_end _ _ _ _ _ r)|split]; pcs; [by rewrite HC|]. rewrite P2. simpl. lia.
      * intros. eexists. split; [reflexivity|]. pcs.
    + unfold t_step. rewrite P2. split.
      * split; [by apply (ta_end _ _ _ _ _ r)|split]; auto. rewrite P2. simpl. lia.
      * intros. by exists s.
Qed.

Lemma tinv_step sp st q s i : tinv sp st q s ->
  match t_step sp st q i s with
  | Ok s' => tinv sp st q s' /\ t_kept sp st q i s s'
  | _ => True
  end.
Proof.
  intros [(P0 & P1 & HM & HC)|[f H]].
  - unfold t_step. assert (E : forall j, ta_pc s j = TCount) by (by intros []). rewrite E, HM.
    cbn [th_b0 th_i0 th_b1 th_i1 th_counter]. rewrite bool_decide_eq_true_2 by lia.
    split; [right; exists i; apply (ta_wait _ _ _ _ _ TIndex0)|split]; pcs. rewrite E. simpl. lia.
  - pose proof (tafter_step sp st q f s i H) as [H1 _].
    destruct (t_step sp st q i s); try done. destruct H1. split; [right; eauto|done].
Qed.

Lemma tinv_run sp st q sched : forall s, tinv sp st q s ->
  match t_run sp st q sched s with
  | Ok s' => tinv sp st q s' /\
      forall i, t_rank (ta_pc s' i) <= t_rank (ta_pc s i) - count_occ bool_dec sched i
  | _ => True
  end.
Proof.
  induction sched as [|i sched IH]; intros s Hs.
  - split; [done|]. intros i. simpl. lia.
  - cbn [t_run]. pose proof (tinv_step sp st q s i Hs) as H1.
    destruct (t_step sp st q i s) as [s1| | |]; cbn [rbind]; try done. destruct H1 as [I1 [R1 K1]].
    specialize (IH s1 I1). destruct (t_run sp st q sched s1) as [s2| | |]; try done.
    destruct IH as [I2 R2]. split; [done|]. intros j. specialize (R2 j). cbn [count_occ].
    destruct (bool_dec i j) as [->|Hn]; [lia|].
    assert (j = negb i) as -> by (destruct i, j; done). rewrite K1 in R2. done.
Qed.

(** Once the first handler has returned nothing can go wrong. *)
Lemma tafter_run sp st q f sched : (exists r, t_decode sp st (tr_key q) (t_full q f) = Ok r) ->
  forall s, tafter sp st q f s -> ta_pc s f = TEnd ->
  exists s', t_run sp st q sched s = Ok s' /\ tafter sp st q f s'.
Proof.
  intros Hr. induction sched as [|i sched IH]; intros s Hs Pf; [by exists s|].
  cbn [t_run]. destruct (tafter_step sp st q f s i Hs) as [H1 H2].
  destruct (H2 Pf Hr) as (s1 & E1 & Pf1). rewrite E1 in *. destruct H1 as [I1 _]. cbn [rbind]. by apply IH.
Qed.

Lemma t_first_runs sp st q f n : 3 <= n ->
  exists s, t_run sp st q (replicate n f) t_init = Ok s /\ tafter sp st q f s /\ ta_pc s f = TEnd.
Proof.
  intros Hn. replace n with (3 + (n - 3)) by lia. rewrite replicate_add.
  assert (E : forall l s, t_run sp st q (replicate 3 f ++ l) s =
    (s1 <~ t_run sp st q (replicate 3 f) s; t_run sp st q l s1)).
  { intros l s. simpl. destruct (t_step sp st q f s) as [a| | |]; cbn [rbind]; try done.
    destruct (t_step sp st q f a) as [b| | |]; cbn [rbind]; try done.
    by destruct (t_step sp st q f b) as [c| | |]; cbn [rbind]. }
  rewrite E. clear E.
  assert (H3 : exists s, t_run sp st q (replicate 3 f) t_init = Ok s /\ tafter sp st q f s /\ ta_pc s f = TEnd).
  { cbn [replicate t_run]. unfold t_init.
    unfold t_step at 1. cbn [ta_pc ta_mem th_b0 th_i0 th_b1 th_i1 th_counter]. rewrite bool_decide_eq_true_2 by lia. cbn [rbind].
    unfold t_step at 1. cbn [ta_pc ta_mem th_b0 th_i0 th_b1 th_i1 th_counter]. rewrite set_pc_same. cbn [rbind].
    unfold t_step at 1. cbn [ta_pc ta_mem th_b0 th_i0 th_b1 th_i1 th_counter]. rewrite set_pc_same. cbn [rbind].
    eexists. split; [reflexivity|]. split; pcs. apply (ta_wait _ _ _ _ _ TEnd); pcs. }
  destruct H3 as (s & -> & Ha & Pf). cbn [rbind]. exists s. split; [|done].
  induction (n - 3) as [|k IH]; [done|]. cbn [replicate t_run].
  unfold t_step at 1. rewrite Pf. cbn [rbind]. done.
Qed.

(** Decoding in the other order. *)
Lemma decode_swap sp key b0 i0 b1 i1 r : decode_list sp key b0 i0 b1 i1 = Ok r ->
  exists r', decode_list sp key b1 i1 b0 i0 = Ok r' /\ r' ≡ₚ r.
Proof.
  unfold decode_list, dec_decode_buckets, decode_buckets. intros H.
  destruct (sp_cipher sp) as [|ks k].
  all: apply rbind_ok in H as (r0 & E0 & H); apply rbind_ok in H as (r1 & E1 & H); injection H as <-;
    rewrite E1; cbn [rbind]; rewrite E0; cbn [rbind]; eexists; (split; [done|]); apply Permutation_app_comm.
Qed.

(** The result that handler [f] arriving first leads to. *)
Lemma t_result sp st key q r f : t_submit sp st (fun _ => false) key = Ok q -> get_list sp st key = Ok r ->
  exists r', t_decode sp st (tr_key q) (t_full q f) = Ok r' /\ r' ≡ₚ r.
Proof.
  unfold t_submit, get_list. intros Hq Hr. apply rbind_ok in Hq as (b & Eb & Hq). injection Hq as <-.
  rewrite Eb in Hr. cbn [rbind] in Hr. apply rbind_ok in Hr as (l & El & Hr). injection Hr as <-.
  unfold t_decode, t_full. cbn [tr_key tr_read tr_index th_b0 th_b1 th_i0 th_i1 from_option id].
  destruct f; cbn [negb].
  - destruct (decode_swap _ _ _ _ _ _ _ El) as (l' & -> & HP). cbn [rbind]. eexists. split; [done|]. by rewrite HP.
  - rewrite El. cbn [rbind]. eexists. split; [done|]. done.
Qed.

Lemma t_run_app sp st q l1 l2 : forall s,
  t_run sp st q (l1 ++ l2) s = (s1 <~ t_run sp st q l1 s; t_run sp st q l2 s1).
Proof.
  induction l1 as [|i l1 IH]; intros s; [done|]. cbn [t_run app].
  destruct (t_step sp st q i s) as [a| | |]; cbn [rbind]; auto.
Qed.
Lemma vec_async_of_get sz v i b : vec_get sz v i = Ok b -> vec_async_get sz v i = Ok (Some b).
Proof.
  unfold vec_get, vec_async_get. case_bool_decide; [done|]. destruct (v_committed v); [|done]. cbn [negb].
  case_bool_decide; [|done]. by intros [= ->].
Qed.
