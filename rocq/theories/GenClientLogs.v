(** The lists of the generator, thread by thread. *)
From stdpp Require Import prelude gmap strings.
From Coq Require Import ZArith NArith Lia Ascii.
From Verif Require Import Base EncModel EncProofs DbGenModel DbGenSpec DbGenProofs DbGenThreads Props_DbGen GenFloatModel GenFloatProofs Props_GenFloat
  ConcModel ConcSpec GenClientModel GenClientSpec GenClientProofs.
Local Open Scope N_scope.
Local Arguments N.of_nat : simpl never.
Local Arguments N.to_nat : simpl never.
Local Arguments N.modulo : simpl never.
Local Arguments N.div : simpl never.
Local Arguments N.pow : simpl never.
Local Arguments N.add : simpl never.
Local Arguments N.sub : simpl never.
Local Arguments N.mul : simpl never.
Local Arguments N.min : simpl never.

Lemma str_bytes_inj s t : str_bytes s = str_bytes t -> s = t.
Proof.
  revert t. induction s as [|a s IH]; intros [|b t]; simpl; intros E; try done.
  injection E as E1 E2. f_equal; [|by apply IH].
  rewrite <- (ascii_N_embedding a), <- (ascii_N_embedding b). by f_equal.
Qed.

(** Shape of a call. *)
Definition shape (tid : N) (k : kwd) : Prop :=
  match k with
  | KPct _ _ s => s = 1 \/ s = 2
  | KGroup _ t _ => t = tid
  | KRand _ t _ => t = tid
  | KEmpty => True
  end.

Section gen.
  Context (ngroups : nat -> N) (below : nat -> N -> bool).

  Lemma rand_steps_len ls ok tid ind : forall lv vs vs' ks,
    rand_steps ngroups below lv ls ok tid ind vs = Ok (vs', ks) ->
    (length ks <= length ls)%nat /\ Forall (shape tid) ks.
  Proof.
    induction ls as [|[[size digit] l] ls IH]; intros lv vs vs' ks E.
    - simpl in E. injection E as _ <-. split; [simpl; lia|constructor].
    - destruct vs as [|v vs]; [simpl in E; injection E as _ <-; split; [simpl; lia|constructor]|].
      cbn [rand_steps] in E. apply rbind_ok in E as ([v1 k1] & E1 & E). apply rbind_ok in E as ([v2 k2] & E2 & E).
      injection E as _ <-. apply IH in E2 as [H1 H2]. cbn [fst snd].
      assert (H : (length k1 <= 1)%nat /\ Forall (shape tid) k1).
      { destruct (ok l); [|injection E1 as _ <-; split; [simpl; lia|constructor]]. unfold rand_step in E1.
        destruct (below lv ind); [|injection E1 as _ <-; split; [simpl; lia|constructor]].
        destruct (ngroups lv =? 0); [done|]. apply rbind_ok in E1 as (x & _ & E1).
        destruct (x <? size); injection E1 as _ <-; split; try (simpl; lia); by repeat constructor. }
      destruct H as [H3 H4]. rewrite app_length. split; [simpl; lia|]. by apply Forall_app.
  Qed.

  Lemma iteration_len tid ind s s' log e : iteration ngroups below tid ind s = Ok (s', log, e) ->
    (15 <= length log <= 20)%nat /\ Forall (fun x => shape tid x.1) log /\ Forall (fun x => x.2 = ind) log.
  Proof.
    unfold iteration. intros E. apply rbind_ok in E as ([vs ks] & E1 & E).
    apply (f_equal (fun r => match r with Ok (_, l, _) => l | _ => [] end)) in E. cbv beta iota in E. subst log.
    apply rand_steps_len in E1 as [H1 H2]. cbn [snd]. split; [|split].
    - rewrite fmap_length, !app_length. simpl in *. lia.
    - apply Forall_fmap. rewrite !Forall_app. split_and!.
      + repeat constructor; by left.
      + repeat constructor; by right.
      + apply Forall_fmap. apply Forall_forall. intros l _. simpl. by case_match.
      + eapply Forall_impl; [exact H2|]. done.
    - apply Forall_fmap. by apply Forall_true.
  Qed.

  Lemma job_len fuel n step tid stream : forall s log docs e,
    job_loop ngroups below fuel n step tid stream s = Ok (log, docs, e) ->
    15 * docs <= N.of_nat (length log) <= 20 * docs /\ Forall (fun x => shape tid x.1) log.
  Proof.
    induction fuel as [|fuel IH]; intros s log docs e E; [done|]. cbn [job_loop] in E.
    destruct (t_counter s <? n); [|injection E as <- <- _; split; [simpl; lia|constructor]].
    apply rbind_ok in E as ([[s1 log1] e1] & E1 & E). apply rbind_ok in E as ([[log2 d2] e2] & E2 & E).
    cbn [fst snd] in *. injection E as <- <- _. apply iteration_len in E1 as (H1 & H2 & _). apply IH in E2 as [H3 H4].
    split; [rewrite app_length; lia|]. by apply Forall_app.
  Qed.

  (** The logs of the threads. *)
  Lemma logs_from_spec n step streams : forall k tid log docs e,
    gen_threads ngroups below k n step tid streams = Ok (log, docs, e) ->
    exists logs, logs_from ngroups below k n step tid streams = Ok logs /\ mjoin logs = log /\ length logs = k /\
      forall t l, logs !! t = Some l -> exists d e',
        generation_job ngroups below n step (tid + N.of_nat t) (streams (tid + N.of_nat t)) = Ok (l, d, e').
  Proof.
    induction k as [|k IH]; intros tid log docs e E.
    - injection E as <- _ _. exists []. split_and!; try done.
    - cbn [gen_threads] in E. apply rbind_ok in E as ([[log1 d1] e1] & E1 & E). apply rbind_ok in E as ([[log2 d2] e2] & E2 & E).
      injection E as <- _ _. apply IH in E2 as (logs & E2 & <- & Hlen & Hl). exists (log1 :: logs).
      cbn [logs_from fst snd]. rewrite E1. cbn [rbind fst snd]. rewrite E2. cbn [rbind].
      split; [done|]. split; [done|]. split; [simpl; by rewrite Hlen|]. intros [|t] l Hlook.
      + simpl in Hlook. injection Hlook as <-. exists d1, e1. replace (tid + N.of_nat 0) with tid by lia. done.
      + simpl in Hlook. specialize (Hl _ _ Hlook). replace (tid + N.of_nat (S t)) with (tid + 1 + N.of_nat t) by lia. done.
  Qed.

  Context (Hz : forall lv ind, ngroups lv = 0 -> below lv ind = false).
  Lemma gen_logs_ok n p streams : 0 < p -> n + p < 2 ^ 64 ->
    exists log logs, gen_db ngroups below n p streams = Ok (log, n, N.of_nat (length log)) /\
      gen_logs ngroups below n p streams = Ok logs /\ mjoin logs = log /\ length logs = N.to_nat p /\ db_ok n p 0 p log n /\
      forall t l, logs !! t = Some l -> Forall (fun x => shape (N.of_nat t) x.1) l /\
        15 * docs_of n p (N.of_nat t) <= N.of_nat (length l) <= 20 * docs_of n p (N.of_nat t).
  Proof.
    intros Hp Hn. destruct (gen_db_ok ngroups below Hz n p streams Hp Hn) as (log & E & HD).
    unfold gen_db in E. destruct (logs_from_spec _ _ _ _ _ _ _ _ E) as (logs & El & Ej & Hlen & Hl).
    exists log, logs. split; [exact E|]. split; [exact El|]. split; [done|]. split; [done|]. split; [done|].
    intros t l Hlook. destruct (Hl t l Hlook) as (d & e' & H).
    assert (Ht : N.of_nat t < p) by (apply lookup_lt_Some in Hlook; lia).
    destruct (job_ok ngroups below Hz n p (N.of_nat t) (streams (N.of_nat t)) Ht Hn) as (l' & E' & _).
    rewrite N.add_0_l in H. assert (l' = l /\ docs_of n p (N.of_nat t) = d) as [-> Hd].
    { rewrite E' in H. by injection H as -> ->. }
    unfold generation_job in E'. apply job_len in E' as [H1 H2]. done.
  Qed.

  (** No keyword is used more often than there are documents, or more often than a million times. *)
  Lemma kw_count n p log k logs : db_ok n p 0 p log n -> mjoin logs = log ->
    (forall t l, logs !! t = Some l -> Forall (fun x => shape (N.of_nat t) x.1) l) ->
    cnt (is_kw k) log <= N.max n 1000000.
  Proof.
    intros HD Ej Hs. destruct k as [b i s|l t c|d t g|].
    - destruct (decide (s = 1 \/ s = 2)) as [H|H].
      + rewrite <- (db_pct _ _ _ _ _ _ HD b s H). transitivity (cnt (in_pct b s) log); [|lia]. unfold cnt.
        assert ((length (filter (fun x : kwd * N => is_kw (KPct b i s) x.1 = true) log) <=
          length (filter (fun x : kwd * N => in_pct b s x.1 = true) log))%nat); [|lia].
        clear. induction log as [|[k j] log IH]; [done|]. rewrite !filter_cons. cbn [fst].
        destruct (decide (is_kw (KPct b i s) k = true)) as [E|E].
        * unfold is_kw in E. apply bool_decide_eq_true in E as ->. rewrite decide_True by (simpl; by apply bool_decide_eq_true).
          simpl. lia.
        * destruct (decide (in_pct b s k = true)); simpl; lia.
      + rewrite cnt0; [lia|]. rewrite <- Ej. apply Forall_forall. intros x Hx.
        apply elem_of_list_join in Hx as (l & Hx & Hl). apply elem_of_list_lookup in Hl as [t Ht].
        specialize (Hs t l Ht). rewrite Forall_forall in Hs. specialize (Hs _ Hx).
        unfold is_kw. apply bool_decide_eq_false. intros E. rewrite E in Hs. done.
    - rewrite <- (db_group _ _ _ _ _ _ HD l). transitivity (cnt (in_group l) log); [|lia]. unfold cnt.
      assert ((length (filter (fun x : kwd * N => is_kw (KGroup l t c) x.1 = true) log) <=
        length (filter (fun x : kwd * N => in_group l x.1 = true) log))%nat); [|lia].
      clear. induction log as [|[k j] log IH]; [done|]. rewrite !filter_cons. cbn [fst].
      destruct (decide (is_kw (KGroup l t c) k = true)) as [E|E].
      + unfold is_kw in E. apply bool_decide_eq_true in E as ->. rewrite decide_True by (simpl; by apply bool_decide_eq_true).
        simpl. lia.
      + destruct (decide (in_group l k = true)); simpl; lia.
    - etransitivity; [apply (db_rand _ _ _ _ _ _ HD)|]. assert (capacity d levels <= 1000000); [|lia].
      destruct (decide (d = 3)) as [->|H3]; [by vm_compute|]. destruct (decide (d = 4)) as [->|H4]; [by vm_compute|].
      destruct (decide (d = 5)) as [->|H5]; [by vm_compute|]. destruct (decide (d = 6)) as [->|H6]; [by vm_compute|].
      unfold levels. cbn [capacity]. rewrite !(proj2 (N.eqb_neq _ d)) by lia. lia.
    - rewrite (db_empty _ _ _ _ _ _ HD). lia.
  Qed.
End gen.

(** With the floating-point computations. *)
Lemma gen_logs_fl_eq n p streams : 0 < p < 2 ^ 32 -> n < 2 ^ 64 ->
  exists ngroups below, (forall lv ind, ngroups lv = 0 -> below lv ind = false) /\
    gen_db_fl n p streams = gen_db ngroups below n p streams /\
    gen_logs_fl n p streams = gen_logs ngroups below n p streams.
Proof.
  intros Hp Hn. unfold gen_db_fl, gen_logs_fl. rewrite (proj2 (N.eqb_neq p 0)) by lia.
  assert (forall lv, (lv < 5)%nat -> exists g, fl_groups n p lv = Ok g) as Hg.
  { intros lv Hlv. pose proof (level_size_ok lv Hlv).
    destruct (optimal_ok (tenths (level_tenths lv)) n p (level_size lv)) as (g & Eg & _).
    - apply tenths_btw, level_tenths_ok.
    - done.
    - assert (2 ^ 32 * 1000000 < 2 ^ 64) by done. nia.
    - exists g. exact Eg. }
  destruct (Hg 0%nat ltac:(lia)) as [g2 ->], (Hg 1%nat ltac:(lia)) as [g3 ->], (Hg 2%nat ltac:(lia)) as [g4 ->],
    (Hg 3%nat ltac:(lia)) as [g5 ->], (Hg 4%nat ltac:(lia)) as [g6 ->].
  cbn [rbind]. cbn zeta. do 2 eexists. split; [|split; reflexivity].
  intros lv ind E. cbn beta. rewrite E. apply below_zero. lia.
Qed.

Record logs_ok (n p : N) (log : list (kwd * N)) (logs : list (list (kwd * N))) : Prop := {
  lg_join : mjoin logs = log;
  lg_len : length logs = N.to_nat p;
  lg_tid : forall t l, logs !! t = Some l -> Forall (fun x => shape (N.of_nat t) x.1) l;
  lg_size : forall t l, logs !! t = Some l ->
    15 * docs_of n p (N.of_nat t) <= N.of_nat (length l) <= 20 * docs_of n p (N.of_nat t);
  lg_count : forall k, cnt (is_kw k) log <= N.max n 1000000 }.
Lemma gen_logs_fl_ok n p streams : 0 < p < 2 ^ 32 -> n + p < 2 ^ 64 ->
  exists log logs, gen_db_fl n p streams = Ok (log, n, N.of_nat (length log)) /\
    gen_logs_fl n p streams = Ok logs /\ logs_ok n p log logs.
Proof.
  intros Hp Hn. destruct (gen_logs_fl_eq n p streams Hp) as (ng & be & Hz & -> & ->); [lia|].
  destruct (gen_logs_ok ng be Hz n p streams) as (log & logs & E1 & E2 & Ej & Hlen & HD & Hl); [lia|lia|].
  exists log, logs. split; [done|]. split; [done|].
  assert (Ht : forall t l, logs !! t = Some l -> Forall (fun x => shape (N.of_nat t) x.1) l) by (intros t l H; by apply (Hl t l)).
  split; try done.
  - intros t l H. by apply (Hl t l).
  - intros k. by eapply kw_count.
Qed.

(** The documents of a keyword. *)
Lemma docs_for_strings {A} (f : N -> A) (s : string) (log : list (kwd * N)) :
  docs_for (str_bytes s) ((fun x => (str_bytes (kw_string x.1), f x.2)) <$> log) = f <$> docs_for s (strings log).
Proof.
  unfold docs_for, strings. induction log as [|[k i] log IH]; [done|]. csimpl.
  destruct (decide (kw_string k = s)) as [E|E].
  - rewrite decide_True by (by f_equal). cbn [fmap list_fmap]. by f_equal.
  - rewrite decide_False; [done|]. intros E'. apply E. by apply str_bytes_inj.
Qed.
Lemma docs_for_cnt k (log : list (kwd * N)) : N.of_nat (length (docs_for (kw_string k) (strings log))) = cnt (is_kw k) log.
Proof.
  unfold docs_for, strings, cnt. f_equal. induction log as [|[k' i] log IH]; [done|]. csimpl.
  destruct (decide (k' = k)) as [->|Hne].
  - rewrite decide_True by done. rewrite filter_cons_True by (by apply bool_decide_eq_true). simpl. by f_equal.
  - rewrite decide_False by (by intros ?%kw_string_inj). rewrite filter_cons_False; [done|].
    simpl. unfold is_kw. by rewrite bool_decide_eq_true.
Qed.
Lemma docs_for_none (kw : bytes) (log : list (kwd * N)) {A} (f : N -> A) : (forall k i, (k, i) ∈ log -> kw <> str_bytes (kw_string k)) ->
  docs_for kw ((fun x => (str_bytes (kw_string x.1), f x.2)) <$> log) = [].
Proof.
  intros H. apply docs_for_nil. intros ([kw' d] & -> & Hx)%elem_of_list_fmap.
  apply elem_of_list_fmap in Hx as ([k i] & E & Hx). injection E as -> _. by apply (H k i).
Qed.
(** Any list of bytes: the keyword of one of the calls, or none. *)
Lemma some_keyword (kw : bytes) (log : list (kwd * N)) :
  (exists k, kw = str_bytes (kw_string k)) \/ (forall k i, (k, i) ∈ log -> kw <> str_bytes (kw_string k)).
Proof.
  induction log as [|[k i] log [IH|IH]]; [right|by left|].
  - intros k i Hx. by apply elem_of_nil in Hx.
  - destruct (decide (kw = str_bytes (kw_string k))) as [->|Hne]; [left; by exists k|right].
    intros k' i' [Hx|Hx]%elem_of_cons; [by injection Hx as -> ->|by eapply IH].
Qed.
Lemma entries_few {A} (f : N -> A) n p log logs : n < 2 ^ 32 -> logs_ok n p log logs ->
  forall kw, N.of_nat (length (docs_for kw ((fun x => (str_bytes (kw_string x.1), f x.2)) <$> log))) < 2 ^ 32.
Proof.
  intros Hn HL kw. destruct (some_keyword kw log) as [(k & ->)|H].
  - rewrite docs_for_strings, fmap_length, docs_for_cnt. pose proof (lg_count _ _ _ _ HL k). assert (1000000 < 2 ^ 32) by done. lia.
  - rewrite docs_for_none by done. done.
Qed.

(** Keywords whose string starts with "Group-" are those of one thread. *)
Lemma group_prefix k : String.prefix "Group-" (kw_string k) = true -> exists tid, forall t, shape t k -> t = tid.
Proof.
  destruct k as [b i s|l t c|d t g|]; intros H.
  - exfalso. by destruct b.
  - exists t. by intros t' ->.
  - exists t. by intros t' ->.
  - done.
Qed.
Lemma group_one_thread {A} (f : list (kwd * N) -> list (bytes * A)) s n p log logs : logs_ok n p log logs ->
  (forall l kw, kw ∈ (f l).*1 -> exists k i, (k, i) ∈ l /\ kw = str_bytes (kw_string k)) ->
  String.prefix "Group-" s = true \/ p = 1 -> one_job (str_bytes s) (f <$> logs).
Proof.
  intros HL Hf Hs t t' j j' Hj Hj' Hk Hk'.
  apply list_lookup_fmap_inv in Hj as (l & -> & Hl). apply list_lookup_fmap_inv in Hj' as (l' & -> & Hl').
  destruct Hs as [Hs| ->].
  - apply Hf in Hk as (k & i & Hx & E). apply Hf in Hk' as (k' & i' & Hx' & E').
    apply str_bytes_inj in E as ->. apply str_bytes_inj, kw_string_inj in E' as <-.
    destruct (group_prefix _ Hs) as [tid Ht].
    pose proof (lg_tid _ _ _ _ HL _ _ Hl) as H. rewrite Forall_forall in H. specialize (H _ Hx).
    pose proof (lg_tid _ _ _ _ HL _ _ Hl') as H'. rewrite Forall_forall in H'. specialize (H' _ Hx').
    cbn [fst] in *. apply Ht in H, H'. lia.
  - apply lookup_lt_Some in Hl, Hl'. rewrite (lg_len _ _ _ _ HL) in Hl, Hl'. lia.
Qed.

(** ** The buffer of Diana *)
Lemma d_callbacks_spec xs : forall buf, (length buf < 50)%nat ->
  let r := d_callbacks buf xs in
  mjoin r.1 ++ r.2 = buf ++ xs /\ (length r.2 < 50)%nat /\ Forall (fun l => length l = 50%nat) r.1.
Proof.
  induction xs as [|x xs IH]; intros buf Hb r.
  - unfold r. cbn [d_callbacks fst snd]. split_and!; [by rewrite app_nil_r|done|constructor].
  - unfold r. cbn [d_callbacks]. unfold d_callback. cbn zeta. destruct (N.leb_spec 50 (N.of_nat (length (buf ++ [x])))) as [H|H].
    + cbn [fst snd]. destruct (IH [] ltac:(simpl; lia)) as (H1 & H2 & H3). split_and!.
      * cbn [mjoin list_join]. rewrite <- app_assoc.
        change ((buf ++ [x]) ++ mjoin (d_callbacks [] xs).1 ++ (d_callbacks [] xs).2 = buf ++ x :: xs).
        rewrite H1. by rewrite <- app_assoc.
      * done.
      * constructor; [|done]. rewrite app_length in *. simpl in *. lia.
    + cbn [fst snd]. destruct (IH (buf ++ [x])) as (H1 & H2 & H3); [lia|]. split_and!; [|done|done].
      rewrite H1. by rewrite <- app_assoc.
Qed.
Lemma mjoin_fifty {A} (ls : list (list A)) : Forall (fun l => length l = 50%nat) ls -> length (mjoin ls) = (50 * length ls)%nat.
Proof. induction 1 as [|l ls Hl _ IH]; [done|]. change (mjoin (l :: ls)) with (l ++ mjoin ls). rewrite app_length, IH, Hl. simpl. lia. Qed.
(** A thread inserts the first calls, in multiples of fifty. *)
Lemma d_thread_take log : d_thread log = take (50 * (length log / 50)) (d_entry <$> log).
Proof.
  unfold d_thread. destruct (d_callbacks_spec (d_entry <$> log) [] ltac:(simpl; lia)) as (H1 & H2 & H3). cbn [app] in H1.
  set (r := d_callbacks [] (d_entry <$> log)) in *.
  assert (Hlen : length log = (50 * length r.1 + length r.2)%nat).
  { rewrite <- (fmap_length d_entry log), <- H1, app_length, mjoin_fifty by done. done. }
  assert ((length log / 50)%nat = length r.1) as ->.
  { symmetry. apply (Nat.div_unique _ 50 _ (length r.2)); lia. }
  rewrite <- H1, <- mjoin_fifty by done. by rewrite take_app.
Qed.
