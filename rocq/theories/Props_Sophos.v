(** Final theorems about Sophos (properties C33 to C36). *)
From stdpp Require Import prelude gmap.
From Coq Require Import NArith Lia.
From Verif Require Import Base EncModel KvModel UtilsModel PoolModel PoolSpec PoolProofs Props_Pool
  SophosModel SophosSpec SophosProofs.
Local Arguments N.modulo : simpl never.
Local Arguments N.pow : simpl never.
Local Arguments N.of_nat : simpl never.
Local Arguments N.to_nat : simpl never.

(** ** C35, C33: searches return the documents *)
(** Whatever updates are lost on the way, every search of the history returns the
    documents delivered for its keyword, newest first. *)
Theorem C35_sophos_lost_updates :
  forall (S : sophos) h,
    tdp_ok S -> no_collision S h -> few_insertions h ->
    so_run S ∅ ∅ h = so_answers [] h.
Proof. intros S h Ht Hnc Hf. by apply (run_eq S Ht h [] ∅ ∅ Hnc Hf), inv_start. Qed.
Print Assumptions C35_sophos_lost_updates.

(** When all the updates arrive: all the documents. *)
Theorem C33_sophos_search :
  forall (S : sophos) h kw,
    tdp_ok S -> no_collision S h -> few_insertions h ->
    (forall kw' i d, SoIns kw' i d ∈ h -> d = true) ->
    last (so_run S ∅ ∅ (h ++ [SoFind kw])) =
      Some (reverse (omap (fun o => match o with
        | SoIns kw' i _ => if decide (kw' = kw) then Some i else None
        | SoFind _ => None end) h)).
Proof.
  intros S h kw Ht Hnc Hf Hd.
  assert (E : forall o kw', insertions kw' (h ++ [SoFind o]) = insertions kw' h).
  { intros o kw'. rewrite insertions_snoc. apply app_nil_r. }
  rewrite C35_sophos_lost_updates; [|done| |].
  - assert (Ha : forall ops past, so_answers past (ops ++ [SoFind kw]) = so_answers past ops ++ [documents kw (past ++ ops)]).
    { induction ops as [|[kw' i d|kw'] ops IH]; intros past; simpl; [by rewrite app_nil_r|..];
        rewrite IH, <- app_assoc; done. }
    rewrite Ha, last_snoc. f_equal. simpl. unfold documents.
    assert (E2 : insertions kw h = (fun i => (i, true)) <$> omap (fun o => match o with
        | SoIns kw' i _ => if decide (kw' = kw) then Some i else None
        | SoFind _ => None end) h).
    { clear -Hd. unfold insertions. induction h as [|o h IH]; csimpl; [done|].
      assert (IH' := IH ltac:(intros; eapply Hd; right; eassumption)).
      destruct o as [kw' i d|kw']; [|done]. rewrite (Hd kw' i d) by left. case_decide; csimpl; by rewrite IH'. }
    rewrite E2, <- fmap_reverse. generalize (reverse (omap (fun o => match o with
        | SoIns kw' i _ => if decide (kw' = kw) then Some i else None
        | SoFind _ => None end) h)). clear. intros l. induction l as [|i l IH]; csimpl; [done|]. by rewrite IH.
  - intros k i k' i' Hi Hi'. rewrite E in Hi, Hi'. by apply Hnc.
  - intros k. rewrite E. apply Hf.
Qed.
Print Assumptions C33_sophos_search.

(** A concrete scheme and a history with two keywords, one update being lost. *)
Definition ex_sophos : sophos :=
  Sophos (fun kw => kw ++ replicate 16 0%N) (fun seed => seed) (cons 7%N) tail (fun seed => seed) (fun k m => k ++ m).
Definition ex_so_history : list so_op :=
  [SoIns [1%N] 10 true; SoFind [1%N]; SoIns [2%N] 20 true; SoIns [1%N] 11 false; SoIns [1%N] 12 true; SoFind [1%N]; SoFind [3%N]].
Example ex_sophos_ok :
  tdp_ok ex_sophos /\ no_collision ex_sophos ex_so_history /\ few_insertions ex_so_history /\
  so_run ex_sophos ∅ ∅ ex_so_history = [[10]; [12; 10]; []]%N.
Proof.
  assert (K : forall kw, insertions kw ex_so_history <> [] -> kw = [1%N] \/ kw = [2%N]).
  { intros kw H. destruct (decide ([1%N] = kw)) as [<-|H1]; [by left|].
    destruct (decide ([2%N] = kw)) as [<-|H2]; [by right|]. exfalso. apply H.
    unfold insertions, ex_so_history. csimpl. by rewrite !decide_False. }
  split_and!.
  - by intros x.
  - intros kw i kw' i' Hi Hi' Et.
    destruct (K kw) as [->| ->]; [intros E; rewrite E in Hi; simpl in Hi; lia|..];
      (destruct (K kw') as [->| ->]; [intros E; rewrite E in Hi'; simpl in Hi'; lia|..]);
      vm_compute in Hi, Hi'.
    + split; [done|]. destruct i as [|[|[|i]]], i' as [|[|[|i']]]; try lia; vm_compute in Et; try discriminate.
    + destruct i as [|[|[|i]]], i' as [|[|[|i']]]; try lia; vm_compute in Et; try discriminate.
    + destruct i as [|[|[|i]]], i' as [|[|[|i']]]; try lia; vm_compute in Et; try discriminate.
    + split; [done|]. destruct i as [|[|[|i]]], i' as [|[|[|i']]]; try lia; vm_compute in Et; try discriminate.
  - intros kw. destruct (decide (insertions kw ex_so_history = [])) as [->|H]; [done|].
    by destruct (K kw H) as [->| ->]; vm_compute.
  - by vm_compute.
Qed.

(** ** C34: parallel searches *)
Lemma thread_ids_eq n : thread_ids n = N.of_nat <$> seq 0 (N.to_nat n).
Proof. done. Qed.
Lemma jobs_eq S r n : (0 < n < 256)%N ->
  rsa_jobs S (ss_token r) (ss_count r) n (thread_ids n) =
    Ok ((fun idx => toks S (ss_token r) <$> filter (in_class (N.to_nat n) idx) (seq 0 (N.to_nat (ss_count r))))
        <$> seq 0 (N.to_nat n)).
Proof.
  intros Hn. rewrite thread_ids_eq.
  rewrite <- (N2Nat.id (ss_count r)) at 1. rewrite <- (N2Nat.id n) at 1.
  apply rsa_jobs_eq; [lia|]. apply Forall_forall. intros t Ht. apply elem_of_seq in Ht. lia.
Qed.

(** Programs made of threads and pools joined in order: results up to order. *)
Lemma in_order_result {T R} (code : T -> list (act T R)) bodies sizes s :
  bodies <> [] -> Forall (fun n => 0 < n) sizes -> Forall (fits code (length sizes)) bodies ->
  reaches code (start bodies sizes (seq 0 (Datatypes.S (length sizes)))) s -> s_main s = MJoin [] ->
  s_out s ≡ₚ bodies ≫= delivers code (length sizes) /\ s_refused s = [].
Proof.
  intros Hb Hs Hf H Hm. pose proof (C47_no_refusal T R code bodies sizes s H) as Hr. split; [|done].
  destruct (C47_exactly_once T R code bodies sizes (seq 0 (Datatypes.S (length sizes))) s Hb Hs Hf) as [E _]; [|done|done|].
  - intros k Hk. apply elem_of_seq. lia.
  - rewrite Hr in E. simpl in E. by rewrite app_nil_r in E.
Qed.

Section parallel.
  Variable S : sophos.
  Lemma parallel_delivers db key l d : delivers (parallel_code S db key) (Datatypes.S d) (enq_tokens l) =
    l ≫= so_access S db key.
  Proof.
    induction l as [|st l IH]; [done|]. unfold enq_tokens in *. rewrite fmap_cons, delivers_enq, IH. csimpl.
    f_equal. induction (so_access S db key st) as [|v vs IHv]; [apply delivers_nil|].
    csimpl. rewrite delivers_emit. by rewrite IHv.
  Qed.
  Lemma parallel_fits db key l d : fits (parallel_code S db key) (Datatypes.S d) (enq_tokens l).
  Proof.
    induction l as [|st l IH]; [constructor|]. unfold enq_tokens in *. rewrite fmap_cons. apply fits_cons.
    split; [|done]. simpl. destruct d; apply Forall_fmap, Forall_forall; done.
  Qed.
  Lemma callback_delivers db key l : delivers (parallel_callback_code S db key) 2 (enq_tokens l) =
    l ≫= so_access S db key.
  Proof.
    induction l as [|st l IH]; [done|]. unfold enq_tokens in *. rewrite fmap_cons, delivers_enq, IH. csimpl.
    f_equal. induction (so_access S db key st) as [|v vs IHv]; [done|].
    simpl. simpl in IHv. f_equal. exact IHv.
  Qed.
  Lemma callback_fits db key l : fits (parallel_callback_code S db key) 2 (enq_tokens l).
  Proof.
    induction l as [|st l IH]; [constructor|]. unfold enq_tokens in *. rewrite fmap_cons. apply fits_cons.
    split; [|done]. simpl. apply Forall_fmap, Forall_forall. intros v _. simpl. by repeat constructor.
  Qed.
  Lemma light_delivers code db key l : delivers code 0 (access_tokens S db key l) = l ≫= so_access S db key.
  Proof.
    induction l as [|st l IH]; [done|]. unfold access_tokens in *. rewrite !bind_cons, <- IH.
    generalize (l ≫= fun st => (AEmit <$> so_access S db key st) : list (act so_task N)). intros k.
    induction (so_access S db key st) as [|v vs IHv]; [done|]. simpl. f_equal. exact IHv.
  Qed.
  Lemma light_fits code db key l : fits code 0 (access_tokens S db key l).
  Proof.
    apply Forall_bind, Forall_forall. intros st _. apply Forall_fmap, Forall_forall. done.
  Qed.
End parallel.

Lemma seq_nonempty {B} (f : nat -> B) n : (0 < n)%N -> f <$> seq 0 (N.to_nat n) <> [].
Proof.
  intros Hn E. apply (f_equal length) in E. rewrite fmap_length, seq_length in E. simpl in E. lia.
Qed.

(** search_parallel: with 1 to 255 RSA threads and at least one access thread, it runs
    and every complete execution returns the results of search, each once. *)
Theorem C34_search_parallel :
  forall (S : sophos) db r n_rsa access_threads,
    (0 < n_rsa < 256)%N -> (0 < access_threads)%N ->
    exists s0, so_search_parallel S r n_rsa access_threads = Ok s0 /\
      forall s, reaches (parallel_code S db (ss_key r)) s0 s -> s_main s = MJoin [] ->
        s_out s ≡ₚ so_server_search S db r /\ s_refused s = [].
Proof.
  intros S db r n acc Hn Ha. unfold so_search_parallel. rewrite jobs_eq by done. cbn [rbind].
  eexists. split; [reflexivity|]. intros s H Hm.
  destruct (in_order_result (parallel_code S db (ss_key r)) (enq_tokens <$> ((fun idx => toks S (ss_token r) <$>
    filter (in_class (N.to_nat n) idx) (seq 0 (N.to_nat (ss_count r)))) <$> seq 0 (N.to_nat n)))
    [N.to_nat acc] s) as [E Hr]; [| | |exact H|exact Hm|].
  - rewrite <- list_fmap_compose. apply seq_nonempty. lia.
  - repeat constructor. lia.
  - apply Forall_fmap, Forall_forall. intros l _. apply parallel_fits.
  - split; [|done]. rewrite E. unfold so_server_search. rewrite search_loop_toks.
    rewrite <- (tokens_perm S (so_access S db (ss_key r)) (ss_token r) (N.to_nat n)) by lia.
    assert (Eb : forall ls, (enq_tokens <$> ls) ≫= delivers (parallel_code S db (ss_key r)) 1 =
      ls ≫= fun l => l ≫= so_access S db (ss_key r)).
    { induction ls as [|l ls IH]; [done|]. rewrite fmap_cons, !bind_cons, IH. by rewrite parallel_delivers. }
    by rewrite <- Eb.
Qed.
Print Assumptions C34_search_parallel.

(** search_parallel_callback: each result is given once to the callback. *)
Theorem C34_search_parallel_callback :
  forall (S : sophos) db r n_rsa access_threads post_threads,
    (0 < n_rsa < 256)%N -> (0 < access_threads)%N -> (0 < post_threads)%N ->
    exists s0, so_search_parallel_callback S r n_rsa access_threads post_threads = Ok s0 /\
      forall s, reaches (parallel_callback_code S db (ss_key r)) s0 s -> s_main s = MJoin [] ->
        s_out s ≡ₚ so_server_search S db r /\ s_refused s = [].
Proof.
  intros S db r n acc post Hn Ha Hp. unfold so_search_parallel_callback. rewrite jobs_eq by done. cbn [rbind].
  eexists. split; [reflexivity|]. intros s H Hm.
  destruct (in_order_result (parallel_callback_code S db (ss_key r)) (enq_tokens <$> ((fun idx => toks S (ss_token r) <$>
    filter (in_class (N.to_nat n) idx) (seq 0 (N.to_nat (ss_count r)))) <$> seq 0 (N.to_nat n)))
    [N.to_nat acc; N.to_nat post] s) as [E Hr]; [| | |exact H|exact Hm|].
  - rewrite <- list_fmap_compose. apply seq_nonempty. lia.
  - repeat constructor; lia.
  - apply Forall_fmap, Forall_forall. intros l _. apply callback_fits.
  - split; [|done]. rewrite E. unfold so_server_search. rewrite search_loop_toks.
    rewrite <- (tokens_perm S (so_access S db (ss_key r)) (ss_token r) (N.to_nat n)) by lia.
    assert (Eb : forall ls, (enq_tokens <$> ls) ≫= delivers (parallel_callback_code S db (ss_key r)) 2 =
      ls ≫= fun l => l ≫= so_access S db (ss_key r)).
    { induction ls as [|l ls IH]; [done|]. rewrite fmap_cons, !bind_cons, IH. by rewrite callback_delivers. }
    by rewrite <- Eb.
Qed.
Print Assumptions C34_search_parallel_callback.

(** search_parallel_light and search_parallel_light_callback. *)
Theorem C34_search_parallel_light :
  forall (S : sophos) db r thread_count code,
    (0 < thread_count < 256)%N ->
    exists s0, so_search_parallel_light S db r thread_count = Ok s0 /\
      forall s, reaches code s0 s -> s_main s = MJoin [] ->
        s_out s ≡ₚ so_server_search S db r /\ s_refused s = [].
Proof.
  intros S db r n code Hn. unfold so_search_parallel_light. rewrite jobs_eq by done. cbn [rbind].
  eexists. split; [reflexivity|]. intros s H Hm.
  destruct (in_order_result code (access_tokens S db (ss_key r) <$> ((fun idx => toks S (ss_token r) <$>
    filter (in_class (N.to_nat n) idx) (seq 0 (N.to_nat (ss_count r)))) <$> seq 0 (N.to_nat n)))
    [] s) as [E Hr]; [| | |exact H|exact Hm|].
  - rewrite <- list_fmap_compose. apply seq_nonempty. lia.
  - constructor.
  - apply Forall_fmap, Forall_forall. intros l _. apply light_fits.
  - split; [|done]. rewrite E. unfold so_server_search. rewrite search_loop_toks.
    rewrite <- (tokens_perm S (so_access S db (ss_key r)) (ss_token r) (N.to_nat n)) by lia.
    assert (Eb : forall ls, (access_tokens S db (ss_key r) <$> ls) ≫= delivers code 0 =
      ls ≫= fun l => l ≫= so_access S db (ss_key r)).
    { induction ls as [|l ls IH]; [done|]. rewrite fmap_cons, !bind_cons, IH. by rewrite light_delivers. }
    by rewrite <- Eb.
Qed.
Print Assumptions C34_search_parallel_light.

(** search_callback calls the callback with the results of search, in the same order. *)
Theorem C34_search_callback :
  forall (S : sophos) db r, so_server_search_callback S db r = so_server_search S db r.
Proof. done. Qed.
Print Assumptions C34_search_callback.

(** A request with three results. *)
Definition ex_db : gmap bytes N :=
  (fix go ops c db := match ops with
   | [] => db | i :: ops' => let r := so_insertion_request ex_sophos c [1%N] i in
     go ops' r.1 (so_insert db r.2) end) [10; 11; 12]%N ∅ ∅.
Definition ex_request : so_search := SoSearch (7 :: 7 :: 1 :: replicate 15 0)%N (1 :: replicate 15 0)%N 3.
Example ex_search : so_server_search ex_sophos ex_db ex_request = [12; 11; 10]%N.
Proof. by vm_compute. Qed.

(** With no thread the parallel searches return nothing. *)
Theorem C34_zero_threads_refuted :
  exists (S : sophos) db r s0 s code,
    so_server_search S db r <> [] /\ so_search_parallel_light S db r 0 = Ok s0 /\
    reaches code s0 s /\ s_main s = MJoin [] /\ s_out s = [].
Proof.
  exists ex_sophos, ex_db, ex_request. eexists _, _, (fun _ => []). split_and!.
  - by vm_compute.
  - reflexivity.
  - unfold threads. simpl.
    eapply rtc_l; [left; eapply (st_stop _ [])|]. simpl.
    eapply rtc_l; [left; eapply (st_notify_all _ [])|]. simpl.
    eapply rtc_l; [left; eapply (st_joined _ []); constructor|]. apply rtc_refl.
  - done.
  - done.
Qed.
Print Assumptions C34_zero_threads_refuted.

(** On a machine with 256 hardware threads the step of the loop of the RSA threads is
    0: whatever the number of iterations, the loop goes on. *)
Theorem C34_256_threads_refuted :
  exists n_rsa, (2 <= n_rsa)%N /\
    forall (S : sophos) fuel max st, (0 < max)%N -> rsa_loop S fuel (0 + n_rsa mod 2 ^ 8) max (n_rsa mod 2 ^ 8) st = OutOfFuel.
Proof.
  exists 256%N. split; [done|]. intros S fuel max st Hmax.
  change (256 mod 2 ^ 8)%N with 0%N. change (0 + 0)%N with 0%N.
  revert st. induction fuel as [|fuel IH]; intros st; cbn [rsa_loop];
    (destruct (N.ltb_spec 0 max); [|lia]); [done|]. change (0 + 0)%N with 0%N. by rewrite IH.
Qed.
Print Assumptions C34_256_threads_refuted.

(** ** C36: exhaustion of the counter *)
Lemma request_counter S c kw d : (so_insertion_request S c kw d).1 = <[kw := next_value (c !! kw)]> c.
Proof. done. Qed.
Lemma many_insertions S kw : forall docs c db, docs <> [] ->
  exists db', forall rest, so_run S c db (((fun d => SoIns kw d true) <$> docs) ++ rest) =
    so_run S (<[kw := (from_option N.succ 0 (c !! kw) + N.of_nat (length docs) - 1) mod 2 ^ 32]> c)%N db' rest.
Proof.
  induction docs as [|d docs IH]; intros c db Hne; [done|].
  destruct (decide (docs = [])) as [->|Hne2].
  - exists (so_insert db (so_insertion_request S c kw d).2). intros rest.
    change ((fun d => SoIns kw d true) <$> [d]) with [SoIns kw d true]. cbn [app so_run].
    rewrite request_counter.
    f_equal. f_equal. unfold next_value, incr32. destruct (c !! kw) as [v|]; [|done]. cbn [from_option length].
    change (N.of_nat 1) with 1%N. f_equal. lia.
  - destruct (IH (so_insertion_request S c kw d).1 (so_insert db (so_insertion_request S c kw d).2) Hne2) as [db' H'].
    exists db'. intros rest. rewrite fmap_cons. cbn [app so_run].
    rewrite H'. f_equal.
    rewrite request_counter, lookup_insert, insert_insert. f_equal.
    assert (0 < length docs)%nat by (destruct docs; simpl; [done|lia]).
    unfold next_value, incr32. cbn [from_option length]. destruct (c !! kw) as [v|]; cbn [from_option].
    + assert (Hx : forall a b : N, (N.succ a + b - 1)%N = (a + b)%N) by (intros; lia). rewrite !Hx.
      rewrite N.add_mod_idemp_l by done. f_equal. lia.
    + f_equal. lia.
Qed.

(** After 2^32 insertions of a keyword the search returns nothing. *)
Theorem C36_sophos_refuted :
  forall S kw, exists docs,
    N.of_nat (length docs) = (2 ^ 32)%N /\
    so_run S ∅ ∅ (((fun d => SoIns kw d true) <$> docs) ++ [SoFind kw]) = [[]].
Proof.
  intros S kw. assert (H : forall n, exists docs : list N, N.of_nat (length docs) = n).
  { intros n. exists (replicate (N.to_nat n) 0%N). rewrite replicate_length. lia. }
  destruct (H (2 ^ 32)%N) as [docs Hd]. exists docs. split; [done|].
  destruct (many_insertions S kw docs ∅ ∅) as [db' E]; [by intros ->|]. rewrite E. cbn [so_run].
  unfold so_search_request, ctr_get. rewrite lookup_insert, lookup_empty, Hd. done.
Qed.
Print Assumptions C36_sophos_refuted.
