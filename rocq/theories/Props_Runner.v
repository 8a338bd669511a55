(** C50, C51, C62, C63: the runners. *)
From stdpp Require Import prelude gmap.
From Coq Require Import NArith Lia.
From Verif Require Import Base EncModel KvModel SophosModel SophosSpec SophosProofs Props_Sophos
  DianaModel DianaSpec DianaProofs Props_Diana RunnerModel RunnerSpec.
Local Arguments N.modulo : simpl never.
Local Arguments N.pow : simpl never.
Local Arguments N.of_nat : simpl never.
Local Arguments N.to_nat : simpl never.

(** * C50 *)
Lemma key_bytes l : forall d k0, sd_key d = Some k0 ->
  foldl on_disk (FDir d) (EKeyByte <$> l) = FDir (SDir (sd_pairs d) (Some (k0 ++ l))).
Proof.
  induction l as [|b l IH]; intros [ps k] k0 E; csimpl; simpl in E; subst k.
  - by rewrite app_nil_r.
  - rewrite (IH _ (k0 ++ [b])) by done. simpl. by rewrite <- app_assoc.
Qed.
Lemma key_bytes_mem l : forall p, foldl in_memory p (EKeyByte <$> l) = p.
Proof. induction l as [|b l IH]; intros p; csimpl; [done|]. apply IH. Qed.

(** A successful setup whose writes all reach the disk leaves a complete state; the
    server can be stopped and started again with the same keys. *)
Theorem C50_diana_success e key f p effs :
  d_setup f p e key = (effs, SOk) -> length key <= e_written e ->
  complete (foldl on_disk f effs) key /\
  d_ctor true (foldl on_disk f effs) = Ok (foldl in_memory p effs).
Proof.
  unfold d_setup. destruct p as [[?|] w]; [done|]. simpl. destruct f; try done.
  destruct e as [[] pa [] [] wr]; simpl; try done.
  case_bool_decide as Hl; simpl; [|done]. intros [= <-] Hw.
  rewrite take_ge by done. cbn [foldl on_disk in_memory sd_key sd_pairs p_server p_wrapper].
  rewrite !foldl_app, (key_bytes _ _ []), key_bytes_mem by done. simpl. split; [done|].
  by rewrite bool_decide_true.
Qed.
Theorem C50_sophos_success valid e key f p effs :
  p_wrapper p = None ->
  so_setup valid f p e key = (effs, SOk) -> length key <= e_written e ->
  complete (foldl on_disk f effs) key /\
  so_ctor valid true (foldl on_disk f effs) = Ok (foldl in_memory p effs).
Proof.
  unfold so_setup. destruct p as [[?|] w]; [done|]. simpl. intros ->. destruct f; try done.
  destruct e as [[] pa [] [] wr]; simpl; destruct (valid key) eqn:Ev; simpl; try done.
  intros [= <-] Hw.
  rewrite take_ge by done. cbn [foldl on_disk in_memory sd_key sd_pairs p_server p_wrapper].
  rewrite (key_bytes _ _ []), key_bytes_mem by done. simpl. split; [done|]. by rewrite Ev.
Qed.

(** A setup that fails before making the directory changes nothing, and can be done
    again. *)
Theorem C50_no_effect_retry e key :
  e_mkdir e = false ->
  d_setup FNone fresh e key = ([], SPermissionDenied) /\
  (forall valid, so_setup valid FNone fresh e key = ([], SPermissionDenied)) /\
  (forall e', e_mkdir e' = true -> e_core e' = true -> e_open e' = true ->
     length key = 32 -> (d_setup FNone fresh e' key).2 = SOk) /\
  (forall valid e', e_mkdir e' = true -> e_core e' = true -> e_open e' = true ->
     valid key = true -> (so_setup valid FNone fresh e' key).2 = SOk).
Proof.
  intros E. unfold d_setup, so_setup. simpl. rewrite E. split_and!; [done|done|..].
  - intros e' -> -> -> Hl. by rewrite bool_decide_true.
  - intros valid e' -> -> -> Hv. by rewrite Hv.
Qed.

(** Wherever a setup is interrupted, the next start of the server throws, or finds
    nothing, or finds the whole key: it never runs with a part of the key. *)
Lemma prefix_cases {A} (a b : list A) k : k <= length a \/ length a <= k /\ take k (a ++ b) = a ++ take (k - length a) b.
Proof. destruct (decide (k <= length a)); [by left|]. right. split; [lia|]. by rewrite take_app_ge by lia. Qed.
Theorem C50_diana_crash e key k opens p :
  d_ctor opens (foldl on_disk FNone (take k (d_setup FNone fresh e key).1)) = Ok p ->
  p = fresh /\ k = 0 \/ p = fresh /\ e_mkdir e = false \/
  p_wrapper p = Some key /\ p_server p <> None /\
    complete (foldl on_disk FNone (take k (d_setup FNone fresh e key).1)) key.
Proof.
  destruct k as [|k]; [simpl; intros [= <-]; by left|].
  unfold d_setup. simpl. destruct e as [mk pa co op wr]; simpl.
  destruct mk; simpl; [|intros [= <-]; by right; left].
  destruct co; simpl; [|destruct pa; simpl; [|by rewrite take_nil]; destruct k; simpl; [done|]; by rewrite take_nil].
  destruct op; simpl.
  2:{ destruct k as [|[|k]]; simpl; try done. by rewrite take_nil. }
  case_bool_decide as Hl; simpl.
  2:{ destruct k as [|[|[|k]]]; simpl; try done. by rewrite take_nil. }
  destruct k as [|[|[|k]]]; simpl; try done.
  set (bs := take wr key).
  assert (E : foldl on_disk (FDir (SDir true (Some []))) (take k ((EKeyByte <$> bs) ++ [EWrapper key])) =
              FDir (SDir true (Some (take k bs)))).
  { destruct (prefix_cases (EKeyByte <$> bs) [EWrapper key] k) as [H|[H ->]].
    - rewrite take_app_le by done. rewrite <- fmap_take. by rewrite (key_bytes _ _ []).
    - rewrite foldl_app, (key_bytes _ _ []) by done. simpl. rewrite fmap_length in *.
      rewrite (take_ge bs) by done. by destruct (k - length bs) as [|n]; simpl; [|rewrite take_nil]. }
  rewrite E. simpl. case_bool_decide as Hk; simpl; [|done]. destruct opens; [|done]. intros [= <-].
  right. right. simpl. assert (take k bs = key) as ->; [|done].
  unfold bs. rewrite take_take. rewrite take_ge; [done|]. unfold bs in Hk. rewrite take_take, take_length in Hk.
  unfold wrapper_key_size in *. lia.
Qed.
(** For Sophos, if the library refuses a truncated public key. *)
Theorem C50_sophos_crash valid e key k opens p :
  (forall n, n < length key -> valid (take n key) = false) ->
  so_ctor valid opens (foldl on_disk FNone (take k (so_setup valid FNone fresh e key).1)) = Ok p ->
  p = fresh /\ k = 0 \/ p = fresh /\ e_mkdir e = false \/
  p_server p = Some key /\ complete (foldl on_disk FNone (take k (so_setup valid FNone fresh e key).1)) key.
Proof.
  intros Hv. destruct k as [|k]; [simpl; intros [= <-]; by left|].
  unfold so_setup. simpl. destruct e as [mk pa co op wr]; simpl.
  destruct mk; simpl; [|intros [= <-]; by right; left].
  destruct co; simpl; [|destruct pa; simpl; [|by rewrite take_nil]; destruct k; simpl; [done|]; by rewrite take_nil].
  destruct (valid key) eqn:Ev; simpl.
  2:{ destruct k as [|k]; simpl; try done. by rewrite take_nil. }
  destruct op; simpl.
  2:{ destruct k as [|[|k]]; simpl; try done. by rewrite take_nil. }
  destruct k as [|[|[|k]]]; simpl; try done.
  set (bs := take wr key). rewrite <- fmap_take, (key_bytes _ _ []) by done. simpl.
  destruct opens; simpl; [|done]. destruct (valid (take k bs)) eqn:Ev2; [|done]. intros [= <-].
  right. right. simpl. assert (take k bs = key) as ->; [|done].
  unfold bs in *. rewrite take_take in *. destruct (decide (length key <= k `min` wr)) as [H|H]; [by rewrite take_ge|].
  rewrite Hv in Ev2 by lia. done.
Qed.

(** Once something exists at the storage path no setup succeeds any more, whatever is
    done: starts, stops, crashes, other setup messages. *)
Lemma disk_stays l : forall f, f <> FNone -> foldl on_disk f l <> FNone.
Proof. induction l as [|e l IH]; intros f Hf; [done|]. simpl. apply IH. destruct e, f; done. Qed.
Theorem C50_never_again vs : forall m, m_fs m <> FNone ->
  SOk ∉ (mrun d_ctor d_setup m vs).2 /\ (forall valid, SOk ∉ (mrun (so_ctor valid) (so_setup valid) m vs).2).
Proof.
  assert (Hgen : forall ctor (setup : fs -> proc -> env -> bytes -> list effect * status),
    (forall f p e key, f <> FNone -> (setup f p e key).2 <> SOk) ->
    forall vs m, m_fs m <> FNone -> SOk ∉ (mrun ctor setup m vs).2).
  { intros ctor setup Hs. clear vs. induction vs as [|v vs IH]; intros m Hm; simpl; [apply not_elem_of_nil|].
    assert (Hm' : m_fs (mstep ctor setup m v).1 <> FNone).
    { destruct m as [f [p|]], v; cbn [mstep m_proc m_fs fst snd] in *; try exact Hm; by apply disk_stays. }
    specialize (IH _ Hm'). destruct (mstep ctor setup m v).2 as [s|] eqn:E; [|done].
    rewrite not_elem_of_cons. split; [|done]. intros <-.
    destruct m as [f [p|]], v as [o|e key|e key k|]; cbn [mstep m_proc m_fs fst snd] in *; try done.
    injection E as E. by apply (Hs f p e key Hm). }
  intros m Hm. split; [|intros valid]; apply Hgen; try done; intros f p e key Hf;
    unfold d_setup, so_setup; destruct (p_server p); try done; by destruct f.
Qed.

(** C50 is false of the code: a setup that fails in the construction of the database
    leaves a directory; neither a new setup nor a restart ever succeeds. *)
Definition ex_key : bytes := replicate 32 7%N.
Theorem C50_setup_refuted : exists e key,
  length key = 32 /\
  let m := (mrun d_ctor d_setup (Machine FNone None) [MStart true; MSetup e key]).1 in
  (mrun d_ctor d_setup (Machine FNone None) [MStart true; MSetup e key]).2 = [SFailedPrecondition] /\
  (forall vs, SOk ∉ (mrun d_ctor d_setup m vs).2) /\
  (forall opens, d_ctor opens (m_fs m) = Throw RuntimeError).
Proof.
  exists (Env true true false true 32), ex_key. split; [done|]. simpl. split; [done|]. split; [|done].
  intros vs. by apply C50_never_again.
Qed.
Theorem C50_sophos_setup_refuted : exists (valid : bytes -> bool) bad good,
  valid good = true /\ valid bad = false /\
  let m := (mrun (so_ctor valid) (so_setup valid) (Machine FNone None) [MStart true; MSetup (good_env 3) bad]).1 in
  (forall vs, SOk ∉ (mrun (so_ctor valid) (so_setup valid) m vs).2) /\
  (forall opens, so_ctor valid opens (m_fs m) = Throw RuntimeError).
Proof.
  exists (fun k => bool_decide (k = [1%N; 2%N])), [3%N], [1%N; 2%N]. split; [done|]. split; [done|]. simpl.
  split; [|done]. intros vs. by apply C50_never_again.
Qed.
(** A setup message with a key of the wrong size is refused, but afterwards the server
    accepts insertions, although it cannot be started again, and a search dereferences a
    null pointer. *)
Theorem C50_incomplete_answers_refuted : exists e key effs st,
  d_setup FNone fresh e key = (effs, st) /\ st <> SOk /\
  answer (foldl in_memory fresh effs) = SOk /\
  d_search_answer (foldl in_memory fresh effs) = UB /\
  (forall key', ~ complete (foldl on_disk FNone effs) key' \/ length key' <> 32) /\
  forall opens, d_ctor opens (foldl on_disk FNone effs) = Throw RuntimeError.
Proof.
  exists (good_env 32), [1%N], [EMkdir; EPairs; EServer []; EKeyOpen], SInvalidArgument. split_and!; try done.
  intros key'. simpl. destruct (decide (length key' = 32)) as [E|E]; [|by right]. left. unfold complete.
  intros [= <-]. done.
Qed.
(** The writing of the key is not checked: if it fails, the setup succeeds, and the server
    cannot be started again. *)
Theorem C50_write_refuted : exists e key effs,
  length key = 32 /\ d_setup FNone fresh e key = (effs, SOk) /\
  answer (foldl in_memory fresh effs) = SOk /\
  forall opens, d_ctor opens (foldl on_disk FNone effs) = Throw RuntimeError.
Proof. exists (Env true true true true 5), ex_key. eexists. split_and!; done. Qed.
(** server_ is set before token_wrapper_: during a successful setup there is a moment
    when a concurrent search dereferences a null pointer. *)
Theorem C50_race_refuted : exists key effs k,
  length key = 32 /\ d_setup FNone fresh (good_env 32) key = (effs, SOk) /\
  d_search_answer (foldl in_memory fresh (take k effs)) = UB.
Proof. exists ex_key. eexists. exists 5. split_and!; done. Qed.
(** Without that: a server started from disk, or set up successfully, answers the
    searches. *)
Theorem C50_search_defined : forall e key f p effs opens p',
  (d_setup f p e key = (effs, SOk) -> exists s, d_search_answer (foldl in_memory p effs) = Ok s) /\
  (d_ctor opens f = Ok p' -> exists s, d_search_answer p' = Ok s).
Proof.
  intros e key f p effs opens p'. split.
  - unfold d_setup. destruct p as [[?|] w]; [done|]. simpl. destruct f; try done.
    destruct e as [[] pa [] [] wr]; simpl; try done. case_bool_decide as Hl; simpl; [|done]. intros [= <-].
    cbn [foldl in_memory p_server p_wrapper]. rewrite foldl_app, key_bytes_mem. simpl. unfold d_search_answer. simpl. eauto.
  - unfold d_ctor, d_search_answer. destruct f as [| |[ps [k|]]]; simpl; try done; [intros [= <-]; simpl; eauto|].
    destruct ps; simpl; [|done]. case_bool_decide; simpl; [|done]. destruct opens; [|done]. intros [= <-]. simpl. eauto.
Qed.
Example C50_example :
  (mrun d_ctor d_setup (Machine FNone None)
    [MStart true; MSetup (Env false true true true 32) ex_key; MSetup (good_env 32) ex_key; MStop; MStart true; MSetup (good_env 32) ex_key]) =
  (Machine (FDir (SDir true (Some ex_key))) (Some (Proc (Some []) (Some ex_key))), [SPermissionDenied; SOk; SFailedPrecondition]).
Proof. done. Qed.

(** * C51 *)
(** The call throws, always, when no session is open... *)
Theorem C51_throws S D r kw i doc l :
  r_up r = false ->
  (so_insert_in_session S r kw i).2 = Throw RuntimeError /\
  (d_insert_in_session D r kw doc).2 = Throw RuntimeError /\
  d_insert_list_in_session D r l = (r, Throw RuntimeError).
Proof.
  intros H. unfold so_insert_in_session, d_insert_in_session, d_insert_list_in_session. rewrite H. done.
Qed.
(** ... but the counter of the keyword moves: C51 is false of the two schemes, in every
    client state (except after 2^32 insertions the counter always changes). *)
Theorem C51_counter S D r kw i doc :
  r_up r = false ->
  r_counters (so_insert_in_session S r kw i).1 !! kw = Some (next_value (r_counters r !! kw)) /\
  r_counters (d_insert_in_session D r kw doc).1 !! kw = Some (next_value (r_counters r !! kw)) /\
  Some (next_value (r_counters r !! kw)) <> r_counters r !! kw.
Proof.
  intros H. unfold so_insert_in_session, d_insert_in_session. rewrite H. cbn [fst].
  unfold so_insertion_request, d_insertion_request, ctr_get_and_increment. cbn [fst snd r_counters].
  unfold gen_update_token_masks. cbn [fst snd r_counters]. rewrite !lookup_insert. split_and!; [done|done|].
  destruct (r_counters r !! kw) as [v|]; simpl; [|done]. unfold incr32. intros [= E].
  pose proof (N.mod_lt (v + 1) (2 ^ 32) ltac:(done)) as Hlt.
  destruct (N.lt_ge_cases (v + 1) (2 ^ 32)) as [Hc|Hc].
  - rewrite N.mod_small in E by done. lia.
  - rewrite E in Hlt. assert (v + 1 = 2 ^ 32)%N as Ev by lia. rewrite Ev, N.mod_same in E by done. subst v. done.
Qed.
Theorem C51_refuted : exists S D r kw i doc,
  r_up r = false /\
  (so_insert_in_session S r kw i).1 <> r /\ (d_insert_in_session D r kw doc).1 <> r.
Proof.
  exists ex_sophos, ex_diana, (Runner ∅ false false), [1%N], 5%N, [1%N; 2%N]. split; [done|].
  destruct (C51_counter ex_sophos ex_diana (Runner ∅ false false) [1%N] 5%N [1%N; 2%N] eq_refl) as (H1 & H2 & _).
  split; intros E; rewrite E in *; done.
Qed.

(** The calls amount to insertions, those refused being lost. *)
Lemma so_calls_meaning S ops : forall c b db,
  so_calls S (Runner c b b) db ops = so_run S c db (so_meaning b ops).
Proof.
  induction ops as [|[kw i d|kw i d| | |kw] ops IH]; intros c b db; [done|..].
  - cbn [so_calls so_meaning so_run]. unfold so_runner_insert, so_insert_in_session. cbn [r_writer r_up r_counters].
    destruct b; cbn [fst snd]; apply IH.
  - cbn [so_calls so_meaning so_run]. unfold so_insert_in_session. cbn [r_writer r_up r_counters].
    destruct b; cbn [fst snd andb]; apply IH.
  - cbn [so_calls so_meaning]. unfold start_session. cbn [r_writer r_counters]. destruct b; apply IH.
  - cbn [so_calls so_meaning]. unfold end_session. cbn [r_writer r_counters]. destruct b; apply IH.
  - cbn [so_calls so_meaning so_run r_counters]. by rewrite IH.
Qed.
Lemma d_calls_meaning D ops : forall c b db,
  d_calls D (Runner c b b) db ops = d_run D c db (d_meaning b ops).
Proof.
  induction ops as [|[kw i d|kw i d| | |kw] ops IH]; intros c b db; [done|..].
  - cbn [d_calls d_meaning d_run]. unfold d_runner_insert, d_insert_in_session. cbn [r_writer r_up r_counters].
    destruct b; cbn [fst snd]; apply IH.
  - cbn [d_calls d_meaning d_run]. unfold d_insert_in_session. cbn [r_writer r_up r_counters].
    destruct b; cbn [fst snd andb]; apply IH.
  - cbn [d_calls d_meaning]. unfold start_session. cbn [r_writer r_counters]. destruct b; apply IH.
  - cbn [d_calls d_meaning]. unfold end_session. cbn [r_writer r_counters]. destruct b; apply IH.
  - cbn [d_calls d_meaning d_run r_counters].
    destruct (d_server_search_list D db (d_search_request D c kw) false) as [x| | |]; cbn [rbind]; [|done..]. by rewrite IH.
Qed.
Lemma so_meaning_app b h1 h2 : so_meaning b (h1 ++ h2) = so_meaning b h1 ++ so_meaning (session_open b h1) h2.
Proof. revert b. induction h1 as [|[] h1 IH]; intros b; simpl; [done|..]; by rewrite IH. Qed.
Lemma d_meaning_app b h1 h2 : d_meaning b (h1 ++ h2) = d_meaning b h1 ++ d_meaning (session_open b h1) h2.
Proof. revert b. induction h1 as [|[] h1 IH]; intros b; simpl; [done|..]; by rewrite IH. Qed.

Lemma so_answers_app past a b : so_answers past (a ++ b) = so_answers past a ++ so_answers (past ++ a) b.
Proof.
  revert past. induction a as [|[kw i d|kw] a IH]; intros past; simpl; [by rewrite app_nil_r|..];
    rewrite IH, <- app_assoc; done.
Qed.
Lemma documents_snoc kw past o : documents kw (past ++ [o]) =
  match o with SoIns kw' i true => if decide (kw' = kw) then [i] else [] | _ => [] end ++ documents kw past.
Proof.
  unfold documents, insertions. rewrite omap_app, reverse_app, omap_app. f_equal.
  destruct o as [kw' i d|kw']; csimpl; [|done]. case_decide; csimpl; [|by destruct d]. by destruct d.
Qed.
Lemma so_answers_same ops : forall past past', (forall kw, documents kw past = documents kw past') ->
  so_answers past ops = so_answers past' ops.
Proof.
  induction ops as [|[kw i d|kw] ops IH]; intros past past' H; simpl; [done|..].
  - apply IH. intros k. by rewrite !documents_snoc, H.
  - rewrite H. f_equal. apply IH. intros k. by rewrite !documents_snoc, H.
Qed.
Lemma insertions_app kw a b : insertions kw (a ++ b) = insertions kw a ++ insertions kw b.
Proof. apply omap_app. Qed.

(** Later searches give the same answers as if the refused call had not been made
    (Sophos). *)
Theorem C51_sophos_searches S h1 h2 kw i d :
  tdp_ok S -> session_open false h1 = false ->
  no_collision S (so_meaning false (h1 ++ RSession kw i d :: h2)) ->
  few_insertions (so_meaning false (h1 ++ RSession kw i d :: h2)) ->
  so_calls S (Runner ∅ false false) ∅ (h1 ++ RSession kw i d :: h2) =
  so_calls S (Runner ∅ false false) ∅ (h1 ++ h2).
Proof.
  intros Ht Hs Hnc Hf. rewrite !so_calls_meaning.
  assert (E1 : so_meaning false (h1 ++ RSession kw i d :: h2) =
    so_meaning false h1 ++ SoIns kw i false :: so_meaning false h2) by (rewrite so_meaning_app, Hs; done).
  assert (E2 : so_meaning false (h1 ++ h2) = so_meaning false h1 ++ so_meaning false h2)
    by (rewrite so_meaning_app, Hs; done).
  rewrite E1 in *. rewrite E2. clear E1 E2.
  set (a := so_meaning false h1) in *. set (b := so_meaning false h2) in *.
  assert (Hle : forall k, length (insertions k (a ++ b)) <= length (insertions k (a ++ SoIns kw i false :: b))).
  { intros k. rewrite !insertions_app, !app_length. unfold insertions at 4. csimpl. case_decide; simpl; fold (insertions k b); lia. }
  rewrite !C35_sophos_lost_updates.
  - rewrite !so_answers_app. f_equal. simpl. apply so_answers_same. intros k. by rewrite documents_snoc.
  - done.
  - intros k1 i1 k2 i2 H1 H2. apply Hnc; [pose proof (Hle k1)|pose proof (Hle k2)]; lia.
  - intros k. specialize (Hf k). specialize (Hle k). lia.
  - done.
  - done.
  - done.
Qed.

Lemma d_answers_same ops : forall s s', (forall kw, contents s kw = contents s' kw) ->
  d_answers s ops = d_answers s' ops.
Proof.
  assert (Hadd : forall s s' k doc d, (forall kw, contents s kw = contents s' kw) ->
    forall kw, contents (add_slot s k doc d) kw = contents (add_slot s' k doc d) kw).
  { intros s s' k doc d H kw. specialize (H kw). unfold contents, add_slot in *. case_decide; [|done]. by rewrite !omap_app, H. }
  assert (Hop : forall o s s', (forall kw, contents s kw = contents s' kw) ->
    forall kw, contents (op_slots s o) kw = contents (op_slots s' o) kw).
  { intros [k doc d|l|k del] s s' H; simpl; [by apply Hadd| |].
    - revert s s' H. induction l as [|x l IH]; intros s s' H; [done|]. simpl. apply IH. by apply Hadd.
    - destruct del; [|done]. intros kw. specialize (H kw). unfold contents, empty_slots in *. case_decide; [|done].
      assert (E : forall l : list (option bytes), omap id ((fun _ => @None bytes) <$> l) = []).
      { induction l as [|x l IH]; csimpl; done. }
      by rewrite !E. }
  induction ops as [|o ops IH]; intros s s' H; [done|]. simpl.
  rewrite (IH (op_slots s o) (op_slots s' o)) by (by apply Hop). destruct o; [done..|]. by rewrite H.
Qed.
Lemma d_answers_app s a b : d_answers s (a ++ b) = d_answers s a ++ d_answers (foldl op_slots s a) b.
Proof. revert s. induction a as [|o a IH]; intros s; [done|]. simpl. rewrite IH. by destruct o. Qed.
Lemma slots_length_mono ops : forall (s s' : slots) kw, length (s kw) <= length (s' kw) ->
  length (foldl op_slots s ops kw) <= length (foldl op_slots s' ops kw).
Proof.
  assert (Hadd : forall s s' kw k doc d, length (s kw) <= length (s' kw) ->
    length (add_slot s k doc d kw) <= length (add_slot s' k doc d kw)).
  { intros s s' kw k doc d H. unfold add_slot. case_decide; [rewrite !app_length; simpl; lia|done]. }
  assert (Hop : forall o s s' kw, length (s kw) <= length (s' kw) ->
    length (op_slots s o kw) <= length (op_slots s' o kw)).
  { intros [k doc d|l|k del] s s' kw H; simpl; [by apply Hadd| |].
    - revert s s' H. induction l as [|x l IH]; intros s s' H; [done|]. simpl. apply IH. by apply Hadd.
    - destruct del; [|done]. unfold empty_slots. case_decide; [by rewrite !fmap_length|done]. }
  induction ops as [|o ops IH]; intros s s' kw H; [done|]. simpl. apply IH, Hop, H.
Qed.

(** The same for Diana, when the server searches asynchronously. *)
Theorem C51_diana_searches D h1 h2 kw doc d :
  d_crypto_ok D -> session_open false h1 = false ->
  d_no_collision D (all_slots (d_meaning false (h1 ++ RSession kw doc d :: h2))) ->
  d_few (all_slots (d_meaning false (h1 ++ RSession kw doc d :: h2))) ->
  docs_ok D (d_meaning false (h1 ++ RSession kw doc d :: h2)) ->
  d_calls D (Runner ∅ false false) ∅ (h1 ++ RSession kw doc d :: h2) =
  d_calls D (Runner ∅ false false) ∅ (h1 ++ h2).
Proof.
  intros Hc Hs Hnc Hf Hok. rewrite !d_calls_meaning.
  assert (E1 : d_meaning false (h1 ++ RSession kw doc d :: h2) =
    d_meaning false h1 ++ DIns kw doc false :: d_meaning false h2) by (rewrite d_meaning_app, Hs; done).
  assert (E2 : d_meaning false (h1 ++ h2) = d_meaning false h1 ++ d_meaning false h2)
    by (rewrite d_meaning_app, Hs; done).
  rewrite E1 in *. rewrite E2. clear E1 E2.
  set (a := d_meaning false h1) in *. set (b := d_meaning false h2) in *.
  assert (Hle : forall k, length (all_slots (a ++ b) k) <= length (all_slots (a ++ DIns kw doc false :: b) k)).
  { intros k. unfold all_slots. rewrite !foldl_app. simpl. apply slots_length_mono.
    unfold add_slot. case_decide; [rewrite app_length; simpl; lia|done]. }
  rewrite !C35_diana_lost_updates.
  - f_equal. rewrite !d_answers_app. f_equal. simpl. apply d_answers_same. intros k. unfold contents, add_slot.
    case_decide; [|done]. rewrite omap_app. csimpl. by rewrite app_nil_r.
  - done.
  - intros k1 i1 k2 i2 H1 H2. apply Hnc; [pose proof (Hle k1)|pose proof (Hle k2)]; lia.
  - intros k. specialize (Hf k). specialize (Hle k). lia.
  - unfold docs_ok in *. rewrite Forall_app, Forall_cons in Hok. apply Forall_app. tauto.
  - done.
  - done.
  - done.
  - done.
Qed.

(** With synchronous searches on the server (set_search_asynchronously(false)), the
    refused call is visible: a search for a keyword without documents returns the
    document 0. *)
Theorem C51_sync_refuted : exists (D : diana) r kw doc s0 s,
  r_up r = false /\ d_crypto_ok D /\
  ds_count (d_search_request D (r_counters r) kw) = 0%N /\
  let req := d_search_request D (r_counters (d_insert_in_session D r kw doc).1) kw in
  d_search_parallel D ∅ req 8 = Ok s0 /\ rtc (d_step D false) s0 s /\ d_finished s /\
  d_sync_result D (ds_count req) s = [replicate (d_len D) 0%N].
Proof.
  set (r := Runner ∅ false false). set (kw := [1%N]).
  set (req := d_search_request ex_diana (r_counters (d_insert_in_session ex_diana r kw [1%N; 2%N]).1) kw).
  set (leaf := d_eval ex_diana (d_constrain ex_diana (d_root ex_diana (d_keyword_index ex_diana kw)) 0 0) 0).
  assert (E : d_search_parallel ex_diana ∅ req 8 = Ok (DPar ∅ [DThread 0 None [(0%N, leaf)]] [])) by reflexivity.
  exists ex_diana, r, kw, [1%N; 2%N], (DPar ∅ [DThread 0 None [(0%N, leaf)]] []), (DPar ∅ [DThread 0 None []] []).
  split; [done|]. split; [apply ex_diana_ok|]. split; [done|]. split; [exact E|]. split; [|split].
  - apply rtc_once. apply (dst_miss ex_diana false ∅ [] 0%N 0%N leaf [] [] [] _ _ eq_refl). apply lookup_empty.
  - by repeat constructor.
  - by vm_compute.
Qed.

Example C51_example :
  session_open (I := N) false [RInsert [1%N] 10%N true; RStart; RSession [1%N] 11%N true; REnd] = false /\
  so_calls ex_sophos (Runner ∅ false false) ∅
    ([RInsert [1%N] 10%N true; RStart; RSession [1%N] 11%N true; REnd] ++ RSession [1%N] 12%N true ::
     [RInsert [1%N] 13%N true; RFind [1%N]]) = [[13; 11; 10]%N].
Proof. split; [done|]. by vm_compute. Qed.

(** The hypotheses of [C51_sophos_searches] and [C51_diana_searches] hold of these calls. *)
Definition ex_r_calls : list (r_op N) :=
  [RInsert [1%N] 10%N true; RStart; RSession [1%N] 11%N true; REnd] ++ RSession [1%N] 12%N true ::
  [RInsert [1%N] 13%N true; RFind [1%N]].
Example C51_sophos_hypotheses :
  tdp_ok ex_sophos /\ no_collision ex_sophos (so_meaning false ex_r_calls) /\ few_insertions (so_meaning false ex_r_calls).
Proof.
  assert (K : forall kw, insertions kw (so_meaning false ex_r_calls) <> [] -> kw = [1%N]).
  { intros kw H. destruct (decide ([1%N] = kw)) as [<-|H1]; [done|]. exfalso. apply H.
    unfold insertions, ex_r_calls. csimpl. by rewrite !decide_False. }
  assert (L : length (insertions [1%N] (so_meaning false ex_r_calls)) = 4) by (by vm_compute).
  split_and!.
  - by intros x.
  - intros kw i kw' i' Hi Hi' Et.
    assert (kw = [1%N]) as -> by (apply K; intros E; rewrite E in Hi; simpl in Hi; lia).
    assert (kw' = [1%N]) as -> by (apply K; intros E; rewrite E in Hi'; simpl in Hi'; lia).
    rewrite L in Hi, Hi'. split; [done|].
    destruct i as [|[|[|[|i]]]], i' as [|[|[|[|i']]]]; try lia; vm_compute in Et; discriminate.
  - intros kw. destruct (decide (insertions kw (so_meaning false ex_r_calls) = [])) as [->|H]; [done|].
    rewrite (K kw H), L. done.
Qed.
Definition ex_rd_calls : list (r_op bytes) :=
  [RInsert [1%N] [10; 0]%N true; RStart; RSession [1%N] [11; 0]%N true; REnd] ++ RSession [1%N] [12; 0]%N true ::
  [RInsert [1%N] [13; 0]%N true; RFind [1%N]].
Example C51_diana_hypotheses :
  d_crypto_ok ex_diana /\ d_no_collision ex_diana (all_slots (d_meaning false ex_rd_calls)) /\
  d_few (all_slots (d_meaning false ex_rd_calls)) /\ docs_ok ex_diana (d_meaning false ex_rd_calls) /\
  d_calls ex_diana (Runner ∅ false false) ∅ ex_rd_calls = Ok [[[10; 0]; [11; 0]; [13; 0]]]%N.
Proof.
  assert (K : forall kw, all_slots (d_meaning false ex_rd_calls) kw <> [] -> kw = [1%N]).
  { intros kw H. destruct (decide (kw = [1%N])) as [->|H1]; [done|]. exfalso. apply H.
    unfold all_slots, ex_rd_calls. cbn. unfold add_slot, empty_slots, no_slots.
    by rewrite !(decide_False (P := kw = [1%N])). }
  assert (L : length (all_slots (d_meaning false ex_rd_calls) [1%N]) = 4) by (by vm_compute).
  split_and!; [apply ex_diana_ok| | | |].
  - intros kw i kw' i' Hi Hi' Et.
    assert (kw = [1%N]) as -> by (apply K; intros E; rewrite E in Hi; simpl in Hi; lia).
    assert (kw' = [1%N]) as -> by (apply K; intros E; rewrite E in Hi'; simpl in Hi'; lia).
    rewrite L in Hi, Hi'. split; [done|].
    destruct i as [|[|[|[|i]]]], i' as [|[|[|[|i']]]]; try lia; vm_compute in Et; discriminate.
  - intros kw. destruct (decide (all_slots (d_meaning false ex_rd_calls) kw = [])) as [->|H]; [done|].
    rewrite (K kw H), L. done.
  - by repeat constructor.
  - by vm_compute.
Qed.

(** * C62: messages *)
(** What the clients send is what the servers read. *)
Theorem C62_roundtrip junk token index token_size r kwt :
  length token = 16 -> length junk = 16 -> length (ss_token r) = token_size -> length (ss_key r) = 32 -> length kwt = 32 ->
  message_to_update junk (update_to_message token index) = Ok (token, index) /\
  (forall junk', length junk' = token_size -> so_message_to_search token_size junk' (so_search_to_message r) = Ok r) /\
  (forall junk', length junk' = 32 -> d_message_kw_token junk' kwt = Ok kwt).
Proof.
  assert (Hc : forall n l j, length l = n -> length j = n -> copy_to_array n j l = Ok l).
  { intros n l j Hl Hj. unfold copy_to_array. rewrite (proj2 (Nat.ltb_ge _ _)) by lia.
    by rewrite drop_ge, app_nil_r by lia. }
  intros H1 H2 H3 H4 H5. split_and!.
  - unfold message_to_update, update_to_message. simpl. by rewrite Hc.
  - intros junk' Hj. unfold so_message_to_search, so_search_to_message, copy_first. simpl.
    rewrite (proj2 (Nat.ltb_ge _ _)) by lia. cbn [rbind]. rewrite Hc by done. simpl.
    rewrite take_ge by lia. by destruct r.
  - intros junk' Hj. by apply Hc.
Qed.
Example C62_example :
  message_to_update (replicate 16 0%N) (update_to_message (replicate 16 9%N) 5%N) = Ok (replicate 16 9%N, 5%N) /\
  so_message_to_search 256 (replicate 256 0%N)
    (so_search_to_message (SoSearch (replicate 256 1%N) (replicate 32 2%N) 3%N)) =
    Ok (SoSearch (replicate 256 1%N) (replicate 32 2%N) 3%N) /\
  d_message_kw_token (replicate 32 0%N) (replicate 32 4%N) = Ok (replicate 32 4%N).
Proof. by vm_compute. Qed.
(** C62 is false of the code: every update message with a token longer than 16 bytes is
    written outside of the array, by both servers; so are long search and keyword tokens;
    a short derivation key is read outside. *)
Theorem C62_refuted :
  (forall junk m, 16 < length (um_token m) -> message_to_update junk m = UB) /\
  (forall n junk m, n < length (sm_token m) \/ length (sm_key m) < 32 -> so_message_to_search n junk m = UB) /\
  (forall junk f, 32 < length f -> d_message_kw_token junk f = UB) /\
  exists m, 16 < length (um_token m).
Proof.
  assert (Hc : forall n l j, n < length l -> copy_to_array n j l = UB).
  { intros n l j H. unfold copy_to_array. by rewrite (proj2 (Nat.ltb_lt _ _)). }
  split_and!.
  - intros junk m H. unfold message_to_update. rewrite Hc by done. done.
  - intros n junk m H. unfold so_message_to_search, copy_first.
    destruct (Nat.ltb_spec (length (sm_key m)) 32) as [Hk|Hk]; [done|]. cbn [rbind]. rewrite Hc by lia. done.
  - intros junk f H. by apply Hc.
  - exists (UMsg (replicate 17 0%N) 0). simpl. lia.
Qed.
(** A short token is completed with whatever the memory contained. *)
Theorem C62_short_refuted : exists m junk junk',
  length junk = 16 /\ length junk' = 16 /\ message_to_update junk m <> message_to_update junk' m /\
  message_to_update junk m <> UB.
Proof. exists (UMsg [] 0), (replicate 16 0%N), (replicate 16 1%N). vm_compute. split_and!; done. Qed.

(** * C63: construction of a client *)
(** On a new path, a client is constructed only if the server was set up by it. *)
Theorem C63_fresh M (call : M -> M * bool) m e f' m' :
  client_ctor call CNone m e = (f', m', Ok tt) ->
  call m = (m', true) /\ f' = CDirectory (CDir true true).
Proof.
  unfold client_ctor. destruct e as [[] [] [] o]; simpl; try done.
  destruct (call m) as [m1 []] eqn:E; simpl; [|done]. by intros [= <- <-].
Qed.
(** But when the construction fails because the server cannot be reached or fails, a
    second one with the same path succeeds without any setup: C63 is false. *)
Theorem C63_refuted : exists e key m,
  let r := client_ctor (d_setup_call (good_env 32) key) CNone m e in
  r.2 = Throw RuntimeError /\
  forall m2 e2, ce_opens e2 = true ->
    client_ctor (d_setup_call (good_env 32) key) r.1.1 m2 e2 = (r.1.1, m2, Ok tt).
Proof.
  exists (CEnv true true true true), ex_key, (Machine FNone None). split; [done|]. intros m2 [a b c o] Ho. simpl in Ho. by subst o.
Qed.
(** So the server can be one that is not set up, and that refuses everything. *)
Theorem C63_unusable : exists e key m,
  (client_ctor (d_setup_call (good_env 32) key) CNone m e).2 = Throw RuntimeError /\
  let m2 := (mrun d_ctor d_setup m [MStart true]).1 in
  let r := client_ctor (d_setup_call (good_env 32) key) (client_ctor (d_setup_call (good_env 32) key) CNone m e).1.1 m2 e in
  r.2 = Ok tt /\ exists p, m_proc r.1.2 = Some p /\ answer p = SFailedPrecondition /\ d_search_answer p = Ok SFailedPrecondition.
Proof.
  exists (CEnv true true true true), ex_key, (Machine FNone None). split; [done|]. split; [done|]. exists fresh. done.
Qed.
Example C63_example :
  client_ctor (d_setup_call (good_env 32) ex_key) CNone (Machine FNone (Some fresh)) (CEnv true true true true) =
  (CDirectory (CDir true true), Machine (FDir (SDir true (Some ex_key))) (Some (Proc (Some []) (Some ex_key))), Ok tt).
Proof. done. Qed.

Print Assumptions C50_diana_success.
Print Assumptions C50_sophos_success.
Print Assumptions C50_no_effect_retry.
Print Assumptions C50_diana_crash.
Print Assumptions C50_sophos_crash.
Print Assumptions C50_never_again.
Print Assumptions C50_setup_refuted.
Print Assumptions C50_sophos_setup_refuted.
Print Assumptions C50_incomplete_answers_refuted.
Print Assumptions C50_write_refuted.
Print Assumptions C50_race_refuted.
Print Assumptions C50_search_defined.
Print Assumptions C51_throws.
Print Assumptions C51_counter.
Print Assumptions C51_refuted.
Print Assumptions C51_sophos_searches.
Print Assumptions C51_diana_searches.
Print Assumptions C51_sync_refuted.
Print Assumptions C62_roundtrip.
Print Assumptions C62_refuted.
Print Assumptions C62_short_refuted.
Print Assumptions C63_fresh.
Print Assumptions C63_refuted.
Print Assumptions C63_unusable.
