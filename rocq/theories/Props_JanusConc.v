(** Requests of Janus processed at the same time. *)
From stdpp Require Import prelude gmap.
From Coq Require Import NArith Lia.
From Verif Require Import Base EncModel KvModel UtilsModel DianaModel DianaSpec JanusModel JanusSpec JanusProofs Props_Janus
  HideJSpec Props_HideJ JanusConcModel JanusConcSpec JanusConcProofs.

Lemma par_counts ops : forall h kw n, j_ok1 h ops -> JFindPar kw n ∈ ops -> (0 < n < 256)%N.
Proof.
  induction ops as [|o ops IH]; intros h kw n Hok Hin; [by apply elem_of_nil in Hin|]. destruct Hok as [Ho Hok].
  apply elem_of_cons in Hin as [<-|Hin]; [done|]. by eapply IH.
Qed.
Lemma jd_start : jd_inv 0 j_hist0 j_new_client ∅ ∅.
Proof. split; try done. all: intros kw e _; cbn; by rewrite ?lookup_empty. Qed.

(** ** C87: requests processed at the same time *)
(** The accesses to the databases may be interleaved in any way, as long as a search waits
    for the end of the requests made before it for the same keyword: the answers and the
    final state of the server are those of one request after the other, in the order of
    the client. *)
Theorem C87_serial :
  forall (S : janus) ops ps s,
    j_crypto_ok S -> j_no_collision S ops -> j_ok1 j_hist0 ops ->
    rtc (turn_step S ops) (requests S j_new_client ops, j_new_server) (ps, s) -> Forall answered ps ->
    exists ans c, j_run S j_new_client j_new_server ops ans c s /\ found ops ps = (fun r => Some (Ok r)) <$> ans.
Proof.
  intros S ops ps s Hk [Xt Xk Xi Xd Xf] Hok Hr Ha.
  assert (cols S (foldl j_hist_step j_hist0 ops)) as Hc.
  { intros [] kw e i kw' e' i' Hd Hi Hi' E; [by eapply Xi|by eapply Xd|done]. }
  destruct (requests_uses S Hk ops 0 j_hist0 j_new_client ∅ ∅ Xf Hc ltac:(intros kw n; by eapply par_counts) jd_start) as [Hlen Hu].
  assert (serial S (requests S j_new_client ops) j_new_server ps s) as Hs.
  { apply (steps_serial S (fun ps i => in_turn ops i ps) (_, _) (_, _) Hr); [|done].
    intros i qs p k Hin Hl Hsub Hp Hpk j q Hj Hq. cbn [fst] in *.
    destruct (lookup_lt_is_Some_2 (requests S j_new_client ops) i) as [p0 Hp0]; [rewrite <- Hl; by eapply lookup_lt_Some|].
    destruct (lookup_lt_is_Some_2 (requests S j_new_client ops) j) as [q0 Hq0]; [rewrite <- Hl; by eapply lookup_lt_Some|].
    destruct (Hu i p0 k Hp0 (Hsub _ _ _ Hp Hp0 k Hpk)) as (oi & Hoi & Fi).
    destruct (lookup_lt_is_Some_2 ops j) as [oj Hoj]; [rewrite <- Hlen, <- Hl; by eapply lookup_lt_Some|].
    destruct (decide (is_find oi /\ op_kw oj = op_kw oi)) as [[H1 H2]|Hn]; [left; by eapply (Hin j oi oj q)|right].
    intros Hqk. destruct (Hu j q0 k Hq0 (Hsub _ _ _ Hq Hq0 k Hqk)) as (oj' & Hoj' & Fj).
    rewrite Hoj in Hoj'. injection Hoj' as <-. apply Hn. by eapply (fp_clash S ops i j). }
  eapply (serial_run S Hk (fun kw => kw ∈ op_kw <$> ops) (fun kw i => i ∈ ops ≫= op_docs kw) Xt Xk ops
    j_act0 j_hist0 j_new_client j_new_server (fun _ => []) (fun _ => []) no_slots no_slots ∅ ∅); [| | | | |exact Hs].
  - by apply few_start.
  - split; [exact Xi|exact Xd].
  - done.
  - apply Forall_forall. intros o Ho. split.
    + apply elem_of_list_fmap. by exists o.
    + intros i Hi. apply elem_of_list_bind. by exists o.
  - apply j_inv_start.
Qed.
Print Assumptions C87_serial.

(** ... hence the searches return the documents inserted and not removed, on the histories
    of C41. *)
Theorem C87_answers :
  forall (S : janus) ops ps s,
    j_crypto_ok S -> j_no_collision S ops -> j_ok j_hist0 ops ->
    rtc (turn_step S ops) (requests S j_new_client ops, j_new_server) (ps, s) -> Forall answered ps ->
    exists ans, found ops ps = (fun r => Some (Ok r)) <$> ans /\ Forall2 (≡ₚ) ans (j_answers (fun _ => []) ops).
Proof.
  intros S ops ps s Hk Hx Hok Hr Ha.
  destruct (C87_serial S ops ps s Hk Hx (j_ok_weaken _ _ Hok) Hr Ha) as (ans & c & Hrun & E).
  exists ans. split; [done|]. by eapply C41_search.
Qed.
Print Assumptions C87_answers.

(** No execution gets stuck: the requests can always be brought to their end, each
    waiting for its turn. *)
Theorem C87_completes :
  forall (S : janus) ops (x : list (proc S) * j_server),
    exists y, rtc (turn_step S ops) x y /\ Forall answered y.1 /\ length y.1 = length x.1.
Proof.
  intros S ops x.
  assert (forall k, k <= length x.1 -> exists y, rtc (turn_step S ops) x y /\ length y.1 = length x.1 /\
    forall j p, j < k -> y.1 !! j = Some p -> answered p) as G.
  { induction k as [|k IH]; intros Hle; [exists x; split; [done|]; split; [done|lia]|].
    destruct (IH ltac:(lia)) as ([ps s] & Hr & Hl & Hd). cbn [fst] in *.
    destruct (lookup_lt_is_Some_2 ps k) as [p Hp]; [lia|].
    destruct (proc_completes S p s) as (p' & s' & Hst & Ha).
    assert (forall a b, rtc (step1 S) a b -> forall qs, qs !! k = Some a.1 ->
      (forall j q, j < k -> qs !! j = Some q -> answered q) ->
      rtc (turn_step S ops) (qs, a.2) (<[k := b.1]> qs, b.2)) as L.
    { induction 1 as [a|a b c (e & He & Hs) _ IH']; intros qs Hq Hdone; [by rewrite list_insert_id|].
      eapply rtc_l.
      - exists k. split; [|by econstructor]. intros j oi oj q Hj _ _ _ _ Hqj. by eapply Hdone.
      - specialize (IH' (<[k:=b.1]> qs)). rewrite list_insert_insert in IH'. apply IH'.
        + apply list_lookup_insert. by eapply lookup_lt_Some.
        + intros j q Hj Hqj. rewrite list_lookup_insert_ne in Hqj by lia. by eapply Hdone. }
    specialize (L _ _ Hst ps Hp Hd). cbn [fst snd] in L. exists (<[k:=p']> ps, s'). split; [by etrans|].
    cbn [fst]. split; [by rewrite insert_length|]. intros j q Hj Hq. destruct (decide (j = k)) as [->|Hne].
    - rewrite list_lookup_insert in Hq by (by eapply lookup_lt_Some). by injection Hq as <-.
    - rewrite list_lookup_insert_ne in Hq by done. eapply (Hd j); [lia|done]. }
  destruct (G (length x.1) ltac:(lia)) as (y & Hr & Hl & Hd). exists y. split; [done|]. split; [|done].
  apply Forall_lookup. intros j p Hp. apply (Hd j p); [|done]. rewrite <- Hl. by eapply lookup_lt_Some.
Qed.
Print Assumptions C87_completes.

(** *** Executions by computation *)
Definition exec_th S (th : d_thread) (s : j_server) : option (d_thread * list (N * bytes * N) * j_server) :=
  match th with
  | DThread t (Some (i, ut, mask, v)) rest =>
      Some (DThread t None rest, [(i, diana_xor_mask v mask, t)], jset s (DelDb, ut) None)
  | DThread t None ((i, st) :: rest) =>
      match jget s (DelDb, (d_token_mask (jn_del S) st).1) with
      | None => Some (DThread t None rest, [], s)
      | Some v => Some (DThread t (Some (i, (d_token_mask (jn_del S) st).1, (d_token_mask (jn_del S) st).2, v)) rest, [], s)
      end
  | DThread t None [] => None
  end.
(** The last thread that has not returned. *)
Fixpoint exec_ths S (ths : list d_thread) (s : j_server) : option (list d_thread * list (N * bytes * N) * j_server) :=
  match ths with
  | [] => None
  | th :: ths' =>
      match exec_ths S ths' s with
      | Some (ths'', calls, s') => Some (th :: ths'', calls, s')
      | None => match exec_th S th s with Some (th', calls, s') => Some (th' :: ths', calls, s') | None => None end
      end
  end.
Definition exec1 {S} (p : proc S) (s : j_server) : option (proc S * j_server) :=
  match p with
  | Run (Get x f) => Some (Run (f (jget s x)), s)
  | Run (Put x v p') => Some (Run p', jset s x v)
  | Run (Ret _) => None
  | Threads req n ths log =>
      match exec_ths S ths s with
      | Some (ths', calls, s') => Some (Threads req n ths' (log ++ calls), s')
      | None => Some (Run (p_par_rest S req n (d_result_list n log)), s)
      end
  end.
Fixpoint exec {S} (sched : list nat) (x : list (proc S) * j_server) : list (proc S) * j_server :=
  match sched with
  | [] => x
  | i :: sched' =>
      match x.1 !! i ≫= fun p => exec1 p x.2 with
      | Some (p', s') => exec sched' (<[i := p']> x.1, s')
      | None => exec sched' x
      end
  end.
Lemma exec_th_some S th s th' calls s' : exec_th S th s = Some (th', calls, s') ->
  exists e, thread_step S th e th' calls /\ happens s e s'.
Proof.
  destruct th as [t [[[[i ut] mask] v]|] [|[j st] rest]]; intros E; cbn [exec_th] in E; try done.
  - injection E as <- <- <-. eexists. split; [apply ts_remove|done].
  - injection E as <- <- <-. eexists. split; [apply ts_remove|done].
  - destruct (d_token_mask (jn_del S) st) as [ut mask] eqn:Et. cbn [fst snd] in E.
    destruct (jget s (DelDb, ut)) as [v|] eqn:Eg; injection E as <- <- <-.
    + exists (EGet (DelDb, ut) (Some v)). split; [by apply ts_hit|by split].
    + exists (EGet (DelDb, ut) None). split; [by eapply ts_miss|by split].
Qed.
Lemma exec_th_none S th s : exec_th S th s = None -> thread_done th.
Proof.
  destruct th as [t [[[[i ut] mask] v]|] [|[j st] rest]]; intros E; cbn [exec_th] in E; try done. by case_match.
Qed.
Lemma exec_ths_spec S s : forall ths,
  match exec_ths S ths s with
  | None => Forall thread_done ths
  | Some (ths', calls, s') => exists pre th post th' e, ths = pre ++ th :: post /\ ths' = pre ++ th' :: post /\
      thread_step S th e th' calls /\ happens s e s'
  end.
Proof.
  induction ths as [|th ths IH]; [constructor|]. cbn [exec_ths]. destruct (exec_ths S ths s) as [[[ths' calls] s']|].
  - destruct IH as (pre & t0 & post & t1 & e & -> & -> & H1 & H2). by exists (th :: pre), t0, post, t1, e.
  - destruct (exec_th S th s) as [[[th' calls] s']|] eqn:E.
    + apply exec_th_some in E as (e & H1 & H2). by exists [], th, ths, th', e.
    + constructor; [by eapply exec_th_none|done].
Qed.
Lemma exec1_sound {S} (p : proc S) s p' s' : exec1 p s = Some (p', s') -> exists e, proc_step S p e p' /\ happens s e s'.
Proof.
  destruct p as [[r|x f|x v p]|req n ths log]; intros E; cbn [exec1] in E; try done.
  - injection E as <- <-. exists (EGet x (jget s x)). split; [constructor|done].
  - injection E as <- <-. exists (EPut x v). split; [constructor|done].
  - pose proof (exec_ths_spec S s ths) as G. destruct (exec_ths S ths s) as [[[ths' calls] s1]|]; injection E as <- <-.
    + destruct G as (pre & th & post & th' & e & -> & -> & H1 & H2). exists e. split; [by constructor|done].
    + exists ETau. split; [by constructor|done].
Qed.
Lemma exec_sound {S} sched : forall x : list (proc S) * j_server, rtc (any_step S) x (exec sched x).
Proof.
  induction sched as [|i sched IH]; intros x; [constructor|]. cbn [exec].
  destruct (x.1 !! i) as [p|] eqn:Ep; [|apply IH]. cbn [mbind option_bind].
  destruct (exec1 p x.2) as [[p' s']|] eqn:E; [|apply IH].
  apply exec1_sound in E as (e & H1 & H2). eapply rtc_l; [|apply IH]. destruct x as [ps s]. exists i. by econstructor.
Qed.
Definition answered_b {S} (p : proc S) : bool := match p with Run (Ret _) => true | _ => false end.
Lemma answered_sound {S} (ps : list (proc S)) : forallb answered_b ps = true -> Forall answered ps.
Proof.
  rewrite forallb_forall. intros H. apply Forall_forall. intros p Hp. apply elem_of_list_In in Hp. specialize (H p Hp).
  destruct p as [[r|x f|x v p]|req n ths log]; try done. by exists r.
Qed.
(** The same with the turns checked. *)
Definition in_turn_b {S} (ops : list j_op) (i : nat) (ps : list (proc S)) : bool :=
  forallb (fun j => match ops !! i, ops !! j, ps !! j with
    | Some oi, Some oj, Some p =>
        if decide (is_find oi /\ op_kw oj = op_kw oi) then answered_b p else true
    | _, _, _ => true
    end) (seq 0 i).
Fixpoint exec_turn {S} (ops : list j_op) (sched : list nat) (x : list (proc S) * j_server) : list (proc S) * j_server :=
  match sched with
  | [] => x
  | i :: sched' =>
      match (if in_turn_b ops i x.1 then x.1 !! i ≫= fun p => exec1 p x.2 else None) with
      | Some (p', s') => exec_turn ops sched' (<[i := p']> x.1, s')
      | None => exec_turn ops sched' x
      end
  end.
Lemma exec_turn_sound {S} ops sched : forall x : list (proc S) * j_server, rtc (turn_step S ops) x (exec_turn ops sched x).
Proof.
  induction sched as [|i sched IH]; intros x; [constructor|]. cbn [exec_turn].
  destruct (in_turn_b ops i x.1) eqn:Et; [|apply IH].
  destruct (x.1 !! i) as [p|] eqn:Ep; [|apply IH]. cbn [mbind option_bind].
  destruct (exec1 p x.2) as [[p' s']|] eqn:E; [|apply IH].
  apply exec1_sound in E as (e & H1 & H2). eapply rtc_l; [|apply IH]. destruct x as [ps s]. exists i.
  split; [|by econstructor]. intros j oi oj q Hj Hoi Hoj Hf Hkw Hq. unfold in_turn_b in Et. rewrite forallb_forall in Et.
  specialize (Et j). rewrite Hoi, Hoj, Hq in Et. rewrite decide_True in Et by done.
  destruct q as [[r|y f|y v q]|req n ths log]; [by exists r|..]; (assert (false = true) by (apply Et, elem_of_list_In, elem_of_seq; lia); done).
Qed.

(** Short keywords and small documents do not collide in the example. *)
Lemma ex_free ops :
  forallb (fun o => bool_decide (length (op_kw o) = 1) &&
    match o with JIns _ i | JRem _ i => N.ltb i (2 ^ 64) | _ => true end) ops = true ->
  (N.of_nat (length ops) < 2 ^ 32)%N -> j_no_collision ex_janus ops.
Proof.
  rewrite forallb_forall. intros H Hn. apply ex_no_collision; [|done|].
  - apply Forall_forall. intros o Ho. apply elem_of_list_In in Ho. apply H, andb_prop in Ho as [Ho _]. by apply bool_decide_eq_true in Ho.
  - intros kw i Hi. apply elem_of_list_bind in Hi as (o & Hi & Ho). apply elem_of_list_In in Ho. apply H, andb_prop in Ho as [_ Ho].
    destruct o; cbn in Hi; try (by apply elem_of_nil in Hi); case_decide; try (by apply elem_of_nil in Hi);
      apply elem_of_list_singleton in Hi as ->; by apply N.ltb_lt.
Qed.
(** A history and an interleaving: searches of two keywords overlap, and an insertion is
    delivered in the middle of an earlier search of its keyword. *)
Definition ex_ops : list j_op :=
  [JIns ex_kw 1; JIns ex_kw 2; JIns ex_kw2 7; JFind ex_kw; JFind ex_kw2; JRem ex_kw 1; JRem ex_kw2 7; JIns ex_kw 3;
   JFindPar ex_kw2 2; JFind ex_kw; JIns ex_kw2 9].
Definition ex_sched : list nat :=
  [2; 0; 1; 3; 4; 3; 6; 4; 3; 10; 4; 5; 3; 3; 4; 7; 8; 3; 8; 3; 3; 9; 9; 8; 8; 8; 9; 8; 9; 9; 9; 9; 9; 9; 9; 8; 8].
Example C87_case :
  j_crypto_ok ex_janus /\ j_no_collision ex_janus ex_ops /\ j_ok j_hist0 ex_ops /\
  let y := exec_turn ex_ops ex_sched (requests ex_janus j_new_client ex_ops, j_new_server) in
  rtc (turn_step ex_janus ex_ops) (requests ex_janus j_new_client ex_ops, j_new_server) y /\
  Forall answered y.1 /\ found ex_ops y.1 = [Some (Ok [1; 2]); Some (Ok [7]); Some (Ok []); Some (Ok [2; 3])]%N.
Proof.
  split_and!.
  - apply ex_janus_ok.
  - apply ex_free; by vm_compute.
  - cbn [ex_ops j_ok]. repeat split; try (by vm_compute); try (apply (bool_decide_unpack _); by vm_compute).
  - intros y. split; [apply exec_turn_sound|]. split; [apply answered_sound; by vm_compute|by vm_compute].
Qed.

(** The waiting is needed.  Two searches of the same keyword at the same time: the second
    one reads the cache before the first one has written it, and writes it after; the
    document is in no later answer. *)
Theorem C87_overlap_refuted :
  exists (S : janus) ops ps s,
    j_crypto_ok S /\ j_no_collision S ops /\ j_ok j_hist0 ops /\
    ops = [JIns ex_kw 1; JFind ex_kw; JFind ex_kw; JFind ex_kw] /\
    rtc (any_step S) (requests S j_new_client ops, j_new_server) (ps, s) /\ Forall answered ps /\
    found ops ps = [Some (Ok [1%N]); Some (Ok []); Some (Ok [])] /\
    j_answers (fun _ => []) ops = [[1%N]; [1%N]; [1%N]].
Proof.
  set (ops := [JIns ex_kw 1; JFind ex_kw; JFind ex_kw; JFind ex_kw]).
  set (y := exec [0; 2; 1; 1; 1; 1; 2; 3; 3] (requests ex_janus j_new_client ops, j_new_server)).
  exists ex_janus, ops, y.1, y.2. split_and!.
  - apply ex_janus_ok.
  - apply ex_free; by vm_compute.
  - cbn [ops j_ok]. repeat split; try (by vm_compute); try (apply (bool_decide_unpack _); by vm_compute).
  - done.
  - rewrite <- surjective_pairing. apply exec_sound.
  - apply answered_sound. by vm_compute.
  - by vm_compute.
  - by vm_compute.
Qed.
Print Assumptions C87_overlap_refuted.

(** A search overtaken by the next one: the document removed in between comes back, and
    stays. *)
Theorem C87_overtaken_refuted :
  exists (S : janus) ops ps s,
    j_crypto_ok S /\ j_no_collision S ops /\ j_ok j_hist0 ops /\
    ops = [JIns ex_kw 1; JFind ex_kw; JRem ex_kw 1; JFind ex_kw; JFind ex_kw] /\
    rtc (any_step S) (requests S j_new_client ops, j_new_server) (ps, s) /\ Forall answered ps /\
    found ops ps = [Some (Ok [1%N]); Some (Ok []); Some (Ok [1%N])] /\
    j_answers (fun _ => []) ops = [[1%N]; []; []].
Proof.
  set (ops := [JIns ex_kw 1; JFind ex_kw; JRem ex_kw 1; JFind ex_kw; JFind ex_kw]).
  set (y := exec [0; 2; 3; 3; 3; 3; 1; 1; 1; 1; 4; 4] (requests ex_janus j_new_client ops, j_new_server)).
  exists ex_janus, ops, y.1, y.2. split_and!.
  - apply ex_janus_ok.
  - apply ex_free; by vm_compute.
  - cbn [ops j_ok]. repeat split; try (by vm_compute); try (apply (bool_decide_unpack _); by vm_compute).
  - done.
  - rewrite <- surjective_pairing. apply exec_sound.
  - apply answered_sound. by vm_compute.
  - by vm_compute.
  - by vm_compute.
Qed.
Print Assumptions C87_overtaken_refuted.

(** An insertion overtaken by the search that follows it is lost. *)
Theorem C87_late_refuted :
  exists (S : janus) ops ps s,
    j_crypto_ok S /\ j_no_collision S ops /\ j_ok j_hist0 ops /\
    ops = [JIns ex_kw 1; JFind ex_kw; JFind ex_kw] /\
    rtc (any_step S) (requests S j_new_client ops, j_new_server) (ps, s) /\ Forall answered ps /\
    found ops ps = [Some (Ok []); Some (Ok [])] /\
    j_answers (fun _ => []) ops = [[1%N]; [1%N]].
Proof.
  set (ops := [JIns ex_kw 1; JFind ex_kw; JFind ex_kw]).
  set (y := exec [1; 1; 1; 0; 2; 2] (requests ex_janus j_new_client ops, j_new_server)).
  exists ex_janus, ops, y.1, y.2. split_and!.
  - apply ex_janus_ok.
  - apply ex_free; by vm_compute.
  - cbn [ops j_ok]. repeat split; try (by vm_compute); try (apply (bool_decide_unpack _); by vm_compute).
  - done.
  - rewrite <- surjective_pairing. apply exec_sound.
  - apply answered_sound. by vm_compute.
  - by vm_compute.
  - by vm_compute.
Qed.
Print Assumptions C87_late_refuted.
