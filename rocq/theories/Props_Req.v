(** C74: search requests, known and unknown keywords. *)
From stdpp Require Import prelude gmap.
From Coq Require Import NArith Lia.
From Verif Require Import Base EncModel KvModel UtilsModel PoolModel SophosModel SophosSpec SophosProofs DianaModel
  RunnerModel ReqModel ReqSpec Props_Sophos Props_Runner.

Section sophos.
  Variable S : sophos.
  Variable in_domain : bytes -> bool.

  Lemma eval_mult_r_eq st : (forall x, in_domain x = true -> in_domain (so_eval S x) = true) -> in_domain st = true ->
    forall n, so_eval_mult_r S in_domain n st = Ok (toks S st n) /\ in_domain (toks S st n) = true.
  Proof.
    intros Hcl Hst n. revert st Hst. induction n as [|n IH]; intros st Hst; [done|].
    cbn [so_eval_mult_r]. unfold so_eval_r. rewrite Hst. cbn [rbind].
    destruct (IH (so_eval S st)) as [-> H]; [by apply Hcl|].
    assert (toks S (so_eval S st) n = toks S st (Datatypes.S n)) as <-; [|done].
    change (so_eval S st) with (toks S st 1). rewrite toks_add. done.
  Qed.

  Section closed.
    Hypothesis Hcl : forall x, in_domain x = true -> in_domain (so_eval S x) = true.
    Lemma rsa_loop_r_eq fuel : forall i max n st, in_domain st = true ->
      rsa_loop_r S in_domain fuel i max n st = rsa_loop S fuel i max n st.
    Proof.
      induction fuel as [|fuel IH]; intros i max n st Hst; cbn [rsa_loop_r rsa_loop]; [done|].
      destruct (i <? max)%N; [|done]. destruct (eval_mult_r_eq st Hcl Hst (N.to_nat n)) as [-> H]. cbn [rbind].
      change (eval_mult S st n) with (toks S st (N.to_nat n)). by rewrite IH.
    Qed.
    Lemma rsa_job_r_eq st idx max n : in_domain st = true ->
      rsa_job_r S in_domain st idx max n = rsa_job S st idx max n.
    Proof.
      intros Hst. unfold rsa_job_r, rsa_job. destruct (N.eqb_spec idx 0) as [->|Hne].
      - cbn [rbind]. by rewrite rsa_loop_r_eq.
      - destruct (eval_mult_r_eq st Hcl Hst (N.to_nat idx)) as [-> H]. cbn [rbind].
        change (eval_mult S st idx) with (toks S st (N.to_nat idx)). by rewrite rsa_loop_r_eq.
    Qed.
    Lemma rsa_jobs_r_eq st max n ts : in_domain st = true ->
      rsa_jobs_r S in_domain st max n ts = rsa_jobs S st max n ts.
    Proof.
      intros Hst. induction ts as [|t ts IH]; [done|]. cbn [rsa_jobs_r rsa_jobs]. by rewrite rsa_job_r_eq, IH.
    Qed.
    Lemma search_loop_r_eq db key n : forall st, in_domain st = true ->
      so_search_loop_r S in_domain n db key st = Ok (so_search_loop S n db key st).
    Proof.
      induction n as [|n IH]; intros st Hst; [done|]. cbn [so_search_loop_r so_search_loop]. unfold so_eval_r.
      rewrite Hst. cbn [rbind]. rewrite IH by (by apply Hcl). done.
    Qed.

    Lemma jobs_search db r n : (0 < n < 256)%N -> in_domain (ss_token r) = true ->
      exists ls, rsa_jobs_r S in_domain (ss_token r) (ss_count r) n (thread_ids n) = Ok ls /\
        concat ls ≫= so_access S db (ss_key r) ≡ₚ so_server_search S db r.
    Proof.
      intros Hn Hd. rewrite rsa_jobs_r_eq, jobs_eq by done. eexists. split; [done|].
      unfold so_server_search. rewrite search_loop_toks.
      rewrite <- (tokens_perm S (so_access S db (ss_key r)) (ss_token r) (N.to_nat n)) by lia.
      match goal with |- concat ?ls ≫= ?f ≡ₚ _ =>
        assert (concat ls ≫= f = ls ≫= fun l => l ≫= f) as -> end; [|done].
      generalize ((λ idx : nat, toks S (ss_token r) <$> filter (in_class (N.to_nat n) idx)
        (seq 0 (N.to_nat (ss_count r)))) <$> seq 0 (N.to_nat n)).
      intros ls. induction ls as [|l ls IH]; [done|]. cbn [concat]. by rewrite bind_app, bind_cons, IH.
    Qed.
  End closed.

  Lemma state_inv h' : forall h c db, tdp_ok S -> no_collision S (h ++ h') -> few_insertions (h ++ h') -> inv S h c db ->
    inv S (h ++ h') (so_state S c db h').1 (so_state S c db h').2.
  Proof.
    induction h' as [|o h' IH]; intros h c db Ht Hnc Hf I; [by rewrite app_nil_r|].
    destruct o as [kw i d|kw]; cbn [so_state].
    - rewrite cons_middle, app_assoc in Hnc, Hf |- *. apply IH; [done..|].
      rewrite <- app_assoc in Hnc, Hf. by apply inv_ins with (h' := h').
    - rewrite cons_middle, app_assoc in Hnc, Hf |- *. apply IH; [done..|].
      assert (E : forall kw', insertions kw' (h ++ [SoFind kw]) = insertions kw' h).
      { intros kw'. rewrite insertions_snoc. apply app_nil_r. }
      destruct I as [I1 I2 I3]. split.
      + intros kw'. by rewrite E.
      + intros kw' i x. rewrite E. apply I2.
      + intros t v Hv. destruct (I3 t v Hv) as (kw' & i & Hi & ->). exists kw', i. by rewrite E.
  Qed.
End sophos.

(** C74 (Sophos): after any history, the message of a search, decoded by the server and
    answered by either of its search functions, gives the documents of the keyword,
    and none if it is unknown, as long as the permutation accepts what the memory of the
    client contains. *)
Theorem C74_sophos_answer :
  forall (S : sophos) in_domain size hw h kw mem_token mem_key junk,
    tdp_ok S -> no_collision S h -> few_insertions h -> tdp_domain S in_domain -> so_sizes S size ->
    (0 < hw < 256)%N -> length mem_token = size -> length mem_key = 32 -> length junk = size ->
    in_domain mem_token = true ->
    let st := so_state S ∅ ∅ h in
    exists m r, so_sent S mem_token mem_key st.1 kw = [m] /\ so_message_to_search size junk m = Ok r /\
      (exists l, so_sync_search S in_domain hw st.2 r = Ok l /\ l ≡ₚ documents kw h) /\
      (exists l, so_async_search S in_domain hw st.2 r = Ok l /\ l ≡ₚ documents kw h).
Proof.
  intros S dom size hw h kw mt mk junk Ht Hnc Hf (Hg & Hi & He) (Sg & Si & Sk) Hhw Hmt Hmk Hj Hd st.
  pose proof (state_inv S h [] ∅ ∅ Ht Hnc Hf (inv_start S)) as I. cbn [app] in I. fold st in I.
  pose proof (find_eq S Ht h st.1 st.2 kw Hf I) as Hfind.
  set (r := so_search_request_mem S mt mk st.1 kw).
  assert (in_domain_r : dom (ss_token r) = true /\ length (ss_token r) = size /\ length (ss_key r) = 32 /\
     so_server_search S st.2 r = documents kw h).
  { rewrite <- Hfind. unfold r, so_search_request_mem, so_search_request. destruct (ctr_get st.1 kw) as [n|]; [|done].
    cbn [ss_token ss_key]. unfold invert_mult. split_and!; [| |done|done].
    - induction (N.to_nat n) as [|k IH]; [apply Hg|]. simpl. by apply Hi.
    - induction (N.to_nat n) as [|k IH]; [apply Sg|]. simpl. by apply Si. }
  destruct in_domain_r as (Hdr & Hlt & Hlk & Hs).
  exists (so_search_to_message r), r. split; [done|]. split.
  { by apply (C62_roundtrip (replicate 16 0%N) (replicate 16 0%N) 0%N size r (replicate 32 0%N)). }
  rewrite <- Hs. split.
  - unfold so_sync_search, so_sync_tokens.
    destruct (jobs_search S dom He st.2 r (N.max hw 2) ltac:(lia) Hdr) as (ls & -> & Hp). cbn [rbind].
    eexists. split; [done|]. done.
  - unfold so_async_search. destruct (2 <=? ss_count r)%N.
    + destruct (jobs_search S dom He st.2 r hw ltac:(lia) Hdr) as (ls & -> & Hp). cbn [rbind].
      eexists. split; [done|]. done.
    + rewrite search_loop_r_eq by done. eexists. split; done.
Qed.
Print Assumptions C74_sophos_answer.

(** C74 (Sophos): the message for a keyword with insertions does not depend on what was in
    the memory before. *)
Theorem C74_sophos_known :
  forall (S : sophos) h kw mt mk mt' mk',
    tdp_ok S -> no_collision S h -> few_insertions h -> insertions kw h <> [] ->
    so_sent S mt mk (so_state S ∅ ∅ h).1 kw = so_sent S mt' mk' (so_state S ∅ ∅ h).1 kw.
Proof.
  intros S h kw mt mk mt' mk' Ht Hnc Hf Hne.
  destruct (state_inv S h [] ∅ ∅ Ht Hnc Hf (inv_start S)) as [I _ _]. cbn [app] in I.
  unfold so_sent, so_search_request_mem, ctr_get. rewrite I. destruct (insertions kw h); [done|]. done.
Qed.
Print Assumptions C74_sophos_known.

(** C74 (refuted, Sophos): for every client, the message for an unknown keyword is a copy of
    uninitialised memory. *)
Theorem C74_sophos_request_refuted :
  (forall (S : sophos) c kw mt mk, c !! kw = None -> so_sent S mt mk c kw = [SoSMsg mt mk 0]) /\
  exists (S : sophos) c kw mt mt' mk, so_sent S mt mk c kw <> so_sent S mt' mk c kw.
Proof.
  split.
  - intros S c kw mt mk H. unfold so_sent, so_search_request_mem, ctr_get. by rewrite H.
  - exists ex_sophos, ∅, [1%N], [1%N], [2%N], []. by vm_compute.
Qed.
Print Assumptions C74_sophos_request_refuted.

(** A permutation of the strings whose first byte is below 128. *)
Definition ex_domain (b : bytes) : bool := match b with x :: _ => (x <? 128)%N | [] => true end.
Definition ex_shift (f : N -> N) (b : bytes) : bytes := match b with [x; y] => [x; f y] | _ => b end.
Definition ex_perm : sophos := Sophos (fun b => b ++ replicate 16 0%N) (fun _ => [7; 8]%N)
  (ex_shift N.succ) (ex_shift N.pred)
  (fun b => take 32 (b ++ replicate 32 0%N)) (fun k b => k ++ b).
Lemma ex_perm_ok : tdp_ok ex_perm /\ tdp_domain ex_perm ex_domain /\ so_sizes ex_perm 2.
Proof.
  split.
  { intros x. cbn. destruct x as [|a [|b [|]]]; cbn; [done..| |done]. by rewrite N.pred_succ. }
  split.
  { split; [done|]. split; intros [|a [|b [|]]]; done. }
  split; [done|]. split; [by intros [|a [|b [|]]]|].
  intros x. cbn [so_kprf ex_perm]. rewrite take_length, app_length, replicate_length. lia.
Qed.
(** C74 (refuted, Sophos): with a permutation that throws outside its domain, the search
    of an unknown keyword may terminate a server that searches synchronously. *)
Theorem C74_sophos_crash_refuted :
  exists (S : sophos) in_domain mt mk,
    tdp_ok S /\ tdp_domain S in_domain /\ so_sizes S 2 /\ length mt = 2 /\ length mk = 32 /\
    (forall hw db r, so_sent S mt mk ∅ [1%N] = [so_search_to_message r] ->
       so_sync_search S in_domain hw db r = Throw RuntimeError).
Proof.
  exists ex_perm, ex_domain, [255; 255]%N, (replicate 32 9%N). destruct ex_perm_ok as (? & ? & ?). split; [done|]. split; [done|].
  split; [done|]. split; [done|]. split; [done|].
  intros hw db [tk key cnt] Hr. injection Hr as <- <- <-.
  unfold so_sync_search, so_sync_tokens. cbn [ss_token ss_count].
  assert (exists l, thread_ids (N.max hw 2) = 0%N :: 1%N :: l) as [l ->].
  { unfold thread_ids. destruct (N.to_nat (N.max hw 2)) as [|[|n]] eqn:E; [lia..|]. by eexists. }
  set (nt := (N.max hw 2 mod 2 ^ 8)%N). cbn [rsa_jobs_r]. fold nt.
  change (0 mod 2 ^ 8)%N with 0%N. change (1 mod 2 ^ 8)%N with 1%N.
  assert (forall i st, rsa_loop_r ex_perm ex_domain 0 i 0 nt st = Ok []) as Hl.
  { intros i st. cbn. destruct (N.ltb_spec i 0); [lia|done]. }
  unfold rsa_job_r at 1. cbn [N.eqb rbind N.to_nat]. rewrite Hl. cbn [rbind].
  unfold rsa_job_r. change (1 =? 0)%N with false. cbn [so_eval_mult_r]. change (N.to_nat 1) with 1.
  cbn [so_eval_mult_r]. unfold so_eval_r at 1. change (ex_domain [255; 255]%N) with false. done.
Qed.
Print Assumptions C74_sophos_crash_refuted.

(** C74 (Diana): nothing is sent for an unknown keyword, and the request for a known one is
    made of the keys and of the counter. *)
Theorem C74_diana_sent :
  forall (D : diana) c kw,
    (c !! kw = None -> d_sent D c kw = []) /\
    (forall n, c !! kw = Some n -> (n + 1 < 2 ^ 32)%N ->
       d_sent D c kw = [DSearch (d_kwtok D (take 16 (d_hash D kw)))
                          (Some (d_constrain D (d_root D (take 16 (d_hash D kw))) 0 n)) (n + 1)]).
Proof.
  intros D c kw. unfold d_sent, d_search_request, ctr_get. split.
  - intros ->. done.
  - intros n -> Hn. cbn [ds_count]. rewrite N.mod_small by done.
    destruct (N.eqb_spec (n + 1) 0); [lia|done].
Qed.
Print Assumptions C74_diana_sent.

(** The hypotheses hold: two insertions for one keyword, and searches of that keyword and
    of another. *)
Example C74_ex :
  let h := [SoIns [1%N] 10 true; SoIns [1%N] 11 true] in
  tdp_ok ex_perm /\ no_collision ex_perm h /\ few_insertions h /\
  tdp_domain ex_perm ex_domain /\ so_sizes ex_perm 2 /\ ex_domain [1; 2]%N = true /\
  insertions [1%N] h <> [] /\
  (forall kw, kw = [1%N] \/ kw = [2%N] ->
   match so_sent ex_perm [1; 2]%N (replicate 32 9%N) (so_state ex_perm ∅ ∅ h).1 kw with
   | [m] => match so_message_to_search 2 [0; 0]%N m with
            | Ok r => so_sync_search ex_perm ex_domain 4 (so_state ex_perm ∅ ∅ h).2 r = Ok (documents kw h)
            | _ => False end
   | _ => False end).
Proof.
  cbn zeta. set (h := [SoIns [1%N] 10 true; SoIns [1%N] 11 true]).
  assert (K : forall kw, insertions kw h <> [] -> kw = [1%N]).
  { intros kw H. destruct (decide ([1%N] = kw)) as [<-|H1]; [done|]. exfalso. apply H.
    unfold insertions, h. csimpl. by rewrite !decide_False. }
  destruct ex_perm_ok as (Ht & Hd & Hs). split; [done|]. split.
  { intros kw i kw' i' Hi Hi' Et.
    assert (kw = [1%N]) as -> by (apply K; intros E; rewrite E in Hi; simpl in Hi; lia).
    assert (kw' = [1%N]) as -> by (apply K; intros E; rewrite E in Hi'; simpl in Hi'; lia).
    split; [done|]. vm_compute in Hi, Hi'.
    destruct i as [|[|i]], i' as [|[|i']]; try lia; vm_compute in Et; discriminate. }
  split.
  { intros kw. destruct (decide (insertions kw h = [])) as [->|H]; [done|]. by rewrite (K kw H). }
  split; [done|]. split; [done|]. split; [done|]. split; [by vm_compute|].
  intros kw [->| ->]; by vm_compute.
Qed.
