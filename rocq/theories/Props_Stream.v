(** Final theorems about connections that may break (properties C96 to C98). *)
From stdpp Require Import prelude gmap.
From Coq Require Import NArith Lia.
From Verif Require Import Base EncModel KvModel UtilsModel SophosModel DianaModel SophosSpec DianaSpec
  ConcModel ConcSpec ConcProofs SophosProofs DianaProofs GenClientSpec Props_GenClient PowerModel PowerSpec PowerProofs
  StreamModel StreamSpec StreamProofs.
Local Arguments N.modulo : simpl never.
Local Arguments N.pow : simpl never.
Local Arguments N.of_nat : simpl never.
Local Arguments N.to_nat : simpl never.

(** ** C96: searches of a client whose connections break *)
(** The results are those of the documents that have arrived; [sent] tells which of them come back,
    and in which order. *)
Theorem C96_sophos :
  forall (S : sophos) (ops : list (yop (so_proto S))) kw sent ok,
    tdp_ok S -> y_no_collision (update_token S) ops -> y_few ops ->
    returns ops (YSearch _ kw sent ok)
      (YResults _ (omap (fun i => reverse (arrived_docs kw ops) !! i) sent) (negb ok)).
Proof.
  intros S ops kw sent ok Ht Hnc Hf.
  destruct (search_generic _ _ _ _ _ (so_proto_ok S Ht) ops kw Hnc Hf) as (ins & arr & H & Hr & Ha).
  { intros k. by apply Forall_true. }
  specialize (H sent ok). rewrite <- Ha, <- (rising_seq _ _ 0 Hr) by lia. rewrite Nat.sub_0_r, <- omap_reverse. exact H.
Qed.
Print Assumptions C96_sophos.
Theorem C96_diana :
  forall (D : diana) (ops : list (yop (d_proto D))) kw sent ok,
    d_crypto_ok D -> y_no_collision (d_update_token D) ops -> y_few ops -> d_asked_sized D ops ->
    returns ops (YSearch _ kw sent ok)
      (YResults _ (omap (fun i => arrived_docs kw ops !! i) sent) (negb ok)).
Proof.
  intros D ops kw sent ok Hd Hnc Hf Hok.
  destruct (search_generic _ _ _ _ _ (d_proto_ok D Hd) ops kw Hnc Hf Hok) as (ins & arr & H & Hr & Ha).
  specialize (H sent ok). rewrite <- Ha, <- (rising_seq _ _ 0 Hr) by lia. rewrite Nat.sub_0_r. exact H.
Qed.
Print Assumptions C96_diana.

(** A search whose stream does not break returns them all, each once. *)
Lemma omap_lookup_seq {A} (l : list A) : omap (fun i => l !! i) (seq 0 (length l)) = l.
Proof. apply oldest_first_all. Qed.
Lemma found_of {P : proto} (ops : list (yop P)) kw l l' : l' ≡ₚ l ->
  (forall sent, returns ops (YSearch P kw sent true) (YResults P (omap (fun i => l' !! i) sent) false)) -> found ops kw l.
Proof.
  intros Hp H sent Hs. eexists. split; [apply H|]. rewrite <- Hp. rewrite Hs, <- Hp. by rewrite omap_lookup_seq.
Qed.
Theorem C96_complete :
  (forall (S : sophos) (ops : list (yop (so_proto S))) kw,
     tdp_ok S -> y_no_collision (update_token S) ops -> y_few ops -> found ops kw (arrived_docs kw ops)) /\
  (forall (D : diana) (ops : list (yop (d_proto D))) kw,
     d_crypto_ok D -> y_no_collision (d_update_token D) ops -> y_few ops -> d_asked_sized D ops ->
     found ops kw (arrived_docs kw ops)).
Proof.
  split.
  - intros S ops kw Ht Hnc Hf. apply (found_of _ _ _ (reverse (arrived_docs kw ops))); [by rewrite reverse_Permutation|].
    intros sent. by apply C96_sophos.
  - intros D ops kw Ht Hnc Hf Hok. apply (found_of _ _ _ (arrived_docs kw ops)); [done|]. intros sent. by apply C96_diana.
Qed.
Print Assumptions C96_complete.

(** ** C97: update sessions *)
(** What arrives of a session is what it inserted up to some point, in order; if its end reports no error,
    everything. *)
Lemma session_arrived {P : proto} (h s : list (yop P)) breaks :
  z_session (z_run h) = false -> in_session s -> y_few (h ++ YStart P :: s) ->
  exists k, (forall kw, arrived_docs kw ((h ++ YStart P :: s) ++ [YEnd P breaks]) = arrived_docs kw h ++ docs_of kw (take k (s ≫= asked))) /\
    (returns (h ++ YStart P :: s) (YEnd P breaks) (YReturn P false) -> length (s ≫= asked) <= k).
Proof.
  intros Hs Hin Hf. destruct (session_whole h s breaks Hs Hin) as (k & E & Hk & _). exists k. split.
  - intros kw. unfold arrived_docs. by rewrite E, docs_of_app.
  - intros Hr. apply Hk. assert (Hs' : z_session (z_run (h ++ YStart P :: s)) = true).
    { rewrite z_run_app. cbn [foldl z_step]. rewrite Hs. by apply session_prefix. }
    pose proof (end_output _ breaks Hf Hs') as Ho. unfold returns in *. rewrite Hr in Ho. apply app_inv_head in Ho.
    destruct breaks; [done|]. split; [done|]. injection Ho as Ho. by destruct (z_works (z_run (h ++ YStart P :: s))).
Qed.
Theorem C97_sophos :
  forall (S : sophos) (h s : list (yop (so_proto S))) breaks kw,
    let ops := h ++ YStart _ :: s in
    let ended := ops ++ [YEnd _ breaks] in
    tdp_ok S -> y_no_collision (update_token S) ended -> y_few ended ->
    z_session (z_run h) = false -> in_session s ->
    exists k, found ended kw (arrived_docs kw h ++ docs_of kw (take k (s ≫= asked))) /\
      (returns ops (YEnd _ breaks) (YReturn _ false) -> length (s ≫= asked) <= k).
Proof.
  intros S h s breaks kw ops ended Ht Hnc Hf Hs Hin.
  destruct (session_arrived h s breaks Hs Hin (y_few_app _ _ Hf)) as (k & E & Hk). exists k. split; [|done].
  rewrite <- E. by apply C96_complete.
Qed.
Print Assumptions C97_sophos.
Theorem C97_diana :
  forall (D : diana) (h s : list (yop (d_proto D))) breaks kw,
    let ops := h ++ YStart _ :: s in
    let ended := ops ++ [YEnd _ breaks] in
    d_crypto_ok D -> y_no_collision (d_update_token D) ended -> y_few ended -> d_asked_sized D ended ->
    z_session (z_run h) = false -> in_session s ->
    exists k, found ended kw (arrived_docs kw h ++ docs_of kw (take k (s ≫= asked))) /\
      (returns ops (YEnd _ breaks) (YReturn _ false) -> length (s ≫= asked) <= k).
Proof.
  intros D h s breaks kw ops ended Ht Hnc Hf Hok Hs Hin.
  destruct (session_arrived h s breaks Hs Hin (y_few_app _ _ Hf)) as (k & E & Hk). exists k. split; [|done].
  rewrite <- E. by apply C96_complete.
Qed.
Print Assumptions C97_diana.

(** ** C98: load_inverted_index *)
Definition flatten {A} (db : list (bytes * list A)) : list (bytes * A) := db ≫= fun x => pair x.1 <$> x.2.
(** It returns true and no error is logged at the end: all the documents of the file are found. *)
Theorem C98_load :
  forall (D : diana) (h : list (yop (d_proto D))) jobs breaks db kw,
    let before := h ++ YStart _ :: mjoin jobs in
    let ops := h ++ y_load_ops _ jobs (LoadDone breaks) in
    d_crypto_ok D -> y_no_collision (d_update_token D) ops -> y_few ops -> d_asked_sized D ops ->
    z_session (z_run h) = false -> in_session (mjoin jobs) -> mjoin jobs ≫= asked = flatten db ->
    returns before (YEnd _ breaks) (YReturn _ false) ->
    y_load_result (LoadDone breaks) = Ok true /\ found ops kw (arrived_docs kw h ++ docs_of kw (flatten db)).
Proof.
  intros D h jobs breaks db kw before ops Hd Hnc Hf Hok Hs Hin Ej Hr. split; [by vm_compute|].
  assert (Eo : ops = before ++ [YEnd _ breaks]) by (subst ops before; cbn [y_load_ops]; by rewrite <- app_assoc).
  rewrite Eo in *. destruct (C97_diana D h (mjoin jobs) breaks kw Hd Hnc Hf Hok Hs Hin) as (k & E & Hk).
  rewrite Ej in E. specialize (Hk Hr). rewrite Ej in Hk. by rewrite take_ge in E.
Qed.
Print Assumptions C98_load.
Theorem C98_load_sophos :
  forall (S : sophos) (h : list (yop (so_proto S))) jobs breaks db kw,
    let before := h ++ YStart _ :: mjoin jobs in
    let ops := h ++ y_load_ops _ jobs (LoadDone breaks) in
    tdp_ok S -> y_no_collision (update_token S) ops -> y_few ops ->
    z_session (z_run h) = false -> in_session (mjoin jobs) -> mjoin jobs ≫= asked = flatten db ->
    returns before (YEnd _ breaks) (YReturn _ false) ->
    y_load_result (LoadDone breaks) = Ok true /\ found ops kw (arrived_docs kw h ++ docs_of kw (flatten db)).
Proof.
  intros S h jobs breaks db kw before ops Hd Hnc Hf Hs Hin Ej Hr. split; [by vm_compute|].
  assert (Eo : ops = before ++ [YEnd _ breaks]) by (subst ops before; cbn [y_load_ops]; by rewrite <- app_assoc).
  rewrite Eo in *. destruct (C97_sophos S h (mjoin jobs) breaks kw Hd Hnc Hf Hs Hin) as (k & E & Hk).
  rewrite Ej in E. specialize (Hk Hr). rewrite Ej in Hk. by rewrite take_ge in E.
Qed.
Print Assumptions C98_load_sophos.
(** The jobs of the two programs ask for the documents of the file. *)
Lemma jobs_asked {P : proto} (db : list (bytes * list (p_doc P))) :
  mjoin ((fun x => y_job P x.1 x.2) <$> db) ≫= asked = flatten db /\ in_session (mjoin ((fun x => y_job P x.1 x.2) <$> db)).
Proof.
  induction db as [|[k docs] db [IH1 IH2]]; [split; [done|constructor]|]. rewrite fmap_cons. cbn [fst snd].
  change (mjoin (y_job P k docs :: ((fun x => y_job P x.1 x.2) <$> db))) with (y_job P k docs ++ mjoin ((fun x => y_job P x.1 x.2) <$> db)).
  split.
  - rewrite bind_app, IH1. unfold flatten. rewrite bind_cons. f_equal. unfold y_job. cbn [fst snd].
    induction docs as [|d docs IHd]; [done|]. cbn. f_equal. exact IHd.
  - apply Forall_app. split; [|done]. unfold y_job. apply Forall_fmap, Forall_forall. done.
Qed.
Lemma jobs_asked_list {P : proto} (db : list (bytes * list (p_doc P))) :
  mjoin ((fun x => y_job_list P x.1 x.2 None) <$> db) ≫= asked = flatten db /\ in_session (mjoin ((fun x => y_job_list P x.1 x.2 None) <$> db)).
Proof.
  induction db as [|[k docs] db [IH1 IH2]]; [split; [done|constructor]|]. rewrite fmap_cons. cbn [fst snd].
  change (mjoin (y_job_list P k docs None :: ((fun x => y_job_list P x.1 x.2 None) <$> db))) with
    (y_job_list P k docs None ++ mjoin ((fun x => y_job_list P x.1 x.2 None) <$> db)).
  split.
  - rewrite bind_app, IH1. unfold flatten. rewrite bind_cons. f_equal. unfold y_job_list. cbn. by rewrite app_nil_r.
  - apply Forall_app. split; [|done]. unfold y_job_list. by repeat constructor.
Qed.

(** It ends the session of its caller, if there is one: the next insertion of the caller throws. *)
Theorem C98_nested :
  forall (P : proto) (h : list (yop P)) jobs breaks kw doc,
    let ops := h ++ y_load_ops P jobs (LoadDone breaks) in
    y_few ops -> z_session (z_run h) = true -> in_session (mjoin jobs) ->
    returns ops (YSession P kw doc) (YThrow P).
Proof.
  intros P h jobs breaks kw doc ops Hf Hs Hin. pose proof (session_output ops kw doc Hf) as H.
  enough (E : z_session (z_run ops) = false) by (by rewrite E in H).
  assert (Eo : ops = (h ++ YStart P :: mjoin jobs) ++ [YEnd P breaks]) by (subst ops; cbn [y_load_ops]; by rewrite <- app_assoc).
  rewrite Eo, z_run_snoc. cbn [z_step]. destruct breaks; by destruct (z_session (z_run (h ++ YStart P :: mjoin jobs))) eqn:E.
Qed.
Print Assumptions C98_nested.
(** When the parser throws the session goes on: the insertions that follow are written to its stream, and are
    lost, without a word, if the runner is destroyed before the server reads them. *)
Theorem C98_left_open :
  forall (P : proto) (h : list (yop P)) jobs n kw doc u,
    let ops := h ++ y_load_ops P jobs (LoadThrows n) in
    y_few ops -> z_session (z_run h) = false -> in_session (mjoin jobs) -> z_works (z_run ops) = true ->
    returns ops (YInsert P kw doc u) (YReturn P false) /\
    forall kw', arrived_docs kw' (ops ++ [YInsert P kw doc u; YDestroy P 0]) = arrived_docs kw' ops.
Proof.
  intros P h jobs n kw doc u ops Hf Hs Hin Hw.
  assert (Hs' : z_session (z_run ops) = true).
  { subst ops. rewrite z_run_app. cbn [y_load_ops foldl z_step]. rewrite Hs. by apply session_prefix. }
  pose proof (insert_output ops kw doc u Hf) as H. rewrite Hs', Hw in H. split; [exact H|].
  intros kw'. unfold arrived_docs. f_equal. rewrite z_run_app. cbn [foldl z_step]. rewrite Hs'. unfold z_send. rewrite Hw.
  cbn [z_arrived z_flight]. by rewrite take_0, app_nil_r.
Qed.
Print Assumptions C98_left_open.
(** The behaviour is undefined exactly if the parser throws before the jobs have finished. *)
Theorem C98_undefined : forall e, y_load_result e = UB <-> exists n, e = LoadThrows (S n).
Proof.
  intros [|[|n]|b]; split; intros H; try (by vm_compute in H); try (by destruct H); by eexists.
Qed.
Print Assumptions C98_undefined.

(** ** Examples and refutations *)
Notation GS := (so_proto gc_sophos).
Notation GD := (d_proto gc_diana).
Lemma ys_no_collision (ops : list (yop GS)) : y_no_collision (update_token gc_sophos) ops.
Proof.
  intros kw i kw' i' _ _ E. unfold update_token in E. cbn [gc_sophos so_hash so_kprf so_gen so_inv so_prf] in E.
  assert (Hl : forall n l, length (Nat.iter n (cons 7%N) l) = n + length l) by (intros n l; induction n; simpl; lia).
  pose proof (f_equal length E) as El. rewrite !app_length, !Hl in El. unfold gc_hash in El. simpl in El.
  assert (i = i') as <- by lia. split; [|done]. apply (f_equal head) in E. cbn in E. injection E as E. by apply (inj countable.encode).
Qed.
Lemma yd_no_collision (ops : list (yop GD)) : y_no_collision (d_update_token gc_diana) ops.
Proof.
  intros kw i kw' i' _ _ E. unfold d_update_token in E. cbn [gc_diana d_hash d_root d_leaf d_prg] in E.
  unfold gc_hash in E. cbn in E. injection E as E1 E2. split; [by apply (inj countable.encode)|lia].
Qed.
Lemma y_few_short {P : proto} (ops : list (yop P)) : length (ops ≫= asked) <= 100 -> y_few ops.
Proof.
  intros H kw. unfold asked_docs. assert (Hl : length (docs_of kw (ops ≫= asked)) <= length (ops ≫= asked)).
  { generalize (ops ≫= asked). intros l. induction l as [|[k d] l IH]; [done|]. unfold docs_of in *. csimpl.
    destruct (decide (k = kw)); simpl; lia. }
  lia.
Qed.
Definition kw1 : bytes := [1%N]. Definition kw2 : bytes := [2%N].
Definition d8 (n : N) : bytes := replicate 8 n.

(** A session that breaks, a unary insertion that fails but is processed, another session, a list cut short. *)
Definition ex_ops : list (yop GD) :=
  [YStart GD; YSession GD kw1 (d8 1); YSession GD kw1 (d8 2); YRead GD; YBreak GD; YSession GD kw1 (d8 3); YEnd GD None;
   YInsert GD kw1 (d8 4) (UFailed true); YInsert GD kw1 (d8 5) (UFailed false);
   YStart GD; YList GD [(kw1, d8 6); (kw2, d8 9); (kw1, d8 7)] (Some 2); YEnd GD None; YInsert GD kw1 (d8 8) UOk].
Example C96_example :
  d_crypto_ok gc_diana /\ y_few ex_ops /\ d_asked_sized gc_diana ex_ops /\ arrived_docs kw1 ex_ops = [d8 1; d8 4; d8 8] /\
  returns ex_ops (YSearch GD kw1 [0; 1; 2] true) (YResults GD [d8 1; d8 4; d8 8] false).
Proof.
  split; [apply gc_diana_ok|]. split; [apply y_few_short; vm_compute; lia|].
  split. { intros kw. unfold asked_docs, docs_of, ex_ops. cbn. repeat (destruct (decide (_ = kw)); repeat constructor). }
  split; by vm_compute.
Qed.
Example C96_example_sophos :
  let ops : list (yop GS) := [YStart GS; YSession GS kw1 5; YSession GS kw1 6; YRead GS; YRead GS; YSession GS kw1 7; YBreak GS]%N in
  tdp_ok gc_sophos /\ y_few ops /\ arrived_docs kw1 ops = [5; 6]%N /\
  returns ops (YSearch GS kw1 [0] false) (YResults GS [6%N] true).
Proof. cbn zeta. split; [apply gc_sophos_ok|]. split; [apply y_few_short; vm_compute; lia|]. split; by vm_compute. Qed.
Example C97_example :
  let s : list (yop GS) := [YSession GS kw1 5; YInsert GS kw2 6 UOk; YRead GS; YSession GS kw1 7]%N in
  let h : list (yop GS) := [YInsert GS kw1 4%N UOk] in
  z_session (z_run h) = false /\ in_session s /\ y_few ((h ++ YStart _ :: s) ++ [YEnd _ None]) /\
  returns (h ++ YStart _ :: s) (YEnd _ None) (YReturn _ false) /\ s ≫= asked = [(kw1, 5); (kw2, 6); (kw1, 7)]%N.
Proof.
  cbn zeta. split; [done|]. split; [by repeat constructor|]. split; [apply y_few_short; vm_compute; lia|]. split; by vm_compute.
Qed.
(** The caller is not told when the stream breaks: no exception, load_inverted_index returns true, and the documents are
    not there. *)
Theorem C97_refuted :
  exists (S : sophos) (db : list (bytes * list N)) kw doc breaks,
    tdp_ok S /\ (forall ops : list (yop (so_proto S)), y_no_collision (update_token S) ops) /\
    let jobs := (fun x => y_job (so_proto S) x.1 x.2) <$> db in
    let ops := y_load_ops (so_proto S) jobs (LoadDone breaks) in
    (kw, doc) ∈ flatten db /\ y_load_result (LoadDone breaks) = Ok true /\ no_throw (yrun _ (yinit _) ops).2 /\
    found ops kw [].
Proof.
  exists gc_sophos, [(kw1, [5; 6]%N)], kw1, 5%N, (Some 0).
  split; [apply gc_sophos_ok|]. split; [apply ys_no_collision|]. cbn zeta. split; [cbn; by left|]. split; [by vm_compute|].
  split; [by repeat constructor|]. intros sent Hs. apply Permutation_nil_r in Hs as ->. eexists. split; by vm_compute.
Qed.
Print Assumptions C97_refuted.
Example C98_example :
  let db := [(kw1, [d8 5; d8 6]); (kw2, [d8 7])] in
  let h : list (yop GD) := [YInsert GD kw1 (d8 4) UOk] in
  let jobs := (fun x => y_job_list GD x.1 x.2 None) <$> db in
  d_crypto_ok gc_diana /\ y_few (h ++ y_load_ops GD jobs (LoadDone None)) /\ d_asked_sized gc_diana (h ++ y_load_ops GD jobs (LoadDone None)) /\
  z_session (z_run h) = false /\ in_session (mjoin jobs) /\ mjoin jobs ≫= asked = flatten db /\
  returns (h ++ YStart _ :: mjoin jobs) (YEnd _ None) (YReturn _ false).
Proof.
  cbn zeta. split; [apply gc_diana_ok|]. split; [apply y_few_short; vm_compute; lia|].
  split. { intros kw. unfold asked_docs, docs_of. cbn. repeat (destruct (decide (_ = kw)); repeat constructor). }
  split; [done|]. split; [by repeat constructor|]. split; [by vm_compute|]. by vm_compute.
Qed.
Example C98_example_nested :
  let h : list (yop GS) := [YStart GS; YSession GS kw1 4%N] in let jobs := [y_job GS kw2 [5%N]] in
  y_few (h ++ y_load_ops GS jobs (LoadDone None)) /\ z_session (z_run h) = true /\ in_session (mjoin jobs) /\
  returns (h ++ y_load_ops GS jobs (LoadDone None)) (YSession GS kw1 6%N) (YThrow GS).
Proof.
  cbn zeta. split; [apply y_few_short; vm_compute; lia|]. split; [done|]. split; [by repeat constructor|by vm_compute].
Qed.
(** An insertion made after a failed load_inverted_index, which returned without an error, is lost when the runner is destroyed. *)
Theorem C98_refuted :
  exists (S : sophos) (h : list (yop (so_proto S))) kw doc,
    tdp_ok S /\ (forall ops : list (yop (so_proto S)), y_no_collision (update_token S) ops) /\
    let ops := h ++ y_load_ops (so_proto S) [] (LoadThrows 0) in
    returns ops (YInsert _ kw doc UOk) (YReturn _ false) /\
    found (ops ++ [YInsert _ kw doc UOk; YDestroy _ 0]) kw [].
Proof.
  exists gc_sophos, [], kw1, 5%N. split; [apply gc_sophos_ok|]. split; [apply ys_no_collision|]. cbn zeta. split; [by vm_compute|].
  intros sent Hs. apply Permutation_nil_r in Hs as ->. eexists. split; by vm_compute.
Qed.
Print Assumptions C98_refuted.
