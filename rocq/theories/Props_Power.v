(** Final theorems about power failures (properties C93 to C95). *)
From stdpp Require Import prelude gmap.
From Coq Require Import NArith Lia.
From Verif Require Import Base EncModel KvModel UtilsModel SophosModel DianaModel SophosSpec DianaSpec
  ConcModel ConcSpec ConcProofs SophosProofs DianaProofs GenClientSpec Props_GenClient PowerModel PowerSpec PowerProofs.
Local Arguments N.modulo : simpl never.
Local Arguments N.pow : simpl never.
Local Arguments N.of_nat : simpl never.
Local Arguments N.to_nat : simpl never.

(** The documents of Sophos are integers: all of them are right. *)
Lemma so_docs_ok (S : sophos) (ops : list (pop (so_proto S))) : p_docs_ok (fun _ => True) ops.
Proof. intros kw. by apply Forall_true. Qed.

(** ** C93: the searches of a system whose power fails *)
(** The client counts the insertions of the keyword that are left in its log; the server
    gives, for each of these numbers, the document that was last written there among those
    left in its own. *)
Theorem C93_sophos :
  forall (S : sophos) (ops : list (pop (so_proto S))) kw,
    tdp_ok S -> p_no_collision (update_token S) ops -> p_few ops ->
    answers ops kw (spec_find newest_first (spec_run ops) kw).
Proof. intros S ops kw Ht Hnc Hf. apply (find_generic _ _ _ _ _ (so_proto_ok S Ht)); [done|done|apply so_docs_ok]. Qed.
Print Assumptions C93_sophos.

Theorem C93_diana :
  forall (D : diana) (ops : list (pop (d_proto D))) kw,
    d_crypto_ok D -> p_no_collision (d_update_token D) ops -> p_few ops ->
    d_docs_sized D ops ->
    answers ops kw (spec_find oldest_first (spec_run ops) kw).
Proof. intros D ops kw Hd Hnc Hf Hok. by apply (find_generic _ _ _ _ _ (d_proto_ok D Hd)). Qed.
Print Assumptions C93_diana.

(** ** C94: what a failure of the server loses *)
(** The client keeps its counters.  Between two failures of the server nothing is lost. *)
Theorem C94_sophos :
  forall (S : sophos) (h0 h1 : list (pop (so_proto S))) kw,
    let ops := h0 ++ h1 in
    tdp_ok S -> p_no_collision (update_token S) ops -> p_few ops -> client_on ops -> server_on h1 ->
    exists before, answers ops kw (reverse (before ++ p_delivered kw h1)) /\ sublist before (p_delivered kw h0).
Proof.
  intros S h0 h1 kw ops Ht Hnc Hf Hon Hs. exists (content kw h0). split; [|apply content_sub].
  pose proof (spec_find_newest kw ops Hon) as E. subst ops. rewrite content_on in E by done. rewrite <- E. by apply C93_sophos.
Qed.
Print Assumptions C94_sophos.

(** What arrived before a flush is found, whatever happens to the server afterwards; the rest of
    the results are documents that did arrive, each at most as many times as it did, in the
    order of the insertions. *)
Theorem C94_diana :
  forall (D : diana) (h0 h1 h2 : list (pop (d_proto D))) kw,
    let ops := h0 ++ h1 ++ PFlush _ :: h2 in
    d_crypto_ok D -> p_no_collision (d_update_token D) ops -> p_few ops ->
    d_docs_sized D ops -> client_on ops -> server_on h1 ->
    exists before after, answers ops kw (before ++ p_delivered kw h1 ++ after) /\
      sublist before (p_delivered kw h0) /\ sublist after (p_delivered kw h2).
Proof.
  intros D h0 h1 h2 kw ops Hd Hnc Hf Hok Hon Hs.
  assert (E : ops = ((h0 ++ h1) ++ [PFlush _]) ++ h2) by (subst ops; by rewrite <- !app_assoc).
  destruct (content_flush kw (h0 ++ h1)) as (_ & Es & En).
  destruct (content_after kw ((h0 ++ h1) ++ [PFlush _]) h2 En) as (r1 & _ & r & Ec & Hsub).
  exists (content kw h0), (r1 ++ r). split_and!; [|apply content_sub|done].
  rewrite <- E, Es, content_on, <- !app_assoc in Ec by done. rewrite <- Ec.
  rewrite <- (spec_find_content kw ops Hon). by apply C93_diana.
Qed.
Print Assumptions C94_diana.

(** A history without failures: everything is found. *)
Theorem C94_no_failure :
  forall (D : diana) (ops : list (pop (d_proto D))) kw,
    d_crypto_ok D -> p_no_collision (d_update_token D) ops -> p_few ops ->
    d_docs_sized D ops -> client_on ops -> server_on ops ->
    answers ops kw (p_delivered kw ops).
Proof.
  intros D ops kw Hd Hnc Hf Hok Hon Hs. pose proof (content_on kw [] ops Hs) as E. cbn [app] in E.
  change (content kw []) with (@nil (p_doc (d_proto D))) in E. cbn [app] in E.
  rewrite <- E, <- (spec_find_content kw ops Hon). by apply C93_diana.
Qed.
Print Assumptions C94_no_failure.

(** ** C95: what a failure of the client reveals *)
(** As long as the client keeps its counters no update token is sent twice, and no update is
    seen by the requests of the earlier searches. *)
Theorem C95_sophos :
  forall (S : sophos) (ops : list (pop (so_proto S))),
    tdp_ok S -> p_no_collision (update_token S) ops -> p_few ops -> client_on ops -> NoDup (sent_tokens ops).
Proof. intros S ops Ht Hnc Hf Hon. by apply (tokens_distinct _ _ _ _ _ (so_proto_ok S Ht)). Qed.
Print Assumptions C95_sophos.
Theorem C95_diana :
  forall (D : diana) (ops : list (pop (d_proto D))),
    d_crypto_ok D -> p_no_collision (d_update_token D) ops -> p_few ops -> client_on ops -> NoDup (sent_tokens ops).
Proof. intros D ops Ht Hnc Hf Hon. by apply (tokens_distinct _ _ _ _ _ (d_proto_ok D Ht)). Qed.
Print Assumptions C95_diana.

Theorem C95_forward_sophos :
  forall (S : sophos) (h1 h2 : list (pop (so_proto S))) kw req kw' doc delivered t v,
    let ops := h1 ++ h2 ++ [PIns _ kw' doc delivered] in
    tdp_ok S -> p_no_collision (update_token S) ops -> p_few ops -> client_on h2 ->
    requests h1 kw req -> sends ops t v ->
    forall db a, a ∈ p_accesses (so_proto S) req -> p_access (so_proto S) (<[t := v]> db) a = p_access (so_proto S) db a.
Proof.
  intros S h1 h2 kw req kw' doc dl t v ops Ht Hnc Hf Hon Hr Hs.
  by apply (forward_generic _ _ _ _ _ (so_proto_ok S Ht) h1 h2 kw req kw' doc dl).
Qed.
Print Assumptions C95_forward_sophos.
Theorem C95_forward_diana :
  forall (D : diana) (h1 h2 : list (pop (d_proto D))) kw req kw' doc delivered t v,
    let ops := h1 ++ h2 ++ [PIns _ kw' doc delivered] in
    d_crypto_ok D -> p_no_collision (d_update_token D) ops -> p_few ops -> client_on h2 ->
    requests h1 kw req -> sends ops t v ->
    forall db a, a ∈ p_accesses (d_proto D) req -> p_access (d_proto D) (<[t := v]> db) a = p_access (d_proto D) db a.
Proof.
  intros D h1 h2 kw req kw' doc dl t v ops Ht Hnc Hf Hon Hr Hs.
  by apply (forward_generic _ _ _ _ _ (d_proto_ok D Ht) h1 h2 kw req kw' doc dl).
Qed.
Print Assumptions C95_forward_diana.

(** Once it has lost the last counter it had written, the next insertion of the keyword
    has the token of the previous one and its mask: whoever sees both requests knows the exclusive or of
    the documents; and the request of a search made in the meantime opens the new
    document. *)
Lemma xor_mask_lxor a b m : N.lxor (xor_mask a m) (xor_mask b m) = N.lxor a b.
Proof.
  assert (H : forall x y z, N.lxor (N.lxor x z) (N.lxor y z) = N.lxor x y).
  { intros x y z. rewrite (N.lxor_comm y z), N.lxor_assoc, <- (N.lxor_assoc z z y), N.lxor_nilpotent, N.lxor_0_l. done. }
  unfold xor_mask. repeat (destruct m as [|? m]; [done|]). by rewrite !H.
Qed.
Lemma diana_mask_lxor a b m : length a = length m -> length b = length m ->
  zip_with N.lxor (diana_xor_mask a m) (diana_xor_mask b m) = zip_with N.lxor a b.
Proof.
  revert a b. induction m as [|z m IH]; intros [|x a] [|y b]; try done. intros [= Ha] [= Hb]. simpl. f_equal; [|by apply IH].
  rewrite (N.lxor_comm y z), N.lxor_assoc, <- (N.lxor_assoc z z y), N.lxor_nilpotent, N.lxor_0_l. done.
Qed.

(** A client failure that loses insertions of the keyword: the number of the next one has been
    used before. *)
Theorem C95_reuse_sophos :
  forall (S : sophos) (h h' : list (pop (so_proto S))) kw (doc doc' : N) delivered delivered',
    tdp_ok S -> p_few (h ++ [PIns (so_proto S) kw doc delivered]) -> p_few (h' ++ [PIns (so_proto S) kw doc' delivered']) ->
    number kw (mem_all (spec_run h').1) = number kw (mem_all (spec_run h).1) ->
    exists t (v v' : N), sends (h ++ [PIns (so_proto S) kw doc delivered]) t v /\
      sends (h' ++ [PIns (so_proto S) kw doc' delivered']) t v' /\ N.lxor v v' = N.lxor doc doc'.
Proof.
  intros S h h' kw doc doc' dl dl' Ht Hf Hf' En.
  pose proof (send_generic _ _ _ _ _ (so_proto_ok S Ht) h kw doc dl Hf) as H1.
  pose proof (send_generic _ _ _ _ _ (so_proto_ok S Ht) h' kw doc' dl' Hf') as H2.
  cbn zeta in H1, H2. rewrite En in H2. eexists _, _, _. split; [exact H1|]. split; [exact H2|].
  cbn [so_proto p_update]. unfold so_make_update.
  destruct (gen_update_token_masks _ _ _) as [t m]. cbn [snd]. apply xor_mask_lxor.
Qed.
Print Assumptions C95_reuse_sophos.
Theorem C95_reuse_diana :
  forall (D : diana) (h h' : list (pop (d_proto D))) kw (doc doc' : bytes) delivered delivered',
    d_crypto_ok D -> length doc = d_len D -> length doc' = d_len D ->
    p_few (h ++ [PIns (d_proto D) kw doc delivered]) -> p_few (h' ++ [PIns (d_proto D) kw doc' delivered']) ->
    number kw (mem_all (spec_run h').1) = number kw (mem_all (spec_run h).1) ->
    exists t (v v' : bytes), sends (h ++ [PIns (d_proto D) kw doc delivered]) t v /\
      sends (h' ++ [PIns (d_proto D) kw doc' delivered']) t v' /\ zip_with N.lxor v v' = zip_with N.lxor doc doc'.
Proof.
  intros D h h' kw doc doc' dl dl' Ht Hl Hl' Hf Hf' En.
  pose proof (send_generic _ _ _ _ _ (d_proto_ok D Ht) h kw doc dl Hf) as H1.
  pose proof (send_generic _ _ _ _ _ (d_proto_ok D Ht) h' kw doc' dl' Hf') as H2.
  cbn zeta in H1, H2. rewrite En in H2. eexists _, _, _. split; [exact H1|]. split; [exact H2|].
  cbn [d_proto p_update snd]. cbn [d_make_update du_index]. apply diana_mask_lxor; by rewrite (dc_prg _ Ht).
Qed.
Print Assumptions C95_reuse_diana.
Theorem C95_reached_sophos :
  forall (S : sophos) (h h' : list (pop (so_proto S))) kw req (doc : N) delivered t v,
    tdp_ok S -> p_few h -> p_few (h' ++ [PIns (so_proto S) kw doc delivered]) -> requests h kw req ->
    number kw (mem_all (spec_run h').1) < number kw (mem_all (spec_run h).1) ->
    sends (h' ++ [PIns (so_proto S) kw doc delivered]) t v ->
    exists a, a ∈ p_accesses (so_proto S) req /\ forall db, p_access (so_proto S) (<[t := v]> db) a = [doc].
Proof. intros S h h' kw req doc dl t v Ht. by apply (reached_generic _ _ _ _ _ (so_proto_ok S Ht)). Qed.
Print Assumptions C95_reached_sophos.
Theorem C95_reached_diana :
  forall (D : diana) (h h' : list (pop (d_proto D))) kw req (doc : bytes) delivered t v,
    d_crypto_ok D -> length doc = d_len D -> p_few h -> p_few (h' ++ [PIns (d_proto D) kw doc delivered]) -> requests h kw req ->
    number kw (mem_all (spec_run h').1) < number kw (mem_all (spec_run h).1) ->
    sends (h' ++ [PIns (d_proto D) kw doc delivered]) t v ->
    exists a, a ∈ p_accesses (d_proto D) req /\ forall db, p_access (d_proto D) (<[t := v]> db) a = [doc].
Proof. intros D h h' kw req doc dl t v Ht Hl. by apply (reached_generic _ _ _ _ _ (d_proto_ok D Ht)). Qed.
Print Assumptions C95_reached_diana.

(** ** Examples and refutations *)
Notation GS := (so_proto gc_sophos).
Notation GD := (d_proto gc_diana).
Lemma gs_no_collision (ops : list (pop GS)) : p_no_collision (update_token gc_sophos) ops.
Proof.
  intros kw i kw' i' _ _ E. unfold update_token in E. cbn [gc_sophos so_hash so_kprf so_gen so_inv so_prf] in E.
  assert (Hl : forall n l, length (Nat.iter n (cons 7%N) l) = n + length l) by (intros n l; induction n; simpl; lia).
  pose proof (f_equal length E) as El. rewrite !app_length, !Hl in El. unfold gc_hash in El. simpl in El.
  assert (i = i') as <- by lia. split; [|done]. apply (f_equal head) in E. cbn in E. injection E as E. by apply (inj countable.encode).
Qed.
Lemma gd_no_collision (ops : list (pop GD)) : p_no_collision (d_update_token gc_diana) ops.
Proof.
  intros kw i kw' i' _ _ E. unfold d_update_token in E. cbn [gc_diana d_hash d_root d_leaf d_prg] in E.
  unfold gc_hash in E. cbn in E. injection E as E1 E2. split; [by apply (inj countable.encode)|lia].
Qed.
Lemma few_short {P : proto} (ops : list (pop P)) : length ops <= 100 -> p_few ops.
Proof.
  intros H kw. assert (Hl : length (p_inserted kw ops) <= length ops).
  { clear. induction ops as [|o ops IH]; [done|]. unfold p_inserted in *. csimpl. destruct o as [k d dl| | | |]; try (simpl; lia).
    destruct (decide (k = kw)); simpl; lia. }
  lia.
Qed.
Definition kw1 : bytes := [1%N]. Definition kw2 : bytes := [2%N].
Definition d8 (n : N) : bytes := replicate 8 n.

(** Two insertions, a failure of the server which keeps the first one, a failure of the client which loses
    the second, another insertion: it takes the place of the second. *)
Definition ex_h : list (pop GS) :=
  [PIns GS kw1 5 true; PIns GS kw2 9 true; PIns GS kw1 6 true; PServerOff GS 2; PClientOff GS 2; PIns GS kw1 7 true]%N.
Example C93_example :
  tdp_ok gc_sophos /\ p_no_collision (update_token gc_sophos) ex_h /\ p_few ex_h /\
  spec_find newest_first (spec_run ex_h) kw1 = [7; 5]%N /\ spec_find newest_first (spec_run ex_h) kw2 = [9]%N /\
  answers ex_h kw1 [7; 5]%N.
Proof.
  split; [apply gc_sophos_ok|]. split; [apply gs_no_collision|]. split; [apply few_short; simpl; lia|].
  split; [by vm_compute|]. split; [by vm_compute|]. eexists. by vm_compute.
Qed.
(** What is lost may come back: the second document reached the disk of the server but its counter did not reach
    that of the client; an insertion is lost on the way, and the second document is found again. *)
Example C93_example_diana :
  let h : list (pop GD) := [PIns GD kw1 (d8 5) true; PIns GD kw1 (d8 6) true; PFlush GD; PClientOff GD 1] in
  let h' := h ++ [PIns GD kw1 (d8 7) false] in
  d_crypto_ok gc_diana /\ p_no_collision (d_update_token gc_diana) h' /\ p_few h' /\ d_docs_sized gc_diana h' /\
  answers h kw1 [d8 5] /\ answers h' kw1 [d8 5; d8 6].
Proof.
  cbn zeta. split; [apply gc_diana_ok|]. split; [apply gd_no_collision|]. split; [apply few_short; simpl; lia|].
  split. { intros kw. cbn. repeat (destruct (decide (kw1 = kw)); repeat constructor). }
  split; eexists; by vm_compute.
Qed.

(** A document which has been found is no longer found after a failure of the client, though the power of the server
    never failed; the next insertion destroys it. *)
Theorem C93_refuted :
  exists (S : sophos) (h : list (pop (so_proto S))) kw (doc doc' : N),
    tdp_ok S /\ (forall ops : list (pop (so_proto S)), p_no_collision (update_token S) ops) /\ server_on h /\
    answers h kw [doc] /\
    let h1 := h ++ [PClientOff _ 0] in answers h1 kw [] /\
    let h2 := h1 ++ [PIns (so_proto S) kw doc' true] in answers h2 kw [doc'] /\ doc <> doc'.
Proof.
  exists gc_sophos, [PIns GS kw1 5%N true], kw1, 5%N, 6%N.
  split; [apply gc_sophos_ok|]. split; [apply gs_no_collision|].
  split; [intros k Hk; by apply elem_of_list_singleton in Hk|].
  split; [eexists; by vm_compute|]. split; [eexists; by vm_compute|]. split; [eexists; by vm_compute|done].
Qed.
Print Assumptions C93_refuted.

Example C94_example_sophos :
  let h0 : list (pop GS) := [PIns GS kw1 5 true; PIns GS kw1 6 true; PServerOff GS 1]%N in
  let h1 : list (pop GS) := [PIns GS kw1 7 true; PIns GS kw1 8 false; PIns GS kw1 9 true]%N in
  tdp_ok gc_sophos /\ p_few (h0 ++ h1) /\ client_on (h0 ++ h1) /\ server_on h1 /\ answers (h0 ++ h1) kw1 [9; 7; 5]%N.
Proof.
  cbn zeta. split; [apply gc_sophos_ok|]. split; [apply few_short; simpl; lia|].
  split; [intros k Hk; cbn in Hk; set_solver|]. split; [intros k Hk; cbn in Hk; set_solver|]. eexists. by vm_compute.
Qed.
Example C94_example_diana :
  let h0 : list (pop GD) := [PIns GD kw1 (d8 4) true; PIns GD kw1 (d8 5) true; PServerOff GD 1] in
  let h1 : list (pop GD) := [PIns GD kw1 (d8 6) true; PIns GD kw2 (d8 9) true] in
  let h2 : list (pop GD) := [PIns GD kw1 (d8 7) true; PIns GD kw1 (d8 8) true; PServerOff GD 1] in
  let ops := h0 ++ h1 ++ PFlush GD :: h2 in
  d_crypto_ok gc_diana /\ p_few ops /\ d_docs_sized gc_diana ops /\ client_on ops /\ server_on h1 /\
  answers ops kw1 [d8 4; d8 6; d8 7].
Proof.
  cbn zeta. split; [apply gc_diana_ok|]. split; [apply few_short; simpl; lia|].
  split. { intros kw. cbn. repeat (destruct (decide (_ = kw)); repeat constructor). }
  split; [intros k Hk; cbn in Hk; set_solver|]. split; [intros k Hk; cbn in Hk; set_solver|]. eexists. by vm_compute.
Qed.
Example C94_example_no_failure :
  let ops : list (pop GD) := [PIns GD kw1 (d8 4) true; PIns GD kw2 (d8 9) true; PIns GD kw1 (d8 5) true] in
  d_crypto_ok gc_diana /\ p_few ops /\ d_docs_sized gc_diana ops /\ client_on ops /\ server_on ops /\
  answers ops kw1 [d8 4; d8 5].
Proof.
  cbn zeta. split; [apply gc_diana_ok|]. split; [apply few_short; simpl; lia|].
  split. { intros kw. cbn. repeat (destruct (decide (_ = kw)); repeat constructor). }
  split; [intros k Hk; cbn in Hk; set_solver|]. split; [intros k Hk; cbn in Hk; set_solver|]. eexists. by vm_compute.
Qed.

(** Neither server keeps what it has acknowledged, and found: the one of Sophos never flushes, the one of Diana
    does not after an insertion. *)
Theorem C94_refuted :
  (exists (S : sophos) (h : list (pop (so_proto S))) kw (doc : N),
    tdp_ok S /\ (forall ops : list (pop (so_proto S)), p_no_collision (update_token S) ops) /\ client_on h /\
    answers h kw [doc] /\ answers (h ++ [PServerOff _ 0]) kw []) /\
  (exists (D : diana) (h : list (pop (d_proto D))) kw (doc : bytes),
    d_crypto_ok D /\ (forall ops : list (pop (d_proto D)), p_no_collision (d_update_token D) ops) /\ d_docs_sized D h /\ client_on h /\
    answers h kw [doc] /\ answers (h ++ [PServerOff _ 0]) kw []).
Proof.
  split.
  - exists gc_sophos, [PIns GS kw1 5%N true], kw1, 5%N.
    split; [apply gc_sophos_ok|]. split; [apply gs_no_collision|].
    split; [intros k Hk; by apply elem_of_list_singleton in Hk|].
    split; eexists; by vm_compute.
  - exists gc_diana, [PIns GD kw1 (d8 5) true], kw1, (d8 5).
    split; [apply gc_diana_ok|]. split; [apply gd_no_collision|].
    split. { intros kw. cbn. repeat (destruct (decide (_ = kw)); repeat constructor). }
    split; [intros k Hk; by apply elem_of_list_singleton in Hk|].
    split; eexists; by vm_compute.
Qed.
Print Assumptions C94_refuted.

(** The hypotheses of C95: a search, a failure of the server, an insertion; then a failure of the client. *)
Definition ex_h1 : list (pop GS) := [PIns GS kw1 5 true; PIns GS kw2 9 true]%N.
Definition ex_h2 : list (pop GS) := [PFind GS kw1; PServerOff GS 1; PIns GS kw2 8%N true].
Example C95_example :
  let ops := ex_h1 ++ ex_h2 ++ [PIns GS kw1 6%N true] in
  tdp_ok gc_sophos /\ p_few ops /\ client_on ops /\ length (sent_tokens ops) = 4 /\
  (exists req, requests ex_h1 kw1 req /\ length (p_accesses GS req) = 1) /\ exists t v, sends ops t v.
Proof.
  cbn zeta. split; [apply gc_sophos_ok|]. split; [apply few_short; simpl; lia|]. split; [intros k Hk; cbn in Hk; set_solver|].
  split; [by vm_compute|]. split.
  - eexists. split; [eexists; by vm_compute|]. by vm_compute.
  - eexists _, _. by eexists [_; _; _; _; _].
Qed.
Example C95_example_reuse :
  let h := ex_h1 in let h' := h ++ [PIns GS kw1 5%N true; PClientOff GS 2] in
  p_few (h ++ [PIns GS kw1 5%N true]) /\ p_few (h' ++ [PIns GS kw1 6%N true]) /\
  number kw1 (mem_all (spec_run h').1) = number kw1 (mem_all (spec_run h).1) /\
  number kw1 (mem_all (spec_run h').1) < number kw1 (mem_all (spec_run (h ++ [PIns GS kw1 5%N true])).1) /\
  exists req, requests (h ++ [PIns GS kw1 5%N true]) kw1 req.
Proof.
  cbn zeta. split; [apply few_short; simpl; lia|]. split; [apply few_short; simpl; lia|]. split; [by vm_compute|].
  split; [by vm_compute|]. eexists. eexists. by vm_compute.
Qed.

(** With a failure of the client, a token is sent twice, and a search request opens a document inserted
    after it. *)
Theorem C95_refuted :
  exists (S : sophos) (h h' : list (pop (so_proto S))) kw (doc : N) req t v,
    tdp_ok S /\ (forall ops : list (pop (so_proto S)), p_no_collision (update_token S) ops) /\
    requests h kw req /\ doc ∉ p_inserted kw (h ++ h') /\ server_on (h ++ h') /\
    let ops := h ++ h' ++ [PIns (so_proto S) kw doc true] in
    sends ops t v /\ ~ NoDup (sent_tokens ops) /\
    exists a, a ∈ p_accesses (so_proto S) req /\ p_access (so_proto S) (<[t := v]> ∅) a = [doc].
Proof.
  destruct (C95_reached_sophos gc_sophos [PIns GS kw1 5%N true] [PIns GS kw1 5%N true; PClientOff GS 0] kw1
    (p_request GS kw1 (Some 0%N)) 6%N true
    (update_token gc_sophos kw1 0) (so_make_update gc_sophos kw1 0 6).2) as (a & Ha & Hd).
  - apply gc_sophos_ok.
  - apply few_short. simpl. lia.
  - apply few_short. simpl. lia.
  - eexists. by vm_compute.
  - by vm_compute.
  - eexists [_; _]. by vm_compute.
  - exists gc_sophos, [PIns GS kw1 5%N true], [PClientOff GS 0], kw1, 6%N, (p_request GS kw1 (Some 0%N)),
      (update_token gc_sophos kw1 0), (so_make_update gc_sophos kw1 0 6).2.
    split; [apply gc_sophos_ok|]. split; [apply gs_no_collision|]. split; [eexists; by vm_compute|].
    split; [cbn; set_solver|]. split; [intros k Hk; cbn in Hk; set_solver|].
    split; [eexists [_; _]; by vm_compute|]. split; [|by eexists].
    assert (E : sent_tokens ([PIns GS kw1 5%N true] ++ [PClientOff GS 0] ++ [PIns GS kw1 6%N true]) =
      [update_token gc_sophos kw1 0; update_token gc_sophos kw1 0]) by (by vm_compute).
    rewrite E. intros H. apply NoDup_cons in H as [H _]. apply H. by left.
Qed.
Print Assumptions C95_refuted.
