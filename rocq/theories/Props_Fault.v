(** Final theorems about errors reported by RocksDB (property C71). *)
From stdpp Require Import prelude gmap.
From Coq Require Import NArith Lia.
From Verif Require Import Base EncModel KvModel UtilsModel Props_Utils SophosModel SophosSpec SophosProofs Props_Sophos
  DianaModel DianaSpec DianaProofs Props_Diana JanusModel JanusSpec Props_Janus FaultModel FaultSpec FaultProofs.
Local Arguments N.modulo : simpl never.
Local Arguments N.pow : simpl never.
Local Arguments N.of_nat : simpl never.
Local Arguments N.to_nat : simpl never.

(** ** Sophos *)
(** As long as no read of a counter fails during an insertion: an insertion is reported to
    succeed exactly when its counter was written; every search whose counter can be read
    returns the documents that were reported to succeed and stored by the server, newest
    first, except those that it cannot read; nothing else is ever lost. *)
Theorem C71_sophos :
  forall (S : sophos) h,
    tdp_ok S -> no_collision S (h ≫= f_event) -> few_insertions (h ≫= f_event) -> counters_read h ->
    f_so_run S ∅ ∅ h = f_so_answers [] h.
Proof. intros S h Ht Hnc Hf Hr. apply (f_run_eq S Ht h []); [done..|apply inv_start]. Qed.
Print Assumptions C71_sophos.

Lemma visible_all l : visible (fun _ => false) l = omap (fun x => if x.2 : bool then Some x.1 else None) (reverse l).
Proof.
  unfold visible. generalize (reverse l). intros L.
  assert (E : imap (fun (_ : nat) (x : N * bool) => if x.2 && negb false then Some x.1 else None) L =
    (fun x => if x.2 : bool then Some x.1 else None) <$> L).
  { rewrite <- (imap_const _ L). apply imap_ext. intros i [n d] _. by destruct d. }
  rewrite E. apply omap_id_fmap.
Qed.
Lemma f_answers_snoc o : forall ops past, f_so_answers past (ops ++ [o]) =
  f_so_answers past ops ++ f_so_answers (past ++ (ops ≫= f_event)) [o].
Proof.
  induction ops as [|o' ops IH]; intros past; [by rewrite app_nil_r|].
  cbn [app f_so_answers]. rewrite IH, bind_cons, app_assoc. done.
Qed.
(** A search without errors returns all the documents stored, whatever errors there were
    before it. *)
Theorem C71_sophos_recovers :
  forall (S : sophos) h kw,
    tdp_ok S -> no_collision S (h ≫= f_event) -> few_insertions (h ≫= f_event) -> counters_read h ->
    exists l, last (f_so_run S ∅ ∅ (h ++ [FFind kw false (fun _ => false)])) = Some (OFind l) /\
      forall i, i ∈ l <-> exists put, FIns kw i false WOk put ∈ h /\ put <> WLost.
Proof.
  intros S h kw Ht Hnc Hf Hr.
  set (e := h ≫= f_event) in *.
  assert (Ee : (h ++ [FFind kw false (fun _ => false)]) ≫= f_event = e ++ [SoFind kw]) by by rewrite bind_app.
  assert (Ei : forall k, insertions k (e ++ [SoFind kw]) = insertions k e).
  { intros k. rewrite insertions_snoc. apply app_nil_r. }
  rewrite C71_sophos.
  - rewrite f_answers_snoc. cbn [f_so_answers app]. fold e.
    exists (visible (fun _ => false) (insertions kw e)). split; [by rewrite last_snoc|]. rewrite visible_all.
    intros i. rewrite elem_of_list_omap. split.
    + intros ([i' d] & Hin & Hx). rewrite elem_of_reverse in Hin. simpl in Hx. destruct d; [|done]. injection Hx as ->.
      apply elem_of_list_omap in Hin as (o & Ho & Hx). destruct o as [k j d|k]; [|done]. case_decide as Hk; [|done].
      injection Hx as -> ->. subst k. apply elem_of_list_bind in Ho as (x & Hx & Hin).
      destruct x as [k j failed w put|k f r]; [|by apply elem_of_list_singleton in Hx].
      unfold counters_read in Hr. rewrite Forall_forall in Hr. specialize (Hr _ Hin). simpl in Hr. subst failed.
      destruct w; simpl in Hx; [|by apply elem_of_nil in Hx|]; apply elem_of_list_singleton in Hx; [|done].
      injection Hx as -> -> Hp. exists put. split; [done|]. by intros ->.
    + intros (put & Hin & Hp). exists (i, true). split; [|done]. rewrite elem_of_reverse.
      apply elem_of_list_omap. exists (SoIns kw i true). split; [|by rewrite decide_True].
      apply elem_of_list_bind. exists (FIns kw i false WOk put). split; [|done]. simpl. destruct put; [left|done|left].
  - done.
  - rewrite Ee. intros k i k' i'. rewrite !Ei. apply Hnc.
  - rewrite Ee. intros k. rewrite Ei. apply Hf.
  - apply Forall_app. split; [done|]. by repeat constructor.
Qed.
Print Assumptions C71_sophos_recovers.

(** A history with errors of all the kinds allowed. *)
Definition ex_f_history : list f_op :=
  [FIns [1%N] 10 false WOk WOk; FIns [1%N] 11 false WLost WOk; FIns [1%N] 12 false WLanded WOk;
   FIns [1%N] 13 false WOk WLost; FIns [1%N] 14 false WOk WLanded; FFind [1%N] false (fun _ => false);
   FFind [1%N] true (fun _ => false); FFind [1%N] false (fun j => bool_decide (j = 0)); FFind [2%N] false (fun _ => false)].
Lemma ex_f_keywords kw : insertions kw (ex_f_history ≫= f_event) <> [] -> kw = [1%N].
Proof.
  intros H. destruct (decide ([1%N] = kw)) as [<-|H1]; [done|]. exfalso. apply H.
  unfold insertions, ex_f_history. csimpl. by rewrite !decide_False.
Qed.
Example ex_f_sophos :
  tdp_ok ex_sophos /\ no_collision ex_sophos (ex_f_history ≫= f_event) /\ few_insertions (ex_f_history ≫= f_event) /\
  counters_read ex_f_history /\
  f_so_run ex_sophos ∅ ∅ ex_f_history =
    [OIns true; OIns false; OIns false; OIns true; OIns true; OFind [14; 10]; OFind []; OFind [10]; OFind []]%N.
Proof.
  split_and!.
  - by intros x.
  - intros kw i kw' i' Hi Hi' Et.
    assert (kw = [1%N]) as -> by (apply ex_f_keywords; intros E; rewrite E in Hi; simpl in Hi; lia).
    assert (kw' = [1%N]) as -> by (apply ex_f_keywords; intros E; rewrite E in Hi'; simpl in Hi'; lia).
    vm_compute in Hi, Hi'. split; [done|].
    destruct i as [|[|[|[|i]]]], i' as [|[|[|[|i']]]]; try lia; vm_compute in Et; try discriminate.
  - intros kw. destruct (decide (insertions kw (ex_f_history ≫= f_event) = [])) as [->|H]; [done|].
    rewrite (ex_f_keywords kw H). by vm_compute.
  - by repeat constructor.
  - by vm_compute.
Qed.

(** A read of a counter that fails during an insertion resets the counter: documents
    inserted before, whose insertion had been reported to succeed and which the server had
    stored, are not found any more by searches without errors. *)
Definition ex_f_reset : list f_op :=
  [FIns [1%N] 10 false WOk WOk; FIns [1%N] 11 false WOk WOk; FIns [1%N] 12 true WOk WOk].
Theorem C71_sophos_read_refuted :
  exists (S : sophos) h kw i l,
    tdp_ok S /\ no_collision S (h ≫= f_event) /\ few_insertions (h ≫= f_event) /\
    FIns kw i false WOk WOk ∈ h /\
    last (f_so_run S ∅ ∅ (h ++ [FFind kw false (fun _ => false)])) = Some (OFind l) /\ i ∉ l.
Proof.
  exists ex_sophos, ex_f_reset, [1%N], 10%N, [12%N].
  assert (K : forall kw, insertions kw (ex_f_reset ≫= f_event) <> [] -> kw = [1%N]).
  { intros kw H. destruct (decide ([1%N] = kw)) as [<-|H1]; [done|]. exfalso. apply H.
    unfold insertions, ex_f_reset. csimpl. by rewrite !decide_False. }
  split_and!.
  - by intros x.
  - intros kw i kw' i' Hi Hi' Et.
    assert (kw = [1%N]) as -> by (apply K; intros E; rewrite E in Hi; simpl in Hi; lia).
    assert (kw' = [1%N]) as -> by (apply K; intros E; rewrite E in Hi'; simpl in Hi'; lia).
    vm_compute in Hi, Hi'. split; [done|].
    destruct i as [|[|[|[|i]]]], i' as [|[|[|[|i']]]]; try lia; vm_compute in Et; try discriminate.
  - intros kw. destruct (decide (insertions kw (ex_f_reset ≫= f_event) = [])) as [->|H]; [done|].
    rewrite (K kw H). by vm_compute.
  - left.
  - by vm_compute.
  - intros H. apply elem_of_list_singleton in H. discriminate.
Qed.
Print Assumptions C71_sophos_read_refuted.

(** An insertion that the server cannot store is reported to succeed. *)
Theorem C71_sophos_store_refuted :
  exists (S : sophos) h kw i,
    tdp_ok S /\ counters_read h /\ h = [FIns kw i false WOk WLost; FFind kw false (fun _ => false)] /\
    f_so_run S ∅ ∅ h = [OIns true; OFind []].
Proof.
  exists ex_sophos, [FIns [1%N] 10 false WOk WLost; FFind [1%N] false (fun _ => false)], [1%N], 10%N.
  split_and!; [by intros x|by repeat constructor|done|by vm_compute].
Qed.
Print Assumptions C71_sophos_store_refuted.

(** ** Diana *)
(** The same for Diana, with bulk insertions, which are all lost if one of their counters
    cannot be written, and searches that delete what they return, except what they cannot
    remove. *)
Theorem C71_diana :
  forall (D : diana) h, let s := foldl fd_slots no_slots h in
    d_crypto_ok D -> d_no_collision D s -> d_few s -> fd_docs_ok D h -> fd_counters_read h ->
    f_d_run D ∅ ∅ h = f_d_answers no_slots h.
Proof. intros D h s Hd Hnc Hf Hok Hr. apply (f_d_run_eq D Hd h no_slots); [done..|apply d_inv_start]. Qed.
Print Assumptions C71_diana.

Definition ex_fd_history : list fd_op :=
  [FDIns [1] [10; 0] false WOk WOk;
   FDBulk [([1], [11; 0], (false, WOk), WOk); ([2], [20; 0], (false, WLanded), WOk); ([1], [12; 0], (false, WOk), WOk)];
   FDBulk [([2], [21; 0], (false, WOk), WOk); ([1], [13; 0], (false, WOk), WLost); ([2], [22; 0], (false, WOk), WOk)];
   FDFind [1] false false (fun _ => false) (fun _ => WOk); FDIns [1] [14; 0] false WOk WOk;
   FDFind [2] true false (fun i => (i =? 1)%N) (fun _ => WOk); FDFind [2] true false (fun _ => false) (fun _ => WLost);
   FDFind [1] true true (fun _ => false) (fun _ => WOk);
   FDFind [2] false false (fun _ => false) (fun _ => WOk); FDFind [1] false false (fun _ => false) (fun _ => WOk)]%N.
Example ex_f_diana :
  let s := foldl fd_slots no_slots ex_fd_history in
  d_crypto_ok ex_diana /\ d_no_collision ex_diana s /\ d_few s /\ fd_docs_ok ex_diana ex_fd_history /\
  fd_counters_read ex_fd_history /\
  f_d_run ex_diana ∅ ∅ ex_fd_history =
    [ODIns true; ODIns false; ODIns true; ODFind (Ok [[10; 0]]); ODIns true; ODFind (Ok [[22; 0]]);
     ODFind (Ok [[21; 0]]); ODFind (Ok []); ODFind (Ok [[21; 0]]); ODFind (Ok [[10; 0]; [14; 0]])]%N.
Proof.
  intros s.
  assert (K : forall kw, s kw <> [] -> kw = [1%N] \/ kw = [2%N]).
  { intros kw H. destruct (decide (kw = [1%N])) as [->|H1]; [by left|].
    destruct (decide (kw = [2%N])) as [->|H2]; [by right|]. exfalso. apply H.
    unfold s, ex_fd_history. cbn. unfold add_slot, empty_some, no_slots.
    repeat (rewrite (decide_False (P := kw = [1%N])) by done). repeat (rewrite (decide_False (P := kw = [2%N])) by done). done. }
  assert (L1 : length (s [1%N]) = 4) by (by vm_compute).
  assert (L2 : length (s [2%N]) = 3) by (by vm_compute).
  clearbody s.
  split_and!; [apply ex_diana_ok| | | | |].
  - intros kw i kw' i' Hi Hi' Et.
    destruct (K kw) as [->| ->]; [intros E; rewrite E in Hi; simpl in Hi; lia|..];
      (destruct (K kw') as [->| ->]; [intros E; rewrite E in Hi'; simpl in Hi'; lia|..]);
      rewrite ?L1, ?L2 in Hi, Hi'.
    + split; [done|]. destruct i as [|[|[|[|i]]]], i' as [|[|[|[|i']]]]; try lia; vm_compute in Et; discriminate.
    + destruct i as [|[|[|[|i]]]], i' as [|[|[|i']]]; try lia; vm_compute in Et; discriminate.
    + destruct i' as [|[|[|[|i']]]], i as [|[|[|i]]]; try lia; vm_compute in Et; discriminate.
    + split; [done|]. destruct i as [|[|[|i]]], i' as [|[|[|i']]]; try lia; vm_compute in Et; discriminate.
  - intros kw. destruct (decide (s kw = [])) as [->|H]; [done|].
    destruct (K kw H) as [->| ->]; [rewrite L1|rewrite L2]; done.
  - by repeat constructor.
  - by repeat constructor.
  - by vm_compute.
Qed.

(** A failed read of the counter loses the documents inserted before. *)
Theorem C71_diana_read_refuted :
  exists (D : diana) kw d1 d2 d3,
    d_crypto_ok D /\ d1 <> d3 /\ d2 <> d3 /\
    (forall i j, i < 3 -> j < 3 -> d_update_token D kw i = d_update_token D kw j -> i = j) /\
    f_d_run D ∅ ∅ [FDIns kw d1 false WOk WOk; FDIns kw d2 false WOk WOk; FDIns kw d3 true WOk WOk;
                   FDFind kw false false (fun _ => false) (fun _ => WOk)] =
      [ODIns true; ODIns true; ODIns true; ODFind (Ok [d3])].
Proof.
  exists ex_diana, [1%N], [10%N; 0%N], [11%N; 0%N], [12%N; 0%N]. split_and!; [apply ex_diana_ok|done|done| |by vm_compute].
  intros [|[|[|i]]] [|[|[|j]]] Hi Hj Et; try lia; vm_compute in Et; discriminate.
Qed.
Print Assumptions C71_diana_read_refuted.

(** ** Janus *)
(** The requests for two insertions separated by a search: what they have in common. *)
Definition j_around (S : janus) (c : j_client) (kw : bytes) (i j : N) (w : wres) : d_update * d_update :=
  let r1 := f_j_insertion_request S c kw i false in
  let r2 := f_j_search_request S r1.1 kw false w in
  (r1.2, (f_j_insertion_request S r2.1 kw j false).2).
Lemma j_around_tokens S c kw i j w :
  (from_option N.succ 0 (jc_ins c !! meta_keyword kw (j_search_counter c kw)) < 2 ^ 32 - 1)%N ->
  (j_search_counter c kw < 2 ^ 32 - 1)%N ->
  exists n n', du_token (j_around S c kw i j w).1 = d_update_token (jn_ins S) (meta_keyword kw (j_search_counter c kw)) n /\
    du_token (j_around S c kw i j w).2 =
      d_update_token (jn_ins S) (meta_keyword kw (if landed w then j_search_counter c kw + 1 else j_search_counter c kw)) n' /\
    (w = WLost -> jc_ins c !! meta_keyword kw (j_search_counter c kw) = None -> n = n').
Proof.
  intros Hn He. unfold j_around, f_j_insertion_request, f_j_search_request, d_insertion_request, ctr_get_and_increment, d_make_update.
  change (f_j_search_counter c kw false) with (j_search_counter c kw).
  set (e := j_search_counter c kw) in *. set (m := meta_keyword kw e) in *. cbn [fst snd jc_ins jc_del jc_search].
  set (v := next_value (jc_ins c !! m)).
  assert (Hv : (v < 2 ^ 32 - 1)%N).
  { unfold v, next_value. destruct (jc_ins c !! m) as [x|]; [|done]. simpl in Hn. unfold incr32. rewrite N.mod_small by lia. lia. }
  change (f_j_search_counter (JClient (<[m:=v]> (jc_ins c)) (jc_del c) (jc_search c)) kw false) with e.
  fold m. assert (Ec : ds_count (d_search_request (jn_ins S) (<[m:=v]> (jc_ins c)) m) = (v + 1)%N).
  { unfold d_search_request, ctr_get. rewrite lookup_insert. simpl. apply N.mod_small. lia. }
  rewrite Ec. destruct (N.ltb_spec 0 (v + 1)); [|lia]. cbn [orb].
  assert (Es : forall ci cd, f_j_search_counter (JClient ci cd (f_put (jc_search c) kw ((e + 1) mod 2 ^ 32)%N w)) kw false =
    if landed w then (e + 1)%N else e).
  { intros ci cd. unfold f_j_search_counter, f_get, f_put. cbn [jc_search]. destruct (landed w); [|done].
    rewrite lookup_insert. simpl. apply N.mod_small. lia. }
  rewrite Es. cbn [jc_ins du_token d_token_mask].
  exists (N.to_nat v). eexists (N.to_nat _). split_and!.
  - unfold d_update_token. rewrite N2Nat.id. done.
  - unfold d_update_token. rewrite N2Nat.id. reflexivity.
  - intros -> Ho. cbn [landed]. f_equal. unfold v. rewrite Ho. unfold d_remove_keyword, ctr_remove.
    fold m. by rewrite lookup_delete.
Qed.

(** When the search counter is written, the insertions made before and after a search have
    different tokens, unless the PRF collides. *)
Theorem C71_janus_fresh :
  forall (S : janus) c kw i j w, let e := j_search_counter c kw in
    (forall n n', d_update_token (jn_ins S) (meta_keyword kw e) n <> d_update_token (jn_ins S) (meta_keyword kw (e + 1)) n') ->
    (from_option N.succ 0 (jc_ins c !! meta_keyword kw e) < 2 ^ 32 - 1)%N -> (e < 2 ^ 32 - 1)%N ->
    w <> WLost ->
    du_token (j_around S c kw i j w).1 <> du_token (j_around S c kw i j w).2.
Proof.
  intros S c kw i j w e Hc Hn He Hw E.
  destruct (j_around_tokens S c kw i j w Hn He) as (n & n' & E1 & E2 & _). rewrite E1, E2 in E.
  destruct w; [|done|]; cbn [landed] in E; by apply Hc in E.
Qed.
Print Assumptions C71_janus_fresh.
Example ex_f_janus :
  let e := j_search_counter j_new_client ex_kw in
  (forall n n', d_update_token (jn_ins ex_janus) (meta_keyword ex_kw e) n <> d_update_token (jn_ins ex_janus) (meta_keyword ex_kw (e + 1)) n') /\
  (from_option N.succ 0 (jc_ins j_new_client !! meta_keyword ex_kw e) < 2 ^ 32 - 1)%N /\ (e < 2 ^ 32 - 1)%N /\
  du_token (j_around ex_janus j_new_client ex_kw 7 8 WOk).1 <> du_token (j_around ex_janus j_new_client ex_kw 7 8 WOk).2.
Proof.
  intros e. split_and!; [|done|done|by vm_compute].
  intros n n' E. apply ex_token_inj in E as [E _]; [|by vm_compute|by vm_compute].
  apply C45_meta_keyword_injective in E as [_ E]; [|done|done]. unfold e in E. vm_compute in E. done.
Qed.

(** When writing the search counter fails, which the client does not notice, the first
    insertion of the next epoch uses the token of the first one of this epoch, for another
    document and with the same mask. *)
Theorem C71_janus_reuse :
  forall (S : janus) kw i j,
    du_token (j_around S j_new_client kw i j WLost).1 = du_token (j_around S j_new_client kw i j WLost).2.
Proof.
  intros S kw i j. destruct (j_around_tokens S j_new_client kw i j WLost) as (n & n' & E1 & E2 & E); [done..|].
  rewrite E1, E2. cbn [landed]. by rewrite E.
Qed.
Print Assumptions C71_janus_reuse.
Theorem C71_janus_set_refuted :
  exists (S : janus) c kw i j w,
    j_crypto_ok S /\ i <> j /\
    du_token (j_around S c kw i j w).1 = du_token (j_around S c kw i j w).2 /\
    zip_with N.lxor (du_index (j_around S c kw i j w).1) (du_index (j_around S c kw i j w).2) =
      zip_with N.lxor (pe_enc S (jn_pekey S (meta_keyword kw 0)) i (j_tag S kw i))
                      (pe_enc S (jn_pekey S (meta_keyword kw 0)) j (j_tag S kw j)).
Proof.
  exists ex_janus, j_new_client, ex_kw, 7%N, 8%N, WLost.
  split_and!; [apply ex_janus_ok|done|by vm_compute|by vm_compute].
Qed.
Print Assumptions C71_janus_set_refuted.

(** A failed read of the search counter during an insertion puts the document in the first
    epoch, where no later search looks: it is lost, though the insertion succeeded. *)
Definition j_lost_document (S : janus) (kw : bytes) (i j : N) (failed : bool) : res (list N) :=
  let r1 := f_j_insertion_request S j_new_client kw i false in
  let s1 := j_insert j_new_server r1.2 in
  let r2 := f_j_search_request S r1.1 kw false WOk in
  a <~ j_server_search S s1 r2.2;
  let r3 := f_j_insertion_request S r2.1 kw j failed in
  let s3 := j_insert a.1 r3.2 in
  let r4 := f_j_search_request S r3.1 kw false WOk in
  b <~ j_server_search S s3 r4.2;
  Ok b.2.
Theorem C71_janus_read_refuted :
  exists (S : janus) kw i j,
    j_crypto_ok S /\ j_lost_document S kw i j false = Ok [i; j] /\ j_lost_document S kw i j true = Ok [i].
Proof.
  exists ex_janus, ex_kw, 7%N, 8%N. split_and!; [apply ex_janus_ok|by vm_compute|by vm_compute].
Qed.
Print Assumptions C71_janus_read_refuted.
