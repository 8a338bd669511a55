(** Janus and its list store: the properties. *)
From stdpp Require Import prelude gmap.
From Coq Require Import NArith Lia.
From Verif Require Import Base EncModel EncProofs KvModel UtilsModel DianaModel DianaSpec DianaProofs Props_Diana
  JanusModel JanusSpec JanusProofs.
Local Arguments N.of_nat : simpl never.
Local Arguments N.modulo : simpl never.
Local Arguments N.pow : simpl never.
Local Arguments N.to_nat : simpl never.

(** ** C46: the list store *)
Theorem C46_roundtrip :
  forall tag_size (db : gmap bytes bytes) key (data : list cached),
    8 <= tag_size -> Forall (fun x => (x.1 < 2 ^ 64)%N /\ length x.2 = tag_size) data ->
    list_get tag_size (list_put db key data) key = Ok data /\
    forall key', key' <> key -> list_get tag_size (list_put db key data) key' = list_get tag_size db key'.
Proof.
  intros ts db key data Hts Hd. split; [by apply list_get_put|]. intros key' Hne. by apply list_get_put_ne.
Qed.
Print Assumptions C46_roundtrip.
Theorem C46_absent : forall tag_size (db : gmap bytes bytes) key, db !! key = None -> list_get tag_size db key = Ok [].
Proof. intros ts db key E. unfold list_get. by rewrite E. Qed.
Print Assumptions C46_absent.
(** The test of the deserializer compares with sizeof(kTagSize): with tags of less than 8
    bytes, elements would be lost ... *)
Theorem C46_short_tags_refuted :
  forall tag_size, tag_size < 8 -> exists (data : list cached),
    Forall (fun x => (x.1 < 2 ^ 64)%N /\ length x.2 = tag_size) data /\ data <> [] /\
    forall db key, list_get tag_size (list_put db key data) key = Ok [].
Proof.
  intros ts Hts. exists [(0%N, replicate ts 0%N)]. split; [|split; [done|]].
  - constructor; [|done]. simpl. by rewrite replicate_length.
  - intros db key. unfold list_get, list_put. rewrite lookup_insert. rewrite bind_cons. cbn [deser_loop].
    unfold deser_cached.
    assert (Hl : length (ser_cached (0%N, replicate ts 0%N) ++ ([] ≫= ser_cached)) = 8 + ts).
    { change ([] ≫= ser_cached) with (@nil N). rewrite app_nil_r. unfold ser_cached. cbn [fst snd]. by rewrite app_length, le64_length, replicate_length. }
    rewrite Hl. destruct (Nat.ltb_spec (8 + ts) (8 + 8)); [done|lia].
Qed.
Print Assumptions C46_short_tags_refuted.
(** ... and with longer tags, a truncated string is read past its end. *)
Theorem C46_truncated_undefined :
  forall tag_size (db : gmap bytes bytes) key raw, db !! key = Some raw -> 16 <= length raw < 8 + tag_size ->
    list_get tag_size db key = UB.
Proof.
  intros ts db key raw E Hl. unfold list_get. rewrite E. cbn [deser_loop]. unfold deser_cached.
  destruct (Nat.ltb_spec (length raw) (8 + 8)); [lia|]. destruct (Nat.ltb_spec (length raw) (8 + ts)); [done|lia].
Qed.
Print Assumptions C46_truncated_undefined.
Example C46_case :
  let data := [(5%N, replicate 16 1%N); (2 ^ 64 - 1, replicate 16 255%N)%N] in
  Forall (fun x : cached => (x.1 < 2 ^ 64)%N /\ length x.2 = 16) data /\
  list_get 16 (list_put {[ [1%N] := [] ]} [1%N] data) [1%N] = Ok data /\
  list_get 16 {[ [1%N] := replicate 20 0%N ]} [1%N] = UB.
Proof. split; [|by vm_compute]. repeat (constructor; [by vm_compute|]). constructor. Qed.

(** ** An instance of the cryptography *)
(** The key shares telescope: the first is d², those of the punctures are 2i - 1; with
    other shares the plaintext is garbled. *)
Definition ex_jdiana (len : nat) : diana := {|
  d_hash := fun kw => kw ++ replicate 16 0%N;
  d_root := fun k => take 15 k;
  d_kwtok := fun k => k;
  d_leaf := fun k i => k ++ [i];
  d_con := bytes * N;
  d_constrain := fun k _ n => (k, n);
  d_max_leaf := snd;
  d_eval := fun con i => con.1 ++ [i];
  d_prg := fun st off len => take len (drop off (st ++ replicate (off + len) 7%N));
  d_len := len |}.
Definition ex_sum (l : list bytes) : N := foldr (fun s acc => (default 0 (head s) + acc)%N) 0%N l.
Definition ex_janus : janus := {|
  jn_ins := ex_jdiana 24;
  jn_del := ex_jdiana 17;
  jn_kwtok := fun kw => kw;
  jn_tag := fun s => take 16 (s ++ replicate 16 0%N);
  jn_pekey := fun k => k;
  pe_enc := fun _ m t => le64 m ++ t;
  pe_share0 := fun _ d => [(d * d)%N];
  pe_punct := fun _ i t => (2 * i - 1)%N :: t;
  pe_share_tag := fun s => tail s;
  pe_ct_tag := fun ct => take 16 (drop 8 ct ++ replicate 16 0%N);
  pe_dec := fun shares ct =>
    if bool_decide (drop 8 ct ∈ (tail <$> tail shares)) then None
    else if (ex_sum (tail shares) =? ex_sum (take 1 shares))%N then Some (le_val (take 8 ct) mod 2 ^ 64)%N
    else Some ((le_val (take 8 ct) + 1) mod 2 ^ 64)%N;
  jn_tagsize := 16 |}.

Lemma ex_jdiana_ok len : d_crypto_ok (ex_jdiana len).
Proof.
  split; [done|done|]. intros st off l. simpl. rewrite take_length, drop_length, app_length, replicate_length. lia.
Qed.
Local Arguments N.mul : simpl never.
Lemma ex_sum_squares (tags : list bytes) : forall k,
  (ex_sum (imap (fun j tag => (2 * (N.of_nat (k + j) + 1) - 1)%N :: tag) tags) + N.of_nat k * N.of_nat k =
   N.of_nat (k + length tags) * N.of_nat (k + length tags))%N.
Proof.
  induction tags as [|t tags IH]; intros k.
  - simpl. rewrite Nat.add_0_r. lia.
  - simpl. specialize (IH (Datatypes.S k)).
    rewrite (imap_ext _ (fun j tag => (2 * (N.of_nat (Datatypes.S k + j) + 1) - 1)%N :: tag)).
    + rewrite Nat.add_0_r. replace (k + Datatypes.S (length tags)) with (Datatypes.S k + length tags) by lia.
      rewrite <- IH. replace (N.of_nat (Datatypes.S k)) with (N.of_nat k + 1)%N by lia.
      replace (2 * (N.of_nat k + 1) - 1)%N with (2 * N.of_nat k + 1)%N by lia. ring.
    + intros j x _. simpl. by replace (k + Datatypes.S j) with (Datatypes.S (k + j)) by lia.
Qed.
Lemma ex_janus_ok : j_crypto_ok ex_janus.
Proof.
  split; try apply ex_jdiana_ok.
  - intros key tags m t Hm Htags Ht. cbn [ex_janus pe_dec pe_share0 pe_punct pe_enc tail take].
    rewrite drop_app_alt by by rewrite le64_length. rewrite take_app_alt by by rewrite le64_length.
    rewrite le64_val by done.
    assert (Et : tail <$> imap (fun j tag => (2 * (N.of_nat j + 1) - 1)%N :: tag) tags = tags).
    { rewrite fmap_imap. rewrite (imap_ext _ (const id)) by done. rewrite imap_const. apply list_fmap_id. }
    rewrite Et. destruct (decide (t ∈ tags)) as [Hin|Hin].
    + by rewrite bool_decide_eq_true_2.
    + rewrite bool_decide_eq_false_2 by done.
      pose proof (ex_sum_squares tags 0) as E. simpl in E. rewrite N.add_0_r in E.
      rewrite E. cbn [ex_sum foldr head default option_map from_option]. simpl. rewrite N.add_0_r, N.eqb_refl.
      by rewrite N.mod_small.
  - intros key m t Ht. cbn [ex_janus pe_ct_tag pe_enc]. rewrite drop_app_alt by by rewrite le64_length.
    by apply take_app_alt.
  - done.
  - intros key m t Ht. simpl in Ht. cbn [ex_janus pe_enc jn_ins ex_jdiana d_len]. by rewrite app_length, le64_length, Ht.
  - intros key d t Ht. simpl in Ht. simpl. by rewrite Ht.
  - intros x. cbn [ex_janus jn_tag jn_tagsize]. rewrite take_length, app_length, replicate_length. lia.
  - simpl. lia.
Qed.
Lemma ex_janus_types : j_types_ok ex_janus.
Proof.
  split.
  - intros shares ct r. cbn [ex_janus pe_dec]. case_match; [done|]. case_match; intros E; injection E as <-; by apply N.mod_lt.
  - intros ct. cbn [ex_janus pe_ct_tag jn_tagsize]. rewrite take_length, app_length, replicate_length. lia.
  - simpl. lia.
Qed.

(** ** C41: searches *)
(** Exact behaviour on every history with at most one removal per keyword and epoch;
    every such history runs to its end. *)
Lemma runs_exactly S ops : j_crypto_ok S -> j_no_collision S ops -> j_ok1 j_hist0 ops ->
  (forall ans c s, j_run S j_new_client j_new_server ops ans c s -> Forall2 (≡ₚ) ans (j_actual j_act0 j_hist0 ops)) /\
  exists ans c s, j_run S j_new_client j_new_server ops ans c s.
Proof.
  intros Hk [Xt Xk Xi Xd Xf] Hok.
  apply (j_run_ok S Hk (fun kw => kw ∈ op_kw <$> ops) (fun kw i => i ∈ ops ≫= op_docs kw) Xt Xk ops
    j_act0 j_hist0 j_new_client j_new_server (fun _ => []) (fun _ => []) no_slots no_slots ∅ ∅).
  - by apply few_start.
  - split; [exact Xi|exact Xd].
  - done.
  - apply Forall_forall. intros o Ho. split.
    + apply elem_of_list_fmap. by exists o.
    + intros i Hi. apply elem_of_list_bind. by exists o.
  - apply j_inv_start.
Qed.

Theorem C41_search :
  forall (S : janus) ops ans c s,
    j_crypto_ok S -> j_no_collision S ops -> j_ok j_hist0 ops ->
    j_run S j_new_client j_new_server ops ans c s ->
    Forall2 (≡ₚ) ans (j_answers (fun _ => []) ops).
Proof.
  intros S ops ans c s Hk Hx Hok Hr.
  destruct (runs_exactly S ops Hk Hx (j_ok_weaken _ _ Hok)) as [H _].
  eapply Forall2_transitive; [|by eapply H|by apply actual_ok]. intros x y z. apply Permutation_trans.
Qed.
Print Assumptions C41_search.
Theorem C41_runs :
  forall (S : janus) ops,
    j_crypto_ok S -> j_no_collision S ops -> j_ok1 j_hist0 ops ->
    exists ans c s, j_run S j_new_client j_new_server ops ans c s.
Proof. intros S ops Hk Hx Hok. by destruct (runs_exactly S ops Hk Hx Hok) as [_ H]. Qed.
Print Assumptions C41_runs.
(** Exact behaviour with re-insertions and lost requests. *)
Theorem C41_exact :
  forall (S : janus) ops ans c s,
    j_crypto_ok S -> j_no_collision S ops -> j_ok1 j_hist0 ops ->
    j_run S j_new_client j_new_server ops ans c s ->
    Forall2 (≡ₚ) ans (j_actual j_act0 j_hist0 ops).
Proof. intros S ops ans c s Hk Hx Hok Hr. destruct (runs_exactly S ops Hk Hx Hok) as [H _]. by eapply H. Qed.
Print Assumptions C41_exact.

(** Cause of the failure with two removals in one epoch: both key shares are made for the
    same position, 1. *)
Theorem C41_same_position :
  forall (S : janus) c kw i j, let m := meta_keyword kw (j_search_counter c kw) in
    jc_del c !! m = None ->
    let r1 := j_removal_request S c kw i in
    let r2 := j_removal_request S r1.1 kw j in
    r1.2 = d_make_update (jn_del S) m 0 (pe_punct S (jn_pekey S m) 1 (j_tag S kw i)) /\
    r2.2 = d_make_update (jn_del S) m 1 (pe_punct S (jn_pekey S m) 1 (j_tag S kw j)).
Proof.
  intros S c kw i j m Hm r1 r2.
  assert (E1 : r1 = (JClient (jc_ins c) (<[m := 0%N]> (jc_del c)) (jc_search c),
    d_make_update (jn_del S) m 0 (pe_punct S (jn_pekey S m) 1 (j_tag S kw i)))).
  { unfold r1, j_removal_request, d_insertion_request, d_get_match_count, ctr_get_and_increment, ctr_get. fold m. rewrite Hm. done. }
  unfold r2. rewrite E1. cbn [fst snd]. split; [done|].
  unfold j_removal_request, d_insertion_request, d_get_match_count, ctr_get_and_increment, ctr_get.
  cbn [jc_ins jc_del jc_search]. change (j_search_counter (JClient (jc_ins c) (<[m:=0%N]> (jc_del c)) (jc_search c)) kw) with (j_search_counter c kw).
  fold m. rewrite lookup_insert. done.
Qed.
Print Assumptions C41_same_position.

Definition ex_kw : bytes := [97%N].
Definition ex_kw2 : bytes := [98%N].

(** No collision in the instance, for short keywords. *)
Lemma ex_token_inj len m i m' i' : length m = 9 -> length m' = 9 ->
  d_update_token (ex_jdiana len) m i = d_update_token (ex_jdiana len) m' i' -> m = m' /\ i = i'.
Proof.
  intros Hm Hm' E.
  do 9 (destruct m as [|? m]; [done|]). destruct m; [|done].
  do 9 (destruct m' as [|? m']; [done|]). destruct m'; [|done].
  unfold d_update_token in E. cbn in E. injection E. intros. split; [congruence|lia].
Qed.
Lemma hex8_length e : (e < 2 ^ 32)%N -> length (hex_string32 e) = 8.
Proof. intros He. by destruct (Props_Utils.hex_string32_ok e He). Qed.

(** Keywords with insertions or removals occur in the history; their epochs are not
    beyond the current one. *)
Definition hist_ok (P : bytes -> Prop) (h : j_hist) : Prop :=
  (forall kw e, jh_ins h kw e <> 0 -> P kw /\ (e <= jh_epoch h kw)%N) /\
  (forall kw e, jh_rem h kw e <> [] -> P kw /\ (e <= jh_epoch h kw)%N).
Lemma hist_ok_steps (P : bytes -> Prop) ops : Forall (fun o => P (op_kw o)) ops ->
  forall h, hist_ok P h -> hist_ok P (foldl j_hist_step h ops).
Proof.
  induction 1 as [|o ops Ho _ IH]; intros h Hh; [done|]. apply IH. clear IH. destruct Hh as [H1 H2].
  assert (Hs : forall kw, hist_ok P (if decide (quiet h kw) then h
      else JHist (fun k => if decide (k = kw) then (jh_epoch h k + 1)%N else jh_epoch h k) (jh_ins h) (jh_rem h))).
  { intros kw. case_decide; [done|]. split; simpl; intros k e He.
    - destruct (H1 k e He). split; [done|]. case_decide; lia.
    - destruct (H2 k e He). split; [done|]. case_decide; lia. }
  destruct o as [kw i|kw i|kw|kw n|kw]; simpl in Ho |- *; try apply Hs; split; simpl; intros k e; try case_decide as Hd; auto;
    destruct Hd as [-> ->]; intros _; (split; [done|lia]).
Qed.
(** The instance has no collisions on histories over keywords of one byte. *)
Lemma ex_no_collision ops :
  Forall (fun o => length (op_kw o) = 1) ops -> (N.of_nat (length ops) < 2 ^ 32)%N ->
  (forall kw i, i ∈ ops ≫= op_docs kw -> (i < 2 ^ 64)%N) -> j_no_collision ex_janus ops.
Proof.
  intros Hkw Hn Hdoc.
  destruct (few_start ops Hn) as (He & _).
  destruct (hist_ok_steps (fun kw => length kw = 1) ops Hkw j_hist0) as [H1 H2]; [by split|].
  assert (Hcol : forall len kw e i kw' e' i', length kw = 1 -> length kw' = 1 -> (e < 2 ^ 32)%N -> (e' < 2 ^ 32)%N ->
    d_update_token (ex_jdiana len) (meta_keyword kw e) i = d_update_token (ex_jdiana len) (meta_keyword kw' e') i' ->
    kw = kw' /\ e = e' /\ i = i').
  { intros len kw e i kw' e' i' Hl Hl' Hb Hb' E. apply ex_token_inj in E as [E ->].
    - apply Props_Utils.C45_meta_keyword_injective in E as [-> ->]; done.
    - unfold meta_keyword. rewrite app_length, hex8_length, Hl; done.
    - unfold meta_keyword. rewrite app_length, hex8_length, Hl'; done. }
  split.
  - intros kw i i' Hi Hi' E. apply Hdoc in Hi, Hi'. unfold j_tag, keyword_doc_string in E. cbn [ex_janus jn_tag] in E.
    destruct (Props_Utils.hex_string64_ok i Hi) as [V1 L1], (Props_Utils.hex_string64_ok i' Hi') as [V2 L2].
    rewrite <- !app_assoc, !take_app_alt in E by done. rewrite <- V1, <- V2. by rewrite E.
  - intros kw kw' _ _ E. exact E.
  - intros h kw e i kw' e' i' Hi Hi' E.
    destruct (H1 kw e) as [P1 B1]; [fold h; lia|]. destruct (H1 kw' e') as [P2 B2]; [fold h; lia|]. fold h in B1, B2.
    eapply (Hcol 24); [done|done| | |exact E].
    + specialize (He kw). fold h in He. lia.
    + specialize (He kw'). fold h in He. lia.
  - intros h kw e i kw' e' i' Hi Hi' E.
    destruct (H2 kw e) as [P1 B1]; [fold h; intros En; rewrite En in Hi; simpl in Hi; lia|].
    destruct (H2 kw' e') as [P2 B2]; [fold h; intros En; rewrite En in Hi'; simpl in Hi'; lia|]. fold h in B1, B2.
    eapply (Hcol 17); [done|done| | |exact E].
    + specialize (He kw). fold h in He. lia.
    + specialize (He kw'). fold h in He. lia.
  - done.
Qed.

(** Two removals in one epoch: the third document is garbled. *)
Definition ex_two_removals : list j_op :=
  [JIns ex_kw 1; JIns ex_kw 2; JIns ex_kw 3; JRem ex_kw 1; JRem ex_kw 2; JFind ex_kw].
Theorem C41_refuted :
  exists (S : janus) ops ans c s,
    j_crypto_ok S /\ j_no_collision S ops /\ j_run S j_new_client j_new_server ops ans c s /\
    j_answers (fun _ => []) ops = [[3%N]] /\ ans = [[4%N]].
Proof.
  exists ex_janus, ex_two_removals, [[4%N]]. do 2 eexists. split_and!.
  - apply ex_janus_ok.
  - apply ex_no_collision; [by repeat constructor|by vm_compute|].
    intros kw i Hi. unfold ex_two_removals in Hi. cbn -[N.lt] in Hi. apply elem_of_list_In in Hi. repeat case_decide; simpl in Hi; naive_solver lia.
  - do 5 constructor. eapply jr_find; [by vm_compute|constructor].
  - by vm_compute.
  - done.
Qed.
Print Assumptions C41_refuted.

(** A history on which the theorems apply. *)
Definition ex_hist : list j_op :=
  [JIns ex_kw 1; JIns ex_kw 2; JIns ex_kw2 7; JFind ex_kw; JRem ex_kw 1; JIns ex_kw 3; JLost ex_kw2; JFindPar ex_kw 2;
   JIns ex_kw 1; JRem ex_kw2 7; JLost ex_kw; JFind ex_kw].
Definition ex_hist_ok : list j_op :=
  [JIns ex_kw 1; JIns ex_kw 2; JIns ex_kw2 7; JFind ex_kw; JLost ex_kw; JRem ex_kw 1; JIns ex_kw 3; JFindPar ex_kw 2;
   JIns ex_kw 1; JRem ex_kw2 7; JFind ex_kw; JFind ex_kw2].
Lemma ex_hist_docs ops kw i : ops = ex_hist \/ ops = ex_hist_ok -> i ∈ ops ≫= op_docs kw -> (i < 2 ^ 64)%N.
Proof.
  intros [->| ->] Hi; apply elem_of_list_bind in Hi as (o & Hi & Ho); unfold ex_hist, ex_hist_ok in Ho;
    repeat (apply elem_of_cons in Ho as [->|Ho]; [cbn in Hi; try case_decide; try (by apply elem_of_nil in Hi);
      apply elem_of_list_singleton in Hi as ->; by vm_compute|]); by apply elem_of_nil in Ho.
Qed.
Example C41_case :
  j_crypto_ok ex_janus /\ j_no_collision ex_janus ex_hist_ok /\ j_ok j_hist0 ex_hist_ok /\
  j_answers (fun _ => []) ex_hist_ok = [[1; 2]; [2; 3]; [2; 3; 1]; []]%N.
Proof.
  split_and!.
  - apply ex_janus_ok.
  - apply ex_no_collision; [by repeat constructor|by vm_compute|]. intros kw i. apply ex_hist_docs. auto.
  - cbn [ex_hist_ok j_ok]. repeat split; try (by vm_compute); try (apply (bool_decide_unpack _); by vm_compute).
  - by vm_compute.
Qed.
Example C41_exact_case :
  j_crypto_ok ex_janus /\ j_no_collision ex_janus ex_hist /\ j_ok1 j_hist0 ex_hist /\
  j_actual j_act0 j_hist0 ex_hist = [[1; 2]; [2; 3]; [2; 3]]%N.
Proof.
  split_and!.
  - apply ex_janus_ok.
  - apply ex_no_collision; [by repeat constructor|by vm_compute|]. intros kw i. apply ex_hist_docs. auto.
  - cbn [ex_hist j_ok1]. repeat split; by vm_compute.
  - by vm_compute.
Qed.

(** ** C42: re-insertion *)
Lemma answers_snoc ops kw : forall docs,
  j_answers docs (ops ++ [JFind kw]) = j_answers docs ops ++ [foldl j_docs_step docs ops kw].
Proof.
  induction ops as [|o ops IH]; intros docs; [done|]. cbn [app j_answers foldl]. destruct o; rewrite IH; done.
Qed.
Lemma docs_keep ops kw (i : N) : JRem kw i ∉ ops -> forall docs, i ∈ docs kw -> i ∈ foldl j_docs_step docs ops kw.
Proof.
  induction ops as [|o ops IH]; intros Hni docs Hi; [done|]. apply not_elem_of_cons in Hni as [Ho Hni]. cbn [foldl].
  apply IH; [done|]. destruct o; cbn [j_docs_step]; try done; case_decide; try done; subst.
  - apply elem_of_app. by left.
  - apply elem_of_list_filter. split; [|done]. intros ->. done.
Qed.
(** If the insertion comes after a search, or if the document was not removed since the last one. *)
Theorem C42_reinsertion :
  forall (S : janus) ops1 ops2 kw i ans c s, let ops := ops1 ++ JIns kw i :: ops2 ++ [JFind kw] in
    j_crypto_ok S -> j_no_collision S ops -> j_ok j_hist0 ops -> JRem kw i ∉ ops2 ->
    j_run S j_new_client j_new_server ops ans c s ->
    exists pre a, ans = pre ++ [a] /\ i ∈ a.
Proof.
  intros S ops1 ops2 kw i ans c s ops Hk Hx Hok Hni Hr.
  assert (H := C41_search S ops ans c s Hk Hx Hok Hr). unfold ops in H.
  replace (ops1 ++ JIns kw i :: ops2 ++ [JFind kw]) with ((ops1 ++ JIns kw i :: ops2) ++ [JFind kw]) in H by by rewrite <- app_assoc.
  rewrite answers_snoc in H. apply Forall2_app_inv_r in H as (pre & l & _ & H & ->).
  inversion H as [|a ? l' ? Ha Hl']; subst. inversion Hl'; subst. exists pre, a. split; [done|]. rewrite Ha.
  rewrite foldl_app. cbn [foldl]. apply docs_keep; [done|]. cbn [j_docs_step]. rewrite decide_True by done.
  apply elem_of_app. right. by apply elem_of_list_singleton.
Qed.
Print Assumptions C42_reinsertion.
(** In the same epoch, a re-inserted document is not found, whatever the cryptography. *)
Theorem C42_reinsertion_not_found :
  forall (S : janus) kw i, let ops := [JIns kw i; JRem kw i; JIns kw i; JFind kw] in
    j_crypto_ok S -> j_no_collision S ops -> (i < 2 ^ 64)%N ->
    (exists ans c s, j_run S j_new_client j_new_server ops ans c s) /\
    (forall ans c s, j_run S j_new_client j_new_server ops ans c s -> ans = [[]]) /\
    j_answers (fun _ => []) ops = [[i]].
Proof.
  intros S kw i ops Hk Hx Hi.
  assert (Hok : j_ok1 j_hist0 ops).
  { unfold ops. cbn. done. }
  assert (Ha : j_actual j_act0 j_hist0 ops = [[]]).
  { unfold ops. cbn [j_actual]. unfold ja_docs. cbn [j_act_step ja_stored ja_pending j_act0 j_hist_step jh_rem jh_epoch j_hist0].
    rewrite !decide_True by done. cbn [app].
    rewrite !filter_cons_False; [done|..]; intros H; apply H; by apply elem_of_list_singleton. }
  split_and!.
  - by apply C41_runs.
  - intros ans c s Hr. assert (H := C41_exact S ops ans c s Hk Hx Hok Hr). rewrite Ha in H.
    inversion H as [|a ? l ? Hp Hl]; subst. inversion Hl; subst. symmetry in Hp. by apply Permutation_nil in Hp as ->.
  - unfold ops. cbn. rewrite !decide_True by done. cbn. rewrite decide_False by auto. done.
Qed.
Print Assumptions C42_reinsertion_not_found.
Example C42_case :
  (let ops := [JIns ex_kw 1; JRem ex_kw 1; JIns ex_kw 1; JFind ex_kw] in j_no_collision ex_janus ops) /\
  (let ops := [JIns ex_kw 1; JRem ex_kw 1; JFind ex_kw] ++ JIns ex_kw 1 :: [JRem ex_kw 2] ++ [JFind ex_kw] in
   j_no_collision ex_janus ops /\ j_ok j_hist0 ops).
Proof.
  assert (G : forall ops kw (i : N), Forall (fun o => match o with JIns _ i | JRem _ i => (i < 2 ^ 64)%N | _ => True end) ops ->
    i ∈ ops ≫= op_docs kw -> (i < 2 ^ 64)%N).
  { intros ops kw i Hf Hi. apply elem_of_list_bind in Hi as (o & Hi & Ho). rewrite Forall_forall in Hf. specialize (Hf o Ho).
    destruct o; cbn in Hi; try (by apply elem_of_nil in Hi); case_decide; try (by apply elem_of_nil in Hi);
    by apply elem_of_list_singleton in Hi as ->. }
  split_and!; intros ops.
  - apply ex_no_collision; [by repeat constructor|by vm_compute|]. intros kw i. apply G. by repeat constructor.
  - split.
    + apply ex_no_collision; [by repeat constructor|by vm_compute|]. intros kw i. apply G. by repeat constructor.
    + cbn [ops app j_ok]. repeat split; try (by vm_compute); try (apply (bool_decide_unpack _); by vm_compute).
Qed.

Theorem C42_refuted :
  exists (S : janus) ops ans c s, j_crypto_ok S /\ j_no_collision S ops /\
    ops = [JIns ex_kw 1; JRem ex_kw 1; JIns ex_kw 1; JFind ex_kw] /\
    j_run S j_new_client j_new_server ops ans c s /\ ans = [[]] /\ j_answers (fun _ => []) ops = [[1%N]].
Proof.
  exists ex_janus, [JIns ex_kw 1; JRem ex_kw 1; JIns ex_kw 1; JFind ex_kw]. eexists _, _, _. split; [apply ex_janus_ok|]. split; [apply C42_case|]. split; [reflexivity|].
  split; [|split; [reflexivity|by vm_compute]]. do 3 constructor. eapply jr_find; [by vm_compute|constructor].
Qed.
Print Assumptions C42_refuted.

(** ** C43: repeated searches *)
(** After any history, once a search has been answered, every further search answers the
    same, without looking at the two encrypted databases. *)
Theorem C43_repeated :
  forall (S : janus) ops ans c s kw f1 a1 c1 s1,
    j_types_ok S -> (N.of_nat (length ops) + 2 < 2 ^ 32)%N ->
    j_run S j_new_client j_new_server ops ans c s ->
    finds kw f1 -> j_run S c s [f1] [a1] c1 s1 ->
    ds_count (jr_ins (j_search_request S c1 kw).2) = 0%N /\ ds_count (jr_del (j_search_request S c1 kw).2) = 0%N /\
    (exists c2 s2, j_run S c1 s1 [JFind kw] [a1] c2 s2) /\
    forall f2 a2 c2 s2, finds kw f2 -> j_run S c1 s1 [f2] [a2] c2 s2 ->
      a2 = a1 /\ js_ins s2 = js_ins s1 /\ js_del s2 = js_del s1.
Proof.
  intros S ops ans c s kw f1 a1 c1 s1 Ht Hn Hr Hf1 Hr1.
  set (k := N.of_nat (length ops)).
  assert (Q : q_inv S k c s).
  { pose proof (q_run S Ht _ _ _ _ _ _ Hr 0%N) as H. rewrite N.add_0_l in H. apply H; [lia|apply q_start]. }
  assert (Hk : (k + 1 < 2 ^ 32)%N) by (unfold k; lia).
  destruct (q_client S k c s kw Hk Q) as (Q' & Z1 & Z2).
  assert (Hc1 : c1 = (j_search_request S c kw).1 /\ exists l, list_get (jn_tagsize S) (js_cache s1) (jn_kwtok S kw) = Ok l /\ a1 = l.*1).
  { destruct Hf1 as [->|(n & Hn0 & ->)].
    - inversion Hr1 as [| | |? ? ? s1' ? ? ? ? ? E Hr'| |]; subst. inversion Hr'; subst. split; [done|].
      destruct (q_seq S Ht k c s kw (j_search_request S c kw).2 s1 a1 Hk Q eq_refl E) as (l & Hl & Ec & ->).
      exists l. split; [|done]. rewrite Ec. apply list_get_put; [apply (jt_size S Ht)|done].
    - inversion Hr1 as [| | | |? ? ? ? f0 f s1' calls ? ? ? ? E0 Hst Hfin E Hr'|]; subst. inversion Hr'; subst. split; [done|].
      destruct (q_par S Ht k c s kw n (j_search_request S c kw).2 f s1 calls Hk Q eq_refl E) as (l & Hl & Ec & El).
      exists l. split; [|by apply El]. rewrite Ec. apply list_get_put; [apply (jt_size S Ht)|done]. }
  destruct Hc1 as [-> (l & Hl & ->)]. split; [done|]. split; [done|].
  set (c1 := (j_search_request S c kw).1) in *.
  pose proof (zero_seq S s1 (j_search_request S c1 kw).2 l Z1 Z2 Hl) as E2.
  split.
  - do 2 eexists. eapply jr_find; [exact E2|constructor].
  - intros f2 a2 c2 s2 Hf2 Hr2. destruct Hf2 as [->|(n & Hn0 & ->)].
    + inversion Hr2 as [| | |? ? ? s1' ? ? ? ? ? E Hr'| |]; subst. inversion Hr'; subst.
      rewrite E2 in E. injection E as <- <-. done.
    + inversion Hr2 as [| | | |? ? ? ? f0 f s1' calls ? ? ? ? E0 Hst Hfin E Hr'|]; subst. inversion Hr'; subst.
      destruct (zero_par S s1 (j_search_request S c1 kw).2 l n f0 f _ calls Hn0 Z1 Z2 Hl E0 Hst E) as [-> ->]. done.
Qed.
Print Assumptions C43_repeated.

(** The parallel search answers the same documents as the sequential one, from every
    state of the server and in all executions of the threads. *)
Theorem C43_parallel :
  forall (S : janus) s (req : j_search S) l n,
    well_formed (jr_ins req) -> well_formed (jr_del req) ->
    NoDup (request_tokens (jr_ins req)) -> NoDup (request_tokens (jr_del req)) ->
    list_get (jn_tagsize S) (js_cache s) (jr_token req) = Ok l -> (0 < n < 256)%N ->
    exists s1 docs f0, j_server_search S s req = Ok (s1, docs) /\ j_par_start S s req n = Ok f0 /\
      forall f, rtc (d_step (jn_del S) true) f0 f -> d_finished f ->
        exists s2 calls, j_par_finish S s req n f = Ok (s2, calls) /\
          j_par_list n calls ≡ₚ docs /\ j_par_callback calls = docs /\
          js_del s2 = js_del s1 /\ js_ins s2 = js_ins s /\
          exists l1 l2, l1 ≡ₚ l2 /\ js_cache s1 = list_put (js_cache s) (jr_token req) l1 /\
            js_cache s2 = list_put (js_cache s) (jr_token req) l2.
Proof.
  intros S s req l n Wi Wd Ni Nd Hl Hn.
  destruct (search_par_eq S s req l n Hn Wi Wd Nd Hl) as (f0 & E0 & Hf).
  eexists _, _, f0. split; [by apply search_seq_eq|]. split; [done|]. intros f Hst Hfin.
  destruct (Hf f Hst Hfin) as (calls & E & _ & El & Ec). do 2 eexists. split; [exact E|]. cbn [js_ins js_del js_cache].
  rewrite El, Ec. split_and!; try done.
  - by rewrite Permutation_app_comm.
  - do 2 eexists. split; [|split; reflexivity]. apply Permutation_app_comm.
Qed.
Print Assumptions C43_parallel.

Example C43_case :
  j_types_ok ex_janus /\
  exists c s a1 c1 s1, j_run ex_janus j_new_client j_new_server ex_two_removals [[4%N]] c s /\
    j_run ex_janus c s [JFind ex_kw] [a1] c1 s1 /\ a1 = [4%N].
Proof.
  split; [apply ex_janus_types|].
  do 5 eexists. split_and!.
  - do 5 constructor. eapply jr_find; [by vm_compute|constructor].
  - eapply jr_find; [by vm_compute|constructor].
  - done.
Qed.
Example C43_parallel_case :
  exists (req : j_search ex_janus) s l,
    well_formed (jr_ins req) /\ well_formed (jr_del req) /\
    NoDup (request_tokens (jr_ins req)) /\ NoDup (request_tokens (jr_del req)) /\
    list_get (jn_tagsize ex_janus) (js_cache s) (jr_token req) = Ok l /\ l <> [] /\
    exists s', j_server_search ex_janus s req = Ok (s', [9; 1; 2]%N).
Proof.
  set (c0 := JClient ∅ ∅ ∅). 
  set (r1 := j_insertion_request ex_janus c0 ex_kw 1). set (r2 := j_insertion_request ex_janus r1.1 ex_kw 2).
  set (r3 := j_removal_request ex_janus r2.1 ex_kw 8).
  set (s := JServer (d_insert (d_insert ∅ r1.2) r2.2) (d_insert ∅ r3.2)
    (list_put ∅ ex_kw ((fun i => (i, j_tag ex_janus ex_kw i)) <$> [8; 9]%N))).
  exists (j_search_request ex_janus r3.1 ex_kw).2, s. eexists. split_and!.
  - right. eexists. split; by vm_compute.
  - right. eexists. split; by vm_compute.
  - apply (bool_decide_unpack _). by vm_compute.
  - apply (bool_decide_unpack _). by vm_compute.
  - by vm_compute.
  - done.
  - eexists. by vm_compute.
Qed.

(** ** C44: lost requests *)
Lemma answers_lost ops1 kw ops2 : forall docs, j_answers docs (ops1 ++ JLost kw :: ops2) = j_answers docs (ops1 ++ ops2).
Proof. induction ops1 as [|o ops1 IH]; intros docs; [done|]. cbn [app j_answers]. destruct o; by rewrite IH. Qed.
(** A request lost when nothing happened since the last search changes nothing. *)
Theorem C44_lost_when_quiet :
  forall (S : janus) ops1 kw ops2 ans c s, let ops := ops1 ++ JLost kw :: ops2 in
    j_crypto_ok S -> j_no_collision S ops -> j_ok j_hist0 ops ->
    j_run S j_new_client j_new_server ops ans c s ->
    Forall2 (≡ₚ) ans (j_answers (fun _ => []) (ops1 ++ ops2)).
Proof.
  intros S ops1 kw ops2 ans c s ops Hk Hx Hok Hr. rewrite <- (answers_lost ops1 kw ops2). by eapply C41_search.
Qed.
Print Assumptions C44_lost_when_quiet.
(** Otherwise the insertions since the last search are lost, whatever the cryptography ... *)
Theorem C44_insertions_dropped :
  forall (S : janus) kw i, let ops := [JIns kw i; JLost kw; JFind kw] in
    j_crypto_ok S -> j_no_collision S ops -> (i < 2 ^ 64)%N ->
    (exists ans c s, j_run S j_new_client j_new_server ops ans c s) /\
    (forall ans c s, j_run S j_new_client j_new_server ops ans c s -> ans = [[]]) /\
    j_answers (fun _ => []) ops = [[i]].
Proof.
  intros S kw i ops Hk Hx Hi.
  assert (Hok : j_ok1 j_hist0 ops) by done.
  assert (Ha : j_actual j_act0 j_hist0 ops = [[]]).
  { unfold ops. cbn [j_actual j_act_step]. unfold ja_docs. cbn [ja_stored ja_pending j_act0]. by rewrite decide_True. }
  split_and!.
  - by apply C41_runs.
  - intros ans c s Hr. assert (H := C41_exact S ops ans c s Hk Hx Hok Hr). rewrite Ha in H.
    inversion H as [|a ? l ? Hp Hl]; subst. inversion Hl; subst. symmetry in Hp. by apply Permutation_nil in Hp as ->.
  - unfold ops. cbn. by rewrite decide_True.
Qed.
Print Assumptions C44_insertions_dropped.
(** ... and the removals since the last search have no effect. *)
Theorem C44_removals_dropped :
  forall (S : janus) kw i, let ops := [JIns kw i; JFind kw; JRem kw i; JLost kw; JFind kw] in
    j_crypto_ok S -> j_no_collision S ops -> (i < 2 ^ 64)%N ->
    (exists ans c s, j_run S j_new_client j_new_server ops ans c s) /\
    (forall ans c s, j_run S j_new_client j_new_server ops ans c s -> ans = [[i]; [i]]) /\
    j_answers (fun _ => []) ops = [[i]; []].
Proof.
  intros S kw i ops Hk Hx Hi.
  assert (Hq : ~ quiet (j_hist_step j_hist0 (JIns kw i)) kw).
  { intros [Q _]. cbn in Q. by rewrite decide_True in Q. }
  set (h1 := j_hist_step (j_hist_step j_hist0 (JIns kw i)) (JFind kw)).
  assert (Eh1 : h1 = JHist (fun k => if decide (k = kw) then (0 + 1)%N else 0%N)
    (fun k e => if decide (k = kw /\ e = 0%N) then 1 else 0) (fun _ _ => [])).
  { unfold h1. cbn [j_hist_step]. by rewrite decide_False. }
  assert (Er : jh_rem h1 kw (jh_epoch h1 kw) = []) by by rewrite Eh1.
  assert (Hq2 : ~ quiet (j_hist_step h1 (JRem kw i)) kw).
  { intros [_ Q]. cbn [j_hist_step jh_rem jh_epoch] in Q. rewrite decide_True in Q by done. by rewrite Er in Q. }
  assert (Hok : j_ok1 j_hist0 ops) by (unfold ops; cbn [j_ok1]; by split_and!).
  assert (Ha : j_actual j_act0 j_hist0 ops = [[i]; [i]]).
  { unfold ops. cbn [j_actual]. fold h1.
    assert (Hfn : forall l : list N, filter (fun i => i ∉ []) l = l).
    { induction l as [|x l IHl]; [done|]. rewrite filter_cons_True by apply not_elem_of_nil. by rewrite IHl. }
    set (a1 := j_act_step j_act0 j_hist0 (JIns kw i)).
    assert (E1 : ja_docs a1 (j_hist_step j_hist0 (JIns kw i)) kw = [i]).
    { unfold ja_docs. cbn [a1 j_act_step ja_stored ja_pending j_act0 j_hist_step jh_rem j_hist0]. by rewrite decide_True, Hfn. }
    rewrite E1. f_equal. f_equal.
    unfold ja_docs at 1. cbn [j_act_step ja_stored ja_pending]. rewrite !decide_True by done. rewrite E1.
    assert (E2 : jh_rem (j_hist_step (j_hist_step h1 (JRem kw i)) (JLost kw)) kw
      (jh_epoch (j_hist_step (j_hist_step h1 (JRem kw i)) (JLost kw)) kw) = []).
    { set (h2 := j_hist_step h1 (JRem kw i)) in *. unfold j_hist_step at 1 2. rewrite decide_False by done. cbn [jh_rem jh_epoch].
      rewrite decide_True by done. unfold h2. cbn [j_hist_step jh_rem jh_epoch]. rewrite decide_False.
      - by rewrite Eh1.
      - intros [_ E]. lia. }
    rewrite E2. by rewrite Hfn. }
  split_and!.
  - by apply C41_runs.
  - intros ans c s Hr. assert (H := C41_exact S ops ans c s Hk Hx Hok Hr). rewrite Ha in H.
    inversion H as [|a ? l ? Hp Hl]; subst. inversion Hl as [|a' ? l' ? Hp' Hl']; subst. inversion Hl'; subst.
    symmetry in Hp, Hp'. apply Permutation_singleton_l in Hp, Hp'. by subst.
  - unfold ops. cbn. rewrite !decide_True by done. cbn. rewrite decide_False by auto. done.
Qed.
Print Assumptions C44_removals_dropped.
Example C44_case :
  j_no_collision ex_janus [JIns ex_kw 1; JLost ex_kw; JFind ex_kw] /\
  j_no_collision ex_janus [JIns ex_kw 1; JFind ex_kw; JRem ex_kw 1; JLost ex_kw; JFind ex_kw].
Proof.
  assert (G : forall ops kw (i : N), Forall (fun o => match o with JIns _ i | JRem _ i => (i < 2 ^ 64)%N | _ => True end) ops ->
    i ∈ ops ≫= op_docs kw -> (i < 2 ^ 64)%N).
  { intros ops kw i Hf Hi. apply elem_of_list_bind in Hi as (o & Hi & Ho). rewrite Forall_forall in Hf. specialize (Hf o Ho).
    destruct o; cbn in Hi; try (by apply elem_of_nil in Hi); case_decide; try (by apply elem_of_nil in Hi);
    by apply elem_of_list_singleton in Hi as ->. }
  split; (apply ex_no_collision; [by repeat constructor|by vm_compute|]; intros kw i; apply G; by repeat constructor).
Qed.
Theorem C44_refuted :
  exists (S : janus) ops ans c s, j_crypto_ok S /\ j_no_collision S ops /\
    ops = [JIns ex_kw 1; JLost ex_kw; JFind ex_kw] /\
    j_run S j_new_client j_new_server ops ans c s /\ ans = [[]] /\ j_answers (fun _ => []) ops = [[1%N]].
Proof.
  exists ex_janus, [JIns ex_kw 1; JLost ex_kw; JFind ex_kw]. eexists _, _, _. split; [apply ex_janus_ok|]. split; [apply C44_case|]. split; [reflexivity|].
  split; [|split; [reflexivity|by vm_compute]]. do 2 constructor. eapply jr_find; [by vm_compute|constructor].
Qed.
Print Assumptions C44_refuted.
