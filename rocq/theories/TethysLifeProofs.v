(** Proofs about the files of a builder of Tethys. *)
From stdpp Require Import prelude gmap.
From Coq Require Import ZArith NArith Lia.
From Verif Require Import Base GraphModel AllocModel EncModel EncSpec EncProofs EncStash StoreModel
  StoreSpec StoreProofs StoreTheorems VecModel VecSpec VecProofs LifeModel LifeSpec LifeProofs
  TethysLifeModel TethysLifeSpec.
Local Open Scope nat_scope.

(** * The system calls of a build *)
Lemma build_pages_prefix sp data g : forall l table used table' used',
  build_pages sp data g l table used = Ok (table', used') -> exists new, table' = table ++ new.
Proof.
  induction l as [|i l IH]; intros table used table' used' E.
  { cbn in E. injection E as -> ->. exists []. by rewrite app_nil_r. }
  cbn [build_pages] in E.
  apply rbind_ok in E as (v & Ev & E). apply rbind_ok in E as (r & Er & E).
  case_bool_decide; [|done]. apply IH in E as [new ->]. exists (r.1 :: new). by rewrite <- app_assoc.
Qed.

Lemma page_io_ok sp data g : forall l table used out table' used',
  build_pages sp data g l table used = Ok (table', used') ->
  Forall (fun e => length e = kp_page (sp_enc sp)) table' ->
  v_committed out = false -> v_direct out = false ->
  v_size out = length table -> v_pos out = length table * kp_page (sp_enc sp) ->
  exists new out', table' = table ++ new /\
    page_io sp data g l out =
      (imap (fun i e => Write Pages ((length table + i) * kp_page (sp_enc sp)) e) new, Ok out').
Proof.
  induction l as [|i l IH]; intros table used out table' used' E HF Hc Hd Hs Hp.
  { cbn in E. injection E as -> ->. exists [], out. by rewrite app_nil_r. }
  cbn [build_pages] in E. cbn [page_io].
  apply rbind_ok in E as (v & Ev & E). apply rbind_ok in E as (r & Er & E).
  rewrite Ev. cbn [rbind]. rewrite Er. cbn [rbind].
  case_bool_decide as Hi; [|done].
  assert (Hr : length r.1 = kp_page (sp_enc sp)).
  { destruct (build_pages_prefix _ _ _ _ _ _ _ _ E) as [new ->].
    rewrite <- app_assoc in HF. apply Forall_app in HF as [_ HF]. by apply Forall_cons in HF as [? _]. }
  destruct (IH (table ++ [r.1]) (used ++ r.2) (vec_push out false r.1).1 table' used' E HF)
    as (new & out' & Et & Ep).
  - unfold vec_push. by rewrite Hc, Hd.
  - unfold vec_push. by rewrite Hc, Hd.
  - unfold vec_push. rewrite Hc, Hd. simpl. rewrite app_length. simpl. lia.
  - unfold vec_push. rewrite Hc, Hd. simpl. rewrite app_length, Hr, Hp. simpl. lia.
  - exists (r.1 :: new), out'. split; [by rewrite Et, <- app_assoc|].
    unfold ibind, quiet. cbn [fst snd]. unfold push_ops. rewrite Hc, Hd. cbn [andb].
    assert (E2 : (vec_push out false r.1).2 = Ok (length table)).
    { unfold vec_push. rewrite Hc, Hd. simpl. by rewrite Hs. }
    rewrite E2. rewrite bool_decide_true by done. rewrite Ep. cbn [fst snd app].
    f_equal. cbn [imap]. f_equal; [by rewrite Hp, Nat.add_0_r|].
    apply imap_ext. intros j e _. simpl. rewrite app_length. simpl. do 2 f_equal. lia.
Qed.

(** What the stream writes. *)
Definition stash_tail (cut : bytes -> list bytes) (f : sfiles) : list fop :=
  match sf_stash f with None => [] | Some b => Trunc Stash 0 :: stash_writes 0 (cut b) end.
Definition build_ops (sp : sparams) (cut : bytes -> list bytes) (f : sfiles) : list fop :=
  Create Pages :: Trunc Pages (sp_n sp * kp_page (sp_enc sp)) ::
  imap (fun i e => Write Pages (i * kp_page (sp_enc sp)) e) (sf_table f) ++ stash_tail cut f.

Lemma build_io_files fuel sp cut b d b2 f :
  store_build fuel sp b = (b2, Ok f) -> 0 < sp_n sp ->
  Forall (fun e => length e = kp_page (sp_enc sp)) (sf_table f) -> content Pages d = [] ->
  build_io fuel sp cut b d = (b2, (build_ops sp cut f, Ok tt)).
Proof.
  intros E Hn HF Hd. unfold store_build in E. unfold build_io. destruct (sb_built b); [done|].
  destruct (allocate fuel (sb_alloc b)) as [a|e| |]; [|done..].
  destruct (write_files sp (sb_data b) a) as [f'|e| |] eqn:Ew; [|done..].
  injection E as <- ->. unfold write_files in Ew.
  apply rbind_ok in Ew as (g & Eg & Ew). apply rbind_ok in Ew as ([t u] & Et & Ew).
  apply rbind_ok in Ew as (s & Es & Ew). cbn [fst snd] in Ew.
  set (new := open_vec (kp_page (sp_enc sp)) (content Pages d) false).
  assert (En : new = Vec [] 0 0 false false []) 
    by (unfold new, open_vec; rewrite Hd; rewrite bool_decide_false by (simpl; lia); done).
  set (out := vec_reserve _ new (sp_n sp)).
  assert (Ht : sf_table f = t).
  { case_bool_decide; [apply rbind_ok in Ew as (x & _ & Ew)|]; by injection Ew as <-. }
  assert (Ho : v_committed out = false /\ v_direct out = false /\ v_size out = 0 /\ v_pos out = 0).
  { unfold out, vec_reserve. rewrite En. simpl. destruct (bool_decide (_ /\ _)); simpl; auto. }
  destruct Ho as (O1 & O2 & O3 & O4).
  destruct (page_io_ok sp (sb_data b) g (seq 0 (sp_n sp)) [] [] out t u Et) as (new' & out' & E1 & E2); auto.
  { by rewrite <- Ht. }
  simpl in E1. subst new'. cbn [length] in E2.
  assert (E3 : write_io sp cut (sb_data b) a out =
    (imap (fun i e => Write Pages (i * kp_page (sp_enc sp)) e) t ++ stash_tail cut f, Ok tt)).
  { unfold write_io, stash_tail. rewrite Eg. unfold ibind, quiet. cbn [fst snd app].
    rewrite E2. cbn [fst snd]. rewrite Es. cbn [fst snd app].
    destruct (bool_decide (0 < length s)).
    - apply rbind_ok in Ew as (x & Ex & Ew). injection Ew as <-. cbn [sf_stash]. rewrite Ex. done.
    - injection Ew as <-. done. }
  rewrite E3. cbn [fst snd]. f_equal. f_equal. unfold build_ops. rewrite Ht. f_equal.
  unfold reserve_ops. rewrite En. cbn [v_committed v_size]. rewrite bool_decide_true by done. done.
Qed.

Definition entries_fine (p : eparams) (es : list (bytes * list bytes)) : Prop :=
  Forall (fun kv => obj_ok p kv.1 kv.2 /\ (N.of_nat (length kv.2) < 2 ^ 64)%N) es /\ NoDup es.*1.

Lemma stored_page_length sp kvs its L l f v :
  cipher_ok (sp_cipher sp) -> built sp kvs its L l f -> v < sp_n sp ->
  length (stored_page sp (accepted (sp_enc sp) kvs) L v) = kp_page (sp_enc sp).
Proof.
  intros Hc B Hv. destruct (bt_pages _ _ _ _ _ _ B v Hv) as [_ Hb].
  assert (Hp : length (plain_page (sp_enc sp) (accepted (sp_enc sp) kvs) L v) = kp_page (sp_enc sp)).
  { unfold plain_page. rewrite app_length, replicate_length. lia. }
  unfold stored_page. destruct (sp_cipher sp) as [|ks k]; [done|].
  simpl in Hc. by rewrite xor_bytes_length by (rewrite Hp; apply Hc).
Qed.

(** The build of a database: its files, and its system calls. *)
Lemma build_io_ok sp kvs b : db_ok sp kvs -> empty_lists_last (sp_enc sp) kvs -> loaded sp kvs b ->
  exists b2 f s,
    (forall fuel, store_fuel (sp_enc sp) kvs <= fuel -> store_build fuel sp b = (b2, Ok f)) /\
    (forall fuel cut d, store_fuel (sp_enc sp) kvs <= fuel -> content Pages d = [] ->
       build_io fuel sp cut b d = (b2, (build_ops sp cut f, Ok tt))) /\
    length (sf_table f) = sp_n sp /\
    Forall (fun e => length e = kp_page (sp_enc sp)) (sf_table f) /\
    match sf_stash f with
    | None => True
    | Some w => exists es, w = entries_bytes es /\ entries_fine (sp_enc sp) es
    end /\
    open_store (sp_enc sp) f = Ok s /\
    forall k, exists r, get_list sp s k = Ok r /\ r ≡ₚ values_of k (accepted (sp_enc sp) kvs).
Proof.
  intros Hdb Hne (b0 & Hb & ->). pose proof Hdb as [Hw Hn Hc Ho Hk].
  destruct (run_inserts_inv sp Hn kvs [] b0 [] (new_builder_inv sp b0 Hb)) as (its & Hs & Hr).
  simpl in Hs.
  destruct (store_build_ok sp kvs _ its (words_aligned _ Hw) Hn Hc Ho Hs) as (a & L & l & f & Hf & B).
  destruct (get_list_ok sp kvs its L l f Hdb Hne B) as (s & Es & Hg).
  assert (HF : Forall (fun e => length e = kp_page (sp_enc sp)) (sf_table f)).
  { rewrite (bt_table _ _ _ _ _ _ B). apply Forall_fmap, Forall_seq. intros j Hj. simpl.
    eapply stored_page_length; eauto. lia. }
  exists (SB a kvs true), f, s. split; [done|]. split.
  { intros fuel cut d Hfu Hd. apply build_io_files; auto. lia. }
  split; [by rewrite (bt_table _ _ _ _ _ _ B), fmap_length, seq_length|]. split; [done|].
  split; [|split; done].
  destruct (bt_stash _ _ _ _ _ _ B) as [[_ ->]|(file & -> & Hfile)]; [done|].
  rewrite serialize_parts_ok in Hfile by apply B. injection Hfile as <-.
  eexists. split; [done|]. split.
  - apply entries_ok. apply B.
  - apply entries_nodup. apply sparts_nodup; [done|apply B|].
    intros q Hq. by apply (bt_stashed _ _ _ _ _ _ B) in Hq as [? _].
Qed.

(** * The stash file *)
Lemma stash_writes_at : forall cs pre d k, dk_stash d = Some pre ->
  exists m, dk_stash (dies d (stash_writes (length pre) cs) k) = Some (take m (pre ++ mjoin cs)) /\
    (length cs <= k -> length (pre ++ mjoin cs) <= m).
Proof.
  induction cs as [|c cs IH]; intros pre d k H.
  { exists (length pre). unfold dies. simpl. rewrite take_nil, app_nil_r. simpl. rewrite take_ge by done.
    split; [done|lia]. }
  destruct k as [|k].
  { exists (length pre). unfold dies. cbn [take do_ops foldl]. rewrite take_app. split; [done|]. simpl. lia. }
  unfold dies. cbn [stash_writes take do_ops foldl]. change (foldl do_op) with do_ops.
  set (d1 := do_op d (Write Stash (length pre) c)).
  assert (H1 : dk_stash d1 = Some (pre ++ c)).
  { unfold d1. cbn [do_op dk_set dk_stash]. unfold content. cbn [dk_get]. rewrite H. cbn [from_option]; unfold id.
    f_equal. pose proof (file_write_end pre [] c) as E. by rewrite drop_nil, !app_nil_r in E. }
  destruct (IH (pre ++ c) d1 k H1) as (m & E & Hm). rewrite app_length in E.
  exists m. csimpl. rewrite <- app_assoc in E, Hm. split; [done|]. intros Hk. apply Hm. lia.
Qed.

Lemma stash_kept o d : on Pages o -> dk_stash (do_op d o) = dk_stash d.
Proof. destruct o; simpl; intros ->; done. Qed.
Lemma stash_kept_ops os : Forall (on Pages) os -> forall d, dk_stash (do_ops d os) = dk_stash d.
Proof.
  induction 1 as [|o os H _ IH]; intros d; [done|]. cbn [do_ops foldl]. change (foldl do_op) with do_ops.
  rewrite IH. by apply stash_kept.
Qed.

Definition head_ops (sp : sparams) (f : sfiles) : list fop :=
  Create Pages :: Trunc Pages (sp_n sp * kp_page (sp_enc sp)) ::
  imap (fun i e => Write Pages (i * kp_page (sp_enc sp)) e) (sf_table f).
Lemma build_ops_split sp cut f : build_ops sp cut f = head_ops sp f ++ stash_tail cut f.
Proof. done. Qed.
Lemma head_on sp f : Forall (on Pages) (head_ops sp f).
Proof.
  repeat constructor. apply Forall_forall. intros o Ho. apply elem_of_lookup_imap in Ho as (i & e & -> & _). done.
Qed.
Lemma head_length sp f : length (head_ops sp f) = 2 + length (sf_table f).
Proof. unfold head_ops. simpl. by rewrite imap_length. Qed.
Lemma tail_on cut f : Forall (fun o => ~ touches Pages o) (stash_tail cut f).
Proof.
  unfold stash_tail. destruct (sf_stash f) as [w|]; [|done]. constructor; [simpl; congruence|].
  generalize 0, (cut w). intros off cs. revert off. induction cs as [|c cs IH]; intros off; simpl; constructor; auto.
  simpl. congruence.
Qed.

Lemma stash_at_death sp cut f d k : cuts cut ->
  let ops := build_ops sp cut f in
  dk_stash (dies d ops k) = dk_stash d /\ (sf_stash f = None \/ k < length ops) \/
  exists w m, sf_stash f = Some w /\ dk_stash (dies d ops k) = Some (take m w) /\
    2 + length (sf_table f) < k /\ (length ops <= k -> length w <= m).
Proof.
  intros Hcut ops. unfold ops. rewrite build_ops_split. rewrite dies_app, app_length, head_length.
  case_decide as Hk.
  { left. split; [apply stash_kept_ops, Forall_take, head_on|].
    unfold stash_tail. destruct (sf_stash f); [|by left]. right. simpl. lia. }
  set (d1 := do_ops d (head_ops sp f)).
  assert (H1 : dk_stash d1 = dk_stash d) by apply stash_kept_ops, head_on.
  unfold stash_tail. destruct (sf_stash f) as [w|].
  2:{ left. split; [|by left]. unfold dies. by rewrite take_nil. }
  right. exists w. destruct (k - (2 + length (sf_table f))) as [|k'] eqn:Ek; [lia|].
  unfold dies. cbn [take do_ops foldl]. change (foldl do_op) with do_ops.
  destruct (stash_writes_at (cut w) [] (do_op d1 (Trunc Stash 0)) k') as (m & E & Hm).
  { cbn [do_op dk_set dk_stash]. done. }
  rewrite (Hcut w) in E, Hm. exists m. split; [done|]. split; [exact E|]. split; [lia|]. intros Hl.
  apply Hm. cbn [length] in Hl. 
  assert (HL : forall cs off, length (stash_writes off cs) = length cs).
  { intros cs. induction cs as [|c cs IH]; intros off; simpl; auto. }
  rewrite HL in Hl. lia.
Qed.

Lemma pages_at_death sp cut f d k :
  content Pages d = [] -> length (sf_table f) = sp_n sp ->
  Forall (fun e => length e = kp_page (sp_enc sp)) (sf_table f) ->
  let d' := dies d (build_ops sp cut f) k in
  (k < 2 /\ content Pages d' = []) \/
  (2 <= k /\ content Pages d' = mjoin (partial (kp_page (sp_enc sp)) (sf_table f) (k - 2))).
Proof.
  intros Hd HL HF. pose proof (table_at_death Pages (kp_page (sp_enc sp)) (sp_n sp) (sf_table f) d []
    (stash_tail cut f) k ltac:(constructor) (tail_on cut f) Hd HF HL) as H. exact H.
Qed.

(** * Stashes cut short *)
Lemma deserialize_cut p es : forall m fuel,
  0 < kp_val p -> Forall (fun kv => obj_ok p kv.1 kv.2 /\ (N.of_nat (length kv.2) < 2 ^ 64)%N) es ->
  length (take m (entries_bytes es)) < fuel ->
  match deserialize_loop fuel p (take m (entries_bytes es)) with
  | Ok kvs => exists j, kvs = take j es \/
      exists k vs, es !! j = Some (k, vs) /\ kvs = take j es ++ [(k, [])]
  | UB => 0 < m < length (entries_bytes es)
  | _ => False
  end.
Proof.
  induction es as [|[k vs] es IH]; intros m fuel Hv HF Hfu.
  { unfold entries_bytes. simpl. rewrite take_nil. destruct fuel; simpl; exists 0; by left. }
  destruct m as [|m].
  { destruct fuel; simpl; exists 0; by left. }
  apply Forall_cons in HF as [[Ho Hb] HF]. cbn [fst snd] in Ho, Hb. pose proof Ho as [Hk Hvs].
  assert (Eb : entries_bytes ((k, vs) :: es) = entry_bytes k vs ++ entries_bytes es) by done.
  assert (Hpos : 0 < length (entry_bytes k vs)).
  { unfold entry_bytes. rewrite !app_length, le64_length. lia. }
  rewrite Eb in Hfu |- *. destruct fuel as [|fuel]; [lia|].
  pose proof (mjoin_length_sz _ _ Hvs) as Hm.
  assert (Hel : length (entry_bytes k vs) = kp_key p + 8 + length vs * kp_val p).
  { unfold entry_bytes. rewrite !app_length, le64_length. lia. }
  rewrite app_length. cbn [deserialize_loop].
  destruct (take (S m) (entry_bytes k vs ++ entries_bytes es)) as [|x xs] eqn:Es.
  { assert (length (take (S m) (entry_bytes k vs ++ entries_bytes es)) = 0) as HL by by rewrite Es.
    rewrite take_length, app_length in HL. lia. }
  rewrite <- Es in Hfu |- *. clear Es x xs.
  destruct (decide (length (entry_bytes k vs) <= S m)) as [Hge|Hlt].
  - rewrite take_app_ge in Hfu |- * by done. rewrite deserialize_entry by done. cbn [rbind fst snd].
    rewrite app_length in Hfu.
    specialize (IH (S m - length (entry_bytes k vs)) fuel Hv HF ltac:(lia)).
    destruct (deserialize_loop fuel p _) as [kvs|e| |]; cbn [rbind].
    + destruct IH as [j [->|(k' & vs' & Hj & ->)]]; exists (S j); [by left|]. right. exists k', vs'. done.
    + done.
    + lia.
    + done.
  - rewrite take_app_le in Hfu |- * by lia. unfold deserialize_key_value.
    set (s := take (S m) (entry_bytes k vs)).
    assert (Hs : length s = S m) by (unfold s; rewrite take_length; lia).
    case_bool_decide as C1; [cbn [rbind]; lia|].
    assert (E1 : s = k ++ take (S m - length k) (le64 (N.of_nat (length vs)) ++ mjoin vs)).
    { unfold s, entry_bytes. rewrite take_app_ge by lia. done. }
    assert (E2 : take (kp_key p) s = k) by (rewrite E1; by rewrite take_app_alt).
    assert (E3 : drop (kp_key p) s = take (S m - length k) (le64 (N.of_nat (length vs)) ++ mjoin vs))
      by (rewrite E1; by rewrite drop_app_alt).
    assert (L8 : length (drop 8 (drop (kp_key p) s)) = S m - kp_key p - 8).
    { rewrite !drop_length. lia. }
    cbv zeta. rewrite L8. case_bool_decide as C2; [|cbn [rbind]; lia].
    destruct (decide (8 <= S m - kp_key p)) as [H8|H8].
    + exfalso. rewrite E3 in C2. rewrite take_take, Nat.min_l in C2 by lia.
      rewrite take_app_alt in C2 by by rewrite le64_length. rewrite le64_val in C2 by done. nia.
    + set (n := le_val (take 8 (drop (kp_key p) s))) in *.
      assert (Hn : n = 0%N) by nia. rewrite Hn, E2. cbn [rbind fst snd N.to_nat chunks].
      assert (En : drop 8 (drop (kp_key p) s) = []) by (apply nil_length_inv; lia).
      rewrite En. simpl. destruct fuel; simpl; exists 0; right; exists k, vs; done.
Qed.

Definition load (kvs : list (bytes * list bytes)) : gmap bytes (list bytes) :=
  foldl (fun m kv => <[kv.1 := kv.2]> m) ∅ kvs.

Lemma load_lookup kvs k : NoDup kvs.*1 ->
  load kvs !! k = match list_find (fun kv => kv.1 = k) kvs with Some (_, kv) => Some kv.2 | None => None end.
Proof. intros H. unfold load. rewrite foldl_insert_lookup by done. destruct (list_find _ _) as [[??]|]; done. Qed.

Lemma load_in kvs k vs : NoDup kvs.*1 -> (k, vs) ∈ kvs -> load kvs !! k = Some vs.
Proof.
  intros Hn Hin. rewrite load_lookup by done.
  destruct (list_find _ kvs) as [[i kv]|] eqn:E.
  - apply list_find_Some in E as (Hi & Hk & _). destruct kv as [k' vs']. cbn [fst snd] in *. subst k'.
    apply elem_of_list_lookup in Hin as [j Hj].
    assert (i = j); [|by simplify_eq].
    eapply (NoDup_lookup _ _ _ k Hn); rewrite list_lookup_fmap; [by rewrite Hi|by rewrite Hj].
  - apply list_find_None in E. rewrite Forall_forall in E. by destruct (E _ Hin).
Qed.
Lemma load_out kvs k : NoDup kvs.*1 -> k ∉ kvs.*1 -> load kvs !! k = None.
Proof.
  intros Hn Hin. rewrite load_lookup by done.
  destruct (list_find _ kvs) as [[i kv]|] eqn:E; [|done].
  apply list_find_Some in E as (Hi & Hk & _). exfalso. apply Hin. rewrite <- Hk.
  apply elem_of_list_fmap. exists kv. split; [done|]. by eapply elem_of_list_lookup_2.
Qed.

(** A stash cut short gives each key its list or nothing. *)
Lemma load_cut (es kvs : list (bytes * list bytes)) j : NoDup es.*1 ->
  (kvs = take j es \/ exists k vs, es !! j = Some (k, vs) /\ kvs = take j es ++ [(k, [])]) ->
  forall k, default [] (load kvs !! k) = default [] (load es !! k) \/ default [] (load kvs !! k) = [].
Proof.
  intros Hn H k.
  assert (Ht : NoDup (take j es).*1).
  { rewrite fmap_take. rewrite <- (take_drop j es.*1) in Hn. by apply NoDup_app in Hn as [? _]. }
  assert (HT : forall vs, (k, vs) ∈ take j es -> load es !! k = Some vs).
  { intros vs Hin. apply load_in; [done|]. rewrite <- (take_drop j es). apply elem_of_app. by left. }
  destruct H as [->|(k' & vs' & Hj & ->)].
  - destruct (decide (k ∈ (take j es).*1)) as [Hin|Hout]; [|right; by rewrite load_out].
    apply elem_of_list_fmap in Hin as ([k2 vs] & -> & Hin). cbn [fst] in *. left.
    by rewrite (load_in _ _ _ Ht Hin), (HT _ Hin).
  - assert (Hk' : k' ∉ (take j es).*1).
    { intros Hin. apply elem_of_list_fmap in Hin as ([k2 vs2] & -> & Hin). cbn [fst] in *.
      apply elem_of_list_lookup in Hin as [i Hi].
      assert (i < j) by (apply lookup_lt_Some in Hi; rewrite take_length in Hi; lia).
      rewrite lookup_take in Hi by done.
      assert (i = j); [|lia]. eapply (NoDup_lookup _ _ _ k2 Hn); rewrite list_lookup_fmap; [by rewrite Hi|by rewrite Hj]. }
    assert (Hn2 : NoDup (take j es ++ [(k', [])]).*1).
    { rewrite fmap_app. apply NoDup_app. split; [done|]. split; [|apply NoDup_singleton].
      intros x Hx Hx2. simpl in Hx2. apply elem_of_list_singleton in Hx2 as ->. done. }
    destruct (decide (k = k')) as [->|Hne].
    { right. rewrite (load_in _ k' []); [done|done|]. apply elem_of_app. right. by left. }
    destruct (decide (k ∈ (take j es).*1)) as [Hin|Hout].
    + apply elem_of_list_fmap in Hin as ([k2 vs] & -> & Hin). cbn [fst] in *. left.
      rewrite (load_in (_ ++ _) k2 vs), (HT _ Hin); [done|done|]. apply elem_of_app. by left.
    + right. rewrite load_out; [done|done|]. rewrite fmap_app. intros Hin. apply elem_of_app in Hin as [Hin|Hin]; [done|].
      simpl in Hin. apply elem_of_list_singleton in Hin as ->. done.
Qed.

(** * Opening and looking up *)
Lemma open_disk_pages p d (T : list bytes) : 0 < kp_page p -> 0 < length T ->
  Forall (fun e => length e = kp_page p) T -> content Pages d = mjoin T ->
  open_disk p d =
    (m <~ match dk_stash d with None => Ok ∅ | Some b => deserialize_map p b end; Ok (Store T m)).
Proof.
  intros Hp HT HF E. unfold open_disk. rewrite E. pose proof (mjoin_len (kp_page p) T HF) as HL.
  unfold open_vec. rewrite bool_decide_true by nia. cbn [v_committed negb v_size v_file].
  rewrite HL, Nat.div_mul by lia. rewrite chunks_mjoin by done. done.
Qed.

Lemma decode_zero p key : kp_page p mod 8 = 0 -> decode_single p key (zero_page (kp_page p)) = Ok [].
Proof.
  intros H. apply Nat.mod_divides in H as [c Hc]; [|lia]. unfold decode_single, zero_page.
  rewrite replicate_length. cbn [decode_loop]. rewrite replicate_length.
  case_bool_decide as H0; [|done].
  assert (8 <= kp_page p) by lia.
  unfold rd. rewrite replicate_length, bool_decide_true by lia. cbn [rbind].
  rewrite drop_0, take_replicate, Nat.min_l by (simpl; lia). done.
Qed.

Lemma get_list_partial sp s s' key r j :
  kp_page (sp_enc sp) mod 8 = 0 ->
  st_table s' = partial (kp_page (sp_enc sp)) (st_table s) j ->
  (sp_cipher sp = Plain \/ st_table s' = st_table s) ->
  (default [] (st_stash s' !! key) = default [] (st_stash s !! key) \/ default [] (st_stash s' !! key) = []) ->
  get_list sp s key = Ok r ->
  exists r', get_list sp s' key = Ok r' /\ r' `sublist_of` r.
Proof.
  intros H8 HT HP HS E. unfold get_list in E |- *.
  apply rbind_ok in E as (b & Eb & E). apply rbind_ok in E as (x & Ex & E). injection E as <-.
  set (st := default [] (st_stash s !! key)) in *. set (st' := default [] (st_stash s' !! key)) in *.
  assert (Hst : st' `sublist_of` st).
  { destruct HS as [->| ->]; [done|]. apply sublist_nil_l. }
  assert (Hgen : forall y b', get_buckets sp s' key = Ok b' ->
     decode_list sp key b'.1.1 b'.1.2 b'.2.1 b'.2.2 = Ok y -> y `sublist_of` x ->
     exists r', (b0 <~ get_buckets sp s' key; r0 <~ decode_list sp key b0.1.1 b0.1.2 b0.2.1 b0.2.2;
       Ok (r0 ++ st')) = Ok r' /\ r' `sublist_of` x ++ st).
  { intros y b' E1 E2 Hy. rewrite E1. cbn [rbind]. rewrite E2. cbn [rbind]. eexists. split; [done|].
    by apply sublist_app. }
  destruct HP as [HP|HP].
  2:{ apply (Hgen x b); [|done|done]. unfold get_buckets in Eb |- *. by rewrite HP. }
  unfold get_buckets in Eb. apply rbind_ok in Eb as (h & Eh & Eb).
  apply rbind_ok in Eb as (b0 & E0 & Eb). apply rbind_ok in Eb as (b1 & E1 & Eb). injection Eb as <-.
  cbn [fst snd] in *.
  assert (Hv : forall i e, vat (st_table s) i = Ok e ->
    vat (st_table s') i = Ok (if decide (i < j) then e else zero_page (kp_page (sp_enc sp)))).
  { intros i e Hi. apply vat_ok. apply vat_ok in Hi. rewrite HT. by apply partial_lookup. }
  unfold decode_list in Ex. rewrite HP in Ex. unfold decode_buckets in Ex.
  apply rbind_ok in Ex as (r0 & R0 & Ex). apply rbind_ok in Ex as (r1 & R1 & Ex). injection Ex as <-.
  assert (Hd : forall i e y, decode_single (sp_enc sp) key e = Ok y ->
    exists y', decode_single (sp_enc sp) key (if decide (i < j) then e else zero_page (kp_page (sp_enc sp))) = Ok y' /\
      y' `sublist_of` y).
  { intros i e y Hy. case_decide; [by exists y|]. exists []. split; [by apply decode_zero|]. apply sublist_nil_l. }
  destruct (Hd h.1 b0 r0 R0) as (y0 & D0 & S0). destruct (Hd h.2 b1 r1 R1) as (y1 & D1 & S1).
  eapply (Hgen (y0 ++ y1)).
  - unfold get_buckets. rewrite HT at 1. rewrite partial_len, Eh. cbn [rbind].
    rewrite (Hv _ _ E0). cbn [rbind]. rewrite (Hv _ _ E1). cbn [rbind]. done.
  - cbn [fst snd]. unfold decode_list. rewrite HP. unfold decode_buckets. rewrite D0. cbn [rbind]. by rewrite D1.
  - by apply sublist_app.
Qed.

(** * A table that is already there *)
Lemma open_committed sz f : f <> [] -> v_committed (open_vec sz f false) = true.
Proof. intros H. unfold open_vec. rewrite bool_decide_true; [done|]. destruct f; [done|]. simpl. lia. Qed.

Lemma page_io_refused sp data g l out i r u :
  build_pages sp data g (i :: l) [] u = Ok r -> v_committed out = true ->
  page_io sp data g (i :: l) out = ([], Throw RuntimeError).
Proof.
  intros E Hc. cbn [build_pages] in E. apply rbind_ok in E as (v & Ev & E).
  apply rbind_ok in E as (x & Ex & E). cbn [page_io]. rewrite Ev. cbn [rbind]. rewrite Ex.
  unfold ibind, quiet. cbn [fst snd app]. unfold push_ops, vec_push. rewrite Hc. done.
Qed.

Lemma build_io_refused fuel sp cut b d b2 f :
  store_build fuel sp b = (b2, Ok f) -> 0 < sp_n sp -> content Pages d <> [] ->
  exists b', build_io fuel sp cut b d = (b', ([Create Pages], Throw RuntimeError)) /\
    sb_built b' = false /\ al_done (sb_alloc b') = true.
Proof.
  intros E Hn Hd. unfold store_build in E. unfold build_io. destruct (sb_built b) eqn:Eb; [done|].
  destruct (allocate fuel (sb_alloc b)) as [a|e| |] eqn:Ea; [|done..].
  destruct (write_files sp (sb_data b) a) as [f'|e| |] eqn:Ew; [|done..].
  unfold write_files in Ew.
  apply rbind_ok in Ew as (g & Eg & Ew). apply rbind_ok in Ew as ([t u] & Et & Ew).
  set (new := open_vec (kp_page (sp_enc sp)) (content Pages d) false).
  assert (Hc : v_committed new = true) by by apply open_committed.
  destruct (reserve_stale (kp_page (sp_enc sp)) new (sp_n sp) Hc) as [-> Hr]. rewrite Hr.
  destruct (sp_n sp) as [|n] eqn:En; [lia|].
  assert (E3 : write_io sp cut (sb_data b) a new = ([], Throw RuntimeError)).
  { unfold write_io. rewrite Eg. unfold ibind, quiet. cbn [fst snd app]. rewrite En.
    cbn [seq] in Et |- *. rewrite (page_io_refused _ _ _ _ _ _ _ _ Et Hc). done. }
  rewrite E3. eexists. split; [done|]. split; [done|]. cbn [sb_alloc].
  unfold get_allocation_graph in Eg. by destruct (al_done a).
Qed.

(** An allocator that has been used refuses: the table has been reserved. *)
Lemma build_io_used fuel sp cut b d : sb_built b = false -> al_done (sb_alloc b) = true ->
  0 < sp_n sp -> content Pages d = [] ->
  build_io fuel sp cut b d =
    (b, ([Create Pages; Trunc Pages (sp_n sp * kp_page (sp_enc sp))], Throw InvalidArgument)).
Proof.
  intros Hb Ha Hn Hd. unfold build_io. rewrite Hb. unfold allocate. rewrite Ha.
  assert (En : open_vec (kp_page (sp_enc sp)) (content Pages d) false = Vec [] 0 0 false false []).
  { unfold open_vec. rewrite Hd. rewrite bool_decide_false by (simpl; lia). done. }
  rewrite En. unfold reserve_ops. cbn [v_committed v_size]. by rewrite bool_decide_true.
Qed.

Lemma get_list_zero sp n m key : words (sp_enc sp) -> 2 <= n -> sp_cipher sp = Plain ->
  get_list sp (Store (replicate n (zero_page (kp_page (sp_enc sp)))) m) key = Ok (default [] (m !! key)).
Proof.
  intros (_ & _ & H8 & _) Hn HP. unfold get_list, get_buckets. cbn [st_table st_stash]. rewrite replicate_length.
  destruct (positions_ok n (sp_hash sp key) Hn) as (i & j & Hp & Hi & Hj). rewrite Hp. cbn [rbind fst snd].
  assert (Hlt : n / 2 < n) by (apply Nat.div_lt; lia).
  unfold vat. rewrite !lookup_replicate_2 by lia. cbn [rbind fst snd].
  unfold decode_list. rewrite HP. unfold decode_buckets. rewrite !decode_zero by done. done.
Qed.
