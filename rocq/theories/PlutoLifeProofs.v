(** Proofs about the files of a builder of Pluto. *)
From stdpp Require Import prelude gmap.
From Coq Require Import ZArith NArith Lia.
From Verif Require Import Base GraphModel AllocModel EncModel EncSpec StoreModel StoreSpec StoreProofs KvModel SchemeModel SchemeSpec VecModel
  CuckooModel PlutoModel PlutoSpec PlutoProofs LifeModel LifeSpec LifeProofs TethysLifeModel TethysLifeSpec TethysLifeProofs
  PlutoLifeModel PlutoLifeSpec Props_TethysLife.
From Verif Require SchemeProofs.
Local Open Scope nat_scope.

Lemma do_pops_app d a b : do_pops d (a ++ b) = do_pops (do_pops d a) b.
Proof. apply foldl_app. Qed.
Lemma do_pops_files os : forall d, do_pops d (PFile <$> os) = PDisk (do_ops (pk_fs d) os) (pk_rocks d).
Proof. induction os as [|o os IH]; intros [fs m]; [done|]. cbn. unfold do_pops in IH. by rewrite IH. Qed.
Lemma pdies_app d a b k : pdies d (a ++ b) k =
  if decide (k <= length a) then pdies d a k else pdies (do_pops d a) b (k - length a).
Proof.
  unfold pdies. case_decide.
  - by rewrite take_app_le.
  - rewrite take_app_ge by lia. apply do_pops_app.
Qed.

(** * Which files are written *)
Definition ht_only (o : pop) : Prop := match o with PFile o => on Tmp o \/ on Tab o | PPut _ _ => True end.
Definition st_only (o : pop) : Prop := match o with PFile o => on Pages o \/ on Stash o | PPut _ _ => False end.

Lemma ht_only_kept os : Forall ht_only os -> forall d,
  dk_pages (pk_fs (do_pops d os)) = dk_pages (pk_fs d) /\ dk_stash (pk_fs (do_pops d os)) = dk_stash (pk_fs d).
Proof.
  induction 1 as [|o os H _ IH]; intros d; [done|]. cbn [do_pops foldl].
  destruct (IH (do_pop d o)) as [E1 E2]. unfold do_pops in E1, E2. rewrite E1, E2.
  destruct d as [[] m], o as [[p|p n|p off bs|p]|k v]; cbn in H |- *; try done; destruct H as [-> | ->]; done.
Qed.
Lemma st_only_kept os : Forall st_only os -> forall d,
  dk_tmp (pk_fs (do_pops d os)) = dk_tmp (pk_fs d) /\ dk_tab (pk_fs (do_pops d os)) = dk_tab (pk_fs d) /\
  pk_rocks (do_pops d os) = pk_rocks d.
Proof.
  induction 1 as [|o os H _ IH]; intros d; [done|]. cbn [do_pops foldl].
  destruct (IH (do_pop d o)) as (E1 & E2 & E3). unfold do_pops in E1, E2, E3. rewrite E1, E2, E3.
  destruct d as [[] m], o as [[p|p n|p off bs|p]|k v]; cbn in H |- *; try done; destruct H as [-> | ->]; done.
Qed.

Lemma push_on p v al val : Forall (on p) (push_ops p v al val).
Proof.
  unfold push_ops. destruct (v_committed v); [done|]. destruct (v_direct v && negb al); [done|]. by repeat constructor.
Qed.
Lemma reserve_on p sz v n : Forall (on p) (reserve_ops p sz v n).
Proof. unfold reserve_ops. case_bool_decide; [|done]. by repeat constructor. Qed.
Lemma write_on sz data slots : forall out, Forall (on Tab) (write_ops sz data slots out).
Proof.
  induction slots as [|s slots IH]; intros out; cbn [write_ops]; [constructor|].
  destruct (if is_empty (cv_index s) then _ else _); try constructor.
  apply Forall_app. split; [apply push_on|]. destruct (vec_push out false a) as [out' [| | |]]; try constructor. apply IH.
Qed.
Lemma commit_on sz b f : Forall (fun o => on Tmp o \/ on Tab o) (commit_ops sz b f).
Proof.
  unfold commit_ops. destruct (cb_committed b); [constructor|]. constructor; [by right|].
  assert (forall os, Forall (on Tab) os -> Forall (fun o => on Tmp o \/ on Tab o) os) as G.
  { intros os H. eapply Forall_impl; [done|]. auto. }
  apply Forall_app. split; [apply G, reserve_on|]. apply Forall_app. split; [apply G, write_on|].
  destruct (cb_write _ _ _ _) as [out1 [| | |]]; try constructor.
  apply Forall_app. split; [apply G, write_on|]. destruct (cb_write _ _ _ _) as [out2 [| | |]]; try constructor; [by left|done].
Qed.
Lemma insert_on b k v : Forall (fun o => on Tmp o \/ on Tab o) (insert_ops b k v).
Proof.
  unfold insert_ops. destruct (cb_committed b); [done|]. eapply Forall_impl; [apply push_on|]. auto.
Qed.

Lemma new_only pp d : Forall ht_only (ht_new_on pp d).2.
Proof.
  unfold ht_new_on. destruct (pp_ht pp); [|constructor]. cbn [snd]. apply Forall_fmap. unfold life_new. cbn [snd].
  constructor; [by left|]. eapply Forall_impl; [apply reserve_on|]. simpl. auto.
Qed.
Lemma ht_insert_only h k v : Forall ht_only (ht_insert_pops h k v).
Proof.
  destruct h; cbn [ht_insert_pops]; [|by repeat constructor]. apply Forall_fmap.
  eapply Forall_impl; [apply insert_on|]. done.
Qed.
Lemma blocks_only pp token ids : forall h bc block, Forall ht_only (p_block_pops pp token h bc block ids).
Proof.
  induction ids as [|id ids IH]; intros h bc block; cbn [p_block_pops]; [constructor|].
  case_bool_decide; [|apply IH]. apply Forall_app. split; [apply ht_insert_only|].
  destruct (ht_insert _ _ _) as [h' [| | |]]; try constructor. apply IH.
Qed.
Lemma fill_only pp rand n : forall i h, Forall ht_only (fill_pops pp rand n i h).
Proof.
  induction n as [|n IH]; intros i h; cbn [fill_pops]; [constructor|].
  apply Forall_app. split; [apply ht_insert_only|]. destruct (ht_insert _ _ _) as [h' [| | |]]; try constructor. apply IH.
Qed.
Lemma ht_commit_only pp h d : Forall ht_only (ht_commit_on pp h d).1.2.
Proof.
  destruct h; cbn [ht_commit_on fst snd]; [|constructor]. apply Forall_fmap. eapply Forall_impl; [apply commit_on|]. done.
Qed.

Lemma ibind_forall {A B} (P : fop -> Prop) (m : io A) (f : A -> io B) :
  Forall P m.1 -> (forall x, m.2 = Ok x -> Forall P (f x).1) -> Forall P (ibind m f).1.
Proof.
  intros H1 H2. unfold ibind. destruct (m.2) as [x| | |] eqn:E; try done. cbn [fst]. apply Forall_app. split; [done|].
  by apply H2.
Qed.
Lemma page_io_on sp data g : forall l out, Forall (on Pages) (page_io sp data g l out).1.
Proof.
  induction l as [|i l IH]; intros out; cbn [page_io]; [constructor|].
  apply ibind_forall; [constructor|]. intros r _. apply ibind_forall; [apply push_on|]. intros si _.
  case_bool_decide; [apply IH|constructor].
Qed.
Lemma stash_writes_on cs : forall off, Forall (on Stash) (stash_writes off cs).
Proof. induction cs as [|c cs IH]; intros off; [constructor|]. cbn [stash_writes]. constructor; [done|apply IH]. Qed.
Lemma build_io_on fuel sp cut b d : Forall (fun o => on Pages o \/ on Stash o) (build_io fuel sp cut b d).2.1.
Proof.
  unfold build_io. destruct (sb_built b); [constructor|].
  assert (Forall (fun o => on Pages o \/ on Stash o)
    (Create Pages :: reserve_ops Pages (kp_page (sp_enc sp))
      (open_vec (kp_page (sp_enc sp)) (content Pages d) false) (sp_n sp))) as H0.
  { constructor; [by left|]. eapply Forall_impl; [apply reserve_on|]. auto. }
  destruct (allocate fuel (sb_alloc b)) as [a| | |]; try exact H0. cbn [fst snd].
  apply Forall_cons in H0 as [H1 H0]. constructor; [done|]. apply Forall_app. split; [done|]. unfold write_io.
  apply ibind_forall; [constructor|]. intros g _. apply ibind_forall.
  { eapply Forall_impl; [apply page_io_on|]. auto. }
  intros v _. apply ibind_forall; [constructor|]. intros s _. case_bool_decide; [|constructor].
  apply ibind_forall; [repeat constructor; by right|]. intros _ _. apply ibind_forall; [constructor|]. intros w _. cbn [fst].
  eapply Forall_impl; [apply stash_writes_on|]. auto.
Qed.

(** A build: first the hash table, then the store. *)
Lemma build_split fuel pp cut rand n_elts b d :
  exists A B, (pl_build fuel pp cut rand n_elts b d).1.2 = A ++ B /\ Forall ht_only A /\ Forall st_only B.
Proof.
  unfold pl_build. set (n := N.to_nat _). set (o1 := fill_pops _ _ _ _ _).
  assert (Forall ht_only o1) as H1 by apply fill_only.
  destruct (fill_dummies pp rand n 0 (pb_ht b)) as [h [[]| | |]]; cbn [fst snd].
  2-4: exists o1, []; rewrite app_nil_r; split; [done|split; [done|constructor]].
  pose proof (ht_commit_only pp h (do_pops d o1)) as H2.
  destruct (ht_commit_on pp h (do_pops d o1)) as [[h' o2] [[]| | |]]; cbn [fst snd] in *.
  2-4: exists (o1 ++ o2), []; rewrite app_nil_r; split; [done|split; [by apply Forall_app|constructor]].
  eexists _, _. split; [done|]. split; [by apply Forall_app|]. apply Forall_fmap. apply build_io_on.
Qed.
Lemma inserts_only fuel pp cut n_elts db : forall b d,
  Forall ht_only (pl_calls fuel pp cut n_elts b d (pl_inserts db)).1.2.
Proof.
  induction db as [|x db IH]; intros b d; [constructor|]. cbn [pl_inserts fmap list_fmap pl_calls fst snd].
  apply Forall_app. split; [apply blocks_only|]. apply IH.
Qed.
Lemma calls_app fuel pp cut n_elts cs1 : forall b d cs2,
  let r := pl_calls fuel pp cut n_elts b d cs1 in
  let r' := pl_calls fuel pp cut n_elts r.1.1 (do_pops d r.1.2) cs2 in
  pl_calls fuel pp cut n_elts b d (cs1 ++ cs2) = (r'.1.1, r.1.2 ++ r'.1.2, r.2 ++ r'.2).
Proof.
  induction cs1 as [|c cs1 IH]; intros b d cs2; cbn zeta.
  - cbn [pl_calls fst snd app do_pops foldl]. by destruct (pl_calls _ _ _ _ _ _ cs2) as [[? ?] ?].
  - cbn [app pl_calls fst snd]. rewrite IH. cbn [fst snd]. rewrite do_pops_app. by rewrite <- app_assoc.
Qed.

(** * Successful insertions *)
Fixpoint ht_pops (h : ht_builder) (kvs : list (bytes * bytes)) : list pop :=
  match kvs with
  | [] => []
  | (k, v) :: kvs' => ht_insert_pops h k v ++ ht_pops (ht_insert h k v).1 kvs'
  end.
Lemma ht_pops_app k1 : forall h k2, ht_pops h (k1 ++ k2) = ht_pops h k1 ++ ht_pops (ht_inserts h k1).1 k2.
Proof.
  induction k1 as [|[k v] k1 IH]; intros h k2; [done|]. cbn [app ht_pops ht_inserts fst]. by rewrite IH, app_assoc.
Qed.
Lemma ht_pops_only kvs : forall h, Forall ht_only (ht_pops h kvs).
Proof.
  induction kvs as [|[k v] kvs IH]; intros h; cbn [ht_pops]; [constructor|].
  apply Forall_app. split; [apply ht_insert_only|apply IH].
Qed.
(** The map of the builder is the database on disk. *)
Definition ht_rep (h : ht_builder) (d : pdisk) : Prop := match h with BCuckoo _ => True | BRocks m => pk_rocks d = m end.
Lemma ht_pops_rep kvs : forall h d, ht_rep h d -> ht_rep (ht_inserts h kvs).1 (do_pops d (ht_pops h kvs)).
Proof.
  induction kvs as [|[k v] kvs IH]; intros h d H; [done|]. cbn [ht_pops ht_inserts fst]. rewrite do_pops_app. apply IH.
  destruct h as [b|m]; cbn in H |- *; [done|]. by rewrite H.
Qed.
(** The table is written by the commit only. *)
Lemma ht_pops_tab kvs : forall h d, content Tab (pk_fs (do_pops d (ht_pops h kvs))) = content Tab (pk_fs d).
Proof.
  induction kvs as [|[k v] kvs IH]; intros h d; [done|]. cbn [ht_pops]. rewrite do_pops_app, IH.
  destruct h as [b|m]; cbn [ht_insert_pops]; [|done]. rewrite do_pops_files. cbn [pk_fs].
  apply content_untouched_ops, insert_ops_on.
Qed.
Lemma ht_inserts_rocks_map kvs : forall m, ht_inserts (BRocks m) kvs = (BRocks (put_all m kvs), replicate (length kvs) (Ok tt)).
Proof.
  induction kvs as [|[k v] kvs IH]; intros m; [done|]. cbn [ht_inserts ht_insert fst snd]. rewrite IH. done.
Qed.

Section builder.
  Context (pp : pparams) (HL : 0 < p_len pp).
  Let sc := pp_sc pp.
  Let L := p_len pp.

  Lemma p_block_pops_ok token ids : forall h bc block, length block < L ->
    let kvs := ht_pairs_from pp token bc (blocks L (block ++ ids)) in
    Forall (fun o => o = Ok tt) (ht_inserts h kvs).2 -> p_block_pops pp token h bc block ids = ht_pops h kvs.
  Proof.
    induction ids as [|id ids IH]; intros h bc block Hb; cbn zeta.
    - rewrite app_nil_r. destruct (blocks_short L block Hb) as [-> _]. done.
    - intros HF. cbn [p_block_pops]. case_bool_decide as E.
      + fold L in E. change (block ++ id :: ids) with (block ++ [id] ++ ids) in HF |- *.
        rewrite (app_assoc block [id] ids) in HF |- *.
        destruct (blocks_cons L (block ++ [id]) ids HL E) as [E1 _]. rewrite E1 in HF |- *.
        rewrite ht_pairs_cons in HF |- *. cbn [ht_inserts ht_pops] in HF |- *. cbn [fst snd] in HF |- *.
        apply Forall_cons in HF as [H1 HF]. f_equal.
        destruct (ht_insert h _ _) as [h' r]. cbn [fst snd] in *. subst r. apply (IH h' (S bc) []); [simpl; lia|done].
      + rewrite (IH h bc (block ++ [id])); rewrite <- ?app_assoc; [done| |exact HF].
        rewrite app_length in *. simpl in *. fold L in E. lia.
  Qed.
  Lemma fill_pops_ok rand n : forall i h,
    let kvs := (fun j => (rand j, ht_value pp [])) <$> seq i n in
    Forall (fun o => o = Ok tt) (ht_inserts h kvs).2 -> fill_pops pp rand n i h = ht_pops h kvs.
  Proof.
    induction n as [|n IH]; intros i h; cbn zeta; [done|]. cbn [seq]. rewrite fmap_cons.
    cbn [ht_inserts fst snd fill_pops ht_pops]. intros HF. apply Forall_cons in HF as [H1 HF]. f_equal.
    destruct (ht_insert h _ _) as [h' r]. cbn [fst snd] in *. subst r. by apply IH.
  Qed.

  (** A list gives its complete blocks to the hash table, whatever the store says. *)
  Lemma insert_list_ht b x : Forall (fun o => o = Ok tt) (ht_inserts (pb_ht b) (ht_pairs pp x)).2 ->
    pb_ht (pluto_insert pp b x.1 x.2).1 = (ht_inserts (pb_ht b) (ht_pairs pp x)).1 /\
    pb_complete (pluto_insert pp b x.1 x.2).1 = (pb_complete b + N.of_nat (length x.2 / L))%N /\
    p_block_pops pp (sc_prf sc x.1) (pb_ht b) 1 [] x.2 = ht_pops (pb_ht b) (ht_pairs pp x).
  Proof.
    intros H. split; [|split; [|by apply p_block_pops_ok]]; unfold pluto_insert;
      rewrite (p_blocks_ok pp HL (sc_prf (pp_sc pp) x.1) x.2 b 1 [] HL) by exact H; cbn [fst snd app pb_ht pb_complete];
      case_bool_decide; cbn [fst pb_ht pb_complete]; rewrite ?blocks_length; done.
  Qed.
  Lemma insert_db_ht fuel cut n_elts db : forall b d,
    Forall (fun o => o = Ok tt) (ht_inserts (pb_ht b) (db_ht_pairs pp db)).2 ->
    let r := pl_calls fuel pp cut n_elts b d (pl_inserts db) in
    pb_ht r.1.1 = (ht_inserts (pb_ht b) (db_ht_pairs pp db)).1 /\
    pb_complete r.1.1 = (pb_complete b + N.of_nat (n_blocks L db))%N /\
    r.1.2 = ht_pops (pb_ht b) (db_ht_pairs pp db) /\
    r.1.1 = (pluto_insert_db pp b db).1 /\ r.2 = (pluto_insert_db pp b db).2.
  Proof.
    induction db as [|x db IH]; intros b d H; cbn zeta.
    - unfold n_blocks. csimpl. rewrite N.add_0_r. done.
    - unfold db_ht_pairs in *. cbn [pl_inserts fmap list_fmap pl_calls pl_call fst snd] in *. csimpl in H. csimpl.
      rewrite ht_inserts_app in H |- *. cbn [fst snd] in *. apply Forall_app in H as [H1 H2].
      destruct (insert_list_ht b x H1) as (E1 & E2 & E3).
      rewrite <- E1 in H2. fold sc. rewrite E3.
      destruct (IH _ (do_pops d (ht_pops (pb_ht b) (ht_pairs pp x))) H2) as (F1 & F2 & F3 & F4 & F5).
      cbn [pluto_insert_db fst snd]. unfold pl_inserts in F1, F2, F3, F4, F5.
      rewrite F1, F2, F3, F4, F5, E1, E2, ht_pops_app. split; [done|]. split; [|done].
      unfold n_blocks. csimpl. fold L. lia.
  Qed.
End builder.

(** * The hash table on a disk without files *)
Definition kind_ok (pp : pparams) (h : ht_builder) : Prop :=
  match pp_ht pp, h with KCuckoo _ _ _, BCuckoo _ | KRocks, BRocks _ => True | _, _ => False end.
Lemma kind_inserts pp kvs : forall h, kind_ok pp h -> kind_ok pp (ht_inserts h kvs).1.
Proof.
  induction kvs as [|[k v] kvs IH]; intros h H; [done|]. cbn [ht_inserts fst]. apply IH.
  unfold kind_ok in *. destruct (pp_ht pp), h; cbn [ht_insert fst]; done.
Qed.
Lemma kind_new pp d : kind_ok pp (ht_new_on pp d).1.
Proof. unfold kind_ok, ht_new_on. by destruct (pp_ht pp). Qed.
Lemma new_on_clean pp d : content Tmp (pk_fs d) = [] -> pk_rocks d = ∅ -> (ht_new_on pp d).1 = ht_new pp.
Proof.
  intros H1 H2. unfold ht_new_on, ht_new. destruct (pp_ht pp); cbn [fst]; [|by rewrite H2].
  unfold life_new. cbn [fst]. by rewrite H1.
Qed.
Lemma new_on_tab pp d : content Tab (pk_fs (do_pops d (ht_new_on pp d).2)) = content Tab (pk_fs d) /\
  pk_rocks (do_pops d (ht_new_on pp d).2) = pk_rocks d.
Proof.
  unfold ht_new_on. destruct (pp_ht pp); cbn [snd]; [|done]. rewrite do_pops_files. cbn [pk_fs pk_rocks].
  split; [|done]. apply content_untouched_ops, new_kept.
Qed.
Lemma commit_on_ok pp h d h' hf :
  ht_commit pp h = (h', Ok hf) -> kind_ok pp h -> content Tab (pk_fs d) = [] -> ht_rep h d ->
  exists o, ht_commit_on pp h d = (h', o, Ok tt) /\ Forall ht_only o /\ ht_on_disk pp (do_pops d o) = hf.
Proof.
  intros E Hk HT Hr. pose proof (ht_commit_only pp h d) as Ho.
  unfold ht_commit, ht_commit_on, ht_on_disk, kind_ok in *. destruct (pp_ht pp) as [size depth max_n|], h as [b|m]; try done.
  - cbn [fst snd] in Ho |- *. rewrite HT in Ho |- *. fold (ht_page pp) in E.
    pose proof (commit_file (ht_page pp) b (pk_fs d)) as F. rewrite HT in F.
    destruct (cb_commit (ht_page pp) b []) as [[b' file] r]. cbn [fst snd] in *.
    destruct r as [[]| | |]; cbn [rbind] in E; try done. injection E as <- <-.
    eexists. split; [done|]. split; [done|]. rewrite do_pops_files. cbn [pk_fs]. by rewrite F.
  - injection E as <- <-. exists []. split; [done|]. split; [constructor|]. cbn in Hr |- *. by rewrite Hr.
Qed.

(** * A life without incident *)
Lemma life_complete pp rand n_elts db ws cut d b0 :
  pluto_ok pp rand n_elts db ws -> pluto_new pp = Ok b0 -> cuts cut ->
  content Tmp (pk_fs d) = [] -> content Tab (pk_fs d) = [] -> content Pages (pk_fs d) = [] -> dk_stash (pk_fs d) = None ->
  pk_rocks d = ∅ ->
  exists fuel0, forall fuel, fuel0 <= fuel -> exists b' f ops s,
    pl_life fuel pp cut n_elts d (pl_inserts db ++ [PBuild rand]) = Ok (b', ops, replicate (S (length db)) (Ok tt)) /\
    pluto_build fuel pp rand n_elts (pluto_insert_db pp b0 db).1 = (b', Ok f) /\
    let d' := do_pops d ops in
    ht_on_disk pp d' = f.1 /\ content Pages (pk_fs d') = mjoin (sf_table f.2) /\ dk_stash (pk_fs d') = sf_stash f.2 /\
    pl_open_server pp d' = Ok s /\ pluto_open_server pp f = Ok s.
Proof.
  intros Hok Hb0 Hcut HTmp HTab HPages HStash HRocks.
  unfold pluto_new in Hb0. apply rbind_ok in Hb0 as (sb & Hsb & Hb0). injection Hb0 as <-.
  set (sc := pp_sc pp) in *. set (sp := sc_store sc) in *.
  assert (Hdb : db_ok sp (db_st_pairs pp db)).
  { split; try apply Hok.
    - eapply Forall_impl; [eapply st_all; exact Hok|]. by intros kv (_ & _ & ?).
    - unfold sp, sc. rewrite (st_accepted pp rand n_elts db ws Hok). by eapply st_nodup. }
  assert (Hlast : empty_lists_last (sp_enc sp) (db_st_pairs pp db)).
  { unfold empty_lists_last. unfold sp, sc. rewrite (st_accepted pp rand n_elts db ws Hok).
    exists (db_st_pairs pp db), []. rewrite app_nil_r.
    split_and!; [done| |constructor]. eapply Forall_impl; [eapply st_all; exact Hok|]. by intros kv (_ & ? & _). }
  destruct (StoreTheorems.store_correct sp _ sb Hdb Hsb Hlast) as (b2 & f & st & E1 & E2 & E3 & _).
  destruct (ht_spec pp (po_words _ _ _ _ _ Hok) (po_block _ _ _ _ _ Hok) (po_key _ _ _ _ _ Hok) _ (kvs_ok _ _ _ _ _ Hok))
    as (h & h' & hf & t & H1 & H2 & _ & _ & _ & H6 & _ & _).
  set (dpairs := (fun j => (rand j, ht_value pp [])) <$> seq 0 (n_dummies pp n_elts db)) in *.
  assert (HO : Forall (fun o => o = Ok tt) (replicate (length (db_ht_pairs pp db ++ dpairs)) (@Ok unit tt))).
  { apply Forall_replicate. done. }
  rewrite ht_inserts_app in H1. injection H1 as H1 H1o.
  rewrite <- H1o in HO. apply Forall_app in HO as [HO1 HO2].
  pose proof (L_pos _ _ _ _ _ Hok) as HL.
  assert (HI : pluto_insert_db pp (PB sb (ht_new pp) 0) db =
    (PB (run_inserts sp sb (db_st_pairs pp db)).1 (ht_inserts (ht_new pp) (db_ht_pairs pp db)).1
       (0 + N.of_nat (n_blocks (p_len pp) db)), replicate (length db) (Ok tt))).
  { apply (pluto_insert_db_ok pp HL db (PB sb (ht_new pp) 0)); simpl; [done|].
    fold sc sp. rewrite E1. apply Forall_fmap, Forall_forall. intros kv Hkv. simpl.
    pose proof (st_all pp rand n_elts db ws Hok) as HF. rewrite Forall_forall in HF. by rewrite decide_True by apply (HF kv Hkv). }
  exists (store_fuel (sp_enc sp) (db_st_pairs pp db)). intros fuel Hfu.
  (* the builder after the insertions *)
  pose proof (new_on_clean pp d HTmp HRocks) as En.
  destruct (new_on_tab pp d) as [HTab0 HRocks0]. rewrite HTab in HTab0. rewrite HRocks in HRocks0.
  destruct (ht_only_kept _ (new_only pp d) d) as [HP0 HS0].
  set (d0 := do_pops d (ht_new_on pp d).2) in *.
  destruct (insert_db_ht pp HL fuel cut n_elts db (PB sb (ht_new pp) 0) d0 HO1) as (_ & _ & F3 & F4 & F5).
  cbn [pb_ht] in F3. rewrite HI in F4, F5. cbn [fst snd] in F4, F5.
  set (o1 := ht_pops (ht_new pp) (db_ht_pairs pp db)) in *.
  set (d1 := do_pops d0 o1).
  set (b1 := PB (run_inserts sp sb (db_st_pairs pp db)).1 (ht_inserts (ht_new pp) (db_ht_pairs pp db)).1
       (0 + N.of_nat (n_blocks (p_len pp) db))) in *.
  assert (Hr1 : ht_rep (ht_inserts (ht_new pp) (db_ht_pairs pp db)).1 d1).
  { apply ht_pops_rep. unfold ht_rep, ht_new. by destruct (pp_ht pp). }
  assert (HT1 : content Tab (pk_fs d1) = []) by (unfold d1, o1; by rewrite ht_pops_tab).
  destruct (ht_only_kept o1 (ht_pops_only _ _) d0) as [HP1 HS1]. fold d1 in HP1, HS1.
  (* the dummies *)
  assert (Hn : N.to_nat (n_full_blocks pp n_elts - pb_complete b1) = n_dummies pp n_elts db).
  { unfold b1. cbn [pb_complete]. by rewrite N.add_0_l. }
  set (o2 := ht_pops (ht_inserts (ht_new pp) (db_ht_pairs pp db)).1 dpairs).
  set (d2 := do_pops d1 o2).
  assert (Hr2 : ht_rep h d2) by (rewrite <- H1; by apply ht_pops_rep).
  assert (HT2 : content Tab (pk_fs d2) = []) by (unfold d2, o2; by rewrite ht_pops_tab).
  destruct (ht_only_kept o2 (ht_pops_only _ _) d1) as [HP2 HS2]. fold d2 in HP2, HS2.
  assert (Hk2 : kind_ok pp h).
  { rewrite <- H1. apply kind_inserts, kind_inserts. rewrite <- En. apply kind_new. }
  destruct (commit_on_ok pp h d2 h' hf H2 Hk2 HT2 Hr2) as (o3 & Ec & Ho3 & Eh).
  destruct (ht_only_kept o3 Ho3 d2) as [HP3 HS3]. set (d3 := do_pops d2 o3) in *.
  assert (HPages3 : content Pages (pk_fs d3) = []).
  { unfold content in HPages |- *. cbn [dk_get] in HPages |- *. by rewrite HP3, HP2, HP1, HP0. }
  assert (HStash3 : dk_stash (pk_fs d3) = None) by by rewrite HS3, HS2, HS1, HS0.
  assert (Hld : loaded sp (db_st_pairs pp db) (pb_store b1)) by by exists sb.
  assert (Hpage : 0 < kp_page (sp_enc sp)).
  { pose proof (po_block _ _ _ _ _ Hok) as HB. unfold max_list_size, bucket_size in HB.
    change (pp_enc pp) with (sp_enc sp) in HB. destruct (kp_page (sp_enc sp)); [by destruct (kp_val (sp_enc sp))|lia]. }
  destruct (build_io_ok sp _ _ Hdb Hlast Hld) as (b3 & f' & st' & G1 & G2 & G3 & G4 & _).
  assert (E2' := E2 fuel Hfu). cbn [b1 pb_store] in G1. rewrite (G1 fuel Hfu) in E2'. injection E2' as -> ->.
  destruct (Props_TethysLife.C84_complete sp _ _ fuel cut (pk_fs d3) Hdb Hlast Hpage Hld Hfu Hcut HPages3 HStash3)
    as (f' & s' & T1 & T2 & T3 & T4 & T5 & T6 & _).
  specialize (G2 fuel cut (pk_fs d3) Hfu HPages3). rewrite G2 in T1, T2, T3, T4, T5. cbn [fst snd] in T1, T2, T3, T4, T5.
  cbn [b1 pb_store] in T2. rewrite (G1 fuel Hfu) in T2. injection T2 as <-.
  set (o4 := build_ops sp cut f) in *.
  exists (PB b2 h' (pb_complete b1)), (hf, f), ((ht_new_on pp d).2 ++ o1 ++ o2 ++ o3 ++ (PFile <$> o4)),
    (PS (Store (sf_table f) ∅) t).
  assert (Eb : pl_build fuel pp cut rand n_elts b1 d1 = (PB b2 h' (pb_complete b1), o2 ++ o3 ++ (PFile <$> o4), Ok tt)).
  { unfold pl_build. rewrite Hn. cbn [b1 pb_ht]. rewrite (fill_pops_ok pp rand _ 0) by exact HO2.
    rewrite (fill_ok pp rand _ 0) by exact HO2. cbn [fst snd]. fold dpairs. rewrite H1. fold o2. fold d2. rewrite Ec. cbn [fst snd].
    rewrite do_pops_app. fold d2. fold d3. fold sc sp. rewrite G2. cbn [fst snd]. by rewrite <- app_assoc. }
  split.
  { unfold pl_life, pl_new. fold sc sp. rewrite Hsb. cbn [rbind fst snd]. rewrite En. fold d0.
    rewrite calls_app. cbn [fst snd]. rewrite F3, F4, F5. fold d1. cbn [pl_calls pl_call fst snd]. rewrite Eb. cbn [fst snd].
    rewrite app_nil_r. rewrite replicate_S_end. done. }
  split.
  { rewrite HI. cbn [fst]. unfold pluto_build. rewrite Hn. cbn [b1 pb_ht pb_store].
    rewrite (fill_ok pp rand _ 0) by exact HO2. cbn [fst snd]. fold dpairs. rewrite H1, H2. cbn [fst snd].
    fold sc sp. by rewrite (G1 fuel Hfu). }
  cbn zeta. rewrite !do_pops_app. fold d0. fold d1. fold d2. fold d3.
  assert (Hst4 : Forall st_only (PFile <$> o4)).
  { apply Forall_fmap. pose proof (build_io_on fuel sp cut (pb_store b1) (pk_fs d3)) as HB. rewrite G2 in HB. exact HB. }
  destruct (st_only_kept _ Hst4 d3) as (K1 & K2 & K3).
  assert (Eh4 : ht_on_disk pp (do_pops d3 (PFile <$> o4)) = hf).
  { rewrite <- Eh. unfold ht_on_disk, content. cbn [dk_get]. by rewrite K2, K3. }
  rewrite do_pops_files in *. cbn [pk_fs] in *. split; [done|]. split; [exact T3|]. split; [exact T4|].
  split.
  - unfold pl_open_server. change (pp_enc pp) with (sp_enc sp). cbn [pk_fs pk_rocks].
    rewrite (open_disk_pages _ _ (sf_table f) Hpage); [|rewrite G3; pose proof (dk_size _ _ Hdb); lia|done|by destruct (do_ops (pk_fs d3) o4)].
    assert (dk_stash (dk_set Stash None (do_ops (pk_fs d3) o4)) = None) as -> by done. cbn [rbind].
    unfold ht_on_disk in Eh4. cbn [pk_fs pk_rocks] in Eh4. rewrite Eh4. rewrite H6. done.
  - unfold pluto_open_server. cbn [fst snd]. by rewrite H6.
Qed.


(** * A builder over RocksDB *)
Lemma full_pairs_eq pp db : full_pairs pp db = db_ht_pairs pp db.
Proof.
  unfold full_pairs, db_ht_pairs. induction db as [|x db IH]; csimpl; [done|]. rewrite <- IH. f_equal.
  unfold ht_pairs, ht_pairs_from. apply imap_ext. intros i y _. cbn. by rewrite SchemeProofs.derive_block_key.
Qed.
Lemma dummy_pairs_eq pp rand n_elts db :
  dummy_pairs pp rand n_elts db = (fun j => (rand j, ht_value pp [])) <$> seq 0 (n_dummies pp n_elts db).
Proof. unfold dummy_pairs, dummy_keys. by rewrite <- list_fmap_compose. Qed.
Lemma put_all_app m a b : put_all m (a ++ b) = put_all (put_all m a) b.
Proof. apply foldl_app. Qed.
Lemma rocks_all_ok m kvs : Forall (fun o => o = Ok tt) (ht_inserts (BRocks m) kvs).2.
Proof. rewrite ht_inserts_rocks_map. by apply Forall_replicate. Qed.
Lemma rocks_pops kvs d : pk_rocks (do_pops d (ht_pops (BRocks (pk_rocks d)) kvs)) = put_all (pk_rocks d) kvs /\
  pk_fs (do_pops d (ht_pops (BRocks (pk_rocks d)) kvs)) = pk_fs d.
Proof.
  split.
  - pose proof (ht_pops_rep kvs (BRocks (pk_rocks d)) d eq_refl) as H. by rewrite ht_inserts_rocks_map in H.
  - generalize (pk_rocks d) at 1. revert d. induction kvs as [|[k v] kvs IH]; intros d m; [done|].
    cbn [ht_pops ht_insert ht_insert_pops fst app]. change (PPut k v :: ?l) with ([PPut k v] ++ l). rewrite do_pops_app, IH. done.
Qed.

Lemma rocks_build fuel pp cut rand n_elts b d : pb_ht b = BRocks (pk_rocks d) ->
  let dp := (fun j => (rand j, ht_value pp [])) <$> seq 0 (N.to_nat (n_full_blocks pp n_elts - pb_complete b)) in
  let s := build_io fuel (sc_store (pp_sc pp)) cut (pb_store b) (pk_fs d) in
  pl_build fuel pp cut rand n_elts b d =
    (PB s.1 (BRocks (put_all (pk_rocks d) dp)) (pb_complete b), ht_pops (BRocks (pk_rocks d)) dp ++ (PFile <$> s.2.1), s.2.2).
Proof.
  intros Hb. cbv zeta. unfold pl_build. rewrite Hb.
  rewrite (fill_pops_ok pp rand _ 0) by apply rocks_all_ok. rewrite (fill_ok pp rand _ 0) by apply rocks_all_ok.
  cbn [fst snd]. rewrite ht_inserts_rocks_map. cbn [fst snd ht_commit_on]. rewrite app_nil_r.
  rewrite (proj2 (rocks_pops _ d)). done.
Qed.

(** Any number of builds after the lists: the dummy blocks of each of them. *)
Lemma rocks_builds fuel pp cut n_elts rands : forall b d, pb_ht b = BRocks (pk_rocks d) ->
  let dp := fun rand => (fun j => (rand j, ht_value pp [])) <$> seq 0 (N.to_nat (n_full_blocks pp n_elts - pb_complete b)) in
  let r := pl_calls fuel pp cut n_elts b d (PBuild <$> rands) in
  pk_rocks (do_pops d r.1.2) = put_all (pk_rocks d) (mjoin (dp <$> rands)).
Proof.
  induction rands as [|rand rands IH]; intros b d Hb; cbv zeta; [done|].
  cbn [fmap list_fmap pl_calls pl_call mjoin list_join fst snd].
  rewrite (rocks_build fuel pp cut rand n_elts b d Hb). cbn [fst snd]. rewrite do_pops_app.
  set (dp := (fun j => (rand j, ht_value pp [])) <$> seq 0 _).
  set (s := build_io _ _ _ _ _).
  set (d1 := do_pops d (ht_pops (BRocks (pk_rocks d)) dp ++ (PFile <$> s.2.1))).
  assert (E1 : pk_rocks d1 = put_all (pk_rocks d) dp).
  { unfold d1. rewrite do_pops_app, do_pops_files. cbn [pk_rocks]. apply rocks_pops. }
  set (b1 := PB _ _ _). rewrite put_all_app, <- E1.
  apply (IH b1 d1). cbn. by rewrite E1.
Qed.

Lemma rocks_life fuel pp cut n_elts rands db d b ops outs :
  0 < p_len pp -> pp_ht pp = KRocks ->
  pl_life fuel pp cut n_elts d (pl_inserts db ++ (PBuild <$> rands)) = Ok (b, ops, outs) ->
  pk_rocks (do_pops d ops) = put_all (pk_rocks d) (full_pairs pp db ++ mjoin ((fun rand => dummy_pairs pp rand n_elts db) <$> rands)).
Proof.
  intros HL Hk E. unfold pl_life, pl_new in E. apply rbind_ok in E as ([b0 o0] & E0 & E).
  apply rbind_ok in E0 as (sb & _ & E0). unfold ht_new_on in E0. rewrite Hk in E0. cbn [fst snd] in E0. injection E0 as <- <-.
  cbn [fst snd] in E. injection E as <- <- <-. cbn [app do_pops foldl].
  rewrite calls_app. cbn [fst snd]. rewrite do_pops_app.
  destruct (insert_db_ht pp HL fuel cut n_elts db (PB sb (BRocks (pk_rocks d)) 0) d (rocks_all_ok _ _)) as (E1 & E2 & E3 & _ & _).
  cbn [pb_ht pb_complete] in E1, E2, E3. rewrite E3. rewrite ht_inserts_rocks_map in E1. cbn [fst] in E1.
  destruct (rocks_pops (db_ht_pairs pp db) d) as [R1 R2].
  set (d1 := do_pops d (ht_pops _ _)) in *. rewrite <- R1 in E1.
  pose proof (rocks_builds fuel pp cut n_elts rands _ d1 E1) as HB. cbv zeta in HB. rewrite HB.
  rewrite E2, N.add_0_l, R1. rewrite <- put_all_app, full_pairs_eq. f_equal. f_equal. f_equal.
  apply list_fmap_ext. intros i rand _. by rewrite dummy_pairs_eq.
Qed.

Lemma put_all_other kvs : forall m k, k ∉ kvs.*1 -> put_all m kvs !! k = m !! k.
Proof.
  induction kvs as [|[k' v] kvs IH]; intros m k Hk; [done|]. csimpl in Hk. apply not_elem_of_cons in Hk as [H1 H2].
  cbn [put_all foldl fst snd]. change (foldl _ (<[k':=v]> m) kvs) with (put_all (<[k':=v]> m) kvs).
  rewrite IH by done. by apply lookup_insert_ne.
Qed.
Lemma put_all_size kvs : NoDup kvs.*1 -> size (put_all ∅ kvs) = length kvs.
Proof.
  intros HN. destruct (ht_inserts_rocks kvs ∅) as (m & E & H). rewrite ht_inserts_rocks_map in E. injection E as <-.
  destruct (H HN) as (_ & _ & ->); [intros; apply lookup_empty|]. by rewrite map_size_empty.
Qed.

(** * On top of an earlier database *)
Lemma build_io_stale fuel sp cut b d : 0 < sp_n sp -> content Pages d <> [] ->
  ((build_io fuel sp cut b d).2.1 = [] \/ (build_io fuel sp cut b d).2.1 = [Create Pages]) /\
  (build_io fuel sp cut b d).2.2 <> Ok tt.
Proof.
  intros Hn HP. unfold build_io. destruct (sb_built b); [by split; [left|]|].
  pose proof (open_stale (kp_page (sp_enc sp)) _ HP) as Hc.
  assert (E : reserve_ops Pages (kp_page (sp_enc sp)) (open_vec (kp_page (sp_enc sp)) (content Pages d) false) (sp_n sp) = []
    /\ vec_reserve (kp_page (sp_enc sp)) (open_vec (kp_page (sp_enc sp)) (content Pages d) false) (sp_n sp) =
       open_vec (kp_page (sp_enc sp)) (content Pages d) false).
  { unfold reserve_ops, vec_reserve. rewrite Hc. by rewrite !bool_decide_eq_false_2 by (intros [? _]; done). }
  destruct E as [-> ->].
  destruct (allocate fuel (sb_alloc b)) as [a| | |]; try (by split; [right|]). cbn [fst snd].
  set (new := open_vec _ _ _) in *.
  assert (W : (write_io sp cut (sb_data b) a new).1 = [] /\ (write_io sp cut (sb_data b) a new).2 <> Ok tt).
  { unfold write_io, quiet. destruct (get_allocation_graph a) as [g| | |]; try done.
    assert (EI : forall f : graph -> io unit, ibind ([], Ok g) f = f g).
    { intros f. unfold ibind. cbn [fst snd app]. by destruct (f g). }
    rewrite EI. clear EI.
    assert (G : (page_io sp (sb_data b) g (seq 0 (sp_n sp)) new).1 = [] /\ forall v, (page_io sp (sb_data b) g (seq 0 (sp_n sp)) new).2 <> Ok v).
    { destruct (sp_n sp) as [|n]; [lia|]. cbn [seq page_io]. unfold ibind at 1 3, quiet. cbn [fst snd].
      destruct (_ : res (bytes * _)) as [r| | |]; try done. cbn [fst snd].
      unfold push_ops, vec_push. rewrite Hc. done. }
    destruct G as [G1 G2].
    destruct (page_io sp (sb_data b) g (seq 0 (sp_n sp)) new) as [os [v| | |]]; cbn [fst snd] in G1, G2; subst os;
      [by destruct (G2 v)|by unfold ibind; cbn..]. }
  destruct W as [-> W]. split; [by right|done].
Qed.

(** What none of the files of an earlier database notices. *)
Definition harmless (o : pop) : Prop :=
  match o with PFile o => ~ touches Tab o /\ ~ touches Pages o /\ ~ on Stash o | PPut _ _ => False end.
Lemma harmless_kept os : Forall harmless os -> forall d, same_files d (do_pops d os).
Proof.
  induction 1 as [|o os H _ IH]; intros d; [done|]. cbn [do_pops foldl].
  destruct (IH (do_pop d o)) as (E1 & E2 & E3 & E4). unfold same_files. unfold do_pops in E1, E2, E3, E4.
  rewrite E1, E2, E3, E4. clear IH E1 E2 E3 E4.
  destruct o as [o|k v]; [|done]. destruct H as (H1 & H2 & H3). cbn [do_pop pk_fs pk_rocks].
  rewrite !content_untouched by done. split; [done|]. split; [done|]. split; [|done].
  destruct d as [[] m], o as [p|p n|p off bs|p]; cbn in H3 |- *; destruct p; done.
Qed.
Lemma only_tmp_harmless os : Forall (fun o => on Tmp o \/ on Tab o) os -> Forall (fun o => ~ touches Tab o) os ->
  Forall harmless (PFile <$> os).
Proof.
  intros H1 H2. apply Forall_fmap. rewrite Forall_forall in H1, H2. apply Forall_forall. intros o Ho.
  specialize (H1 o Ho). specialize (H2 o Ho). split; [done|].
  destruct o as [p|p n|p off bs|p]; cbn in *; destruct H1 as [-> | ->]; try done; by destruct H2.
Qed.

Section stale.
  Context (pp : pparams) (d0 : pdisk).
  Hypothesis (HP : content Pages (pk_fs d0) <> []) (HT : content Tab (pk_fs d0) <> []) (Hn : 0 < sp_n (sc_store (pp_sc pp))).
  Let cuckoo (b : pbuilder) : Prop := exists cb, pb_ht b = BCuckoo cb.

  Lemma stale_insert cb k v : Forall harmless (ht_insert_pops (BCuckoo cb) k v).
  Proof. apply only_tmp_harmless; [apply insert_on|apply insert_ops_on]. Qed.
  Lemma stale_blocks token ids : forall cb bc block, Forall harmless (p_block_pops pp token (BCuckoo cb) bc block ids).
  Proof.
    induction ids as [|id ids IH]; intros cb bc block; cbn [p_block_pops]; [constructor|].
    case_bool_decide; [|apply IH]. apply Forall_app. split; [apply stale_insert|].
    cbn [ht_insert]. destruct (cb_insert _ _ _ _) as [h' [| | |]]; cbn [fst snd]; try constructor. apply IH.
  Qed.
  Lemma stale_fill rand n : forall i cb, Forall harmless (fill_pops pp rand n i (BCuckoo cb)) /\
    exists cb', (fill_dummies pp rand n i (BCuckoo cb)).1 = BCuckoo cb'.
  Proof.
    induction n as [|n IH]; intros i cb; cbn [fill_pops fill_dummies].
    - split; [constructor|]. by exists cb.
    - pose proof (stale_insert cb (rand i) (ht_value pp [])) as HI. cbn [ht_insert] in *.
      destruct (cb_insert _ _ _ _) as [h' [| | |]]; cbn [fst snd].
      2-4: split; [by apply Forall_app|]; by exists h'.
      destruct (IH (S i) h') as [A B]. split; [by apply Forall_app|done].
  Qed.
  Lemma stale_p_blocks token ids : forall b bc block, cuckoo b -> cuckoo (p_blocks pp token b bc block ids).1.
  Proof.
    induction ids as [|id ids IH]; intros b bc block Hb; cbn [p_blocks]; [done|].
    case_bool_decide; [|by apply IH]. destruct Hb as [cb Hb]. rewrite Hb. cbn [ht_insert].
    destruct (cb_insert _ _ _ _) as [h' [| | |]]; cbn [fst snd]; [apply IH|..]; by exists h'.
  Qed.
  Lemma stale_call fuel cut n_elts c b d : cuckoo b -> same_files d0 d ->
    let r := pl_call fuel pp cut n_elts b d c in
    cuckoo r.1.1 /\ Forall harmless r.1.2 /\ (forall rand, c = PBuild rand -> r.2 <> Ok tt).
  Proof.
    intros Hb (E1 & E2 & _). cbv zeta. destruct c as [kw ids|rand]; cbn [pl_call fst snd].
    - split; [|split; [|done]].
      + unfold pluto_insert. pose proof (stale_p_blocks (sc_prf (pp_sc pp) kw) ids b 1 [] Hb) as H.
        destruct ((p_blocks pp (sc_prf (pp_sc pp) kw) b 1 [] ids).2) as [[bc bl]| | |]; try done.
        case_bool_decide; done.
      + destruct Hb as [cb ->]. apply stale_blocks.
    - destruct Hb as [cb Hb]. unfold pl_build. rewrite Hb. set (n := N.to_nat _).
      destruct (stale_fill rand n 0 cb) as [F1 [cb' F2]]. set (o1 := fill_pops _ _ _ _ _) in *.
      destruct (fill_dummies pp rand n 0 (BCuckoo cb)) as [h r]. cbn [fst snd] in *. subst h.
      destruct r as [[]| | |]; cbn [fst snd pb_ht].
      2-4: split; [by exists cb'|]; split; [done|]; intros ? _; done.
      destruct (harmless_kept o1 F1 d) as (K1 & K2 & _). cbn [ht_commit_on fst snd].
      assert (HT' : content Tab (pk_fs (do_pops d o1)) <> []) by by rewrite K1, E1.
      assert (Hc : Forall harmless (PFile <$> commit_ops (ht_page pp) cb' (content Tab (pk_fs (do_pops d o1))))).
      { apply only_tmp_harmless; [apply commit_on|by apply commit_ops_kept]. }
      destruct (cb_commit _ _ _) as [[cb2 file] r2]. cbn [fst snd].
      destruct r2 as [[]| | |]; cbn [fst snd pb_ht].
      2-4: split; [by exists cb2|]; split; [by apply Forall_app|]; intros ? _; done.
      set (o2 := o1 ++ _). assert (H2 : Forall harmless o2) by by apply Forall_app.
      destruct (harmless_kept o2 H2 d) as (_ & K4 & _).
      destruct (build_io_stale fuel (sc_store (pp_sc pp)) cut (pb_store b) (pk_fs (do_pops d o2)) Hn) as [B1 B2].
      { by rewrite K4, E2. }
      split; [by exists cb2|]. split; [|by intros]. apply Forall_app. split; [done|].
      destruct B1 as [-> | ->]; [constructor|]. constructor; [|constructor]. cbn. split; [tauto|]. split; [tauto|]. done.
  Qed.
  Lemma stale_calls fuel cut n_elts cs : forall b d, cuckoo b -> same_files d0 d ->
    let r := pl_calls fuel pp cut n_elts b d cs in
    cuckoo r.1.1 /\ Forall harmless r.1.2 /\ (forall i rand, cs !! i = Some (PBuild rand) -> r.2 !! i <> Some (Ok tt)).
  Proof.
    induction cs as [|c cs IH]; intros b d Hb Hd; cbv zeta.
    - split; [done|]. split; [constructor|]. done.
    - cbn [pl_calls fst snd]. destruct (stale_call fuel cut n_elts c b d Hb Hd) as (A & B & C).
      assert (Hd' : same_files d0 (do_pops d (pl_call fuel pp cut n_elts b d c).1.2)).
      { destruct (harmless_kept _ B d) as (K1 & K2 & K3 & K4). destruct Hd as (D1 & D2 & D3 & D4).
        unfold same_files. by rewrite K1, K2, K3, K4. }
      destruct (IH _ _ A Hd') as (A' & B' & C'). split; [done|]. split; [by apply Forall_app|].
      intros [|i] rand Hi; cbn in Hi |- *; [|by eapply C']. injection Hi as ->. intros E. injection E as E. by apply (C rand).
  Qed.
  Lemma stale_end b d : cuckoo b -> same_files d0 d -> Forall harmless (pl_end pp b d).
  Proof.
    intros [cb Hb] (E1 & _). unfold pl_end. rewrite Hb. unfold life_end. cbn [fst].
    apply only_tmp_harmless; [apply commit_on|apply commit_ops_kept]. by rewrite E1.
  Qed.
End stale.

Lemma same_files_open pp d d' : same_files d d' -> pl_open_server pp d' = pl_open_server pp d.
Proof.
  intros (E1 & E2 & _ & E4). unfold pl_open_server, open_disk.
  assert (forall x, content Pages (dk_set Stash None x) = content Pages x) as H by done.
  assert (forall x, dk_stash (dk_set Stash None x) = None) as H' by done.
  by rewrite !H, !H', E1, E2, E4.
Qed.

(** Builds over RocksDB on top of an earlier store. *)
Lemma rocks_stale fuel pp cut n_elts rs : 0 < sp_n (sc_store (pp_sc pp)) ->
  forall b d, pb_ht b = BRocks (pk_rocks d) -> content Pages (pk_fs d) <> [] ->
  let r := pl_calls fuel pp cut n_elts b d (PBuild <$> rs) in
  content Pages (pk_fs (do_pops d r.1.2)) = content Pages (pk_fs d) /\ dk_stash (pk_fs (do_pops d r.1.2)) = dk_stash (pk_fs d) /\
  Forall (fun x => x <> Ok tt) r.2.
Proof.
  intros Hn. induction rs as [|rand rs IH]; intros b d Hb HP; cbv zeta; [split; [done|]; split; [done|constructor]|].
  cbn [fmap list_fmap pl_calls pl_call fst snd].
  rewrite (rocks_build fuel pp cut rand n_elts b d Hb). cbn [fst snd].
  set (dp := (fun j => (rand j, ht_value pp [])) <$> seq 0 _). set (s := build_io _ _ _ _ _).
  rewrite do_pops_app.
  set (d1 := do_pops d (ht_pops (BRocks (pk_rocks d)) dp ++ (PFile <$> s.2.1))).
  destruct (rocks_pops dp d) as [R1 R2].
  destruct (build_io_stale fuel (sc_store (pp_sc pp)) cut (pb_store b) (pk_fs d) Hn HP) as [B1 B2]. fold s in B1, B2.
  assert (Ed : content Pages (pk_fs d1) = content Pages (pk_fs d) /\ dk_stash (pk_fs d1) = dk_stash (pk_fs d) /\
    pk_rocks d1 = put_all (pk_rocks d) dp).
  { unfold d1. rewrite do_pops_app, do_pops_files. cbn [pk_fs pk_rocks]. rewrite R1, R2.
    destruct B1 as [-> | ->]; [done|]. cbn [do_ops foldl]. rewrite content_untouched by (simpl; tauto).
    split; [done|]. split; [|done]. by destruct (pk_fs d). }
  destruct Ed as (D1 & D2 & D3).
  destruct (IH (PB s.1 (BRocks (put_all (pk_rocks d) dp)) (pb_complete b)) d1) as (I1 & I2 & I3).
  { cbn. by rewrite D3. }
  { by rewrite D1. }
  rewrite I1, I2, D1, D2. split; [done|]. split; [done|]. by constructor.
Qed.

(** * A cuckoo builder that was built *)
Lemma committed_build fuel pp cut rand n_elts b d cb :
  pb_ht b = BCuckoo cb -> cb_committed cb = true -> (pb_complete b < n_full_blocks pp n_elts)%N ->
  pl_build fuel pp cut rand n_elts b d = (b, [], Throw RuntimeError).
Proof.
  intros Hb Hc Hn. unfold pl_build. rewrite Hb.
  destruct (N.to_nat (n_full_blocks pp n_elts - pb_complete b)) as [|n] eqn:E; [lia|].
  cbn [fill_dummies fill_pops ht_insert ht_insert_pops]. unfold cb_insert, insert_ops. rewrite Hc. cbn [fst snd fmap list_fmap app].
  rewrite <- Hb. by destruct b.
Qed.
Lemma commit_on_committed pp cb d : exists cb', (ht_commit_on pp (BCuckoo cb) d).1.1 = BCuckoo cb' /\ cb_committed cb' = true.
Proof.
  cbn [ht_commit_on fst]. unfold cb_commit. destruct (cb_committed cb) eqn:E; [by exists cb|].
  destruct (cb_write _ _ _ _) as [o1 [| | |]]; cbn [fst]; eexists; (split; [reflexivity|done]).
Qed.
Lemma first_build fuel pp size depth max_n cut rand n_elts db ws d b ops outs :
  pluto_ok pp rand n_elts db ws -> pp_ht pp = KCuckoo size depth max_n -> content Tmp (pk_fs d) = [] ->
  pl_life fuel pp cut n_elts d (pl_inserts db ++ [PBuild rand]) = Ok (b, ops, outs) ->
  exists cb, pb_ht b = BCuckoo cb /\ cb_committed cb = true /\ pb_complete b = N.of_nat (n_blocks (p_len pp) db).
Proof.
  intros Hok Hk HT E.
  destruct (ht_spec pp (po_words _ _ _ _ _ Hok) (po_block _ _ _ _ _ Hok) (po_key _ _ _ _ _ Hok) _ (kvs_ok _ _ _ _ _ Hok))
    as (h & h' & hf & t & H1 & _).
  set (dpairs := (fun j => (rand j, ht_value pp [])) <$> seq 0 (n_dummies pp n_elts db)) in *.
  assert (HO : Forall (fun o => o = Ok tt) (replicate (length (db_ht_pairs pp db ++ dpairs)) (@Ok unit tt))) by by apply Forall_replicate.
  rewrite ht_inserts_app in H1. injection H1 as H1 H1o. rewrite <- H1o in HO. apply Forall_app in HO as [HO1 HO2].
  pose proof (L_pos _ _ _ _ _ Hok) as HL.
  unfold pl_life, pl_new in E. apply rbind_ok in E as ([b0 o0] & E0 & E).
  apply rbind_ok in E0 as (sb & _ & E0). injection E0 as <- <-. cbn [fst snd] in E. injection E as Eb _ _.
  assert (En : (ht_new_on pp d).1 = ht_new pp).
  { unfold ht_new_on, ht_new. rewrite Hk. cbn [fst]. unfold life_new. cbn [fst]. by rewrite HT. }
  rewrite En in Eb. rewrite calls_app in Eb. cbn [fst snd pl_calls pl_call] in Eb.
  set (d0 := do_pops d (ht_new_on pp d).2) in *.
  destruct (insert_db_ht pp HL fuel cut n_elts db (PB sb (ht_new pp) 0) d0 HO1) as (F1 & F2 & F3 & _ & _).
  cbn [pb_ht pb_complete] in F1, F2, F3.
  destruct (pl_calls fuel pp cut n_elts (PB sb (ht_new pp) 0) d0 (pl_inserts db)) as [[b1 o1] r1]. cbn [fst snd] in *. clear H1o.
  unfold pl_build in Eb. rewrite F1, F2 in Eb. rewrite N.add_0_l in Eb. fold (n_dummies pp n_elts db) in Eb.
  rewrite (fill_ok pp rand _ 0) in Eb by exact HO2. cbn [fst snd] in Eb. fold dpairs in Eb. rewrite H1 in Eb.
  set (o2 := fill_pops _ _ _ _ _) in *.
  assert (Hcb : exists cb, h = BCuckoo cb).
  { assert (Hkd : kind_ok pp h) by (rewrite <- H1; apply kind_inserts, kind_inserts; rewrite <- En; apply kind_new).
    unfold kind_ok in Hkd. rewrite Hk in Hkd. destruct h; [by eexists|done]. }
  destruct Hcb as [cb ->]. destruct (commit_on_committed pp cb (do_pops (do_pops d0 o1) o2)) as (cb' & C1 & C2).
  exists cb'. destruct (ht_commit_on pp (BCuckoo cb) (do_pops (do_pops d0 o1) o2)) as [[h2 o3] r3]. cbn [fst snd] in *. subst h2.
  destruct r3 as [[]| | |]; cbn [fst snd] in Eb; subst b; cbn [pb_ht pb_complete]; rewrite ?F2, ?N.add_0_l; done.
Qed.
