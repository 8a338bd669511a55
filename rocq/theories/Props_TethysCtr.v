(** C99 and C100: successive builders of Tethys over the same files. *)
From stdpp Require Import prelude gmap.
From Coq Require Import ZArith NArith Lia.
From Verif Require Import Base EncModel EncSpec EncProofs Props_Enc StoreModel StoreSpec StoreProofs StoreTheorems VecModel LifeModel LifeSpec
  TethysLifeModel TethysLifeSpec TethysLifeProofs Props_TethysLife KvModel SchemeModel SchemeSpec SchemeProofs Props_Scheme
  TethysCtrModel TethysCtrSpec TethysCtrProofs.
Local Open Scope nat_scope.
Local Arguments N.of_nat : simpl never.
Local Arguments N.modulo : simpl never.

(** ** One builder *)
Section one.
  Context (sc : scheme) (db : database) (sets : list bool) (d : tdisk).
  Context (Hok : scheme_ok sc db) (Hf : full_lists_last sc db) (Hlen : length sets = length db).
  Let sp := sc_store sc.

  Lemma process_calls : exists sb b, new_store_builder sp = Ok sb /\ loaded sp (blocks_of sc db) b /\
    forall fuel cut cs, t_process fuel sc cut d (inserts db sets ++ cs) =
      let r := t_calls fuel sc cut b (TDisk (td_files d) (count_db sc (td_counters d) db sets)) cs in
      (r.1, replicate (length db) (Ok tt) ++ r.2).
  Proof using Hok Hf Hlen.
    destruct (new_builder_ok sp (so_size _ _ Hok)) as [sb Hb].
    exists sb, (run_inserts sp sb (blocks_of sc db)).1. split; [done|]. split; [by exists sb|].
    intros fuel cut cs. unfold t_process. fold sp. rewrite Hb. apply t_calls_inserts; [apply Hok|done|].
    destruct (store_correct sp _ sb (blocks_db_ok sc db Hok) Hb (blocks_last sc db Hok Hf)) as (b2 & f & s & E1 & _). fold sp. rewrite E1.
    apply Forall_fmap, Forall_forall. intros kv Hkv. simpl. rewrite decide_True; [done|].
    rewrite <- (blocks_accepted sc db Hok) in Hkv. by apply accepted_adm in Hkv as [? _].
  Qed.

  Lemma built fuel cut : 0 < kp_page (sp_enc sp) -> no_store d -> store_fuel (sp_enc sp) (blocks_of sc db) <= fuel -> cuts cut ->
    let p := t_process fuel sc cut d (inserts db sets ++ [CBuild None]) in
    p.2 = replicate (length db) (Ok tt) ++ [Ok tt] /\ td_counters p.1 = count_db sc (td_counters d) db sets /\
    content Pages (td_files p.1) <> [] /\
    forall c ws uses w, derive_ok sc ws uses -> db.*1 ⊆ ws -> uses_of sc db ⊆ uses -> (c !! w = None \/ w ∈ ws) ->
      (default 0 (c !! w) < 2 ^ 32)%N -> (forall i, i < N.to_nat (default 0%N (c !! w)) -> (w, i) ∈ uses) ->
      t_found sc (TDisk (td_files p.1) c) w (take (N.to_nat (default 0%N (c !! w)) * block_length sc) (ids_of w db)).
  Proof using Hok Hf Hlen.
    intros Hp [Hpages Hstash] Hfu Hcut p. destruct process_calls as (sb & b & Hb & Hl & Ec). specialize (Ec fuel cut [CBuild None]).
    unfold p. rewrite Ec. cbn [t_calls fst snd td_files td_counters]. clear Ec p. fold sp.
    destruct (C84_complete sp (blocks_of sc db) b fuel cut (td_files d) (blocks_db_ok sc db Hok) (blocks_last sc db Hok Hf) Hp Hl Hfu Hcut Hpages Hstash)
      as (f & s & Ht & _ & Hc & Hs & Ho & _ & Hg).
    set (d' := do_ops (td_files d) (build_io fuel sp cut b (td_files d)).2.1) in *. rewrite Ht. split; [done|]. split; [done|].
    pose proof (blocks_accepted sc db Hok) as Ha. fold sp in Ha. rewrite Ha in Hg.
    unfold open_disk in Ho. destruct (negb (v_committed _)) eqn:Ecm; [done|]. split.
    { intros E0. rewrite E0 in Ecm. by vm_compute in Ecm. }
    apply rbind_ok in Ho as (m & Em & Ho). injection Ho as <-.
    set (T := chunks (kp_page (sp_enc sp)) (v_size (open_vec (kp_page (sp_enc sp)) (content Pages d') false))
                (v_file (open_vec (kp_page (sp_enc sp)) (content Pages d') false))) in *.
    intros c ws uses w HD Hws Hus Hw Hn Hi. unfold t_found, t_search. cbn [td_files td_counters]. fold sp. rewrite Em. cbn [rbind].
    assert (Eo : open_disk (sp_enc sp) (dk_set Stash None d') =
      Ok (Store T ∅)).
    { unfold open_disk. assert (content Pages (dk_set Stash None d') = content Pages d') as -> by done. rewrite Ecm. done. }
    rewrite Eo. cbn [rbind]. clear Eo.
    destruct (search_loop sc (Store T m) (TC m c) eq_refl (blocks_of sc db) (sc_prf sc w)
      (seq 0 (N.to_nat (default 0%N (c !! w))))) as (r & Hr & Pr); [exact Hg|].
    exists r. split; [exact Hr|]. rewrite Pr. destruct Hw as [Hw|Hw]; [by rewrite Hw|].
    rewrite (ids_of_first sc db Hok ws uses w _ HD Hws Hus Hw Hi) by (rewrite N2Nat.id; change (2 ^ 64)%N with (2 ^ 32 * 2 ^ 32)%N; nia).
    done.
  Qed.

  Lemma refused fuel cut last : store_fuel (sp_enc sp) (blocks_of sc db) <= fuel -> content Pages (td_files d) <> [] ->
    let p := t_process fuel sc cut d (inserts db sets ++ [CBuild last]) in
    p.2 = replicate (length db) (Ok tt) ++ (match last with None => [Throw RuntimeError] | Some _ => [] end) /\
    p.1 = TDisk (td_files d) (count_db sc (td_counters d) db sets).
  Proof using Hok Hf Hlen.
    intros Hfu Hpages p. destruct process_calls as (sb & b & Hb & Hl & Ec). specialize (Ec fuel cut [CBuild last]).
    unfold p. rewrite Ec. clear Ec p.
    pose proof (fun k => C85_refused sp (blocks_of sc db) b fuel cut (td_files d) k (blocks_db_ok sc db Hok) (blocks_last sc db Hok Hf) Hl Hfu Hpages) as HR.
    destruct last as [k|]; cbn [t_calls fst snd td_files td_counters]; fold sp.
    - destruct (HR k) as (_ & _ & E & _). unfold dies in E. rewrite E. done.
    - destruct (HR (length (build_io fuel sp cut b (td_files d)).2.1)) as (E1 & _ & E & _). unfold dies in E.
      rewrite take_ge in E by done. rewrite E, E1. done.
  Qed.
End one.

Lemma separated_default sc db c w : separated sc db c -> exists ws uses,
  derive_ok sc ws uses /\ db.*1 ⊆ ws /\ uses_of sc db ⊆ uses /\
  (default 0 (c !! w) < 2 ^ 32)%N /\ (c !! w = None \/ w ∈ ws) /\ (forall i, i < N.to_nat (default 0%N (c !! w)) -> (w, i) ∈ uses).
Proof.
  intros (ws & uses & HD & H1 & H2 & H3). exists ws, uses. split_and!; try done.
  - destruct (c !! w) as [n|] eqn:E; [|done]. by apply (H3 w n).
  - destruct (c !! w) as [n|] eqn:E; [right|by left]. by destruct (H3 w n E) as (_ & ? & _).
  - destruct (c !! w) as [n|] eqn:E; [|simpl; lia]. by destruct (H3 w n E) as (_ & _ & ?).
Qed.

(** ** C99: leftover counters *)
(** A search finds the first blocks of the list, as many as the counter found on disk says, whoever wrote it. *)
Theorem C99_counters :
  forall sc db sets d,
    scheme_ok sc db -> full_lists_last sc db -> 0 < kp_page (sp_enc (sc_store sc)) -> length sets = length db -> no_store d ->
    exists fuel0, forall fuel cut, fuel0 <= fuel -> cuts cut ->
      let p := t_process fuel sc cut d (inserts db sets ++ [CBuild None]) in
      p.2 = replicate (length db) (Ok tt) ++ [Ok tt] /\
      forall c w, separated sc db c ->
        t_found sc (TDisk (td_files p.1) c) w (take (N.to_nat (default 0%N (c !! w)) * block_length sc) (ids_of w db)).
Proof.
  intros sc db sets d Hok Hf Hp Hl Hn. exists (store_fuel (sp_enc (sc_store sc)) (blocks_of sc db)). intros fuel cut Hfu Hcut p.
  destruct (built sc db sets d Hok Hf Hl fuel cut Hp Hn Hfu Hcut) as (E1 & _ & _ & H). split; [exact E1|].
  intros c w Hs. destruct (separated_default sc db c w Hs) as (ws & uses & HD & H1 & H2 & H3 & H4 & H5). by eapply H.
Qed.
Print Assumptions C99_counters.

(** The counters after all the lists have been inserted. *)
Lemma count_all sc db c w : scheme_ok sc db ->
  count_db sc c db (replicate (length db) true) !! w =
  if decide (w ∈ db.*1) then Some (N.of_nat (blocks sc (ids_of w db))) else c !! w.
Proof.
  intros Hok. case_decide as Hw; [|by apply count_db_out].
  apply elem_of_list_fmap in Hw as (x & -> & Hx). pose proof Hx as Hx'. apply elem_of_list_lookup in Hx as [j Hj].
  rewrite (count_db_in sc db x.1 x true (so_keywords _ _ Hok) j (replicate (length db) true) c Hj); [|apply lookup_replicate; split; [done|by eapply lookup_lt_Some]|done].
  assert (Ei : ids_of x.1 db = x.2).
  { unfold ids_of. destruct (list_find (fun y => y.1 = x.1) db) as [[i y]|] eqn:F.
    - apply list_find_Some in F as (F1 & F2 & _).
      assert (i = j) as ->. { eapply NoDup_lookup; [exact (so_keywords _ _ Hok)|..]; rewrite list_lookup_fmap; [by rewrite F1|rewrite Hj; simpl; by rewrite F2]. }
      by simplify_eq.
    - apply list_find_None in F. rewrite Forall_forall in F. by destruct (F x Hx'). }
  rewrite Ei. f_equal. apply N.mod_small. pose proof (so_short _ _ Hok) as HS. rewrite Forall_forall in HS. exact (HS x Hx').
Qed.
Lemma separated_all sc db c : scheme_ok sc db -> separated sc db c -> separated sc db (count_db sc c db (replicate (length db) true)).
Proof.
  intros Hok (ws & uses & HD & H1 & H2 & H3). exists ws, uses. split_and!; try done. intros w n. rewrite count_all by done.
  case_decide as Hw; [|apply H3]. intros [= <-]. pose proof Hw as Hw'. apply elem_of_list_fmap in Hw as (x & -> & Hx).
  assert (Ei : ids_of x.1 db = x.2).
  { pose proof (so_keywords _ _ Hok) as HN. unfold ids_of. apply elem_of_list_lookup in Hx as [j Hj]. destruct (list_find (fun y => y.1 = x.1) db) as [[i y]|] eqn:F.
    - apply list_find_Some in F as (F1 & F2 & _).
      assert (i = j) as ->. { eapply NoDup_lookup; [exact HN|..]; rewrite list_lookup_fmap; [by rewrite F1|rewrite Hj; simpl; by rewrite F2]. }
      by simplify_eq.
    - apply list_find_None in F. rewrite Forall_forall in F. by destruct (F x (elem_of_list_lookup_2 _ _ _ Hj)). }
  rewrite Ei. split; [|split; [by apply H1|]].
  - pose proof (so_short _ _ Hok) as HS. rewrite Forall_forall in HS. exact (HS x Hx).
  - intros i Hi. apply H2. unfold uses_of. apply elem_of_list_bind. exists x. split; [|done]. apply elem_of_list_fmap. exists i. split; [done|].
    apply elem_of_seq. unfold blocks, block_length in Hi. lia.
Qed.
Lemma all_blocks sc ids : 0 < block_length sc -> length ids <= blocks sc ids * block_length sc.
Proof. intros H. unfold blocks. pose proof (Nat.mul_succ_div_gt (length ids) (block_length sc)). lia. Qed.

(** A builder that inserts and builds over the counters left by any processes: searches find the documents of
    its lists, and nothing for the other keywords. *)
Theorem C99_leftover :
  forall sc db d,
    scheme_ok sc db -> full_lists_last sc db -> 0 < kp_page (sp_enc (sc_store sc)) -> no_store d ->
    separated sc db (td_counters d) ->
    exists fuel0, forall fuel cut, fuel0 <= fuel -> cuts cut ->
      let p := t_process fuel sc cut d (inserts db (replicate (length db) true) ++ [CBuild None]) in
      p.2 = replicate (length db) (Ok tt) ++ [Ok tt] /\ forall w, t_found sc p.1 w (ids_of w db).
Proof.
  intros sc db d Hok Hf Hp Hn Hs. set (sets := replicate (length db) true). assert (Hl : length sets = length db) by apply replicate_length.
  exists (store_fuel (sp_enc (sc_store sc)) (blocks_of sc db)). intros fuel cut Hfu Hcut p.
  destruct (built sc db sets d Hok Hf Hl fuel cut Hp Hn Hfu Hcut) as (E1 & Ec & _ & H). split; [exact E1|].
  intros w. fold p in Ec, H. pose proof (separated_all sc db _ Hok Hs) as Hs'. fold sets in Hs'. rewrite <- Ec in Hs'.
  destruct (separated_default sc db (td_counters p.1) w Hs') as (ws & uses & HD & H1 & H2 & H3 & H4 & H5).
  specialize (H (td_counters p.1) ws uses w HD H1 H2 H4 H3 H5). destruct p.1 as [files c] eqn:Ep. cbn [td_files td_counters] in *.
  rewrite Ec in H. unfold sets in H. rewrite count_all in H by done. rewrite Ec. case_decide as Hw.
  - rewrite take_ge in H; [exact H|]. cbn [default from_option id]. rewrite Nat2N.id. apply all_blocks, Hok.
  - assert (E0 : ids_of w db = []).
    { unfold ids_of. destruct (list_find (fun x => x.1 = w) db) as [[j x]|] eqn:F; [|done]. apply list_find_Some in F as (F1 & F2 & _).
      destruct Hw. rewrite <- F2. apply elem_of_list_fmap_1. by eapply elem_of_list_lookup_2. }
    rewrite E0 in *. by rewrite take_nil in H.
Qed.
Print Assumptions C99_leftover.

(** In particular if these processes died before they built anything. *)
Lemma no_build_files fuel sc cut cs : no_build cs -> forall b d, td_files (t_calls fuel sc cut b d cs).1 = td_files d.
Proof.
  intros H. induction H as [|c cs Hc H IH]; intros b d; [done|]. destruct c as [kw ids set|]; [|done]. cbn [t_calls fst]. by rewrite IH.
Qed.
Definition after (fuel : nat) (sc : scheme) (cut : bytes -> list bytes) (d : tdisk) (ps : list (list tcall)) : tdisk :=
  foldl (fun d cs => (t_process fuel sc cut d cs).1) d ps.
Lemma no_builds_files fuel sc cut ps : Forall no_build ps -> forall d, td_files (after fuel sc cut d ps) = td_files d.
Proof.
  intros H. induction H as [|cs ps Hc H IH]; intros d; [done|]. unfold after in *. cbn [foldl]. rewrite IH. unfold t_process.
  destruct (new_store_builder (sc_store sc)); [by apply no_build_files|done..].
Qed.
Theorem C99_interrupted :
  forall sc db d ps fuel1 cut1,
    scheme_ok sc db -> full_lists_last sc db -> 0 < kp_page (sp_enc (sc_store sc)) -> no_store d -> Forall no_build ps ->
    separated sc db (td_counters (after fuel1 sc cut1 d ps)) ->
    exists fuel0, forall fuel cut, fuel0 <= fuel -> cuts cut ->
      let p := t_process fuel sc cut (after fuel1 sc cut1 d ps) (inserts db (replicate (length db) true) ++ [CBuild None]) in
      p.2 = replicate (length db) (Ok tt) ++ [Ok tt] /\ forall w, t_found sc p.1 w (ids_of w db).
Proof.
  intros sc db d ps fuel1 cut1 Hok Hf Hp [Hn1 Hn2] Hps Hs. apply C99_leftover; try done.
  split; by rewrite (no_builds_files fuel1 sc cut1 ps Hps d).
Qed.
Print Assumptions C99_interrupted.

(** ** C100: a builder at the paths of an existing database *)
Lemma tethys_decode_stash sc c c' l : tc_stash c = tc_stash c' -> tethys_decode sc c l = tethys_decode sc c' l.
Proof. intros E. induction l as [|[k b] l IH]; [done|]. cbn [tethys_decode]. by rewrite IH, E. Qed.
(** build throws (or dies), the files of the store stay as they are, and so do the searches of the keywords that
    were not inserted again. *)
Theorem C100_existing :
  forall sc db sets d last,
    scheme_ok sc db -> full_lists_last sc db -> length sets = length db -> content Pages (td_files d) <> [] ->
    exists fuel0, forall fuel cut, fuel0 <= fuel ->
      let p := t_process fuel sc cut d (inserts db sets ++ [CBuild last]) in
      p.2 = replicate (length db) (Ok tt) ++ (match last with None => [Throw RuntimeError] | Some _ => [] end) /\
      td_files p.1 = td_files d /\ forall w, w ∉ db.*1 -> t_search sc p.1 w = t_search sc d w.
Proof.
  intros sc db sets d last Hok Hf Hl Hp. exists (store_fuel (sp_enc (sc_store sc)) (blocks_of sc db)). intros fuel cut Hfu p.
  destruct (refused sc db sets d Hok Hf Hl fuel cut last Hfu Hp) as [E1 E2]. fold p in E1, E2. split; [done|]. rewrite E2. split; [done|].
  intros w Hw. unfold t_search, tethys_search_request. cbn [td_files td_counters tc_counters]. unfold ctr_get.
  rewrite count_db_out by done.
  destruct (match dk_stash (td_files d) with Some b => deserialize_map (sp_enc (sc_store sc)) b | None => Ok ∅ end); cbn [rbind]; try done.
  destruct (open_disk _ _); cbn [rbind]; try done. destruct (tethys_server_search _ _ _); cbn [rbind]; try done.
  by apply tethys_decode_stash.
Qed.
Print Assumptions C100_existing.

(** A keyword that was inserted again loses the documents beyond the blocks of the new list. *)
Theorem C100_truncated :
  forall sc old new d,
    scheme_ok sc old -> full_lists_last sc old -> scheme_ok sc new -> full_lists_last sc new ->
    0 < kp_page (sp_enc (sc_store sc)) -> no_store d -> separated sc old (td_counters d) ->
    exists fuel0, forall fuel cut last, fuel0 <= fuel -> cuts cut ->
      let d1 := (t_process fuel sc cut d (inserts old (replicate (length old) true) ++ [CBuild None])).1 in
      let d2 := (t_process fuel sc cut d1 (inserts new (replicate (length new) true) ++ [CBuild last])).1 in
      separated sc old (td_counters d2) ->
      forall w, t_found sc d2 w (if decide (w ∈ new.*1) then take (blocks sc (ids_of w new) * block_length sc) (ids_of w old)
                                 else ids_of w old).
Proof.
  intros sc old new d Hok Hf Hok' Hf' Hp Hn Hs.
  exists (store_fuel (sp_enc (sc_store sc)) (blocks_of sc old) `max` store_fuel (sp_enc (sc_store sc)) (blocks_of sc new)).
  intros fuel cut last Hfu Hcut d1 d2 Hs2 w.
  assert (Hl : forall db : database, length (replicate (length db) true) = length db) by (intros; apply replicate_length).
  destruct (built sc old _ d Hok Hf (Hl old) fuel cut Hp Hn ltac:(lia) Hcut) as (_ & Ec & Hne & H). fold d1 in Ec, Hne, H.
  destruct (refused sc new _ d1 Hok' Hf' (Hl new) fuel cut last ltac:(lia) Hne) as [_ E2]. fold d2 in E2.
  destruct (separated_default sc old (td_counters d2) w Hs2) as (ws & uses & HD & H1 & H2 & H3 & H4 & H5).
  specialize (H (td_counters d2) ws uses w HD H1 H2 H4 H3 H5). clear HD H1 H2 H3 H4 H5 ws uses.
  assert (Ed : TDisk (td_files d1) (td_counters d2) = d2) by (by rewrite E2). rewrite Ed in H.
  rewrite E2 in H at 2. cbn [td_counters] in H. rewrite count_all in H by done. case_decide as Hw.
  { cbn [default from_option id] in H. rewrite Nat2N.id in H. exact H. }
  rewrite Ec in H. rewrite count_all in H by done. case_decide as Hw'.
  - rewrite take_ge in H; [exact H|]. cbn [default from_option id]. rewrite Nat2N.id. apply all_blocks, Hok.
  - assert (E0 : ids_of w old = []).
    { unfold ids_of. destruct (list_find (fun x => x.1 = w) old) as [[j x]|] eqn:F; [|done]. apply list_find_Some in F as (F1 & F2 & _).
      destruct Hw'. rewrite <- F2. apply elem_of_list_fmap_1. by eapply elem_of_list_lookup_2. }
    rewrite E0 in *. by rewrite take_nil in H.
Qed.
Print Assumptions C100_truncated.

(** ** Examples and refutations *)
Definition ex_none : tdisk := TDisk no_files ∅.
Definition ex_calls (db : database) : list tcall := inserts db (replicate (length db) true).
Definition ex_run (d : tdisk) (cs : list tcall) : tdisk := (t_process 100 (ex_sc 4) (fun b => [b]) d cs).1.
Lemma ex_separated (db : database) (c : counters) ws uses :
  Forall (fun u => Forall (fun v => sc_hash (ex_sc 4) (key_input (ex_sc 4) u.1 u.2) = sc_hash (ex_sc 4) (key_input (ex_sc 4) v.1 v.2) ->
    key_input (ex_sc 4) u.1 u.2 = key_input (ex_sc 4) v.1 v.2) uses) uses ->
  NoDup (sc_prf (ex_sc 4) <$> ws) -> Forall (fun w => w ∈ ws) db.*1 -> Forall (fun u => u ∈ uses) (uses_of (ex_sc 4) db) ->
  Forall (fun x => (x.2 < 2 ^ 32)%N /\ x.1 ∈ ws /\ Forall (fun i => (x.1, i) ∈ uses) (seq 0 (N.to_nat x.2))) (map_to_list c) ->
  separated (ex_sc 4) db c.
Proof.
  intros H1 H2 H3 H4 H5. exists ws, uses. split; [apply derive_ok_check; auto; intros w; cbn; by rewrite le64_length|].
  split; [intros w Hw; rewrite Forall_forall in H3; by apply H3|]. split; [intros u Hu; rewrite Forall_forall in H4; by apply H4|].
  intros w n Hc. rewrite Forall_forall in H5. apply elem_of_map_to_list in Hc. destruct (H5 _ Hc) as (Hn & Hw & Hi). split_and!; auto.
  intros i Hlt. rewrite Forall_forall in Hi. apply Hi, elem_of_seq. cbn [snd] in *. lia.
Qed.
(** The counters of a process that died: a keyword of two blocks that is not inserted again, a longer list for one
    that is. *)
Definition ex_dead : list tcall := [CInsert [7%N] (ex_list 14) true; CInsert [2%N] (ex_list 25) true].
Definition ex_left : tdisk := after 100 (ex_sc 4) (fun b => [b]) ex_none [ex_dead].
Example C99_example :
  scheme_ok (ex_sc 4) ex_tdb /\ full_lists_last (ex_sc 4) ex_tdb /\ 0 < kp_page (sp_enc (sc_store (ex_sc 4))) /\ no_store ex_none /\
  Forall no_build [ex_dead] /\ separated (ex_sc 4) ex_tdb (td_counters ex_left) /\
  td_counters ex_left = {[ [7%N] := 2%N; [2%N] := 3%N ]} /\
  t_search (ex_sc 4) (ex_run ex_left (ex_calls ex_tdb ++ [CBuild None])) [2%N] = Ok [100; 101; 102]%N /\
  t_search (ex_sc 4) (ex_run ex_left (ex_calls ex_tdb ++ [CBuild None])) [7%N] = Ok [].
Proof.
  destruct ex_scheme_ok as [H1 H2]. split; [exact H1|]. split; [exact H2|]. split; [cbn; lia|]. split; [done|].
  split; [by repeat constructor|]. split.
  { apply (ex_separated _ _ [[1]; [2]; [3]; [4]; [7]]%N (uses_of (ex_sc 4) ex_tdb ++ ((pair [7%N]) <$> seq 0 2) ++ ((pair [2%N]) <$> seq 0 3)));
      apply (bool_decide_unpack _); by vm_compute. }
  split; [apply (bool_decide_unpack _); by vm_compute|]. split; by vm_compute.
Qed.

(** A counter that RocksDB does not store: all the calls succeed and the documents are not found. *)
Theorem C99_refuted :
  exists sc db sets d fuel cut w,
    scheme_ok sc db /\ full_lists_last sc db /\ length sets = length db /\ no_store d /\ cuts cut /\ ids_of w db <> [] /\
    let p := t_process fuel sc cut d (inserts db sets ++ [CBuild None]) in
    p.2 = replicate (length db) (Ok tt) ++ [Ok tt] /\ t_found sc p.1 w [].
Proof.
  exists (ex_sc 4), ex_tdb, [true; false; true; true], ex_none, 100, (fun b => [b]), [2%N].
  destruct ex_scheme_ok as [H1 H2]. split; [exact H1|]. split; [exact H2|]. split; [done|]. split; [done|].
  split. { intros b. apply app_nil_r. }
  split; [done|]. cbn zeta. split; [by vm_compute|]. exists []. split; [by vm_compute|done].
Qed.
Print Assumptions C99_refuted.
(** A keyword inserted twice in the same builder: documents of its first list are not found. *)
Theorem C99_twice_refuted :
  exists sc fuel cut w ids ids' id,
    scheme_ok sc [(w, ids)] /\ scheme_ok sc [(w, ids')] /\ cuts cut /\ id ∈ ids /\
    let p := t_process fuel sc cut ex_none [CInsert w ids true; CInsert w ids' true; CBuild None] in
    p.2 = replicate 3 (Ok tt) /\ exists r, t_search sc p.1 w = Ok r /\ id ∉ r.
Proof.
  exists (ex_sc 4), 100, (fun b => [b]), [1%N], (ex_list 23), [7%N], 115%N.
  assert (H : forall ids, length ids < 30 -> Forall (fun id => (id < 2 ^ 64)%N) ids -> scheme_ok (ex_sc 4) [([1%N], ids)]).
  { intros ids Hl HF. split; try done.
    - vm_compute. lia.
    - cbn. lia.
    - exact ex_ks_length.
    - intros x. apply ex_hash_length.
    - cbn. apply NoDup_singleton.
    - by repeat constructor.
    - repeat constructor. cbn [snd]. change (max_list_size _) with 10. assert (length ids / 10 < 30) by (apply Nat.div_lt_upper_bound; lia).
      change (2 ^ 32)%N with 4294967296%N. lia.
    - unfold uses_of. cbn [mbind list_bind app fst snd]. rewrite app_nil_r. change (max_list_size _) with 10.
      assert (length ids / 10 < 3) by (apply Nat.div_lt_upper_bound; lia).
      destruct (length ids / 10) as [|[|[|n]]]; [..|lia]; derive_ok_tac. }
  split; [apply H; [cbn; lia|apply (bool_decide_unpack _); by vm_compute]|]. split; [apply H; [cbn; lia|by repeat constructor]|].
  split. { intros b. apply app_nil_r. }
  split; [apply (bool_decide_unpack _); by vm_compute|]. cbn zeta. split; [by vm_compute|].
  eexists. split; [by vm_compute|]. apply (bool_decide_unpack _); by vm_compute.
Qed.
Print Assumptions C99_twice_refuted.

Definition ex_new : database := [([1%N], [7%N; 8%N]); ([9%N], ex_list 11)].
Definition ex_built : tdisk := ex_run ex_none (ex_calls ex_tdb ++ [CBuild None]).
Lemma ex_new_ok : scheme_ok (ex_sc 4) ex_new /\ full_lists_last (ex_sc 4) ex_new.
Proof.
  split.
  - split; try done.
    + vm_compute. lia.
    + simpl. lia.
    + exact ex_ks_length.
    + intros x. apply ex_hash_length.
    + apply (bool_decide_unpack _). by vm_compute.
    + apply (bool_decide_unpack _). by vm_compute.
    + apply (bool_decide_unpack _). by vm_compute.
    + derive_ok_tac.
  - intros i j x y Hij Hi Hj Hm. unfold ex_new in Hi, Hj.
    destruct i as [|[|i]]; simplify_eq/=; try discriminate Hm.
Qed.
Example C100_example :
  scheme_ok (ex_sc 4) ex_tdb /\ full_lists_last (ex_sc 4) ex_tdb /\ scheme_ok (ex_sc 4) ex_new /\ full_lists_last (ex_sc 4) ex_new /\
  no_store ex_none /\ content Pages (td_files ex_built) <> [] /\
  separated (ex_sc 4) ex_tdb (td_counters (ex_run ex_built (ex_calls ex_new ++ [CBuild None]))).
Proof.
  destruct ex_scheme_ok as [H1 H2], ex_new_ok as [H3 H4]. split; [exact H1|]. split; [exact H2|]. split; [exact H3|]. split; [exact H4|].
  split; [split; reflexivity|]. split; [apply (bool_decide_unpack _); by vm_compute|].
  apply (ex_separated _ _ [[1]; [2]; [3]; [4]; [9]]%N (uses_of (ex_sc 4) ex_tdb ++ ((pair [9%N]) <$> seq 0 2)));
    apply (bool_decide_unpack _); by vm_compute.
Qed.
(** C100 is false: a builder whose build throws makes the existing database lose documents. *)
Theorem C100_refuted :
  exists sc old new fuel cut w,
    scheme_ok sc old /\ full_lists_last sc old /\ scheme_ok sc new /\ full_lists_last sc new /\ cuts cut /\
    let d1 := (t_process fuel sc cut ex_none (inserts old (replicate (length old) true) ++ [CBuild None])).1 in
    let p := t_process fuel sc cut d1 (inserts new (replicate (length new) true) ++ [CBuild None]) in
    t_found sc d1 w (ids_of w old) /\ last p.2 = Some (Throw RuntimeError) /\
    exists r, t_search sc p.1 w = Ok r /\ length r < length (ids_of w old).
Proof.
  exists (ex_sc 4), ex_tdb, ex_new, 100, (fun b => [b]), [1%N].
  destruct ex_scheme_ok as [H1 H2], ex_new_ok as [H3 H4]. split; [exact H1|]. split; [exact H2|]. split; [exact H3|]. split; [exact H4|].
  split. { intros b. apply app_nil_r. }
  cbn zeta. split. { eexists. split; [by vm_compute|]. apply (bool_decide_unpack _); by vm_compute. }
  split; [by vm_compute|]. eexists. split; [by vm_compute|]. vm_compute. lia.
Qed.
Print Assumptions C100_refuted.
