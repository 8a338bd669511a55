(** Files of a builder of Pluto. *)
From stdpp Require Import prelude gmap.
From Coq Require Import ZArith NArith Lia.
From Verif Require Import Base GraphModel AllocModel EncModel EncSpec StoreModel StoreSpec StoreProofs KvModel SchemeModel SchemeSpec VecModel
  CuckooModel PlutoModel PlutoSpec PlutoProofs LifeModel LifeSpec LifeProofs TethysLifeModel TethysLifeSpec TethysLifeProofs
  PlutoLifeModel PlutoLifeSpec PlutoLifeProofs Props_Enc Props_Store Props_Scheme Props_Pluto.
Local Open Scope nat_scope.

(** ** C88: the process dies during the life of a builder *)
(** The system calls of an undisturbed life leave the files of [pluto_build], and the
    server of C29. *)
Theorem C88_complete :
  forall pp rand n_elts db ws cut b0,
    pluto_ok pp rand n_elts db ws -> pluto_new pp = Ok b0 -> cuts cut ->
    exists fuel0, forall fuel, fuel0 <= fuel -> exists b' f ops s,
      pl_life fuel pp cut n_elts blank (pl_inserts db ++ [PBuild rand]) = Ok (b', ops, replicate (S (length db)) (Ok tt)) /\
      pluto_build fuel pp rand n_elts (pluto_insert_db pp b0 db).1 = (b', Ok f) /\
      let d' := do_pops blank ops in
      ht_on_disk pp d' = f.1 /\ content Pages (pk_fs d') = mjoin (sf_table f.2) /\ dk_stash (pk_fs d') = sf_stash f.2 /\
      pl_open_server pp d' = Ok s /\ pluto_open_server pp f = Ok s.
Proof.
  intros pp rand n_elts db ws cut b0 Hok Hb Hcut. by eapply (life_complete pp rand n_elts db ws cut blank b0).
Qed.
Print Assumptions C88_complete.

Lemma life_split fuel pp cut n_elts rand db d b ops outs :
  pl_life fuel pp cut n_elts d (pl_inserts db ++ [PBuild rand]) = Ok (b, ops, outs) ->
  exists A B, ops = A ++ B /\ Forall ht_only A /\ Forall st_only B.
Proof.
  intros E. unfold pl_life, pl_new in E. apply rbind_ok in E as ([b0 o0] & E0 & E).
  apply rbind_ok in E0 as (sb & _ & E0). injection E0 as <- <-. cbn [fst snd] in E. injection E as <- <- <-.
  rewrite calls_app. cbn [fst snd pl_calls pl_call].
  pose proof (inserts_only fuel pp cut n_elts db (PB sb (ht_new_on pp d).1 0) (do_pops d (ht_new_on pp d).2)) as HI.
  destruct (pl_calls fuel pp cut n_elts (PB sb (ht_new_on pp d).1 0) (do_pops d (ht_new_on pp d).2) (pl_inserts db)) as [[b1 o1] r1].
  cbn [fst snd] in *.
  destruct (build_split fuel pp cut rand n_elts b1 (do_pops (do_pops d (ht_new_on pp d).2) o1)) as (A & B & -> & HA & HB).
  exists ((ht_new_on pp d).2 ++ o1 ++ A), B. split; [by rewrite app_nil_r, <- !app_assoc|]. split; [|done].
  apply Forall_app. split; [apply new_only|]. by apply Forall_app.
Qed.

(** At every point of the life, on top of any hash table: a server refuses to start, or
    the hash table is complete (dummy blocks included), whatever is missing from the
    store (C84). *)
Theorem C88_interrupted :
  forall fuel pp cut n_elts rand db d b ops outs k,
    content Pages (pk_fs d) = [] ->
    pl_life fuel pp cut n_elts d (pl_inserts db ++ [PBuild rand]) = Ok (b, ops, outs) ->
    let d' := pdies d ops k in
    pl_open_server pp d' = Throw RuntimeError \/
    (content Pages (pk_fs d') <> [] /\ ht_on_disk pp d' = ht_on_disk pp (do_pops d ops)).
Proof.
  intros fuel pp cut n_elts rand db d b ops outs k HP E d'.
  destruct (decide (content Pages (pk_fs d') = [])) as [Hn|Hn].
  { left. unfold pl_open_server. unfold open_disk.
    assert (content Pages (dk_set Stash None (pk_fs d')) = []) as -> by exact Hn. done. }
  right. split; [done|].
  destruct (life_split _ _ _ _ _ _ _ _ _ _ E) as (A & B & -> & HA & HB). unfold d' in *. rewrite pdies_app in Hn |- *.
  case_decide as Hk.
  - exfalso. apply Hn. unfold pdies, content in *. cbn [dk_get] in *.
    by rewrite (proj1 (ht_only_kept _ (Forall_take _ k _ HA) d)).
  - unfold pdies. rewrite do_pops_app. unfold ht_on_disk, content. cbn [dk_get].
    destruct (st_only_kept _ (Forall_take _ (k - length A) _ HB) (do_pops d A)) as (_ & -> & ->).
    by destruct (st_only_kept _ HB (do_pops d A)) as (_ & -> & ->).
Qed.
Print Assumptions C88_interrupted.

Definition ex_rocks : pparams := PPar (ex_psc 4) KRocks.
Definition ex_cuckoo : pparams := PPar (ex_psc 4) (KCuckoo 5 6 5).
Example C88_case : forall pp, pp = ex_rocks \/ pp = ex_cuckoo ->
  pluto_ok pp ex_rand 40 ex_pdb ex_ws /\ cuts Props_TethysLife.ex_cut /\ content Pages (pk_fs blank) = [] /\
  (exists b0, pluto_new pp = Ok b0) /\
  exists b ops outs, pl_life 100 pp Props_TethysLife.ex_cut 40 blank (pl_inserts ex_pdb ++ [PBuild ex_rand]) = Ok (b, ops, outs) /\
    pl_open_server pp (pdies blank ops 2) = Throw RuntimeError.
Proof.
  intros pp Hpp. split; [by destruct Hpp as [-> | ->]; [exact ex_pluto_rocks|exact ex_pluto_cuckoo]|].
  split; [apply (Props_TethysLife.ex_life_ok ex_sp2 (or_introl eq_refl))|]. split; [done|].
  split; destruct Hpp as [-> | ->].
  - eexists. by vm_compute.
  - eexists. by vm_compute.
  - destruct (pl_life 100 ex_rocks Props_TethysLife.ex_cut 40 blank (pl_inserts ex_pdb ++ [PBuild ex_rand])) as [[[b ops] outs]| | |] eqn:E;
      [|vm_compute in E; discriminate..].
    exists b, ops, outs. split; [done|]. vm_compute in E. injection E as <- <- <-. by vm_compute.
  - destruct (pl_life 100 ex_cuckoo Props_TethysLife.ex_cut 40 blank (pl_inserts ex_pdb ++ [PBuild ex_rand])) as [[[b ops] outs]| | |] eqn:E;
      [|vm_compute in E; discriminate..].
    exists b, ops, outs. split; [done|]. vm_compute in E. injection E as <- <- <-. by vm_compute.
Qed.

(** Full statement refuted: a process dies before the pages of the store are written; a
    client and a server start on what is left of it and the documents of a keyword are
    gone without any error. *)
Theorem C88_refuted : forall pp, pp = ex_rocks \/ pp = ex_cuckoo ->
  exists rand n_elts db ws b ops outs k w,
    pluto_ok pp rand n_elts db ws /\ w ∈ db.*1 /\
    pl_life 100 pp Props_TethysLife.ex_cut n_elts blank (pl_inserts db ++ [PBuild rand]) = Ok (b, ops, outs) /\
    k < length ops /\ pl_search_at 100 pp (pdies blank ops k) w = Ok [] /\ ids_of w db <> [] /\
    pl_search_at 100 pp (do_pops blank ops) w = Ok (ids_of w db).
Proof.
  intros pp Hpp. destruct (C88_case pp Hpp) as (Hok & _ & _ & _ & b & ops & outs & E & _).
  exists ex_rand, 40%N, ex_pdb, ex_ws, b, ops, outs, (match pp_ht pp with KRocks => 6 | _ => 21 end), [2%N].
  split; [exact Hok|]. split; [apply (bool_decide_unpack _); by vm_compute|]. split; [exact E|]. clear Hok.
  destruct Hpp as [-> | ->]; vm_compute in E; injection E as <- <- <-.
  - split; [vm_compute; lia|]. split; [by vm_compute|]. split; [done|by vm_compute].
  - split; [vm_compute; lia|]. split; [by vm_compute|]. split; [done|by vm_compute].
Qed.
Print Assumptions C88_refuted.

(** ** C89: the hash table on disk does not tell how many complete blocks there are *)
(** One build on a disk without files: the blocks of the table (those lost by the cuckoo
    hashing counted in) are as many as the declared number of elements says, and
    whenever a server starts, however early the process died, it is this table. *)
Theorem C89_once :
  forall pp rand n_elts db ws cut b0,
    pluto_ok pp rand n_elts db ws -> pluto_new pp = Ok b0 -> cuts cut ->
    (n_elts < 2 ^ 64)%N -> (N.of_nat (n_elements db) <= n_elts)%N ->
    exists fuel0, forall fuel, fuel0 <= fuel -> exists b ops,
      pl_life fuel pp cut n_elts blank (pl_inserts db ++ [PBuild rand]) = Ok (b, ops, replicate (S (length db)) (Ok tt)) /\
      N.of_nat (stored_blocks (pb_ht b) + length (ht_spilled (pb_ht b))) =
        (if decide (n_elts = 0) then 1 + (2 ^ 64 - 1) / N.of_nat (p_len pp)
         else 1 + (n_elts - 1) / N.of_nat (p_len pp))%N /\
      forall k s, pl_open_server pp (pdies blank ops k) = Ok s ->
        exists h, ht_commit pp h = (pb_ht b, Ok (ht_on_disk pp (pdies blank ops k))).
Proof.
  intros pp rand n_elts db ws cut b0 Hok Hb Hcut Hn Hdb.
  destruct (pluto_insert_db pp b0 db) as [b1 outs1] eqn:EI.
  destruct (C30_blocks pp rand n_elts db ws b0 b1 outs1 Hok Hb Hn Hdb EI) as [f1 H1].
  destruct (C88_complete pp rand n_elts db ws cut b0 Hok Hb Hcut) as [f2 H2].
  exists (f1 + f2). intros fuel Hf.
  destruct (H1 fuel ltac:(lia)) as (b' & f & B1 & B2).
  destruct (H2 fuel ltac:(lia)) as (b & f' & ops & s & A1 & A2 & A3). rewrite EI in A2. cbn [fst] in A2. cbv zeta in A3.
  rewrite B1 in A2. injection A2 as <- <-.
  exists b', ops. split; [exact A1|]. split; [exact B2|]. intros k s' Hs.
  destruct (C88_interrupted fuel pp cut n_elts rand db blank b' ops _ k eq_refl A1) as [E|[_ E]];
    [unfold pdies in *; rewrite Hs in E; done|].
  rewrite E. destruct A3 as (-> & _). unfold pluto_build in B1.
  destruct (fill_dummies pp rand _ 0 (pb_ht b1)) as [h1 [[]| | |]]; cbn [fst snd] in B1; try done.
  exists h1. destruct (ht_commit pp h1) as [h2 [hf| | |]]; cbn [fst snd] in B1; try done.
  destruct (store_build fuel (sc_store (pp_sc pp)) (pb_store b1)) as [sb [sf| | |]]; cbn [fst snd rbind] in B1; try done.
  injection B1 as <- <-. done.
Qed.
Print Assumptions C89_once.

(** With RocksDB, any number of builds after the lists, on top of any database: the
    dummy blocks of every one of them are added, since only the calls to build of the
    store are checked, and last. *)
Theorem C89_builds :
  forall fuel pp cut n_elts rands db d b ops outs,
    0 < p_len pp -> pp_ht pp = KRocks ->
    pl_life fuel pp cut n_elts d (pl_inserts db ++ (PBuild <$> rands)) = Ok (b, ops, outs) ->
    let all := full_pairs pp db ++ mjoin ((fun rand => dummy_pairs pp rand n_elts db) <$> rands) in
    pk_rocks (do_pops d ops) = put_all (pk_rocks d) all /\
    (pk_rocks d = ∅ -> NoDup all.*1 ->
     size (pk_rocks (do_pops d ops)) = n_blocks (p_len pp) db + length rands * n_dummies pp n_elts db).
Proof.
  intros fuel pp cut n_elts rands db d b ops outs HL Hk E all.
  pose proof (rocks_life fuel pp cut n_elts rands db d b ops outs HL Hk E) as HR. fold all in HR.
  split; [exact HR|]. intros Hd HN. rewrite HR, Hd, put_all_size by exact HN. unfold all. rewrite app_length. f_equal.
  - rewrite full_pairs_eq. unfold db_ht_pairs, n_blocks. clear. induction db as [|x db IH]; csimpl; [done|].
    rewrite app_length, IH. f_equal. unfold ht_pairs, ht_pairs_from. by rewrite imap_length, blocks_length.
  - clear. induction rands as [|r rands IH]; csimpl; [done|]. rewrite app_length, IH. f_equal.
    unfold dummy_pairs, dummy_keys. by rewrite !fmap_length, seq_length.
Qed.
Print Assumptions C89_builds.

(** A cuckoo builder that is destroyed without having been built: its destructor writes
    the table, which has the complete blocks only. *)
Theorem C89_unbuilt :
  forall fuel pp size depth max_n cut rand n_elts db ws b ops outs,
    pluto_ok pp rand n_elts db ws -> pp_ht pp = KCuckoo size depth max_n ->
    pl_life fuel pp cut n_elts blank (pl_inserts db) = Ok (b, ops, outs) ->
    exists h', ht_commit pp (pb_ht b) = (h', Ok (ht_on_disk pp (do_pops blank (ops ++ pl_end pp b (do_pops blank ops))))) /\
      stored_blocks h' + length (ht_spilled h') = n_blocks (p_len pp) db.
Proof.
  intros fuel pp size depth max_n cut rand n_elts db ws b ops outs Hok Hk E.
  pose proof (kvs_ok _ _ _ _ _ Hok) as (K1 & K2 & K3).
  set (full := db_ht_pairs pp db) in *. set (dp := (fun j => (rand j, ht_value pp [])) <$> seq 0 (n_dummies pp n_elts db)) in *.
  assert (HF : pairs_ok pp full).
  { unfold pairs_ok. unfold CuckooSpec.kv_ok in *. apply Forall_app in K1 as [K1 _]. rewrite fmap_app in K2, K3.
    apply NoDup_app in K2 as [K2 _]. split; [done|]. split; [done|]. intros sz de mn Hm.
    destruct (K3 _ _ _ Hm) as (A & B & C). split; [done|]. split; [rewrite app_length in B; lia|].
    intros HC. apply C. apply elem_of_app. by left. }
  destruct (ht_spec pp (po_words _ _ _ _ _ Hok) (po_block _ _ _ _ _ Hok) (po_key _ _ _ _ _ Hok) full HF)
    as (h & h' & hf & t & H1 & H2 & _ & H4 & _).
  pose proof (L_pos _ _ _ _ _ Hok) as HL.
  assert (HO : Forall (fun o => o = Ok tt) (ht_inserts (ht_new pp) full).2) by (rewrite H1; by apply Forall_replicate).
  unfold pl_life, pl_new in E. apply rbind_ok in E as ([b0 o0] & E0 & E).
  apply rbind_ok in E0 as (sb & _ & E0). injection E0 as <- <-. cbn [fst snd] in E. injection E as <- <- <-.
  pose proof (new_on_clean pp blank eq_refl eq_refl) as En. rewrite En.
  destruct (new_on_tab pp blank) as [HT0 HR0]. set (d0 := do_pops blank (ht_new_on pp blank).2) in *.
  destruct (insert_db_ht pp HL fuel cut n_elts db (PB sb (ht_new pp) 0) d0 HO) as (F1 & _ & F3 & _ & _).
  cbn [pb_ht] in F1, F3. fold full in F1, F3. rewrite H1 in F1. cbn [fst] in F1.
  set (r := pl_calls _ _ _ _ _ _ _) in *. rewrite F1, F3. unfold full in H4.
  exists h'. split.
  - rewrite !do_pops_app. fold d0. set (d1 := do_pops d0 (ht_pops (ht_new pp) full)).
    assert (HT1 : content Tab (pk_fs d1) = []) by (unfold d1; rewrite ht_pops_tab; exact HT0).
    assert (Hkd : kind_ok pp h).
    { pose proof (kind_inserts pp full (ht_new pp)) as KI. rewrite H1 in KI. apply KI. rewrite <- En. apply kind_new. }
    assert (Hr : ht_rep h d1).
    { pose proof (ht_pops_rep full (ht_new pp) d0) as KR. rewrite H1 in KR. apply KR. unfold ht_rep, ht_new. by rewrite Hk. }
    destruct (commit_on_ok pp h d1 h' hf H2 Hkd HT1 Hr) as (o & O1 & _ & O3).
    rewrite H2. do 2 f_equal. rewrite <- O3. do 2 f_equal.
    unfold pl_end. rewrite F1. unfold ht_commit_on in O1. unfold kind_ok in Hkd. rewrite Hk in Hkd.
    destruct h as [cb|]; [|done]. cbn [fst snd] in O1. injection O1 as _ <- _. unfold life_end. cbn [fst].
    done.
  - rewrite H4. unfold db_ht_pairs, n_blocks. clear. induction db as [|x db IH]; csimpl; [done|].
    rewrite app_length, IH. f_equal. unfold ht_pairs, ht_pairs_from. by rewrite imap_length, blocks_length.
Qed.
Print Assumptions C89_unbuilt.

(** Full statement refuted: two databases declared with the same number of elements.
    Every call is accepted the first time; the build is repeated, and throws, or the
    builder is not built at all; the tables left on disk differ by the number of
    complete blocks. *)
Definition ex_rand2 (i : nat) : bytes := take 16 ([7%N; 8%N; N.of_nat i] ++ replicate 16 9%N).
Definition ex_pdb1 : database := [([1%N], ex_list 40)].
Definition ex_pdb2 : database := [([1%N], ex_list 5); ([2%N], ex_list 5)].
Example C89_case : 0 < p_len ex_rocks /\ (N.of_nat (n_elements ex_pdb1) <= 40)%N /\
  forall db, db = ex_pdb1 \/ db = ex_pdb2 ->
    pluto_ok ex_rocks ex_rand 40 db [[1%N]; [2%N]] /\ pluto_ok ex_cuckoo ex_rand 40 db [[1%N]; [2%N]] /\
    NoDup (full_pairs ex_rocks db ++ mjoin ((fun rand => dummy_pairs ex_rocks rand 40 db) <$> [ex_rand; ex_rand2])).*1.
Proof.
  split; [vm_compute; lia|]. split; [by vm_compute|].
  intros db [-> | ->]; (split; [pluto_ok_tac|]; split; [pluto_ok_tac|]; apply (bool_decide_unpack _); by vm_compute).
Qed.
Theorem C89_refuted :
  exists pp n_elts rand rand2 db1 db2 ws b1 ops1 b2 ops2,
    pp_ht pp = KRocks /\ pluto_ok pp rand n_elts db1 ws /\ pluto_ok pp rand n_elts db2 ws /\
    (N.of_nat (n_elements db1) <= n_elts)%N /\ (N.of_nat (n_elements db2) <= n_elts)%N /\
    pl_life 100 pp Props_TethysLife.ex_cut n_elts blank (pl_inserts db1 ++ [PBuild rand; PBuild rand2]) =
      Ok (b1, ops1, replicate (S (length db1)) (Ok tt) ++ [Throw RuntimeError]) /\
    pl_life 100 pp Props_TethysLife.ex_cut n_elts blank (pl_inserts db2 ++ [PBuild rand; PBuild rand2]) =
      Ok (b2, ops2, replicate (S (length db2)) (Ok tt) ++ [Throw RuntimeError]) /\
    size (pk_rocks (do_pops blank ops1)) = 4 /\ size (pk_rocks (do_pops blank ops2)) = 8.
Proof.
  destruct C89_case as (_ & _ & H). destruct (H _ (or_introl eq_refl)) as (H1 & _ & _). destruct (H _ (or_intror eq_refl)) as (H2 & _ & _).
  destruct (pl_life 100 ex_rocks Props_TethysLife.ex_cut 40 blank (pl_inserts ex_pdb1 ++ [PBuild ex_rand; PBuild ex_rand2]))
    as [[[b1 ops1] outs1]| | |] eqn:E1; [|vm_compute in E1; discriminate..].
  destruct (pl_life 100 ex_rocks Props_TethysLife.ex_cut 40 blank (pl_inserts ex_pdb2 ++ [PBuild ex_rand; PBuild ex_rand2]))
    as [[[b2 ops2] outs2]| | |] eqn:E2; [|vm_compute in E2; discriminate..].
  exists ex_rocks, 40%N, ex_rand, ex_rand2, ex_pdb1, ex_pdb2, [[1%N]; [2%N]], b1, ops1, b2, ops2.
  rewrite E1, E2.
  split; [done|]. split; [exact H1|]. split; [exact H2|]. split; [by vm_compute|]. split; [by vm_compute|].
  vm_compute in E1. injection E1 as <- <- <-. vm_compute in E2. injection E2 as <- <- <-.
  split; [reflexivity|]. split; [reflexivity|]. split; by vm_compute.
Qed.
Print Assumptions C89_refuted.
Theorem C89_unbuilt_refuted :
  exists pp n_elts rand db1 db2 ws b1 ops1 outs1 b2 ops2 outs2 h1 h2,
    pluto_ok pp rand n_elts db1 ws /\ pluto_ok pp rand n_elts db2 ws /\
    (N.of_nat (n_elements db1) <= n_elts)%N /\ (N.of_nat (n_elements db2) <= n_elts)%N /\
    pl_life 100 pp Props_TethysLife.ex_cut n_elts blank (pl_inserts db1) = Ok (b1, ops1, outs1) /\
    pl_life 100 pp Props_TethysLife.ex_cut n_elts blank (pl_inserts db2) = Ok (b2, ops2, outs2) /\
    ht_commit pp (pb_ht b1) = (h1, Ok (ht_on_disk pp (do_pops blank (ops1 ++ pl_end pp b1 (do_pops blank ops1))))) /\
    ht_commit pp (pb_ht b2) = (h2, Ok (ht_on_disk pp (do_pops blank (ops2 ++ pl_end pp b2 (do_pops blank ops2))))) /\
    stored_blocks h1 + length (ht_spilled h1) = 4 /\ stored_blocks h2 + length (ht_spilled h2) = 0.
Proof.
  destruct C89_case as (_ & _ & H). destruct (H _ (or_introl eq_refl)) as (_ & H1 & _). destruct (H _ (or_intror eq_refl)) as (_ & H2 & _).
  destruct (pl_life 100 ex_cuckoo Props_TethysLife.ex_cut 40 blank (pl_inserts ex_pdb1)) as [[[b1 ops1] outs1]| | |] eqn:E1;
    [|vm_compute in E1; discriminate..].
  destruct (pl_life 100 ex_cuckoo Props_TethysLife.ex_cut 40 blank (pl_inserts ex_pdb2)) as [[[b2 ops2] outs2]| | |] eqn:E2;
    [|vm_compute in E2; discriminate..].
  destruct (C89_unbuilt 100 ex_cuckoo 5 6 5 Props_TethysLife.ex_cut ex_rand 40 ex_pdb1 _ b1 ops1 outs1 H1 eq_refl E1) as (h1 & A1 & B1).
  destruct (C89_unbuilt 100 ex_cuckoo 5 6 5 Props_TethysLife.ex_cut ex_rand 40 ex_pdb2 _ b2 ops2 outs2 H2 eq_refl E2) as (h2 & A2 & B2).
  exists ex_cuckoo, 40%N, ex_rand, ex_pdb1, ex_pdb2, [[1%N]; [2%N]], b1, ops1, outs1, b2, ops2, outs2, h1, h2.
  split; [exact H1|]. split; [exact H2|]. split; [by vm_compute|]. split; [by vm_compute|].
  split; [exact E1|]. split; [exact E2|]. split; [exact A1|]. split; [exact A2|].
  rewrite B1, B2. split; by vm_compute.
Qed.
Print Assumptions C89_unbuilt_refuted.

(** ** C90: a builder at the paths of an existing database *)
(** Cuckoo table: whatever is called, at every point of the life and of the destructor,
    the earlier database is untouched and no build succeeds. *)
Theorem C90_cuckoo :
  forall fuel pp size depth max_n cut n_elts d cs b ops outs k,
    pp_ht pp = KCuckoo size depth max_n -> 0 < sp_n (sc_store (pp_sc pp)) ->
    content Pages (pk_fs d) <> [] -> content Tab (pk_fs d) <> [] ->
    pl_life fuel pp cut n_elts d cs = Ok (b, ops, outs) ->
    let d' := pdies d (ops ++ pl_end pp b (do_pops d ops)) k in
    same_files d d' /\ pl_open_server pp d' = pl_open_server pp d /\
    forall i rand, cs !! i = Some (PBuild rand) -> outs !! i <> Some (Ok tt).
Proof.
  intros fuel pp size depth max_n cut n_elts d cs b ops outs k Hk Hn HP HT E d'.
  unfold pl_life, pl_new in E. apply rbind_ok in E as ([b0 o0] & E0 & E).
  apply rbind_ok in E0 as (sb & _ & E0). injection E0 as <- <-. cbn [fst snd] in E. injection E as Eb Eo Er.
  assert (Hnew : Forall harmless (ht_new_on pp d).2).
  { unfold ht_new_on. rewrite Hk. cbn [snd]. apply only_tmp_harmless; [|apply new_kept].
    unfold life_new. cbn [snd]. constructor; [by left|]. eapply Forall_impl; [apply reserve_on|]. auto. }
  destruct (stale_calls pp d HP HT Hn fuel cut n_elts cs (PB sb (ht_new_on pp d).1 0) (do_pops d (ht_new_on pp d).2)) as (A & B & C).
  { unfold ht_new_on. rewrite Hk. cbn [fst pb_ht]. eauto. }
  { by apply harmless_kept. }
  rewrite Eb in A. rewrite Er in C.
  assert (Ho : Forall harmless ops) by (rewrite <- Eo; by apply Forall_app).
  assert (He : Forall harmless (pl_end pp b (do_pops d ops))).
  { apply (stale_end pp d HT); [done|by apply harmless_kept]. }
  assert (Hd : same_files d d').
  { unfold d', pdies. apply harmless_kept, Forall_take. by apply Forall_app. }
  split; [exact Hd|]. split; [by apply same_files_open|exact C].
Qed.
Print Assumptions C90_cuckoo.

(** RocksDB: the store is untouched and no build succeeds, but the blocks of the refused
    builder, complete or not, are written over those of the earlier database. *)
Theorem C90_rocks :
  forall fuel pp cut n_elts rands db d b ops outs,
    pp_ht pp = KRocks -> 0 < p_len pp -> 0 < sp_n (sc_store (pp_sc pp)) -> content Pages (pk_fs d) <> [] ->
    pl_life fuel pp cut n_elts d (pl_inserts db ++ (PBuild <$> rands)) = Ok (b, ops, outs) ->
    let d' := do_pops d ops in
    let all := full_pairs pp db ++ mjoin ((fun rand => dummy_pairs pp rand n_elts db) <$> rands) in
    content Pages (pk_fs d') = content Pages (pk_fs d) /\ dk_stash (pk_fs d') = dk_stash (pk_fs d) /\
    pk_rocks d' = put_all (pk_rocks d) all /\
    (forall key, key ∉ all.*1 -> pk_rocks d' !! key = pk_rocks d !! key) /\
    (forall i r, length db <= i -> outs !! i = Some r -> r <> Ok tt).
Proof.
  intros fuel pp cut n_elts rands db d b ops outs Hk HL Hn HP E d' all.
  pose proof (rocks_life fuel pp cut n_elts rands db d b ops outs HL Hk E) as HR. fold d' all in HR.
  assert (HK : forall key, key ∉ all.*1 -> pk_rocks d' !! key = pk_rocks d !! key).
  { intros key Hkey. rewrite HR. by apply put_all_other. }
  unfold pl_life, pl_new in E. apply rbind_ok in E as ([b0 o0] & E0 & E).
  apply rbind_ok in E0 as (sb & _ & E0). unfold ht_new_on in E0. rewrite Hk in E0. cbn [fst snd] in E0. injection E0 as <- <-.
  cbn [fst snd] in E. injection E as <- Eo Er. cbn [app do_pops foldl] in Eo, Er. rewrite calls_app in Eo, Er. cbn [fst snd] in Eo, Er.
  destruct (insert_db_ht pp HL fuel cut n_elts db (PB sb (BRocks (pk_rocks d)) 0) d (rocks_all_ok _ _)) as (E1 & _ & E3 & _ & E5).
  cbn [pb_ht] in E1, E3. rewrite ht_inserts_rocks_map in E1. cbn [fst] in E1.
  destruct (rocks_pops (db_ht_pairs pp db) d) as [R1 R2].
  rewrite E3 in Eo, Er. set (d1 := do_pops d (ht_pops _ _)) in *. rewrite <- R1 in E1.
  destruct (rocks_stale fuel pp cut n_elts rands Hn _ d1 E1) as (S1 & S2 & S3); [by rewrite R2|].
  split; [|split; [|split; [exact HR|split; [exact HK|]]]].
  - unfold d'. rewrite <- Eo, do_pops_app. fold d1. rewrite S1. by rewrite R2.
  - unfold d'. rewrite <- Eo, do_pops_app. fold d1. rewrite S2. by rewrite R2.
  - intros i r Hi Hr. rewrite <- Er in Hr. rewrite lookup_app_r in Hr.
    + rewrite Forall_lookup in S3. by eapply S3.
    + rewrite E5. clear -Hi. revert Hi. generalize (PB sb (BRocks (pk_rocks d)) 0). intros b Hi.
      assert (HL : forall b, length (pluto_insert_db pp b db).2 = length db); [|by rewrite HL].
      clear. induction db as [|x db IH]; intros b; [done|]. cbn [pluto_insert_db snd length]. by rewrite IH.
Qed.
Print Assumptions C90_rocks.

Definition ex_new_db : database := [([3%N], N.of_nat <$> seq 500 10)].
Definition ex_before (pp : pparams) : pdisk :=
  match pl_life 100 pp Props_TethysLife.ex_cut 40 blank (pl_inserts ex_pdb ++ [PBuild ex_rand]) with
  | Ok (b, ops, outs) => do_pops blank (ops ++ pl_end pp b (do_pops blank ops))
  | _ => blank
  end.
Example C90_case : forall pp, pp = ex_rocks \/ pp = ex_cuckoo ->
  0 < sp_n (sc_store (pp_sc pp)) /\ 0 < p_len pp /\ content Pages (pk_fs (ex_before pp)) <> [] /\
  (pp = ex_cuckoo -> content Tab (pk_fs (ex_before pp)) <> []) /\
  exists b ops outs, pl_life 100 pp Props_TethysLife.ex_cut 40 (ex_before pp) (pl_inserts ex_new_db ++ (PBuild <$> [ex_rand])) = Ok (b, ops, outs).
Proof.
  intros pp Hpp. destruct Hpp as [-> | ->].
  - split; [vm_compute; lia|]. split; [vm_compute; lia|]. split; [by vm_compute|]. split; [intros E; apply (f_equal pp_ht) in E; cbn in E; discriminate E|].
    destruct (pl_life _ _ _ _ _ _) as [[[b ops] outs]| | |] eqn:E; [by eauto|vm_compute in E; discriminate..].
  - split; [vm_compute; lia|]. split; [vm_compute; lia|]. split; [by vm_compute|]. split; [intros _; by vm_compute|].
    destruct (pl_life _ _ _ _ _ _) as [[[b ops] outs]| | |] eqn:E; [by eauto|vm_compute in E; discriminate..].
Qed.

Example ex_pluto_new : pluto_ok ex_rocks ex_rand 40 ex_new_db ex_ws.
Proof. pluto_ok_tac. Qed.
Lemma ex_disjoint : forall x, x ∈ ids_of [3%N] ex_pdb -> x ∉ N.of_nat <$> seq 500 10.
Proof. apply Forall_forall. apply (bool_decide_unpack _). by vm_compute. Qed.
(** Full statement refuted: a database with RocksDB answers correctly; another builder
    is run at the same paths, and its build throws; the first database now gives the
    documents of the second. *)
Theorem C90_refuted :
  exists pp n_elts rand db ws db' b ops outs b' ops' w r,
    pp_ht pp = KRocks /\ pluto_ok pp rand n_elts db ws /\ pluto_ok pp rand n_elts db' ws /\
    pl_life 100 pp Props_TethysLife.ex_cut n_elts blank (pl_inserts db ++ [PBuild rand]) = Ok (b, ops, outs) /\
    let d := do_pops blank ops in
    pl_life 100 pp Props_TethysLife.ex_cut n_elts d (pl_inserts db' ++ [PBuild rand]) =
      Ok (b', ops', replicate (length db') (Ok tt) ++ [Throw RuntimeError]) /\
    pl_search_at 100 pp d w = Ok (ids_of w db) /\
    pl_search_at 100 pp (do_pops d ops') w = Ok r /\ forall x, x ∈ ids_of w db -> x ∉ r.
Proof.
  destruct (pl_life 100 ex_rocks Props_TethysLife.ex_cut 40 blank (pl_inserts ex_pdb ++ [PBuild ex_rand]))
    as [[[b ops] outs]| | |] eqn:E; [|vm_compute in E; discriminate..].
  destruct (pl_life 100 ex_rocks Props_TethysLife.ex_cut 40 (do_pops blank ops) (pl_inserts ex_new_db ++ [PBuild ex_rand]))
    as [[[b' ops'] outs']| | |] eqn:E'; [|vm_compute in E; injection E as <- <- <-; vm_compute in E'; discriminate..].
  exists ex_rocks, 40%N, ex_rand, ex_pdb, ex_ws, ex_new_db, b, ops, outs, b', ops', [3%N], (N.of_nat <$> seq 500 10).
  split; [done|]. split; [exact ex_pluto_rocks|]. split; [exact ex_pluto_new|]. split; [exact E|]. cbv zeta.
  rewrite E'. clear -E E'. 
  vm_compute in E. injection E as <- <- <-. vm_compute in E'. injection E' as <- <- <-.
  split; [reflexivity|]. split; [by vm_compute|]. split; [by vm_compute|].
  exact ex_disjoint.
Qed.
Print Assumptions C90_refuted.

(** A cuckoo builder whose build was refused because of a store that was in the way
    can never be built again, on any disk, if it needs a dummy block: the table is
    committed, and the first dummy block throws before the store is looked at. *)
Theorem C90_again :
  forall fuel pp size depth max_n cut rand n_elts db ws d b ops outs,
    pluto_ok pp rand n_elts db ws -> pp_ht pp = KCuckoo size depth max_n ->
    content Tmp (pk_fs d) = [] -> 0 < n_dummies pp n_elts db ->
    pl_life fuel pp cut n_elts d (pl_inserts db ++ [PBuild rand]) = Ok (b, ops, outs) ->
    forall fuel' cut' rand' d2, pl_build fuel' pp cut' rand' n_elts b d2 = (b, [], Throw RuntimeError).
Proof.
  intros fuel pp size depth max_n cut rand n_elts db ws d b ops outs Hok Hk HT Hn E fuel' cut' rand' d2.
  destruct (first_build fuel pp size depth max_n cut rand n_elts db ws d b ops outs Hok Hk HT E) as (cb & B1 & B2 & B3).
  eapply committed_build; [done|done|]. rewrite B3. unfold n_dummies in Hn. lia.
Qed.
Print Assumptions C90_again.
Definition ex_in_the_way : pdisk := PDisk (Disk None None (Some [1%N]) None) ∅.
Example C90_again_case : content Tmp (pk_fs ex_in_the_way) = [] /\ 0 < n_dummies ex_cuckoo 40 ex_pdb /\
  exists b ops, pl_life 100 ex_cuckoo Props_TethysLife.ex_cut 40 ex_in_the_way (pl_inserts ex_pdb ++ [PBuild ex_rand]) =
    Ok (b, ops, replicate (length ex_pdb) (Ok tt) ++ [Throw RuntimeError]).
Proof.
  split; [done|]. split; [vm_compute; lia|].
  destruct (pl_life 100 ex_cuckoo Props_TethysLife.ex_cut 40 ex_in_the_way (pl_inserts ex_pdb ++ [PBuild ex_rand])) as [[[b ops] outs]| | |] eqn:E;
    [|vm_compute in E; discriminate..].
  exists b, ops. vm_compute in E. injection E as <- <- <-. done.
Qed.
