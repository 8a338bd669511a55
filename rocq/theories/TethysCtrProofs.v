(** Proofs about the counters of successive builders of Tethys. *)
From stdpp Require Import prelude gmap.
From Coq Require Import ZArith NArith Lia.
From Verif Require Import Base EncModel EncSpec EncProofs StoreModel StoreSpec StoreProofs StoreTheorems VecModel LifeModel
  TethysLifeModel TethysLifeSpec TethysLifeProofs Props_TethysLife KvModel SchemeModel SchemeSpec SchemeProofs TethysCtrModel TethysCtrSpec.
Local Open Scope nat_scope.
Local Arguments N.of_nat : simpl never.
Local Arguments N.modulo : simpl never.

(** The first blocks of a list. *)
Lemma cut_values_take key M (HM : 0 < M) ids : forall n bc block, length block < M ->
  mjoin (take n (cut key M bc block ids).*2) = take (n * M) (block ++ (le64 <$> ids)).
Proof.
  induction ids as [|id ids IH]; intros n bc block Hb; cbn [cut].
  - destruct n as [|n]; [done|]. csimpl. rewrite take_nil. cbn [mjoin list_join]. rewrite !app_nil_r.
    rewrite take_ge; [done|]. nia.
  - case_bool_decide as E; rewrite app_length in E; simpl in E.
    + destruct n as [|n]; [done|]. csimpl.
      change (mjoin ((block ++ [le64 id]) :: take n (cut key M (S bc) [] ids).*2))
        with ((block ++ [le64 id]) ++ mjoin (take n (cut key M (S bc) [] ids).*2)).
      rewrite IH by (simpl; lia). cbn [app].
      replace (block ++ le64 id :: (le64 <$> ids)) with ((block ++ [le64 id]) ++ (le64 <$> ids)) by (by rewrite <- app_assoc).
      rewrite (take_app_ge (block ++ [le64 id])) by (rewrite app_length; simpl; lia).
      rewrite app_length. simpl. do 2 f_equal. lia.
    + rewrite IH by (rewrite app_length; simpl; lia). csimpl. by rewrite <- app_assoc.
Qed.

Section db.
  Context (sc : scheme) (db : database) (Hok : scheme_ok sc db).
  Let sp := sc_store sc.
  Let M := max_list_size (sp_enc sp).

  Lemma block_uses u : u ∈ uses_of sc db -> u.1 ∈ db.*1 /\ (N.of_nat u.2 < 2 ^ 64)%N.
  Proof using Hok.
    unfold uses_of. intros (x & Hu & Hx)%elem_of_list_bind.
    apply elem_of_list_fmap in Hu as (i & -> & Hi%elem_of_seq). simpl. split; [by apply elem_of_list_fmap_1|].
    pose proof (so_short _ _ Hok) as HS. rewrite Forall_forall in HS. specialize (HS x Hx).
    fold sp in HS, Hi. change (2 ^ 64)%N with (2 ^ 32 * 2 ^ 32)%N. lia.
  Qed.
  Lemma blocks_keys : (blocks_of sc db).*1 = (fun u => block_key sc u.1 u.2) <$> uses_of sc db.
  Proof using Hok.
    pose proof (so_block _ _ Hok) as HM. unfold blocks_of, uses_of. rewrite fmap_bind_join. clear Hok.
    induction db as [|x d IH]; [done|]. rewrite !fmap_cons. cbn [mjoin list_join].
    rewrite !fmap_app. f_equal; [|exact IH]. unfold cut_of. rewrite cut_keys by done. rewrite <- list_fmap_compose.
    apply list_fmap_ext. intros _ i _. apply derive_block_key.
  Qed.
  (** A block that is not in the database. *)
  Lemma values_out ws uses w i : derive_ok sc ws uses -> db.*1 ⊆ ws -> uses_of sc db ⊆ uses -> w ∈ ws -> (w, i) ∈ uses ->
    (N.of_nat i < 2 ^ 64)%N -> (w, i) ∉ uses_of sc db -> values_of (derive_core_key sc (sc_prf sc w) i) (blocks_of sc db) = [].
  Proof using Hok.
    intros HD Hws Hus Hw Hi Hn Hout. apply values_of_out. rewrite blocks_keys, derive_block_key.
    intros (u & Eu & Hu)%elem_of_list_fmap. apply Hout. destruct (block_uses u Hu) as [H1 H2].
    assert ((w, i) = u) as ->; [|done]. apply (block_key_inj sc ws uses); auto.
  Qed.
  Lemma in_uses w i : (w, i) ∈ uses_of sc db -> exists j x, list_find (fun x => x.1 = w) db = Some (j, x) /\ i < S (length x.2 / M).
  Proof using Hok.
    unfold uses_of. intros (x & Hu & Hx)%elem_of_list_bind.
    apply elem_of_list_fmap in Hu as (i' & [= -> ->] & Hi%elem_of_seq).
    pose proof (so_keywords _ _ Hok) as HN.
    destruct (list_find (fun y => y.1 = x.1) db) as [[j y]|] eqn:F.
    - exists j, y. split; [done|]. apply list_find_Some in F as (F1 & F2 & _).
      apply elem_of_list_lookup in Hx as [j' Hj'].
      assert (j = j') as <-. { eapply NoDup_lookup; [exact HN|..]; rewrite list_lookup_fmap; [by rewrite F1|rewrite Hj'; simpl; by rewrite F2]. }
      simplify_eq. fold sp in Hi. fold M in Hi. lia.
    - apply list_find_None in F. rewrite Forall_forall in F. by destruct (F x Hx).
  Qed.

  (** What the blocks [0, n) of a keyword hold. *)
  Lemma ids_of_first ws uses w n : derive_ok sc ws uses -> db.*1 ⊆ ws -> uses_of sc db ⊆ uses -> w ∈ ws ->
    (forall i, i < n -> (w, i) ∈ uses) -> (N.of_nat n < 2 ^ 64)%N ->
    le_val <$> mjoin ((fun i => values_of (derive_core_key sc (sc_prf sc w) i) (blocks_of sc db)) <$> seq 0 n) =
    take (n * M) (ids_of w db).
  Proof using Hok.
    intros HD Hws Hus Hw Hi Hn. unfold ids_of. destruct (list_find (fun x => x.1 = w) db) as [[j x]|] eqn:F.
    - pose proof F as F'. apply list_find_Some in F' as (F1 & F2 & _). cbn [fst] in F2.
      assert (E : forall i, i < n -> values_of (derive_core_key sc (sc_prf sc w) i) (blocks_of sc db) = default [] ((cut_of sc x).*2 !! i)).
      { intros i Hin. destruct ((cut_of sc x) !! i) as [[k v]|] eqn:Ei.
        - rewrite list_lookup_fmap, Ei. cbn [fmap option_fmap option_map default from_option id snd].
          assert (Ek : k = derive_core_key sc (sc_prf sc w) i).
          { assert (Hk : (cut_of sc x).*1 !! i = Some k) by (by rewrite list_lookup_fmap, Ei).
            unfold cut_of in Hk. rewrite cut_keys in Hk by apply Hok. rewrite list_lookup_fmap in Hk.
            apply fmap_Some in Hk as (i' & Hk & ->). apply lookup_seq in Hk as [-> _]. by rewrite F2. }
          rewrite <- Ek. pose proof (dk_keys _ _ (blocks_db_ok sc db Hok)) as HN. rewrite (blocks_accepted sc db Hok) in HN.
          apply values_of_in; [done|]. unfold blocks_of. apply elem_of_list_join.
          exists (cut_of sc x). split; [by eapply elem_of_list_lookup_2|].
          apply elem_of_list_fmap. exists x. split; [done|]. by eapply elem_of_list_lookup_2.
        - rewrite list_lookup_fmap, Ei. cbn [fmap option_fmap option_map default from_option]. eapply values_out; eauto; [lia|].
          intros (j' & x' & F3 & Hlt)%in_uses. rewrite F in F3. injection F3 as <- <-.
          apply lookup_ge_None in Ei. rewrite cut_of_length in Ei by apply Hok. fold sp in Ei. fold M in Ei. lia. }
      assert (E2 : mjoin ((fun i => values_of (derive_core_key sc (sc_prf sc w) i) (blocks_of sc db)) <$> seq 0 n) =
                   mjoin (take n (cut_of sc x).*2)).
      { clear -E. revert E. generalize (cut_of sc x).*2 as l. clear. intros l.
        induction n as [|n IH]; intros E; [done|]. rewrite seq_S, fmap_app, VecProofs.mjoin_app, IH by (intros i Hlt; apply E; lia).
        cbn [fmap list_fmap]. rewrite E by lia. destruct (l !! n) as [v|] eqn:El.
        - rewrite (take_S_r _ _ _ El), VecProofs.mjoin_app. change (0 + n) with n. by rewrite El.
        - change (0 + n) with n. rewrite El. cbn. apply lookup_ge_None in El. rewrite !(take_ge l) by lia. by rewrite app_nil_r. }
      rewrite E2. unfold cut_of. rewrite cut_values_take by apply Hok. cbn [app].
      rewrite <- fmap_take, <- list_fmap_compose. fold sp M.
      assert (HF : Forall (fun id => (id < 2 ^ 64)%N) (take (n * M) x.2)).
      { apply Forall_take. by eapply (Forall_lookup_1 _ _ _ _ (so_ids _ _ Hok)). }
      clear -HF. induction HF as [|id l H HF IH]; csimpl; [done|].
      rewrite IH. unfold compose. rewrite le64_val by done. done.
    - rewrite take_nil.
      assert (E : mjoin ((fun i => values_of (derive_core_key sc (sc_prf sc w) i) (blocks_of sc db)) <$> seq 0 n) = []); [|by rewrite E].
      assert (Hout : forall i, i < n -> values_of (derive_core_key sc (sc_prf sc w) i) (blocks_of sc db) = []).
      { intros i Hin. eapply values_out; eauto; [lia|]. intros (j' & x' & F3 & _)%in_uses. by rewrite F in F3. }
      clear -Hout. induction n as [|n IH]; [done|]. rewrite seq_S, fmap_app, VecProofs.mjoin_app, IH by (intros i Hlt; apply Hout; lia).
      cbn [fmap list_fmap]. rewrite Hout by lia. done.
  Qed.
End db.

(** ** The calls *)
(** The counters after the insertions of a database. *)
Definition count_db (sc : scheme) (c : counters) (db : database) (sets : list bool) : counters :=
  foldl (fun c (y : (bytes * list N) * bool) => if y.2 then ctr_set c y.1.1 (N.of_nat (blocks sc y.1.2)) else c) c (zip db sets).

Section calls.
  Context (fuel : nat) (sc : scheme) (cut : bytes -> list bytes).
  Let sp := sc_store sc.

  Lemma t_calls_inserts db : 0 < max_list_size (sp_enc sp) -> forall sets b d cs, length sets = length db ->
    Forall (fun r => r = Ok tt) (run_inserts sp b (blocks_of sc db)).2 ->
    t_calls fuel sc cut b d (inserts db sets ++ cs) =
    let r := t_calls fuel sc cut (run_inserts sp b (blocks_of sc db)).1
               (TDisk (td_files d) (count_db sc (td_counters d) db sets)) cs in
    (r.1, replicate (length db) (Ok tt) ++ r.2).
  Proof using.
    intros HM. induction db as [|x db IH]; intros sets b d cs Hl HF.
    - destruct sets; [|done]. cbn [inserts zip_with app]. unfold count_db. cbn. destruct d. by destruct (t_calls _ _ _ _ _ _).
    - destruct sets as [|set sets]; [done|]. unfold blocks_of in *. csimpl in *.
      unfold inserts. cbn [zip_with app t_calls]. rewrite run_inserts_app in *. cbn [fst snd] in *. apply Forall_app in HF as [H1 H2].
      unfold t_insert. rewrite (tethys_insert_ok sc (TB b (td_counters d)) x HM H1). cbn [fst snd tb_store tb_counters].
      fold (inserts db sets). rewrite IH by (auto; lia). cbn zeta. cbn [fst snd td_files td_counters].
      unfold count_db. cbn [zip zip_with foldl fst snd]. fold sp. done.
  Qed.
  Lemma count_db_out db w : w ∉ db.*1 -> forall sets c, count_db sc c db sets !! w = c !! w.
  Proof using.
    unfold count_db. induction db as [|x db IH]; intros Hw sets c; [done|]. destruct sets as [|set sets]; [done|].
    rewrite fmap_cons in Hw. apply not_elem_of_cons in Hw as [Hx Hw]. cbn [zip zip_with foldl fst snd]. rewrite IH by done.
    destruct set; [|done]. unfold ctr_set. by rewrite lookup_insert_ne.
  Qed.
  Lemma count_db_in (db : database) w x (set : bool) : NoDup db.*1 -> forall j sets c, db !! j = Some x -> sets !! j = Some set -> x.1 = w ->
    count_db sc c db sets !! w = if set then Some (N.of_nat (blocks sc x.2) mod 2 ^ 32)%N else c !! w.
  Proof using.
    induction db as [|y db IH]; intros Hnd j sets c Hj Hs Hw; [done|]. destruct sets as [|s sets]; [done|].
    rewrite fmap_cons in Hnd. apply NoDup_cons in Hnd as [Hy Hnd]. unfold count_db in *. cbn [zip zip_with foldl fst snd].
    destruct j as [|j].
    - injection Hj as ->. injection Hs as ->. fold (count_db sc (if set then ctr_set c x.1 (N.of_nat (blocks sc x.2)) else c) db sets).
      rewrite count_db_out by (by rewrite <- Hw). destruct set; [|done]. unfold ctr_set. by rewrite Hw, lookup_insert.
    - rewrite (IH Hnd j sets _ Hj Hs Hw). destruct set; [done|]. destruct s; [|done]. unfold ctr_set. apply lookup_insert_ne.
      intros E. apply Hy. rewrite E, <- Hw. apply elem_of_list_fmap. exists x. split; [done|]. by eapply elem_of_list_lookup_2.
  Qed.
End calls.
